(** Model of the sync message codecs, /repo/pkg/wgps/encoding and
    /repo/pkg/wgps/decoding, as far as they embed no entry, area or 3d range
    (those are in M_Wire2.v). The decoders read from a GrowingBytes through the
    sequential model of M_Stream.v: every schedule of arrivals is possible.
    Group members, capabilities, signatures and tokens are encoded by schemes
    given by the caller; here a scheme is an encoder and a stream decoder. *)
From Verif Require Import Base M_Encoding M_Stream.
Local Open Scope N_scope.

(** /repo/pkg/wgps/wgpstypes/types.go:53-68 HandleType *)
Inductive handle_type := IntersectionHandle | CapabilityHandle | AreaOfInterestHandle
  | PayloadRequestHandle | StaticTokenHandle.

(** /repo/pkg/wgps/wgpstypes/types.go:70-88 Channel *)
Inductive channel := ControlChannel | ReconciliationChannel | DataChannel | IntersectionChannel
  | CapabilityChannel | AreaOfInterestChannel | PayloadRequestChannel | StaticTokenChannel.

(** /repo/pkg/wgps/wgpstypes/types.go:90-117 MsgKind *)
Inductive msg_kind := CommitmentReveal | PaiBindFragment | PaiReplyFragment
  | PaiRequestSubspaceCapability | PaiReplySubspaceCapability | SetupBindReadCapability
  | SetupBindAreaOfInterest | SetupBindStaticToken | ReconciliationSendFingerprint
  | ReconciliationAnnounceEntries | ReconciliationSendEntry | ReconciliationSendPayload
  | ReconciliationTerminatePayload | DataSendEntry | DataSendPayload | DataSetMetadata
  | DataBindPayloadRequest | DataReplyPayload | ControlIssueGuarantee | ControlAbsolve
  | ControlPlead | ControlAnnounceDropping | ControlApologise | ControlFree.

(** ** Header helpers *)

(** /repo/pkg/wgps/encoding/utils.go:3-8 and /repo/utils/entries.go:202-207
    CompactWidthEndMasks; a missing key gives 0. *)
Definition CompactWidthEndMasks (w : N) : N :=
  if w =? 1 then 0 else if w =? 2 then 1 else if w =? 4 then 2 else if w =? 8 then 3 else 0.

(** /repo/pkg/wgps/encoding/utils.go:10-12 CompactWidthOr *)
Definition CompactWidthOr (b w : N) : N := N.lor b (CompactWidthEndMasks w).

(** [(b & mask) == mask] *)
Definition has (b mask : N) : bool := N.land b mask =? mask.

(** /repo/pkg/wgps/decoding/util.go:3-13 CompactWidthFromEndOfByte *)
Definition CompactWidthFromEndOfByte (b : N) : N :=
  if has b 3 then 8 else if has b 2 then 4 else if has b 1 then 2 else 1.

(** /repo/pkg/wgps/encoding/control.go:8-27 ChannelMaskStart *)
Definition ChannelMaskStart (mask : N) (c : channel) : N :=
  match c with
  | ReconciliationChannel => mask
  | DataChannel => N.lor mask 32
  | IntersectionChannel => N.lor mask 64
  | CapabilityChannel => N.lor mask 96
  | AreaOfInterestChannel => N.lor mask 128
  | PayloadRequestChannel => N.lor mask 160
  | StaticTokenChannel => N.lor mask 192
  | ControlChannel => mask
  end.

(** /repo/pkg/wgps/encoding/control.go:29-49 ChannelMaskEnd *)
Definition ChannelMaskEnd (mask : N) (c : channel) : N :=
  match c with
  | ReconciliationChannel => mask
  | DataChannel => N.lor mask 1
  | IntersectionChannel => N.lor mask 2
  | CapabilityChannel => N.lor mask 3
  | AreaOfInterestChannel => N.lor mask 4
  | PayloadRequestChannel => N.lor mask 5
  | StaticTokenChannel => N.lor mask 6
  | ControlChannel => mask
  end.

(** /repo/pkg/wgps/encoding/control.go:50-66 HandleMask *)
Definition HandleMask (mask : N) (t : handle_type) : N :=
  match t with
  | IntersectionHandle => mask
  | CapabilityHandle => N.lor mask 32
  | AreaOfInterestHandle => N.lor mask 64
  | PayloadRequestHandle => N.lor mask 96
  | StaticTokenHandle => N.lor mask 128
  end.

(** /repo/pkg/wgps/decoding/control.go:8-24 DecodeChannelFromBeginningOfByte *)
Definition DecodeChannelFromBeginningOfByte (b : N) : channel :=
  if has b 192 then StaticTokenChannel
  else if has b 160 then PayloadRequestChannel
  else if has b 128 then AreaOfInterestChannel
  else if has b 96 then CapabilityChannel
  else if has b 64 then IntersectionChannel
  else if has b 32 then DataChannel
  else ReconciliationChannel.

(** /repo/pkg/wgps/decoding/control.go:26-42 DecodeChannelFromEndOfByte *)
Definition DecodeChannelFromEndOfByte (b : N) : channel :=
  if has b 6 then StaticTokenChannel
  else if has b 5 then PayloadRequestChannel
  else if has b 4 then AreaOfInterestChannel
  else if has b 3 then CapabilityChannel
  else if has b 2 then IntersectionChannel
  else if has b 1 then DataChannel
  else ReconciliationChannel.

(** /repo/pkg/wgps/decoding/control.go:44-56 DecodeHandleTypeFromBeginningOfByte *)
Definition DecodeHandleTypeFromBeginningOfByte (b : N) : handle_type :=
  if has b 128 then StaticTokenHandle
  else if has b 96 then PayloadRequestHandle
  else if has b 64 then AreaOfInterestHandle
  else if has b 32 then CapabilityHandle
  else IntersectionHandle.

(** The switch on the width that the control and PAI encoders use for their
    header, e.g. /repo/pkg/wgps/encoding/control.go:73-82: base, base+1, base+2
    and, by default, base+3. *)
Definition width_header (base w : N) : N :=
  if w =? 1 then base else if w =? 2 then base + 1 else if w =? 4 then base + 2 else base + 3.

(** [x, _ := DecodeIntMax64(...)]: the error is dropped and x is 0. *)
Definition int64_or_zero (b : bytes) : N := match DecodeIntMax64 b with Ok x => x | _ => 0 end.

(** ** Control messages, /repo/pkg/wgps/wgpstypes/types.go:119-177 *)

(** MsgControlIssueGuarantee, MsgControlAbsolve (amount) and MsgControlPlead
    (target). *)
Record msg_amount := MsgAmount { ma_kind : msg_kind; ma_channel : channel; ma_amount : N }.
(** MsgControlAnnounceDropping, MsgControlApologise *)
Record msg_channel := MsgChannel { mc_kind : msg_kind; mc_channel : channel }.
Record msg_free := MsgFree { mf_kind : msg_kind; mf_handle : N; mf_mine : bool; mf_type : handle_type }.

Definition encode_amount (base : N) (m : msg_amount) : bytes :=
  [u8 (width_header base (GetWidthMax64Int (ma_amount m))); u8 (ChannelMaskStart 0 (ma_channel m))]
  ++ EncodeIntMax64 (ma_amount m).

(** /repo/pkg/wgps/encoding/control.go:68-86 *)
Definition EncodeControlIssueGuarantee := encode_amount 128.
(** /repo/pkg/wgps/encoding/control.go:88-105 *)
Definition EncodeControlAbsolve := encode_amount 132.
(** /repo/pkg/wgps/encoding/control.go:107-123 *)
Definition EncodeControlPlead := encode_amount 136.
(** /repo/pkg/wgps/encoding/control.go:125-127 *)
Definition EncodeControlAnnounceDropping (m : msg_channel) : bytes := [u8 (ChannelMaskEnd 144 (mc_channel m))].
(** /repo/pkg/wgps/encoding/control.go:129-131 *)
Definition EncodeControlApologise (m : msg_channel) : bytes := [u8 (ChannelMaskEnd 152 (mc_channel m))].
(** /repo/pkg/wgps/encoding/control.go:133-157 *)
Definition EncodeControlFree (m : msg_free) : bytes :=
  [u8 (width_header 140 (GetWidthMax64Int (mf_handle m)));
   u8 (if mf_mine m then N.lor (HandleMask 0 (mf_type m)) 16 else HandleMask 0 (mf_type m))]
  ++ EncodeIntMax64 (mf_handle m).

(** The three decoders of /repo/pkg/wgps/decoding/control.go:58-117, which
    differ in the kind they return. *)
Definition decode_amount (kind : msg_kind) (s : stream) : res (msg_amount * stream) :=
  do (w1, s1) <- NextAbsolute 1 s;
  do h <- index w1 0;
  let cw := CompactWidthFromEndOfByte h in
  do (w2, s2) <- NextAbsolute 2 s1;
  do c <- index w2 1;
  let ch := DecodeChannelFromBeginningOfByte c in
  do (w3, s3) <- NextAbsolute (2 + cw) s2;
  do a <- slice w3 2 (2 + cw);
  Ok (MsgAmount kind ch (int64_or_zero a), Prune (2 + cw) s3).

(** /repo/pkg/wgps/decoding/control.go:58-76; line 70 sets the kind of another
    message. *)
Definition DecodeControlIssueGuarantee := decode_amount ControlAbsolve.
(** /repo/pkg/wgps/decoding/control.go:78-96 *)
Definition DecodeControlAbsolve := decode_amount ControlAbsolve.
(** /repo/pkg/wgps/decoding/control.go:98-116 *)
Definition DecodeControlPlead := decode_amount ControlPlead.

Definition decode_channel (kind : msg_kind) (s : stream) : res (msg_channel * stream) :=
  do (w1, s1) <- NextAbsolute 1 s;
  do h <- index w1 0;
  Ok (MsgChannel kind (DecodeChannelFromEndOfByte h), Prune 1 s1).
(** /repo/pkg/wgps/decoding/control.go:118-131 *)
Definition DecodeControlAnnounceDropping := decode_channel ControlAnnounceDropping.
(** /repo/pkg/wgps/decoding/control.go:133-146 *)
Definition DecodeControlApologise := decode_channel ControlApologise.

(** /repo/pkg/wgps/decoding/control.go:148-172; Mine is the constant true. *)
Definition DecodeControlFree (s : stream) : res (msg_free * stream) :=
  do (w1, s1) <- NextAbsolute 1 s;
  do h <- index w1 0;
  let cw := CompactWidthFromEndOfByte h in
  do (w2, s2) <- NextAbsolute 2 s1;
  do t <- index w2 1;
  do (w3, s3) <- NextAbsolute (2 + cw) s2;
  do a <- slice w3 2 (2 + cw);
  Ok (MsgFree ControlFree (int64_or_zero a) true (DecodeHandleTypeFromBeginningOfByte t), Prune (2 + cw) s3).

(** ** Commitment and private area intersection *)

(** An encoding scheme given by the caller: utils.EncodingScheme, encoder and
    stream decoder only. *)
Record codec (A : Type) := Codec { c_enc : A -> bytes; c_dec : stream -> res (A * stream) }.
Arguments Codec {A} _ _.
Arguments c_enc {A} _ _.
Arguments c_dec {A} _ _.

(** /repo/pkg/wgps/encoding/pai.go:8-12: the nonce, without a header byte. *)
Definition EncodeCommitmentReveal (nonce : bytes) : bytes := nonce.

(** /repo/pkg/wgps/decoding/commitment_reveal.go:8-20 *)
Definition DecodeCommitmentReveal (challenge_length : N) (s : stream) : res (bytes * stream) :=
  do (b, s1) <- NextAbsolute (1 + challenge_length) s;
  do nonce <- slice b 1 (1 + challenge_length);
  Ok (nonce, Prune (1 + challenge_length) s1).

Section Pai.
Context {G K Sig : Type}.

(** /repo/pkg/wgps/wgpstypes/types.go:191-228 *)
Record msg_bind := MsgBind { mb_member : G; mb_secondary : bool }.
Record msg_reply := MsgReply { mr_handle : N; mr_member : G }.
Record msg_request := MsgRequest { mq_handle : N }.
Record msg_capability := MsgCapability { mp_handle : N; mp_capability : K; mp_signature : Sig }.

(** /repo/pkg/wgps/encoding/pai.go:14-24 *)
Definition EncodePaiBindFragment (g : codec G) (m : msg_bind) : bytes :=
  [if mb_secondary m then 6 else 4] ++ c_enc g (mb_member m).

(** /repo/pkg/wgps/encoding/pai.go:26-47; line 43 writes the width of the
    handle where the handle belongs. *)
Definition EncodePaiReplyFragment (g : codec G) (m : msg_reply) : bytes :=
  [width_header 8 (u8 (GetWidthMax64Int (mr_handle m))); u8 (GetWidthMax64Int (mr_handle m))]
  ++ c_enc g (mr_member m).

(** /repo/pkg/wgps/encoding/pai.go:49-68; likewise line 65 *)
Definition EncodePaiRequestSubspaceCapability (m : msg_request) : bytes :=
  [width_header 12 (u8 (GetWidthMax64Int (mq_handle m))); u8 (GetWidthMax64Int (mq_handle m))].

(** /repo/pkg/wgps/encoding/pai.go:70-95; likewise line 90 *)
Definition EncodePaiReplySubspaceCapability (k : codec K) (sg : codec Sig) (m : msg_capability) : bytes :=
  [width_header 16 (u8 (GetWidthMax64Int (mp_handle m))); u8 (GetWidthMax64Int (mp_handle m))]
  ++ c_enc k (mp_capability m) ++ c_enc sg (mp_signature m).

(** /repo/pkg/wgps/decoding/pai.go:9-25 *)
Definition DecodePaiBindFragment (g : codec G) (s : stream) : res (msg_bind * stream) :=
  do (_, s1) <- NextAbsolute 1 s;
  do h <- index (g_array s1) 0;
  do (m, s2) <- c_dec g (Prune 1 s1);
  Ok (MsgBind m (h =? 6), s2).

(** The common start of the three decoders of /repo/pkg/wgps/decoding/pai.go:27-84:
    they wait for the header only and then slice the handle out of whatever has
    arrived. *)
Definition pai_handle (s : stream) : res (N * stream) :=
  do (_, s1) <- NextAbsolute 1 s;
  do h <- index (g_array s1) 0;
  let cw := CompactWidthFromEndOfByte h in
  do a <- slice (g_array s1) 1 (1 + cw);
  Ok (int64_or_zero a, Prune (1 + cw) s1).

(** /repo/pkg/wgps/decoding/pai.go:27-45 *)
Definition DecodePaiReplyFragment (g : codec G) (s : stream) : res (msg_reply * stream) :=
  do (h, s1) <- pai_handle s;
  do (m, s2) <- c_dec g s1;
  Ok (MsgReply h m, s2).

(** /repo/pkg/wgps/decoding/pai.go:47-62 *)
Definition DecodePaiRequestSubspaceCapability (s : stream) : res (msg_request * stream) :=
  do (h, s1) <- pai_handle s; Ok (MsgRequest h, s1).

(** /repo/pkg/wgps/decoding/pai.go:64-84 *)
Definition DecodePaiReplySubspaceCapability (k : codec K) (sg : codec Sig) (s : stream)
  : res (msg_capability * stream) :=
  do (h, s1) <- pai_handle s;
  do (c, s2) <- c_dec k s1;
  do (g, s3) <- c_dec sg s2;
  Ok (MsgCapability h c g, s3).

(** ** Setup messages without an area *)

(** /repo/pkg/wgps/wgpstypes/types.go:233-241, 253-259. The read capability is encoded
    relative to a privy value; the decoder of the scheme gets no privy
    (decoding/setup.go:21), so its decoder here has no such argument either. *)
Record msg_read_cap := MsgReadCap { ms_capability : K; ms_handle : N; ms_signature : Sig }.

(** /repo/pkg/wgps/encoding/setup.go:10-28; [bits] is the width of ValueType. *)
Definition EncodeSetupBindReadCapability (bits : N) (enc_cap : K -> bytes) (sg : codec Sig) (m : msg_read_cap) : bytes :=
  let h := ms_handle m mod 2 ^ bits in
  [u8 (CompactWidthOr 32 (GetWidthMax64Int h))] ++ EncodeIntMax64 h
  ++ enc_cap (ms_capability m) ++ c_enc sg (ms_signature m).

(** /repo/pkg/wgps/decoding/setup.go:10-33 *)
Definition DecodeSetupBindReadCapability (dec_cap : stream -> res (K * stream)) (sg : codec Sig) (s : stream)
  : res (msg_read_cap * stream) :=
  do (_, s1) <- NextAbsolute 1 s;
  do h <- index (g_array s1) 0;
  let cw := CompactWidthFromEndOfByte h in
  do (_, s2) <- NextAbsolute (1 + cw) s1;
  do a <- slice (g_array s2) 1 (1 + cw);
  do (c, s3) <- dec_cap (Prune (1 + cw) s2);
  do (g, s4) <- c_dec sg s3;
  Ok (MsgReadCap c (int64_or_zero a) g, s4).

(** /repo/pkg/wgps/encoding/setup.go:85-94 *)
Definition EncodeSetupBindStaticToken (t : codec K) (token : K) : bytes := [48] ++ c_enc t token.
(** /repo/pkg/wgps/decoding/setup.go:96-109 *)
Definition DecodeSetupBindStaticToken (t : codec K) (s : stream) : res (K * stream) :=
  do (_, s1) <- NextAbsolute 1 s;
  c_dec t (Prune 1 s1).
End Pai.
Arguments msg_bind : clear implicits.
Arguments msg_reply : clear implicits.
Arguments msg_capability : clear implicits.
Arguments msg_read_cap : clear implicits.

(** ** Data and reconciliation messages without an entry or range *)

(** MsgDataSendPayload and MsgReconciliationSendPayload,
    /repo/pkg/wgps/wgpstypes/types.go:303-310, 332-339 *)
Record msg_payload := MsgPayload { my_amount : N; my_bytes : bytes }.
(** /repo/pkg/wgps/wgpstypes/types.go:342-350 *)
Record msg_metadata := MsgMetadata { mm_eager : bool; mm_sender : N; mm_receiver : N }.

(** /repo/pkg/wgps/encoding/data.go:80-85 *)
Definition EncodeDataSendPayload (m : msg_payload) : bytes :=
  [u8 (CompactWidthOr 100 (GetWidthMax64Int (my_amount m)))] ++ EncodeIntMax64 (my_amount m) ++ my_bytes m.

(** Conversion of a uint64 to int where the result is used as a slice bound
    together with a smaller positive number: from 2^63 on the bound is below the
    lower one and Go panics. *)
Definition as_int (x : N) : res N := if x <? 2 ^ 63 then Ok x else Panic.

(** /repo/pkg/wgps/decoding/data.go:136-160. The payload is cut out of the bytes
    that had arrived when the amount was read (line 149, no wait); lines 147 and
    151 both prune. *)
Definition DecodeDataSendPayload (s : stream) : res (msg_payload * stream) :=
  do (r1, s1) <- NextAbsolute 1 s;
  do h <- index r1 0;
  let cw := CompactWidthFromEndOfByte h in
  do (r2, s2) <- NextAbsolute (1 + cw) s1;
  do a <- slice r2 1 (1 + cw);
  let amount := int64_or_zero a in
  do n <- as_int amount;
  do b <- slice r2 (1 + cw) (1 + cw + n);
  Ok (MsgPayload amount b, Prune (1 + cw + n) (Prune (1 + cw + n) s2)).

(** /repo/pkg/wgps/encoding/data.go:87-103 *)
Definition EncodeDataSetEagerness (m : msg_metadata) : bytes :=
  let second := N.shiftl (CompactWidthOr 0 (GetWidthMax64Int (mm_sender m))) 2 in
  let second := N.shiftl (CompactWidthOr second (GetWidthMax64Int (mm_receiver m))) 4 in
  [u8 (N.lor 104 (if mm_eager m then 2 else 0)); u8 second]
  ++ EncodeIntMax64 (mm_sender m) ++ EncodeIntMax64 (mm_receiver m).

(** /repo/pkg/wgps/decoding/data.go:162-190 *)
Definition DecodeDataSetEagerness (s : stream) : res (msg_metadata * stream) :=
  do (w, s1) <- NextAbsolute 2 s;
  do first <- index w 0;
  do second <- index w 1;
  let cs := CompactWidthFromEndOfByte (N.shiftr second 6) in
  let cr := CompactWidthFromEndOfByte (N.shiftr second 4) in
  do (w1, s2) <- NextAbsolute (2 + cs + cr) s1;
  do a <- slice w1 2 (2 + cs);
  do b <- slice w1 (2 + cs) (2 + cs + cr);
  Ok (MsgMetadata (has first 2) (int64_or_zero a) (int64_or_zero b), Prune (2 + cs + cr) s2).

(** /repo/pkg/wgps/encoding/data.go:180-187 *)
Definition EncodeDataReplyPayload (handle : N) : bytes :=
  [u8 (CompactWidthOr 112 (GetWidthMax64Int handle))] ++ EncodeIntMax64 handle.

(** /repo/pkg/wgps/decoding/data.go:292-309 *)
Definition DecodeDataReplyPayload (s : stream) : res (N * stream) :=
  do (w, s1) <- NextAbsolute 1 s;
  do h <- index w 0;
  let cw := CompactWidthFromEndOfByte h in
  do (w1, s2) <- NextAbsolute (1 + cw) s1;
  do a <- slice w1 1 (1 + cw);
  Ok (int64_or_zero a, Prune (1 + cw) s2).

(** /repo/pkg/wgps/encoding/reconciliation.go:348-358; [bits] is the width of
    ValueType. *)
Definition EncodeReconciliationSendPayload (bits : N) (m : msg_payload) : bytes :=
  let a := my_amount m mod 2 ^ bits in
  [u8 (CompactWidthOr 80 (GetWidthMax64Int a))] ++ EncodeIntMax64 a ++ my_bytes m.

(** /repo/pkg/wgps/encoding/reconciliation.go:360-362 *)
Definition EncodeReconciliationTerminatePayload : bytes := [80].

(** /repo/pkg/wgps/decoding/reconciliation.go:326-350. A negative int(Amount)
    passes NextAbsolute at once and then panics as a slice bound. *)
Definition DecodeReconciliationSendPayload (s : stream) : res (msg_payload * stream) :=
  do (w, s1) <- NextAbsolute 1 s;
  do h <- index w 0;
  let cw := CompactWidthFromEndOfByte h in
  do (w1, s2) <- NextAbsolute (1 + cw) s1;
  do a <- slice w1 1 (1 + cw);
  let amount := int64_or_zero a in
  do n <- as_int amount;
  do (w2, s3) <- NextAbsolute n (Prune (1 + cw) s2);
  do b <- slice w2 0 n;
  Ok (MsgPayload amount b, Prune n s3).

(** ** Dispatch, /repo/pkg/wgps/decoding/decode_messages.go:95-215 *)

(** What one iteration of the loop does: call the decoder of a kind; prune one
    byte and report the kind (lines 144-149); do nothing, so that the same byte
    is met again (the branches that are commented out, and the last one). *)
Inductive dispatched := Calls (k : msg_kind) | Reports (k : msg_kind) | Nothing.

(** [awaiting] and [remaining] are the two fields of the message tracker that
    are consulted: IsAwaitingTermination and AnnouncedEntriesRemaining,
    /repo/pkg/wgps/reconciliation/reconcile_msg_tracker.go:74-83. *)
Definition dispatch (first : N) (awaiting : bool) (remaining : N) : dispatched :=
  if first =? 0 then Nothing
  else if has first 152 then Calls ControlApologise
  else if has first 144 then Calls ControlAnnounceDropping
  else if has first 140 then Calls ControlFree
  else if has first 136 then Calls ControlPlead
  else if has first 132 then Calls ControlAbsolve
  else if has first 128 then Calls ControlIssueGuarantee
  else if has first 112 then Calls DataReplyPayload
  else if has first 108 then Calls DataBindPayloadRequest
  else if has first 80 then
    if awaiting then
      if has first 88 then Reports ReconciliationSendPayload else Calls ReconciliationSendPayload
    else if 0 <? remaining then Calls ReconciliationSendEntry
    else Calls ReconciliationAnnounceEntries
  else if has first 64 then Calls ReconciliationSendFingerprint
  else if has first 48 then Nothing
  else if has first 40 then Nothing
  else if has first 32 then Nothing
  else if has first 16 then Calls PaiReplySubspaceCapability
  else if has first 12 then Calls PaiRequestSubspaceCapability
  else if has first 8 then Calls PaiReplyFragment
  else if has first 4 then Calls PaiBindFragment
  else Nothing.

(** /repo/pkg/wgps/channels/channels.go:7-32 MsgLogicalChannels *)
Definition MsgLogicalChannels (k : msg_kind) : channel :=
  match k with
  | PaiBindFragment | PaiReplyFragment => IntersectionChannel
  | SetupBindReadCapability => CapabilityChannel
  | SetupBindAreaOfInterest => AreaOfInterestChannel
  | SetupBindStaticToken => StaticTokenChannel
  | ReconciliationSendFingerprint | ReconciliationAnnounceEntries | ReconciliationSendEntry
  | ReconciliationSendPayload | ReconciliationTerminatePayload => ReconciliationChannel
  | DataSendEntry | DataSendPayload | DataReplyPayload => DataChannel
  | DataBindPayloadRequest => PayloadRequestChannel
  | _ => ControlChannel
  end.
