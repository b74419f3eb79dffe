(** The message decoders on the real buffer of a GrowingBytes. Go bounds
    [s[from:to]] by the capacity of [s], not by its length, so a decoder that
    cuts a field out of the buffer before its bytes have arrived does not panic
    when the array behind the buffer is long enough: it reads what is there,
    zeros or bytes that the goroutine has appended since. Every slice
    expression of the message decoders of M_Wire.v and M_Wire2.v is here a
    [cslice] (M_Cap.v) with a spare of its own, [sp 0], [sp 1], … in the order
    of the code. The decoders of the caller and those of entries and ranges
    embedded in messages are those of M_Wire.v and M_Rel.v (for the paths in
    them see [path_stream_loop_cap] in M_Cap.v). *)
From Verif Require Import Base M_Order M_Encoding M_Paths M_Ranges M_Areas M_Entry M_Stream M_Rel M_Wire M_Wire2 M_Cap.
Local Open Scope N_scope.

(** What lies behind the end of the buffer at each slice expression of a decoder. *)
Definition spares := nat -> bytes.

(** ** Control messages *)

(** /repo/pkg/wgps/decoding/control.go:58-117 DecodeControlIssueGuarantee,
    DecodeControlAbsolve, DecodeControlPlead *)
Definition decode_amount_cap (sp : spares) (kind : msg_kind) (s : stream) : res (msg_amount * stream) :=
  do (w1, s1) <- NextAbsolute 1 s;
  do h <- index w1 0;
  let cw := CompactWidthFromEndOfByte h in
  do (w2, s2) <- NextAbsolute 2 s1;
  do c <- index w2 1;
  let ch := DecodeChannelFromBeginningOfByte c in
  do (w3, s3) <- NextAbsolute (2 + cw) s2;
  do a <- cslice w3 (sp 0%nat) 2 (2 + cw);
  Ok (MsgAmount kind ch (int64_or_zero a), Prune (2 + cw) s3).

(** /repo/pkg/wgps/decoding/control.go:148-172 DecodeControlFree *)
Definition DecodeControlFree_cap (sp : spares) (s : stream) : res (msg_free * stream) :=
  do (w1, s1) <- NextAbsolute 1 s;
  do h <- index w1 0;
  let cw := CompactWidthFromEndOfByte h in
  do (w2, s2) <- NextAbsolute 2 s1;
  do t <- index w2 1;
  do (w3, s3) <- NextAbsolute (2 + cw) s2;
  do a <- cslice w3 (sp 0%nat) 2 (2 + cw);
  Ok (MsgFree ControlFree (int64_or_zero a) true (DecodeHandleTypeFromBeginningOfByte t), Prune (2 + cw) s3).

(** ** Commitment, private area intersection, setup *)

(** /repo/pkg/wgps/decoding/commitment_reveal.go:8-20 DecodeCommitmentReveal *)
Definition DecodeCommitmentReveal_cap (sp : spares) (challenge_length : N) (s : stream) : res (bytes * stream) :=
  do (b, s1) <- NextAbsolute (1 + challenge_length) s;
  do nonce <- cslice b (sp 0%nat) 1 (1 + challenge_length);
  Ok (nonce, Prune (1 + challenge_length) s1).

Section Pai.
Context {G K Sig : Type}.

(** /repo/pkg/wgps/decoding/pai.go:28-34, 48-54, 65-71: the handle, for which
    nothing waits. *)
Definition pai_handle_cap (sp : spares) (s : stream) : res (N * stream) :=
  do (_, s1) <- NextAbsolute 1 s;
  do h <- index (g_array s1) 0;
  let cw := CompactWidthFromEndOfByte h in
  do a <- cslice (g_array s1) (sp 0%nat) 1 (1 + cw);
  Ok (int64_or_zero a, Prune (1 + cw) s1).

(** /repo/pkg/wgps/decoding/pai.go:27-45 DecodePaiReplyFragment *)
Definition DecodePaiReplyFragment_cap (sp : spares) (g : codec G) (s : stream) : res (msg_reply G * stream) :=
  do (h, s1) <- pai_handle_cap sp s;
  do (m, s2) <- c_dec g s1;
  Ok (MsgReply h m, s2).

(** /repo/pkg/wgps/decoding/pai.go:47-62 DecodePaiRequestSubspaceCapability *)
Definition DecodePaiRequestSubspaceCapability_cap (sp : spares) (s : stream) : res (msg_request * stream) :=
  do (h, s1) <- pai_handle_cap sp s; Ok (MsgRequest h, s1).

(** /repo/pkg/wgps/decoding/pai.go:64-84 DecodePaiReplySubspaceCapability *)
Definition DecodePaiReplySubspaceCapability_cap (sp : spares) (k : codec K) (sg : codec Sig) (s : stream)
  : res (msg_capability K Sig * stream) :=
  do (h, s1) <- pai_handle_cap sp s;
  do (c, s2) <- c_dec k s1;
  do (g, s3) <- c_dec sg s2;
  Ok (MsgCapability h c g, s3).

(** /repo/pkg/wgps/decoding/setup.go:10-33 DecodeSetupBindReadCapability *)
Definition DecodeSetupBindReadCapability_cap (sp : spares) (dec_cap : stream -> res (K * stream)) (sg : codec Sig) (s : stream)
  : res (msg_read_cap K Sig * stream) :=
  do (_, s1) <- NextAbsolute 1 s;
  do h <- index (g_array s1) 0;
  let cw := CompactWidthFromEndOfByte h in
  do (_, s2) <- NextAbsolute (1 + cw) s1;
  do a <- cslice (g_array s2) (sp 0%nat) 1 (1 + cw);
  do (c, s3) <- dec_cap (Prune (1 + cw) s2);
  do (g, s4) <- c_dec sg s3;
  Ok (MsgReadCap c (int64_or_zero a) g, s4).
End Pai.

(** /repo/pkg/wgps/decoding/setup.go:35-94 DecodeSetupBindAreaOfInterest *)
Definition DecodeSetupBindAreaOfInterest_cap (sp : spares) (pp : path_params) (granted : N -> area) (s : stream)
  : res (msg_bind_aoi * stream) :=
  do (_, s1) <- NextAbsolute 1 s;
  do h <- index (g_array s1) 0;
  let cw := CompactWidthFromEndOfByte h in
  do (_, s2) <- NextAbsolute (1 + cw) s1;
  do a <- cslice (g_array s2) (sp 0%nat) 1 (1 + cw);
  let auth := int64_or_zero a in
  do (ar, s3) <- DecodeStreamAreaInArea nil_codec pp (granted auth) (Prune (1 + cw) s2);
  if negb (has h 4) then Ok (MsgBindAoi (AOI ar 0 0) auth, s3)
  else
    do (_, s4) <- NextAbsolute 1 s3;
    do m <- index (g_array s4) 0;
    let cc := CompactWidthFromEndOfByte (N.shiftr m 6) in
    let cs := CompactWidthFromEndOfByte (N.shiftr m 4) in
    do (_, s5) <- NextAbsolute (1 + cc + cs) s4;
    do c <- cslice (g_array s5) (sp 1%nat) 1 (1 + cc);
    do z <- cslice (g_array s5) (sp 2%nat) (1 + cc) (1 + cc + cs);
    Ok (MsgBindAoi (AOI ar (int64_or_zero c) (int64_or_zero z)) auth, Prune (1 + cc + cs) s5).

(** ** Data messages *)

(** /repo/pkg/wgps/decoding/data.go:136-160 DecodeDataSendPayload. The first
    prune comes before the slice (147, 149) and leaves the slice [received] as
    it is. *)
Definition DecodeDataSendPayload_cap (sp : spares) (s : stream) : res (msg_payload * stream) :=
  do (r1, s1) <- NextAbsolute 1 s;
  do h <- index r1 0;
  let cw := CompactWidthFromEndOfByte h in
  do (r2, s2) <- NextAbsolute (1 + cw) s1;
  do a <- cslice r2 (sp 0%nat) 1 (1 + cw);
  let amount := int64_or_zero a in
  do n <- as_int amount;
  do b <- cslice r2 (sp 1%nat) (1 + cw) (1 + cw + n);
  Ok (MsgPayload amount b, Prune (1 + cw + n) (Prune (1 + cw + n) s2)).

(** /repo/pkg/wgps/decoding/data.go:162-190 DecodeDataSetEagerness *)
Definition DecodeDataSetEagerness_cap (sp : spares) (s : stream) : res (msg_metadata * stream) :=
  do (w, s1) <- NextAbsolute 2 s;
  do first <- index w 0;
  do second <- index w 1;
  let cs := CompactWidthFromEndOfByte (N.shiftr second 6) in
  let cr := CompactWidthFromEndOfByte (N.shiftr second 4) in
  do (w1, s2) <- NextAbsolute (2 + cs + cr) s1;
  do a <- cslice w1 (sp 0%nat) 2 (2 + cs);
  do b <- cslice w1 (sp 1%nat) (2 + cs) (2 + cs + cr);
  Ok (MsgMetadata (has first 2) (int64_or_zero a) (int64_or_zero b), Prune (2 + cs + cr) s2).

(** /repo/pkg/wgps/decoding/data.go:292-309 DecodeDataReplyPayload *)
Definition DecodeDataReplyPayload_cap (sp : spares) (s : stream) : res (N * stream) :=
  do (w, s1) <- NextAbsolute 1 s;
  do h <- index w 0;
  let cw := CompactWidthFromEndOfByte h in
  do (w1, s2) <- NextAbsolute (1 + cw) s1;
  do a <- cslice w1 (sp 0%nat) 1 (1 + cw);
  Ok (int64_or_zero a, Prune (1 + cw) s2).

(** NextAbsolute(w), DecodeIntMax64 of the first w bytes, Prune(w), as
    [stream_int] in M_Rel.v; e.g. /repo/pkg/wgps/decoding/data.go:65-69. *)
Definition stream_int_cap (spare : bytes) (w : N) (s : stream) : res (N * stream) :=
  do (b, s1) <- NextAbsolute w s;
  do a <- cslice b spare 0 w;
  do x <- DecodeIntMax64 a;
  Ok (x, Prune w s1).

Section Data.
Context {T : Type}.
Variables (ns ss ds : codec bytes) (pp : path_params).
Variables (handles_area : N -> N -> area) (handles_namespace : N -> N -> bytes).

(** /repo/pkg/wgps/decoding/data.go:86-115 and 252-281 *)
Definition decode_sent_entry_cap (sp : spares) (current : entry) (second : N) (sw rw : N) (s : stream) : res (entry * stream) :=
  if has second 16 then DecodeStreamEntryRelativeEntry ns ss ds pp current s
  else
    do (b, s1) <- NextAbsolute (sw + rw) s;
    do a <- cslice b (sp 2%nat) 0 sw;
    do c <- cslice b (sp 3%nat) sw (sw + rw);
    let sh := int64_or_zero a in let rh := int64_or_zero c in
    DecodeStreamEntryInNamespaceArea ss ds pp (handles_area sh rh) (handles_namespace sh rh) (Prune (sw + rw) s1).

(** /repo/pkg/wgps/decoding/data.go:23-134 DecodeDataSendEntry *)
Definition DecodeDataSendEntry_cap (sp : spares) (tok : codec T) (current : entry) (s : stream) : res (msg_data_entry T * stream) :=
  do (b, s1) <- NextAbsolute 2 s;
  do first <- index b 0;
  do second <- index b 1;
  let cw := CompactWidthFromEndOfByte first in
  let encoded := has second 128 in
  let whole := negb encoded && has second 32 in
  let ow := CompactWidthFromEndOfByte (N.shiftr (N.land second 96) 5) in
  let sw := CompactWidthFromEndOfByte (N.shiftr (N.land second 12) 2) in
  let rw := CompactWidthFromEndOfByte second in
  do (h, s3) <- stream_int_cap (sp 0%nat) cw (Prune 2 s1);
  do (t, s4) <- c_dec tok s3;
  do (o, s5) <- (if encoded then stream_int_cap (sp 1%nat) ow s4 else Ok (0, s4));
  do (e, s6) <- decode_sent_entry_cap sp current second sw rw s5;
  Ok (MsgDataEntry e h t (if encoded then o else if whole then e_length e else 0), s6).

(** /repo/pkg/wgps/decoding/data.go:202-290 DecodeDataBindPayloadRequest *)
Definition DecodeDataBindPayloadRequest_cap (sp : spares) (current : entry) (s : stream) : res (msg_request_payload * stream) :=
  do (b, s1) <- NextAbsolute 2 s;
  do first <- index b 0;
  do second <- index b 1;
  let cw := CompactWidthFromEndOfByte first in
  let encoded := has second 128 in
  let ow := if encoded then CompactWidthFromEndOfByte (N.shiftr (N.land second 96) 5) else 0 in
  let sw := CompactWidthFromEndOfByte (N.shiftr second 2) in
  let rw := CompactWidthFromEndOfByte second in
  do (b1, s2) <- NextAbsolute (cw + 2) s1;
  do a <- cslice b1 (sp 0%nat) 2 (2 + cw);
  do o <- (if encoded then do c <- cslice b1 (sp 1%nat) (2 + cw) (2 + cw + ow); Ok (int64_or_zero c) else Ok 0);
  do (e, s3) <- decode_sent_entry_cap sp current second sw rw (Prune (2 + cw + ow) s2);
  Ok (MsgRequestPayload e o (int64_or_zero a), s3).
End Data.

(** ** Reconciliation messages *)

(** /repo/pkg/wgps/decoding/reconciliation.go:326-350 DecodeReconciliationSendPayload *)
Definition DecodeReconciliationSendPayload_cap (sp : spares) (s : stream) : res (msg_payload * stream) :=
  do (w, s1) <- NextAbsolute 1 s;
  do h <- index w 0;
  let cw := CompactWidthFromEndOfByte h in
  do (w1, s2) <- NextAbsolute (1 + cw) s1;
  do a <- cslice w1 (sp 0%nat) 1 (1 + cw);
  let amount := int64_or_zero a in
  do n <- as_int amount;
  do (w2, s3) <- NextAbsolute n (Prune (1 + cw) s2);
  do b <- cslice w2 (sp 1%nat) 0 n;
  Ok (MsgPayload amount b, Prune n s3).

Section Reconciliation.
Context {F T : Type}.
Variables (ss : codec bytes) (pp : path_params) (pv : privy).
Variable handles_range : N -> N -> range3d.

(** /repo/pkg/wgps/decoding/reconciliation.go:22-110 DecodeReconciliationSendFingerprint *)
Definition DecodeReconciliationSendFingerprint_cap (sp : spares) (neutral : F) (dec_fp : stream -> res (F * stream)) (s : stream)
  : res (msg_fingerprint F * stream) :=
  do (b, s1) <- NextAbsolute 2 s;
  do first <- index b 0;
  do second <- index b 1;
  do (covers, s3) <- (if has second 8 then stream_int_cap (sp 0%nat) (pow2 (N.land second 3)) (Prune 2 s1) else Ok (0, Prune 2 s1));
  do (sender, s4) <- (if has first 2 then Ok (pv_sender pv, s3) else stream_int_cap (sp 1%nat) (pow2 (N.shiftr second 6)) s3);
  do (receiver, s5) <- (if has first 1 then Ok (pv_receiver pv, s4)
                        else stream_int_cap (sp 2%nat) (pow2 (N.land (N.shiftr second 4) 3)) s4);
  do (f, s6) <- (if has first 8 then Ok (neutral, s5) else dec_fp s5);
  do (r, s7) <- range_or_zero ss pp (if has first 4 then pv_range pv else handles_range sender receiver) s6;
  Ok (MsgFingerprint r f sender receiver covers true, s7).

(** /repo/pkg/wgps/decoding/reconciliation.go:119-220 DecodeReconciliationAnnounceEntries *)
Definition DecodeReconciliationAnnounceEntries_cap (sp : spares) (s : stream) : res (msg_announce * stream) :=
  do (b, s1) <- NextAbsolute 2 s;
  do first <- index b 0;
  do second <- index b 1;
  let s2 := Prune 2 s1 in
  do (covers, s3) <- (if has second 1
    then do (c, s3) <- NextAbsolute 1 s2;
         do l <- index c 0;
         if has l 252
         then let w := pow2 (N.land second 3) in
              do (c2, s4) <- NextAbsolute w s3;
              do a <- cslice c2 (sp 0%nat) 1 (1 + w);
              Ok (int64_or_zero a, Prune (1 + w) s4)
         else Ok (l, Prune 1 s3)
    else Ok (0, s2));
  do (sender, s4) <- (if has first 2 then Ok (pv_sender pv, s3) else stream_int_cap (sp 1%nat) (pow2 (N.shiftr second 6)) s3);
  do (receiver, s5) <- (if has first 1 then Ok (pv_receiver pv, s4)
                        else stream_int_cap (sp 2%nat) (pow2 (N.land (N.shiftr second 4) 3)) s4);
  do (count, s6) <- stream_int_cap (sp 3%nat) (pow2 (N.shiftr (N.land second 12) 2)) s5;
  do (r, s7) <- range_or_zero ss pp (if has first 4 then pv_range pv else handles_range sender receiver) s6;
  Ok (MsgAnnounce r count (has first 8) (has second 2) sender receiver covers true, s7).

Variables (ns ds : codec bytes).

(** /repo/pkg/wgps/decoding/reconciliation.go:231-324 DecodeReconciliationSendEntry *)
Definition DecodeReconciliationSendEntry_cap (sp : spares) (token_first : bool) (tok : codec T) (s : stream)
  : res (msg_lengthy_entry T * stream) :=
  do (b, s1) <- NextAbsolute 1 s;
  do header <- index b 0;
  do (h, s2) <- (if has header 8 then Ok (pv_static pv, Prune 1 s1)
    else do (b1, s2) <- NextAbsolute 2 s1;
         do z <- index b1 1;
         let w := if has z 255 then 8 else if has z 191 then 4 else if has z 127 then 2 else 1 in
         do (b2, s3) <- NextAbsolute (2 + w) s2;
         do h <- (if z <? 63 then Ok z else do a <- cslice b2 (sp 0%nat) 2 (2 + w); Ok (int64_or_zero a));
         Ok (h, Prune (2 + w) s3));
  do (av, s3) <- stream_int_cap (sp 1%nat) (pow2 (N.land header 3)) s2;
  let entry_of s := if has header 4 then DecodeStreamEntryRelativeEntry ns ss ds pp (pv_entry pv) s else Ok (zero_entry, s) in
  if token_first
  then do (t, s4) <- c_dec tok s3; do (e, s5) <- entry_of s4; Ok (MsgLengthyEntry e av h t, s5)
  else do (e, s4) <- entry_of s3; do (t, s5) <- c_dec tok s4; Ok (MsgLengthyEntry e av h t, s5).
End Reconciliation.
