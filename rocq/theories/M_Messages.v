(** Model of the two ends of a message stream:
    /repo/pkg/wgps/encoding/message_encoder.go, /repo/pkg/wgps/decoding/decode_messages.go and
    the tracker both use, /repo/pkg/wgps/reconciliation/reconcile_msg_tracker.go (which is
    commented out in the repository, so that neither end compiles). The encoders and decoders
    of the single messages are those of M_Wire.v and M_Wire2.v. *)
From Verif Require Import Base M_Order M_Encoding M_Paths M_Ranges M_Areas M_Entry M_Stream M_Wire M_Rel M_Wire2.
Local Open Scope N_scope.

(** /repo/utils/ranges.go:825-840 DefaultRange3d *)
Definition DefaultRange3d (subspace : bytes) : range3d :=
  Range3d (Range subspace [] true) (Range [] [] true) (Range 0 0 true).
(** /repo/utils/entries.go:515-528 DefaultEntry *)
Definition DefaultEntry (namespace subspace digest : bytes) : entry := Entry namespace subspace digest [] 0 0.

Section Messages.
(** Group members, subspace capabilities and signatures, read capabilities and signatures,
    static tokens, fingerprints, dynamic tokens. *)
Context {G K Sig RC RS ST F T : Type}.

(** The Go types behind SyncMessage, /repo/pkg/wgps/wgpstypes/types.go:371-448. *)
Inductive message :=
| MGuarantee (m : msg_amount) | MAbsolve (m : msg_amount) | MPlead (m : msg_amount)
| MDropping (m : msg_channel) | MApologise (m : msg_channel) | MFree (m : msg_free)
| MReveal (nonce : bytes)
| MBindFragment (m : @msg_bind G) | MReplyFragment (m : @msg_reply G)
| MRequestCap (m : msg_request) | MReplyCap (m : @msg_capability K Sig)
| MReadCap (m : @msg_read_cap RC RS) | MAoi (m : msg_bind_aoi) | MStatic (token : ST)
| MFingerprint (m : msg_fingerprint F) | MAnnounce (m : msg_announce) | MEntry (m : msg_lengthy_entry T)
| MPayload (m : msg_payload) | MTerminate
| MDataEntry (m : msg_data_entry T) | MDataPayload (m : msg_payload) | MMetadata (m : msg_metadata)
| MRequestPayload (m : msg_request_payload) | MReplyPayload (handle : N).

(** GetKind, /repo/pkg/wgps/wgpstypes/types.go:377-448, returns the field Kind; where the model
    has no such field it is the kind belonging to the type. *)
Definition GetKind (m : message) : msg_kind :=
  match m with
  | MGuarantee m | MAbsolve m | MPlead m => ma_kind m
  | MDropping m | MApologise m => mc_kind m
  | MFree m => mf_kind m
  | MReveal _ => CommitmentReveal
  | MBindFragment _ => PaiBindFragment | MReplyFragment _ => PaiReplyFragment
  | MRequestCap _ => PaiRequestSubspaceCapability | MReplyCap _ => PaiReplySubspaceCapability
  | MReadCap _ => SetupBindReadCapability | MAoi _ => SetupBindAreaOfInterest | MStatic _ => SetupBindStaticToken
  | MFingerprint _ => ReconciliationSendFingerprint | MAnnounce _ => ReconciliationAnnounceEntries
  | MEntry _ => ReconciliationSendEntry | MPayload _ => ReconciliationSendPayload
  | MTerminate => ReconciliationTerminatePayload
  | MDataEntry _ => DataSendEntry | MDataPayload _ => DataSendPayload | MMetadata _ => DataSetMetadata
  | MRequestPayload _ => DataBindPayloadRequest | MReplyPayload _ => DataReplyPayload
  end.

(** /repo/pkg/wgps/reconciliation/reconcile_msg_tracker.go:19-30 *)
Record tracker := Tracker {
  tr_range : range3d; tr_sender : N; tr_receiver : N; tr_entry : entry; tr_token : N;
  tr_announced_range : range3d; tr_announced_namespace : bytes; tr_remaining : N; tr_awaiting : bool }.

(** The schemes and callbacks given to both ends. *)
Record schemes := Schemes {
  x_bits : N; x_pp : path_params; x_order : bytes -> bytes -> rel; x_eqns : bytes -> bytes -> bool;
  x_ns : codec bytes; x_ss : codec bytes; x_ds : codec bytes;
  x_group : codec G; x_cap : codec K; x_sig : codec Sig; x_static : codec ST; x_fp : codec F; x_token : codec T;
  x_neutral : F; x_is_neutral : F -> bool;
  x_default_ns : bytes; x_default_ss : bytes; x_default_digest : bytes;
  x_handle_ns : N -> bytes; x_handles_range : N -> N -> range3d; x_handles_area : N -> N -> area; x_handles_ns : N -> N -> bytes }.
Variable X : schemes.

(** /repo/pkg/wgps/reconciliation/reconcile_msg_tracker.go:32-42 NewReconcileMsgTracker *)
Definition NewReconcileMsgTracker : tracker :=
  Tracker (DefaultRange3d (x_default_ss X)) 0 0 (DefaultEntry (x_default_ns X) (x_default_ss X) (x_default_digest X)) 0
    (DefaultRange3d (x_default_ss X)) (x_default_ns X) 0 false.
(** The zero value of the tracker ([var tracker], decode_messages.go:154 and 175). *)
Definition zero_tracker : tracker := Tracker zero_range3d 0 0 zero_entry 0 zero_range3d [] 0 false.

(** /repo/pkg/wgps/reconciliation/reconcile_msg_tracker.go:44-49 OnSendFingerprint *)
Definition OnSendFingerprint (m : msg_fingerprint F) (t : tracker) : tracker :=
  Tracker (fm_range m) (fm_sender m) (fm_receiver m) (tr_entry t) (tr_token t)
    (tr_announced_range t) (tr_announced_namespace t) (tr_remaining t) (tr_awaiting t).
(** /repo/pkg/wgps/reconciliation/reconcile_msg_tracker.go:51-59 OnAnnounceEntries *)
Definition OnAnnounceEntries (m : msg_announce) (t : tracker) : tracker :=
  Tracker (an_range m) (an_sender m) (an_receiver m) (tr_entry t) (tr_token t)
    (an_range m) (x_handle_ns X (an_receiver m)) (an_count m) (tr_awaiting t).
(** /repo/pkg/wgps/reconciliation/reconcile_msg_tracker.go:61-68 OnSendEntry *)
Definition OnSendEntry (m : msg_lengthy_entry T) (t : tracker) : tracker :=
  Tracker (tr_range t) (tr_sender t) (tr_receiver t) (le_entry m) (le_static m)
    (tr_announced_range t) (tr_announced_namespace t) (sub64 (tr_remaining t) 1) true.
(** /repo/pkg/wgps/reconciliation/reconcile_msg_tracker.go:85-101 GetPrivy *)
Definition GetPrivy (t : tracker) : privy := Privy (tr_sender t) (tr_receiver t) (tr_range t) (tr_token t) (tr_entry t).

(** The encoder's tracker and what has been pushed to MessageChannel; a full channel (32)
    makes Encode wait for its reader, which is left out. *)
Record frame := Frame { fr_channel : channel; fr_bytes : bytes }.
Record encoder := Encoder { en_tracker : tracker; en_sent : list frame }.
Definition NewMessageEncoder : encoder := Encoder NewReconcileMsgTracker [].

(** The switch of Encode, /repo/pkg/wgps/encoding/message_encoder.go:93-271: the bytes and the
    tracker afterwards. [current] is what GetCurrentlySentEntry returns. The cases of read
    capabilities (132-135) and of areas of interest (136-150) are commented out and leave no bytes. *)
Definition encode_message (current : entry) (t : tracker) (m : message) : res (bytes * tracker) :=
  let pv := GetPrivy t in
  match m with
  | MGuarantee m => Ok (EncodeControlIssueGuarantee m, t)
  | MAbsolve m => Ok (EncodeControlAbsolve m, t)
  | MPlead m => Ok (EncodeControlPlead m, t)
  | MDropping m => Ok (EncodeControlAnnounceDropping m, t)
  | MApologise m => Ok (EncodeControlApologise m, t)
  | MFree m => Ok (EncodeControlFree m, t)
  | MReveal nonce => Ok (EncodeCommitmentReveal nonce, t)
  | MBindFragment m => Ok (EncodePaiBindFragment (x_group X) m, t)
  | MReplyFragment m => Ok (EncodePaiReplyFragment (x_group X) m, t)
  | MRequestCap m => Ok (EncodePaiRequestSubspaceCapability m, t)
  | MReplyCap m => Ok (EncodePaiReplySubspaceCapability (x_cap X) (x_sig X) m, t)
  | MReadCap _ | MAoi _ => Ok ([], t)
  | MStatic token => Ok (EncodeSetupBindStaticToken (x_static X) token, t)
  | MFingerprint m =>
      do b <- EncodeReconciliationSendFingerprint (x_bits X) (x_ss X) (x_order X) (x_pp X) pv (x_is_neutral X) (c_enc (x_fp X)) m;
      Ok (b, OnSendFingerprint m t)
  | MAnnounce m =>
      do b <- EncodeReconciliationAnnounceEntries (x_bits X) (x_ss X) (x_order X) (x_pp X) pv m;
      Ok (b, OnAnnounceEntries m t)
  | MEntry m =>
      do b <- EncodeReconciliationSendEntry (x_bits X) (x_ss X) (x_order X) (x_pp X) pv (x_ns X) (x_ds X) (x_eqns X) (x_token X) m;
      Ok (b, OnSendEntry m t)
  | MPayload m => Ok (EncodeReconciliationSendPayload (x_bits X) m, t)
  | MTerminate => Ok (EncodeReconciliationTerminatePayload, t)
  | MDataEntry m =>
      do b <- EncodeDataSendEntry (x_ns X) (x_ss X) (x_ds X) (x_eqns X) (x_order X) (x_pp X) (x_token X) current m; Ok (b, t)
  | MDataPayload m => Ok (EncodeDataSendPayload m, t)
  | MMetadata m => Ok (EncodeDataSetEagerness m, t)
  | MRequestPayload m =>
      do b <- EncodeDataBindPayloadRequest (x_ns X) (x_ss X) (x_ds X) (x_eqns X) (x_order X) (x_pp X) current m; Ok (b, t)
  | MReplyPayload handle => Ok (EncodeDataReplyPayload handle, t)
  end.

(** /repo/pkg/wgps/encoding/message_encoder.go:88-274 Encode: one frame, on the channel of the kind. *)
Definition Encode (current : entry) (m : message) (e : encoder) : res encoder :=
  do (b, t) <- encode_message current (en_tracker e) m;
  Ok (Encoder t (en_sent e ++ [Frame (MsgLogicalChannels (GetKind m)) b])).

(** Encode for each of a list of messages. *)
Fixpoint encode_all (ms : list (entry * message)) (e : encoder) : res encoder :=
  match ms with [] => Ok e | (current, m) :: ms' => do e' <- Encode current m e; encode_all ms' e' end.

(** One iteration of the loop of DecodeMessages, /repo/pkg/wgps/decoding/decode_messages.go:103-214:
    what is sent to outChannel ([None] is the nil of line 213), the tracker and the stream
    afterwards. [current] is what GetCurrentlyReceivedEntry returns. Fingerprints and entries are
    decoded with the privy of a zero tracker (154, 161, 175, 181); the decoder of announcements
    is given no GetPrivy (166-169) and calls it first (reconciliation.go:120); that of payload
    requests is given no DecodePayloadDigest (133-140). [token_first] as in M_Wire2.v. *)
Definition decode_step (current : entry) (token_first : bool) (t : tracker) (s : stream)
  : res (list (option message) * tracker * stream) :=
  do (b, s1) <- NextAbsolute 1 s;
  do first <- index b 0;
  let out (m : message) (t' : tracker) (s' : stream) := Ok ([Some m; None], t', s') in
  let pv := GetPrivy zero_tracker in
  match dispatch first (tr_awaiting t) (tr_remaining t) with
  | Nothing => Ok ([None], t, s1)
  | Reports _ => out (MPayload (MsgPayload 0 [])) t (Prune 1 s1)
  | Calls k =>
      match k with
      | ControlApologise => do (m, s') <- DecodeControlApologise s1; out (MApologise m) t s'
      | ControlAnnounceDropping => do (m, s') <- DecodeControlAnnounceDropping s1; out (MDropping m) t s'
      | ControlFree => do (m, s') <- DecodeControlFree s1; out (MFree m) t s'
      | ControlPlead => do (m, s') <- DecodeControlPlead s1; out (MPlead m) t s'
      | ControlAbsolve => do (m, s') <- DecodeControlAbsolve s1; out (MAbsolve m) t s'
      | ControlIssueGuarantee => do (m, s') <- DecodeControlIssueGuarantee s1; out (MGuarantee m) t s'
      | DataReplyPayload => do (m, s') <- DecodeDataReplyPayload s1; out (MReplyPayload m) t s'
      | DataBindPayloadRequest =>
          do (m, s') <- DecodeDataBindPayloadRequest (x_ns X) (x_ss X) nil_codec (x_pp X) (x_handles_area X) (x_handles_ns X) current s1;
          out (MRequestPayload m) t s'
      | ReconciliationSendPayload => do (m, s') <- DecodeReconciliationSendPayload s1; out (MPayload m) t s'
      | ReconciliationSendEntry =>
          do (m, s') <- DecodeReconciliationSendEntry (x_ss X) (x_pp X) pv (x_ns X) (x_ds X) token_first (x_token X) s1;
          out (MEntry m) (OnSendEntry m t) s'
      | ReconciliationAnnounceEntries => Panic
      | ReconciliationSendFingerprint =>
          do (m, s') <- DecodeReconciliationSendFingerprint (x_ss X) (x_pp X) pv (x_handles_range X) (x_neutral X) (c_dec (x_fp X)) s1;
          out (MFingerprint m) (OnSendFingerprint m t) s'
      | PaiReplySubspaceCapability => do (m, s') <- DecodePaiReplySubspaceCapability (x_cap X) (x_sig X) s1; out (MReplyCap m) t s'
      | PaiRequestSubspaceCapability => do (m, s') <- DecodePaiRequestSubspaceCapability s1; out (MRequestCap m) t s'
      | PaiReplyFragment => do (m, s') <- DecodePaiReplyFragment (x_group X) s1; out (MReplyFragment m) t s'
      | PaiBindFragment => do (m, s') <- DecodePaiBindFragment (x_group X) s1; out (MBindFragment m) t s'
      | _ => Ok ([None], t, s1)
      end
  end.
End Messages.
Arguments message : clear implicits.
Arguments schemes : clear implicits.
