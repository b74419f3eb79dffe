(** C85: message decoders and bytes that have not arrived. The buffer of a
    GrowingBytes usually has room behind its end, and a slice expression may
    reach into it (M_WireCap.v); here is which decoders do, and what comes of it. *)
From Verif Require Import Base M_Order M_Encoding M_Paths M_Ranges M_Areas M_Entry M_Stream M_Rel M_Wire M_Wire2 M_Cap M_WireCap S_Rel S_Wire S_Wire2 P_Rel P_Wire2 Prop_Rel Prop_Malformed Prop_Reading Prop_Wire2.
Local Open Scope N_scope.

Lemma Next_len n s b s1 : NextAbsolute n s = Ok (b, s1) -> g_array s1 = b /\ n <= len b.
Proof.
  unfold NextAbsolute. destruct (match g_sched s with [] => (O, O) | x :: _ => x end) as [be af]. cbn zeta.
  generalize (arrive be (Stream (g_array s) (g_future s) (tl (g_sched s)))). intros t. destruct (N.leb_spec n (len (g_array t))) as [L|L]; [intros E; injection E as <- <-; auto|].
  destruct (N.ltb_spec (len (g_array t) + len (g_future t)) n) as [L2|L2]; [discriminate|].
  intros E; injection E as <- <-. split; [reflexivity|]. unfold arrive. cbn [g_array].
  unfold bytes, len in *. rewrite app_length, firstn_length. lia.
Qed.
Lemma cslice_there b spare i j : j <= len b -> cslice b spare i j = slice b i j.
Proof. intros L. rewrite cslice_slice. apply slice_more. exact L. Qed.

Ltac next :=
  match goal with |- context[NextAbsolute ?n ?s] =>
    let E := fresh "E" in let L := fresh "L" in let A := fresh "A" in
    destruct (NextAbsolute n s) as [[? ?]| | | |] eqn:E; cbn [bind]; [pose proof (Next_len _ _ _ _ E) as [A L]|auto..] end.
Ltac idx := match goal with |- context[index ?b ?i] => destruct (index b i); cbn [bind]; [|auto..]; cbn zeta end.
Ltac there := match goal with |- context[cslice ?b ?sp ?i ?j] => rewrite (cslice_there b sp i j) by (try (match goal with A : g_array _ = _ |- _ => rewrite A end); lia) end.

Lemma stream_int_there spare w s : stream_int_cap spare w s = stream_int w s.
Proof. unfold stream_int_cap, stream_int. next. there. reflexivity. Qed.

Lemma bind_eq {A B} (r r' : res A) (f g : A -> res B) : r = r' -> (forall x, f x = g x) -> bind r f = bind r' g.
Proof. intros -> H. destruct r'; cbn [bind]; auto. Qed.

(** Decoders that wait for every field before they cut it out: whatever lies
    behind the buffer, they return what they return without it. *)
Theorem C85_control sp kind s : decode_amount_cap sp kind s = decode_amount kind s /\ DecodeControlFree_cap sp s = DecodeControlFree s.
Proof.
  split; [unfold decode_amount_cap, decode_amount|unfold DecodeControlFree_cap, DecodeControlFree];
    next; idx; next; idx; next; there; reflexivity.
Qed.

Theorem C85_commitment sp n s : DecodeCommitmentReveal_cap sp n s = DecodeCommitmentReveal n s.
Proof. unfold DecodeCommitmentReveal_cap, DecodeCommitmentReveal. next. there. reflexivity. Qed.

Theorem C85_setup (K Sig : Type) sp (dec : stream -> res (K * stream)) (sg : codec Sig) pp granted s :
  DecodeSetupBindReadCapability_cap sp dec sg s = DecodeSetupBindReadCapability dec sg s
  /\ DecodeSetupBindAreaOfInterest_cap sp pp granted s = DecodeSetupBindAreaOfInterest pp granted s.
Proof.
  split; [unfold DecodeSetupBindReadCapability_cap, DecodeSetupBindReadCapability; next; idx; next; there; reflexivity|].
  unfold DecodeSetupBindAreaOfInterest_cap, DecodeSetupBindAreaOfInterest. next. idx. next. there.
  destruct (slice _ _ _); cbn [bind]; auto. destruct (DecodeStreamAreaInArea _ _ _ _) as [[ar s3]| | | |]; cbn [bind]; auto.
  destruct (negb _); auto. next. idx. next. there. destruct (slice _ _ _); cbn [bind]; auto. there. reflexivity.
Qed.

Lemma sent_entry_there sp ns ss ds pp ha hn current second sw rw s :
  decode_sent_entry_cap ns ss ds pp ha hn sp current second sw rw s = decode_sent_entry ns ss ds pp ha hn current second sw rw s.
Proof.
  unfold decode_sent_entry_cap, decode_sent_entry. destruct (has _ 16); auto. next. there.
  destruct (slice _ _ _); cbn [bind]; auto. there. reflexivity.
Qed.

Theorem C85_data (T : Type) sp ns ss ds pp ha hn (tok : codec T) current s :
  DecodeDataSetEagerness_cap sp s = DecodeDataSetEagerness s
  /\ DecodeDataReplyPayload_cap sp s = DecodeDataReplyPayload s
  /\ DecodeDataSendEntry_cap ns ss ds pp ha hn sp tok current s = DecodeDataSendEntry ns ss ds pp ha hn tok current s.
Proof.
  split; [|split].
  - unfold DecodeDataSetEagerness_cap, DecodeDataSetEagerness. next. idx. idx. next. there. destruct (slice _ _ _); cbn [bind]; auto. there. reflexivity.
  - unfold DecodeDataReplyPayload_cap, DecodeDataReplyPayload. next. idx. next. there. reflexivity.
  - unfold DecodeDataSendEntry_cap, DecodeDataSendEntry. next. idx. idx. rewrite stream_int_there.
    destruct (stream_int _ _) as [[h s3]| | | |]; cbn [bind]; auto. destruct (c_dec tok s3) as [[t s4]| | | |]; cbn [bind]; auto.
    rewrite stream_int_there. destruct (if has _ _ then _ else _) as [[o s5]| | | |]; cbn [bind]; auto.
    rewrite sent_entry_there. reflexivity.
Qed.

Theorem C85_reconciliation (F T : Type) sp ss pp pv hr ns ds first (neutral : F) fp (tok : codec T) s :
  DecodeReconciliationSendPayload_cap sp s = DecodeReconciliationSendPayload s
  /\ DecodeReconciliationSendFingerprint_cap ss pp pv hr sp neutral fp s = DecodeReconciliationSendFingerprint ss pp pv hr neutral fp s
  /\ DecodeReconciliationSendEntry_cap ss pp pv ns ds sp first tok s = DecodeReconciliationSendEntry ss pp pv ns ds first tok s.
Proof.
  split; [|split].
  - unfold DecodeReconciliationSendPayload_cap, DecodeReconciliationSendPayload. next. idx. next. there.
    destruct (slice _ _ _); cbn [bind]; auto. destruct (as_int _); cbn [bind]; auto. next. there. reflexivity.
  - unfold DecodeReconciliationSendFingerprint_cap, DecodeReconciliationSendFingerprint. next. idx. idx.
    apply bind_eq; [rewrite stream_int_there; reflexivity|intros [c s3]].
    apply bind_eq; [rewrite stream_int_there; reflexivity|intros [c2 s4]].
    apply bind_eq; [rewrite stream_int_there; reflexivity|reflexivity].
  - unfold DecodeReconciliationSendEntry_cap, DecodeReconciliationSendEntry. next. idx.
    match goal with |- bind ?a _ = bind ?b _ => assert (X : a = b) end.
    { destruct (has _ 8); auto. next. idx. next. destruct (_ <? 63); [reflexivity|]. there. reflexivity. }
    apply bind_eq; [exact X|intros [h s3]]. rewrite stream_int_there. reflexivity.
Qed.

(** ** Decoders that do not wait *)

(** What is behind the buffer matters only where there would be a panic
    without it: all fields that have arrived are read as they are. *)
Lemma cslice_or b spare i j : cslice b spare i j = slice b i j \/ slice b i j = Panic.
Proof.
  destruct (N.le_gt_cases j (len b)) as [L|L]; [left; apply cslice_there; exact L|right].
  unfold slice. destruct (N.leb_spec j (len b)); [lia|]. rewrite andb_false_r. reflexivity.
Qed.
Ltac cut := match goal with |- context[cslice ?b ?sp ?i ?j] =>
    let E := fresh in destruct (cslice_or b sp i j) as [E|E]; rewrite E; clear E; [|right; reflexivity] end.
Lemma pai_handle_or sp s : pai_handle_cap sp s = pai_handle s \/ pai_handle s = Panic.
Proof. unfold pai_handle_cap, pai_handle. next. idx. cut. left. reflexivity. Qed.

Theorem C85_pai_there (G K Sig : Type) sp (g : codec G) (k : codec K) (sg : codec Sig) s :
  (DecodePaiRequestSubspaceCapability_cap sp s = DecodePaiRequestSubspaceCapability s \/ DecodePaiRequestSubspaceCapability s = Panic)
  /\ (DecodePaiReplyFragment_cap sp g s = DecodePaiReplyFragment g s \/ DecodePaiReplyFragment g s = Panic)
  /\ (DecodePaiReplySubspaceCapability_cap sp k sg s = DecodePaiReplySubspaceCapability k sg s \/ DecodePaiReplySubspaceCapability k sg s = Panic).
Proof.
  unfold DecodePaiRequestSubspaceCapability_cap, DecodePaiRequestSubspaceCapability, DecodePaiReplyFragment_cap, DecodePaiReplyFragment,
    DecodePaiReplySubspaceCapability_cap, DecodePaiReplySubspaceCapability.
  destruct (pai_handle_or sp s) as [E|E]; rewrite E; cbn [bind]; auto.
Qed.

Theorem C85_data_there sp ns ss ds pp ha hn current s :
  (DecodeDataSendPayload_cap sp s = DecodeDataSendPayload s \/ DecodeDataSendPayload s = Panic)
  /\ (DecodeDataBindPayloadRequest_cap ns ss ds pp ha hn sp current s = DecodeDataBindPayloadRequest ns ss ds pp ha hn current s
      \/ DecodeDataBindPayloadRequest ns ss ds pp ha hn current s = Panic).
Proof.
  split.
  - unfold DecodeDataSendPayload_cap, DecodeDataSendPayload. next. idx. next. there.
    destruct (slice _ _ _); cbn [bind]; auto. destruct (as_int _); cbn [bind]; auto. cut. left. reflexivity.
  - unfold DecodeDataBindPayloadRequest_cap, DecodeDataBindPayloadRequest. next. idx. idx. next. there.
    destruct (slice _ _ _); cbn [bind]; auto.
    match goal with |- bind ?a _ = bind ?b _ \/ _ => assert (X : a = b \/ b = Panic) end.
    { destruct (has _ 128); auto. cut. left. reflexivity. }
    destruct X as [X|X]; rewrite X; [|right; reflexivity]. left.
    apply bind_eq; [reflexivity|intros o]. rewrite sent_entry_there. reflexivity.
Qed.

Theorem C85_announce_there sp ss pp pv hr s :
  DecodeReconciliationAnnounceEntries_cap ss pp pv hr sp s = DecodeReconciliationAnnounceEntries ss pp pv hr s
  \/ DecodeReconciliationAnnounceEntries ss pp pv hr s = Panic.
Proof.
  unfold DecodeReconciliationAnnounceEntries_cap, DecodeReconciliationAnnounceEntries. next. idx. idx.
  match goal with |- bind ?a _ = bind ?b _ \/ _ => assert (X : a = b \/ b = Panic) end.
  { destruct (has _ 1); auto. next. idx. destruct (has _ 252); auto. next. cut. left. reflexivity. }
  destruct X as [X|X]; rewrite X; [|right; reflexivity]. left.
  apply bind_eq; [reflexivity|intros [c s3]].
  apply bind_eq; [rewrite stream_int_there; reflexivity|intros [c2 s4]].
  apply bind_eq; [rewrite stream_int_there; reflexivity|intros [c3 s5]].
  rewrite stream_int_there. reflexivity.
Qed.

(** Refuted: that a decoder returns only what has been sent. Append gives the
    buffer, empty at first, an array of eight bytes, cleared; [received] bytes of
    it are taken. *)
Definition zeros (received : nat) : spares := fun _ => repeat 0 (8 - received).

(** A request for capability 1, of which the first byte has arrived, is returned
    as one for capability 0 … *)
Theorem C85_request_refuted : exists m m' s s',
  total s = EncodePaiRequestSubspaceCapability m
  /\ DecodePaiRequestSubspaceCapability (Stream (total s) [] []) = Ok (m, Stream [] [] [])
  /\ DecodePaiRequestSubspaceCapability_cap (zeros (length (g_array s))) s = Ok (m', s')
  /\ m' <> m /\ total s' <> [].
Proof. exists (MsgRequest 1), (MsgRequest 0), (Stream [12] [1] []), (Stream [] [1] []). repeat split; try (vm_compute; reflexivity); discriminate. Qed.

(** … the reply to it, with a group member behind the handle, likewise, and the
    member is made of the handle's byte … *)
Theorem C85_reply_refuted : exists m m' s s',
  total s = EncodePaiReplyFragment (fixed_codec 1) m
  /\ DecodePaiReplyFragment (fixed_codec 1) (Stream (total s) [] []) = Ok (m, Stream [] [] [])
  /\ DecodePaiReplyFragment_cap (zeros (length (g_array s))) (fixed_codec 1) s = Ok (m', s')
  /\ mr_handle m' <> mr_handle m /\ mr_member m' <> mr_member m /\ total s' <> [].
Proof.
  exists (MsgReply 1 [9]), (MsgReply 0 [1]), (Stream [8] [1; 9] []). eexists.
  split; [reflexivity|]. split; [vm_compute; reflexivity|]. split; [vm_compute; reflexivity|]. repeat split; intros H; vm_compute in H; discriminate H.
Qed.

(** … a payload whose bytes come late is returned as zeros, with its bytes left
    to be read as the next message … *)
Theorem C85_payload_refuted : exists m m' s s',
  total s = EncodeDataSendPayload m
  /\ DecodeDataSendPayload (Stream (total s) [] []) = Ok (m, Stream [] [] [])
  /\ DecodeDataSendPayload_cap (zeros (length (g_array s))) s = Ok (m', s')
  /\ my_amount m' = my_amount m /\ my_bytes m' <> my_bytes m /\ total s' <> [].
Proof.
  exists (MsgPayload 3 [7; 8; 9]), (MsgPayload 3 [7; 0; 0]), (Stream [100; 3; 7] [8; 9] []). eexists.
  split; [reflexivity|]. split; [vm_compute; reflexivity|]. split; [vm_compute; reflexivity|]. repeat split; intros H; vm_compute in H; discriminate H.
Qed.

(** … a payload request gets the offset 0, and its offset becomes the header of an
    entry that nobody wrote … *)
Theorem C85_payload_request_refuted : exists m m' s s',
  EncodeDataBindPayloadRequest (fixed_codec 1) (fixed_codec 1) (fixed_codec 2) rel_eq OrderBytes rel_pp w_ref m = Ok (total s)
  /\ entry_ok (fixed_codec 1) (fixed_codec 1) (fixed_codec 2) rel_pp (rp_entry m) w_ref
  /\ (exists s1, DecodeDataBindPayloadRequest (fixed_codec 1) (fixed_codec 1) (fixed_codec 2) rel_pp no_area no_namespace w_ref (Stream (total s) [] []) = Ok (m, s1) /\ total s1 = [])
  /\ DecodeDataBindPayloadRequest_cap (fixed_codec 1) (fixed_codec 1) (fixed_codec 2) rel_pp no_area no_namespace (zeros (length (g_array s))) w_ref s = Ok (m', s')
  /\ rp_offset m' <> rp_offset m /\ rp_entry m' <> rp_entry m /\ total s' = [].
Proof.
  destruct (EncodeDataBindPayloadRequest (fixed_codec 1) (fixed_codec 1) (fixed_codec 2) rel_eq OrderBytes rel_pp w_ref (MsgRequestPayload w_entry 200 5))
    as [b| | | |] eqn:E; try (vm_compute in E; discriminate).
  exists (MsgRequestPayload w_entry 200 5). eexists. exists (Stream (firstn 3 b) (skipn 3 b) (repeat (0, 30)%nat 9)).
  vm_compute in E. injection E as <-. eexists.
  split; [vm_compute; reflexivity|]. split; [apply w_entry_ok|]. split; [eexists; split; vm_compute; reflexivity|].
  split; [vm_compute; reflexivity|]. repeat split; intros H; vm_compute in H; discriminate H.
Qed.

(** … and an announcement covering message 300 covers 256 and announces 44 entries
    instead of 5. *)
Theorem C85_announce_refuted : exists m m' s s',
  EncodeReconciliationAnnounceEntries 64 (fixed_codec 1) OrderBytes rel_pp w_privy m = Ok (total s)
  /\ (exists m1 s1, DecodeReconciliationAnnounceEntries (fixed_codec 1) rel_pp w_privy (fun _ _ => w_range) (Stream (total s) [] []) = Ok (m1, s1)
      /\ an_covers m1 = an_covers m /\ an_count m1 = an_count m)
  /\ g_array s = [] /\ firstn 3 (g_sched s) = [(0, 0); (0, 0); (0, 0)]%nat
  /\ DecodeReconciliationAnnounceEntries_cap (fixed_codec 1) rel_pp w_privy (fun _ _ => w_range) (zeros 4) s = Ok (m', s')
  /\ an_covers m' <> an_covers m /\ an_count m' <> an_count m.
Proof.
  destruct (EncodeReconciliationAnnounceEntries 64 (fixed_codec 1) OrderBytes rel_pp w_privy (MsgAnnounce w_range2 5 true false 3 4 300 true))
    as [b| | | |] eqn:E; try (vm_compute in E; discriminate).
  exists (MsgAnnounce w_range2 5 true false 3 4 300 true). eexists. exists (Stream [] b (repeat (0, 0)%nat 3 ++ repeat (0, 30)%nat 9)).
  vm_compute in E. injection E as <-. eexists.
  split; [vm_compute; reflexivity|]. split; [eexists _, _; split; [vm_compute; reflexivity|split; reflexivity]|]. split; [reflexivity|]. split; [reflexivity|].
  split; [vm_compute; reflexivity|]. repeat split; intros H; vm_compute in H; discriminate H.
Qed.

(** Instances: a guarantee arriving in pieces, with five bytes of another message
    behind the buffer, and a request that has arrived. *)
Example C85_instance_control : exists s', decode_amount_cap (fun _ => [1; 2; 3; 4; 5]) ControlAbsolve (Stream [] [129; 32; 1; 44; 99] [(1, 0); (0, 1)]%nat)
    = Ok (MsgAmount ControlAbsolve DataChannel 300, s') /\ total s' = [99].
Proof. eexists. split; vm_compute; reflexivity. Qed.
Example C85_instance_reconciliation : exists s', DecodeReconciliationSendPayload_cap (zeros 3) (Stream [80; 3; 7] [8; 9; 66] [])
    = Ok (MsgPayload 3 [7; 8; 9], s') /\ total s' = [66].
Proof. eexists. split; vm_compute; reflexivity. Qed.
Example C85_instance_there : exists s', DecodePaiRequestSubspaceCapability_cap (zeros 3) (Stream [13; 1; 44] [99] []) = Ok (MsgRequest 300, s')
  /\ DecodePaiRequestSubspaceCapability (Stream [13; 1; 44] [99] []) = Ok (MsgRequest 300, s').
Proof. eexists. split; vm_compute; reflexivity. Qed.

Print Assumptions C85_control.
Print Assumptions C85_commitment.
Print Assumptions C85_setup.
Print Assumptions C85_data.
Print Assumptions C85_reconciliation.
Print Assumptions C85_pai_there.
Print Assumptions C85_data_there.
Print Assumptions C85_announce_there.
Print Assumptions C85_request_refuted.
Print Assumptions C85_reply_refuted.
Print Assumptions C85_payload_refuted.
Print Assumptions C85_payload_request_refuted.
Print Assumptions C85_announce_refuted.
