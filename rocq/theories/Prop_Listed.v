(** C33, C38, C46: what is listed for an area of any kind, which ranges are summarised, and what the dispatcher does with every byte. *)
From Verif Require Import Base M_Order M_Map M_Encoding M_Paths M_Ranges M_Areas M_Keys M_Entry M_Store M_Query M_Stream M_Wire
  S_Order S_Store S_Query P_Ranges P_Areas P_Store P_Demo P_Query Prop_Store Prop_Query.
Local Open Scope N_scope.

(** * C33: every area *)

(** The listing looks neither at the flag for any subspace nor at the one for an open end. *)
Lemma list_loop_blind C s p t o any m z l : forall plen acc,
  list_loop C (AOI (Area s p t any) m z) l plen acc
  = list_loop C (AOI (Area s p (Range (r_start t) (r_end t) o) false) m z) l plen acc.
Proof.
  induction l as [|[k v] l IH]; intros plen acc; [reflexivity|].
  cbn [list_loop aoi_area area_times area_subspace area_path aoi_max_count aoi_max_size r_start r_end].
  destruct (DecodeKey k (c_pp C)) as [q| | | |]; cbn [bind]; try reflexivity.
  destruct (_ || _ || _); [apply IH|].
  destruct (slice _ _ _); cbn [bind]; try reflexivity.
  destruct (negb _); [apply IH|]. destruct (_ || _); [reflexivity|].
  destruct (DecodeValues v); cbn [bind]; try reflexivity. destruct (_ && _); [reflexivity|]. apply IH.
Qed.

(** Whatever the area: the live entries of the subspace that stands in it, at or below its path, from the start to the end that stands in it,
    both included, newest first, and of those the longest prefix within the limits. *)
Theorem C33_every_area C U ops st aoi :
  survived C U ops st -> aoi_max_count aoi < 2 ^ 63 ->
  exists all res, ListWithAOI C aoi st = (Ok res, st)
    /\ (forall e, In e all <-> live C st e /\ e_subspace e = area_subspace (aoi_area aoi)
          /\ (exists below, e_path e = area_path (aoi_area aoi) ++ below)
          /\ r_start (area_times (aoi_area aoi)) <= e_time e <= r_end (area_times (aoi_area aoi)))
    /\ NoDup all /\ newest_first all
    /\ (sum_lengths all < 2 ^ 64 -> longest_prefix (respects_strictly aoi) all res).
Proof.
  intros HS HC. destruct aoi as [[s p t any] m z]. cbn [aoi_area area_subspace area_path area_times aoi_max_count] in *.
  destruct (C33_list_partial C U ops st (AOI (Area s p (Range (r_start t) (r_end t) false) false) m z) HS)
    as (all & res & E & HI & HN & HF & HP); [reflexivity|discriminate|exact HC|].
  exists all, res. split.
  { unfold ListWithAOI in *. rewrite (list_loop_blind C s p t false any m z). exact E. }
  split; [|split; [exact HN|split; [exact HF|exact HP]]].
  intros e. rewrite HI. cbn [aoi_area].
  unfold in_area, with_end, in_range, pos_of.
  cbn [area_any area_subspace area_times area_path r_start r_end r_open pos_subspace pos_path pos_time].
  split.
  - intros (H1 & [H2|H2] & (H3 & H4) & H5); [discriminate|]. destruct H4 as [H4|H4]; [discriminate|].
    split; [exact H1|]. split; [symmetry; exact H2|]. split; [exact H5|]. lia.
  - intros (H1 & H2 & H3 & H4 & H5). split; [exact H1|]. split; [right; symmetry; exact H2|].
    split; [split; [lia|right; lia]|exact H3].
Qed.
Print Assumptions C33_every_area.

Example C33_instance_every :
  survived demo small demo_ops demo_after
  /\ ListWithAOI demo (AOI (Area [115] [[97]] (Range 0 7 true) true) 0 0) demo_after
     = (Ok [demo_e [[97]] [5; 5] 7], demo_after).
Proof. split; [apply C33_instance|]. vm_compute. reflexivity. Qed.

(** * C38: every range *)

Lemma summarise_some_fp ns size : (exists n, In n ns /\ n_fp n <> []) -> summarise_loop ns [] size = Fatal.
Proof.
  revert size. induction ns as [|n ns IH]; intros size (m & Hm & Hf); [destruct Hm|].
  cbn [summarise_loop]. unfold xorStrings. destruct (n_fp n) as [|x fp] eqn:E.
  - cbn [len length N.of_nat N.eqb negb combine map bind]. apply IH.
    destruct Hm as [ -> |Hm]; [congruence|]. exists m. auto.
  - change (len (x :: fp)) with (N.of_nat (S (length fp))). change (len (@nil N)) with 0.
    destruct (N.eqb_spec 0 (N.of_nat (S (length fp)))) as [K|K]; [lia|]. reflexivity.
Qed.

(** Whatever the index holds: a range is summarised, with the number of its entries and no fingerprint, exactly when no entry in it carries a
    fingerprint; otherwise the process ends. *)
Theorem C38_summarise_exactly t r : len t < 2 ^ 64 ->
  ((forall n, In n t -> in_range3d r (node_pos n) -> n_fp n = []) -> Summarise t r = Ok ([], len (query t r)))
  /\ ((exists n, In n t /\ in_range3d r (node_pos n) /\ n_fp n <> []) -> Summarise t r = Fatal).
Proof.
  intros HL. unfold Summarise. split.
  - intros H. rewrite (summarise_empty_fp (query t r) 0).
    + f_equal.
    + intros n Hn. apply filter_In in Hn as [H1 H2]. apply H; auto. apply IsIncluded3d_spec. exact H2.
    + assert (K : len (query t r) <= len t) by (unfold query, len; clear; induction t as [|x t IH]; cbn [filter]; [lia|]; destruct (IsIncluded3d _ _ _); cbn [length]; lia). lia.
  - intros (n & H1 & H2 & H3). apply summarise_some_fp. exists n. split; auto.
    apply filter_In. split; auto. apply IsIncluded3d_spec. exact H2.
Qed.
Print Assumptions C38_summarise_exactly.

Example C38_instance_exactly :
  let t := [Node [115] [[97]] 5 [] false; Node [115] [[98]] 7 [1; 2] false] in
  Summarise t (Range3d (Range [] [] true) (Range [] [] true) (Range 0 6 false)) = Ok ([], 1)
  /\ Summarise t (Range3d (Range [] [] true) (Range [] [] true) (Range 0 8 false)) = Fatal.
Proof. split; reflexivity. Qed.

(** * C46: every byte *)

(** A mask is set when each of its bits is. *)
Lemma has_bits h m : m < 256 ->
  has h m = forallb (fun i => implb (N.testbit m i) (N.testbit h i)) [7; 6; 5; 4; 3; 2; 1; 0].
Proof.
  intros Hm. apply eq_true_iff_eq. unfold has. rewrite N.eqb_eq, forallb_forall. split.
  - intros E i _. rewrite <- E, N.land_spec. destruct (N.testbit h i), (N.testbit m i); reflexivity.
  - intros K. apply N.bits_inj. intros i. rewrite N.land_spec.
    destruct (N.testbit m i) eqn:Em; [|apply andb_false_r]. rewrite andb_true_r.
    assert (Hi : i < 8).
    { destruct (N.le_gt_cases 8 i) as [L|L]; [|exact L]. exfalso.
      assert (N.testbit m i = false); [|congruence].
      rewrite <- (N.mod_small m (2 ^ 8)) by exact Hm. apply N.mod_pow2_bits_high. exact L. }
    assert (Hin : In i [7; 6; 5; 4; 3; 2; 1; 0]).
    { cbn [In]. lia. }
    specialize (K i Hin). rewrite Em in K. destruct (N.testbit h i); [reflexivity|discriminate K].
Qed.

(** The dispatcher on any byte, by its bits, bit 7 the highest. With bit 7: control messages. With bit 6 and not 7: a reply or a payload request
    when bits 5 and 4, or 5, 3 and 2 are set; else with bit 4 a reconciliation message by what is awaited; else a fingerprint. With bit 5
    as the highest: nothing. Below: private area intersection. *)
Theorem C46_every_byte h awaiting remaining :
  dispatch h awaiting remaining =
  let b := N.testbit h in
  if b 7 then
    if b 4 then if b 3 then Calls ControlApologise else Calls ControlAnnounceDropping
    else if b 3 then if b 2 then Calls ControlFree else Calls ControlPlead
    else if b 2 then Calls ControlAbsolve else Calls ControlIssueGuarantee
  else if b 6 then
    if b 5 && b 4 then Calls DataReplyPayload
    else if b 5 && b 3 && b 2 then Calls DataBindPayloadRequest
    else if b 4 then
      if awaiting then if b 3 then Reports ReconciliationSendPayload else Calls ReconciliationSendPayload
      else if remaining =? 0 then Calls ReconciliationAnnounceEntries else Calls ReconciliationSendEntry
    else Calls ReconciliationSendFingerprint
  else if b 5 then Nothing
  else if b 4 then Calls PaiReplySubspaceCapability
  else if b 3 then if b 2 then Calls PaiRequestSubspaceCapability else Calls PaiReplyFragment
  else if b 2 then Calls PaiBindFragment else Nothing.
Proof.
  assert (E : (0 <? remaining) = negb (remaining =? 0))
    by (destruct (N.ltb_spec 0 remaining), (N.eqb_spec remaining 0); cbn [negb]; auto; lia).
  unfold dispatch. rewrite E. generalize (remaining =? 0). intros z. clear E remaining.
  destruct (N.eqb_spec h 0) as [->|_]; [reflexivity|].
  rewrite !has_bits by reflexivity.
  repeat match goal with |- context[N.testbit (N.pos ?p) ?i] =>
    let v := eval vm_compute in (N.testbit (N.pos p) i) in change (N.testbit (N.pos p) i) with v end.
  cbn [forallb implb N.testbit].
  destruct (N.testbit h 7), (N.testbit h 6), (N.testbit h 5), (N.testbit h 4), (N.testbit h 3), (N.testbit h 2), awaiting, z; reflexivity.
Qed.
Print Assumptions C46_every_byte.

Example C46_instance_every :
  dispatch 36 true 3 = Nothing /\ dispatch 31 false 0 = Calls PaiReplySubspaceCapability /\ dispatch 88 true 0 = Reports ReconciliationSendPayload.
Proof. repeat split. Qed.
