(** Proofs about M_Areas. *)
From Verif Require Import Base M_Order M_Paths M_Successor M_Ranges M_Areas S_Order
  P_Order P_Encoding P_Paths P_Ranges P_Successor.
Local Open Scope Z_scope.

Lemma IsSubspaceIncludedInArea_spec a s :
  IsSubspaceIncludedInArea OrderSubspace a s = true <-> area_any a = true \/ area_subspace a = s.
Proof.
  unfold IsSubspaceIncludedInArea. destruct (area_any a); [tauto|].
  rewrite (order_eqb0 _ _ OrderSubspace_total). intuition discriminate.
Qed.

Lemma IsIncludedArea_spec a p : IsIncludedArea OrderSubspace a p = true <-> in_area a p.
Proof.
  unfold IsIncludedArea, in_area.
  rewrite <- IsSubspaceIncludedInArea_spec, <- IsPathPrefixed_spec.
  rewrite <- (IsIncludedRange_spec _ _ OrderTimestamp_total).
  destruct (IsSubspaceIncludedInArea _ _ _), (IsIncludedRange _ _ _), (IsPathPrefixed _ _);
    cbn; intuition discriminate.
Qed.

Lemma FullArea_all p : in_area FullArea p.
Proof. repeat split; cbn; auto; [apply N.nlt_0_r|apply prefix_of_nil]. Qed.

Lemma SubspaceArea_spec s p : in_area (SubspaceArea s) p <-> pos_subspace p = s.
Proof.
  unfold in_area; cbn. split.
  - intros ([H|H] & _); [discriminate|auto].
  - intros <-. split; auto. split; [|apply prefix_of_nil]. split; cbn; auto. apply N.nlt_0_r.
Qed.

Lemma other_subspace (s : bytes) : s <> s ++ [0%N].
Proof. intros H. apply (f_equal (@length N)) in H. rewrite app_length in H. cbn in H. lia. Qed.

(** ** Containment *)
Lemma AreaIsIncluded_sound inner outer :
  AreaIsIncluded OrderSubspace inner outer = true ->
  forall p, in_area inner p -> in_area outer p.
Proof.
  unfold AreaIsIncluded, in_area. intros H p (P1 & P2 & P3).
  destruct (IsPathPrefixed (area_path outer) (area_path inner)) eqn:E1;
    cbn [negb] in H; [|repeat match type of H with (if ?b then _ else _) = _ => destruct b end; discriminate].
  apply IsPathPrefixed_spec in E1.
  destruct (RangeIsIncluded OrderTimestamp (area_times outer) (area_times inner)) eqn:E2;
    cbn [negb] in H; [|repeat match type of H with (if ?b then _ else _) = _ => destruct b end; discriminate].
  split; [|split].
  - destruct (area_any outer); auto. destruct (area_any inner); [discriminate|].
    right. destruct (OrderSubspace (area_subspace outer) (area_subspace inner) =? 0) eqn:E3; [|discriminate].
    apply (order_eqb0 _ _ OrderSubspace_total) in E3. destruct P1 as [?|P1]; [discriminate|]. congruence.
  - eapply RangeIsIncluded_sound; eauto using OrderTimestamp_total.
  - eapply prefix_of_trans; eauto.
Qed.

Lemma AreaIsIncluded_complete inner outer :
  valid_range N.lt (area_times inner) ->
  (forall p, in_area inner p -> in_area outer p) ->
  AreaIsIncluded OrderSubspace inner outer = true.
Proof.
  intros V H. unfold AreaIsIncluded.
  pose proof (valid_range_start _ _ OrderTimestamp_total _ V) as Vs.
  assert (Hin : forall s t, area_any inner = true \/ area_subspace inner = s ->
            in_range N.lt (area_times inner) t -> in_area outer (Position s (area_path inner) t)).
  { intros s t Hs Ht. apply H. split; [|split]; cbn; auto. apply prefix_of_refl. }
  destruct (area_any outer) eqn:Eo, (area_any inner) eqn:Ei; cbn [negb andb].
  - pose proof (Hin [] _ (or_introl eq_refl) Vs) as (_ & _ & K3). cbn in K3.
    apply IsPathPrefixed_spec in K3. rewrite K3. cbn [negb].
    rewrite (RangeIsIncluded_complete _ _ OrderTimestamp_total); auto.
    intros t Ht. apply (Hin [] t (or_introl eq_refl) Ht).
  - pose proof (Hin _ _ (or_intror eq_refl) Vs) as (_ & _ & K3). cbn in K3.
    apply IsPathPrefixed_spec in K3. rewrite K3. cbn [negb].
    rewrite (RangeIsIncluded_complete _ _ OrderTimestamp_total); auto.
    intros t Ht. apply (Hin _ t (or_intror eq_refl) Ht).
  - pose proof (Hin (area_subspace outer ++ [0%N]) _ (or_introl eq_refl) Vs) as (K1 & _).
    destruct K1 as [K1|K1]; [congruence|]. cbn in K1. apply other_subspace in K1. tauto.
  - pose proof (Hin _ _ (or_intror eq_refl) Vs) as (K1 & _ & K3). cbn in K1, K3.
    destruct K1 as [K1|K1]; [congruence|]. rewrite K1, (order_refl _ _ OrderSubspace_total). cbn [negb Z.eqb].
    apply IsPathPrefixed_spec in K3. rewrite K3. cbn [negb].
    rewrite (RangeIsIncluded_complete _ _ OrderTimestamp_total); auto.
    intros t Ht. apply (Hin _ t (or_intror eq_refl) Ht).
Qed.

(** ** Intersection *)
Lemma prefix_comparable {A} (p q r : list A) : prefix_of p r -> prefix_of q r -> prefix_of p q \/ prefix_of q p.
Proof.
  intros Hp Hq. destruct (Nat.le_gt_cases (length p) (length q)).
  - left. eapply prefix_of_both; eauto.
  - right. eapply prefix_of_both; eauto. lia.
Qed.

(** Set-theoretic reading of the result, with the Any_subspace flag that the
    code drops put back. *)
Definition fix_any (a b r : area) : area :=
  Area (if area_any a then area_subspace b else area_subspace a) (area_path r) (area_times r)
    (area_any a && area_any b).

Lemma IntersectArea_some a b r :
  IntersectArea OrderSubspace a b = Some r ->
  area_subspace r = area_subspace a /\ area_any r = false
  /\ forall p, in_area (fix_any a b r) p <-> in_area a p /\ in_area b p.
Proof.
  unfold IntersectArea, in_area, fix_any.
  destruct (negb (area_any a) && negb (area_any b) && negb _) eqn:E1; [discriminate|].
  assert (Hsub : area_any a = true \/ area_any b = true \/ area_subspace a = area_subspace b).
  { destruct (area_any a), (area_any b); auto. right; right.
    cbn in E1. apply negb_false_iff in E1. apply (order_eqb0 _ _ OrderSubspace_total) in E1. auto. }
  destruct (IsPathPrefixed (area_path a) (area_path b)) eqn:PA;
  destruct (IsPathPrefixed (area_path b) (area_path a)) eqn:PB; cbn [negb andb]; try discriminate;
  pose proof (IntersectRange_spec _ _ 0%N OrderTimestamp_total (area_times a) (area_times b)) as HT;
  destruct (IntersectRange OrderTimestamp _ _ _) as [t|]; try discriminate;
  intros [= <-]; cbn [area_subspace area_path area_times area_any]; (split; [reflexivity|split; [reflexivity|]]);
  intros p; specialize (HT (pos_time p)); rewrite HT;
  try apply IsPathPrefixed_spec in PA; try apply IsPathPrefixed_spec in PB;
  (assert (HS : (area_any a && area_any b = true \/
            (if area_any a then area_subspace b else area_subspace a) = pos_subspace p) <->
           (area_any a = true \/ area_subspace a = pos_subspace p) /\
           (area_any b = true \/ area_subspace b = pos_subspace p));
   [destruct (area_any a), (area_any b); cbn; intuition; try discriminate; try congruence; right; congruence|rewrite HS]).
  - assert (HPr : prefix_of (area_path b) (pos_path p) -> prefix_of (area_path a) (pos_path p))
      by (intros; eapply prefix_of_trans; eauto). clear - HPr. tauto.
  - assert (HPr : prefix_of (area_path b) (pos_path p) -> prefix_of (area_path a) (pos_path p))
      by (intros; eapply prefix_of_trans; eauto). clear - HPr. tauto.
  - assert (HPr : prefix_of (area_path a) (pos_path p) -> prefix_of (area_path b) (pos_path p))
      by (intros; eapply prefix_of_trans; eauto). clear - HPr. tauto.
Qed.

Lemma IntersectArea_none a b :
  IntersectArea OrderSubspace a b = None -> forall p, ~ (in_area a p /\ in_area b p).
Proof.
  unfold IntersectArea, in_area. intros H p ((A1 & A2 & A3) & (B1 & B2 & B3)).
  destruct (negb (area_any a) && negb (area_any b) && negb _) eqn:E1.
  - destruct (area_any a), (area_any b); cbn in E1; try discriminate.
    destruct A1 as [?|A1], B1 as [?|B1]; try discriminate. rewrite A1, B1 in E1.
    rewrite (order_refl _ _ OrderSubspace_total) in E1. discriminate.
  - pose proof (IntersectRange_spec _ _ 0%N OrderTimestamp_total (area_times a) (area_times b)) as HT.
    destruct (prefix_comparable _ _ _ A3 B3) as [K|K]; apply IsPathPrefixed_spec in K; rewrite K in H; cbn [negb andb] in H;
    rewrite ?andb_false_r in H;
    destruct (IntersectRange OrderTimestamp _ _ _) as [t|].
    + destruct (IsPathPrefixed (area_path b) (area_path a)); discriminate.
    + apply (HT (pos_time p)); auto.
    + destruct (IsPathPrefixed (area_path a) (area_path b)); discriminate.
    + apply (HT (pos_time p)); auto.
Qed.

Lemma IntersectArea_exact a b :
  area_any a = false ->
  match IntersectArea OrderSubspace a b with
  | Some r => forall p, in_area r p <-> in_area a p /\ in_area b p
  | None => forall p, ~ (in_area a p /\ in_area b p)
  end.
Proof.
  intros Ha. destruct (IntersectArea OrderSubspace a b) as [r|] eqn:E.
  - destruct (IntersectArea_some _ _ _ E) as (H1 & H2 & H3). intros p. rewrite <- H3.
    unfold fix_any, in_area; cbn. rewrite Ha. cbn. rewrite <- H1, H2. tauto.
  - apply IntersectArea_none; auto.
Qed.

Lemma IntersectArea_nonempty a b r :
  valid_range N.lt (area_times a) -> valid_range N.lt (area_times b) ->
  IntersectArea OrderSubspace a b = Some r -> exists p, in_area a p /\ in_area b p.
Proof.
  intros Va Vb H. destruct (IntersectArea_some _ _ _ H) as (_ & _ & H3).
  assert (V : valid_range N.lt (area_times r)).
  { unfold IntersectArea in H. destruct (negb _ && negb _ && negb _); [discriminate|].
    destruct (negb _ && negb _); [discriminate|].
    destruct (IntersectRange OrderTimestamp 0%N (area_times a) (area_times b)) as [t|] eqn:E; [|discriminate].
    apply (IntersectRange_valid _ _ _ OrderTimestamp_total) in E; auto.
    destruct (IsPathPrefixed _ _); inversion H; subst; auto. }
  exists (Position (if area_any a then area_subspace b else area_subspace a) (area_path r) (r_start (area_times r))).
  apply H3. unfold fix_any, in_area; cbn. split; [auto|split; [|apply prefix_of_refl]].
  apply (valid_range_start _ _ OrderTimestamp_total); auto.
Qed.

(** ** AreaTo3dRange *)

Lemma subspace_singleton s x :
  in_range bytes_lt (Range s (SuccessorSubspaceId s) false) x <-> s = x.
Proof.
  unfold in_range, SuccessorSubspaceId; cbn. split.
  - intros [H1 [?|H2]]; [discriminate|]. apply bytes_le_lt in H1. destruct H1 as [H1|H1]; auto.
    apply append_zero_least in H1. apply bytes_le_lt in H1. tauto.
  - intros ->. split; [apply bytes_lt_irrefl|right; apply bytes_lt_append_zero].
Qed.

Lemma prefix_path_le (p q : path) : prefix_of p q -> path_le p q.
Proof.
  intros [s ->]. destruct s; [right; rewrite app_nil_r; auto|left; apply lex_prefix].
Qed.

(** The exactness statement needs only that the call neither ends the process
    nor writes into the area's path. *)
Lemma AreaTo3dRange_exact minimal pp a r p :
  params_ok pp -> wf_path (area_path a) -> within_limits pp (area_path a) ->
  (forall s, bytes_le minimal s) ->
  SuccessorPrefix_caller (area_path a) pp = area_path a ->
  AreaTo3dRange minimal SuccessorSubspaceId pp a = Ok r ->
  wf_path (pos_path p) -> within_limits pp (pos_path p) ->
  in_range3d r p <-> in_area a p.
Proof.
  intros PO Hw Hl Hmin Hcall H Hwp Hlp. unfold AreaTo3dRange in H.
  pose proof (SuccessorPrefix_spec pp (area_path a) PO Hw Hl) as HS.
  unfold SuccessorPrefix_caller in Hcall. unfold SuccessorPrefix in HS.
  destruct (SuccessorPrefix_full (area_path a) pp) as [e start]. cbn [fst snd] in *. subst start.
  destruct e as [e| | | |]; cbn [bind] in H; try discriminate. inversion H; subst r; clear H.
  unfold in_range3d, in_area. cbn [subspace_range path_range time_range].
  assert (Hsub : in_range bytes_lt (if negb (area_any a) then Range (area_subspace a) (SuccessorSubspaceId (area_subspace a)) false
                                    else Range minimal [] true) (pos_subspace p)
                 <-> area_any a = true \/ area_subspace a = pos_subspace p).
  { destruct (area_any a); cbn [negb].
    - unfold in_range; cbn. split; auto. intros _. split; auto. apply bytes_le_lt. auto.
    - rewrite subspace_singleton. intuition discriminate. }
  rewrite Hsub.
  match goal with |- context [in_range path_lt ?R (pos_path p)] =>
    assert (Hpath : in_range path_lt R (pos_path p) <-> prefix_of (area_path a) (pos_path p)) end.
  { destruct e as [[|c q]|].
    - destruct HS as (H1 & _). specialize (H1 []). inversion H1.
    - destruct HS as (H1 & H2 & _). unfold in_range; cbn [r_start r_end r_open]. rewrite <- path_le_lt. split.
      + intros [K [?|L]]; [discriminate|]. apply H2; auto.
      + intros K. split; [apply prefix_path_le; auto|]. right. destruct K as [s Ks]. rewrite Ks. apply H1.
    - unfold in_range; cbn. rewrite <- path_le_lt. split.
      + intros [K _]. destruct K as [K|K]; [|rewrite K; apply prefix_of_refl].
        destruct (HS _ Hwp Hlp) as (s & _ & Q). apply path_le_lt in Q. destruct Q as [Q|Q]; [|exists s; auto].
        destruct (between_prefix (area_path a) [] s (pos_path p)) as (w & -> & _); auto.
        * rewrite app_nil_r. left; auto.
        * exists w; reflexivity.
      + intros K. split; auto. apply prefix_path_le; auto. }
  rewrite Hpath. tauto.
Qed.
