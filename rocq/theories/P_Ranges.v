(** Proofs about M_Ranges. *)
From Verif Require Import Base M_Order M_Ranges S_Order P_Order.
Local Open Scope Z_scope.

Section Generic.
Context {A : Type} (lt : A -> A -> Prop) (order : A -> A -> Z) (zero : A).
Hypothesis TO : total_order lt order.

Let Hge := order_ge0 lt order TO.
Let Hle := order_le0 lt order TO.
Let Hlt := order_lt0 lt order TO.
Let Hgt := order_gt0 lt order TO.
Let Hm1 := order_eqm1 lt order TO.

Lemma lt_dec a b : {lt a b} + {~ lt a b}.
Proof.
  destruct (order a b <? 0) eqn:E.
  - left. apply Hlt, E.
  - right. intros L. apply Hlt in L. congruence.
Qed.

Lemma IsValidRange_spec r : IsValidRange order r = true <-> valid_range lt r.
Proof.
  unfold IsValidRange, valid_range. destruct (r_open r).
  - tauto.
  - rewrite Hlt. intuition discriminate.
Qed.

Lemma IsIncludedRange_spec r v : IsIncludedRange order r v = true <-> in_range lt r v.
Proof.
  unfold IsIncludedRange, in_range.
  destruct (order v (r_start r) >=? 0) eqn:E.
  - apply Hge in E. destruct (r_open r); cbn [orb negb].
    + tauto.
    + rewrite Hm1. intuition discriminate.
  - assert (~ ~ lt v (r_start r)). { intros H. apply Hge in H. congruence. }
    rewrite orb_true_r. split; [discriminate|tauto].
Qed.

Lemma invalid_range_empty r : IsValidRange order r = false -> forall v, ~ in_range lt r v.
Proof.
  unfold IsValidRange, in_range. destruct (r_open r); [discriminate|].
  intros H v [H1 [H2|H2]]; [discriminate|].
  assert (lt (r_start r) (r_end r)) by (eapply not_lt_trans; eauto).
  apply Hlt in H0. congruence.
Qed.

Lemma valid_range_start r : valid_range lt r -> in_range lt r (r_start r).
Proof.
  pose proof TO as [[Hi _ _] _]. intros [H|H]; split; auto.
Qed.

Ltac tb := match goal with
  | H : (order _ _ >=? 0) = true |- _ => apply Hge in H
  | H : (order _ _ <=? 0) = true |- _ => apply Hle in H
  | H : (order _ _ <? 0) = true |- _ => apply Hlt in H
  | H : (order _ _ >? 0) = true |- _ => apply Hgt in H
  | H : (order ?a ?b >=? 0) = false |- _ =>
      assert (lt a b) by (destruct (lt_dec a b) as [?|?n]; [auto|apply Hge in n; congruence]); clear H
  | H : (order ?a ?b <=? 0) = false |- _ =>
      assert (lt b a) by (destruct (lt_dec b a) as [?|?n]; [auto|apply Hle in n; congruence]); clear H
  | H : (order ?a ?b <? 0) = false |- _ =>
      assert (~ lt a b) by (intros ?n; apply Hlt in n; congruence); clear H
  | H : (order ?a ?b >? 0) = false |- _ =>
      assert (~ lt b a) by (intros ?n; apply Hgt in n; congruence); clear H
  end.

Let NLT := not_lt_trans lt order TO.
Let LNT := lt_not_trans lt order TO.
Let LLT := le_le_trans lt order TO.

(** Saturation with transitivity, to refute a set of order facts. *)
Ltac new P t := lazymatch goal with H : P |- _ => fail | _ => assert P by exact t end.
Ltac sat := repeat match goal with
  | H : lt ?a ?a |- _ => exfalso; exact (sto_irrefl _ (proj1 TO) a H)
  | H1 : lt ?a ?b, H2 : ~ lt ?a ?b |- _ => contradiction
  | H1 : lt ?a ?b, H2 : lt ?b ?c |- _ => new (lt a c) (sto_trans _ (proj1 TO) a b c H1 H2)
  | H1 : lt ?a ?b, H2 : ~ lt ?c ?b |- _ => new (lt a c) (LNT a b c H1 H2)
  | H1 : ~ lt ?b ?a, H2 : lt ?b ?c |- _ => new (lt a c) (NLT a b c H1 H2)
  end.
Ltac osolve := repeat match goal with
  | |- _ <-> _ => split
  | |- _ /\ _ => split
  | |- forall _, _ => intro
  | |- ~ _ => intro
  | H : _ /\ _ |- _ => destruct H
  | H : _ \/ _ |- _ => destruct H
  | H : true = false |- _ => discriminate
  | H : false = true |- _ => discriminate
  | |- true = true \/ _ => left; reflexivity
  | |- false = true \/ _ => right
  | |- lt ?a ?b => destruct (lt_dec a b) as [?|?]; [assumption|exfalso]
  end; sat.

Lemma IntersectRange_spec a b :
  match IntersectRange order zero a b with
  | Some r => forall v, in_range lt r v <-> in_range lt a v /\ in_range lt b v
  | None => forall v, ~ (in_range lt a v /\ in_range lt b v)
  end.
Proof.
  
  
  unfold IntersectRange, OrderRangePair, in_range.
  destruct a as [sa ea oa], b as [sb eb ob]; cbn [r_start r_end r_open].
  destruct oa, ob; cbn [negb andb orb r_start r_end r_open].
  - destruct (order sa sb <=? 0) eqn:E; tb; cbn; osolve.
  - destruct (order sa sb <=? 0) eqn:E; tb.
    + cbn; osolve.
    + destruct (order sa sb >? 0) eqn:E2; tb; [|sat]. cbn [andb].
      destruct (order sa eb <? 0) eqn:E3; tb; cbn; osolve.
  - destruct (order sb sa <=? 0) eqn:E; tb.
    + cbn; osolve.
    + destruct (order sb sa >? 0) eqn:E2; tb; [|sat]. cbn [andb].
      destruct (order sb ea <? 0) eqn:E3; tb; cbn; osolve.
  - destruct (order sa sb >=? 0) eqn:E; tb; cbn [r_start r_end r_open].
    + destruct (order eb sa <=? 0) eqn:E2; tb.
      * osolve.
      * cbn. destruct (order eb ea <? 0) eqn:E3; tb; osolve.
    + destruct (order ea sb <=? 0) eqn:E2; tb.
      * osolve.
      * cbn. destruct (order ea eb <? 0) eqn:E3; tb; osolve.
Qed.

Lemma IntersectRange_valid a b r :
  valid_range lt a -> valid_range lt b ->
  IntersectRange order zero a b = Some r -> valid_range lt r.
Proof.
  unfold IntersectRange, OrderRangePair, valid_range.
  destruct a as [sa ea oa], b as [sb eb ob]; cbn [r_start r_end r_open].
  destruct oa, ob; cbn [negb andb orb r_start r_end r_open]; intros Va Vb.
  - intros [= <-]; auto.
  - destruct (order sa sb <=? 0) eqn:E; tb; [intros [= <-]; auto|].
    destruct (order sa sb >? 0) eqn:E2; tb; [|discriminate]. cbn [andb].
    destruct (order sa eb <? 0) eqn:E3; tb; [|discriminate]. intros [= <-]; auto.
  - destruct (order sb sa <=? 0) eqn:E; tb; [intros [= <-]; auto|].
    destruct (order sb sa >? 0) eqn:E2; tb; [|discriminate]. cbn [andb].
    destruct (order sb ea <? 0) eqn:E3; tb; [|discriminate]. intros [= <-]; auto.
  - destruct Va as [?|Va], Vb as [?|Vb]; try discriminate.
    destruct (order sa sb >=? 0) eqn:E; tb; cbn [r_start r_end r_open].
    + destruct (order eb sa <=? 0) eqn:E2; tb; [discriminate|].
      destruct (order eb ea <? 0) eqn:E3; intros [= <-]; auto.
    + destruct (order ea sb <=? 0) eqn:E2; tb; [discriminate|].
      destruct (order ea eb <? 0) eqn:E3; intros [= <-]; auto.
Qed.

Lemma RangeIsIncluded_sound parent child :
  RangeIsIncluded order parent child = true ->
  forall v, in_range lt child v -> in_range lt parent v.
Proof.
  unfold RangeIsIncluded, in_range.
  destruct parent as [sp ep op], child as [sc ec oc]; cbn [r_start r_end r_open].
  destruct oc, op; cbn [negb andb]; try discriminate; intros H v [V1 V2].
  - tb. eauto.
  - tb. eauto.
  - destruct (order sc sp >=? 0) eqn:E; cbn [negb] in H; [|discriminate].
    repeat tb. split; [eauto|]. right. destruct V2 as [?|V2]; [discriminate|eauto].
Qed.

Lemma RangeIsIncluded_complete parent child :
  valid_range lt child ->
  (forall v, in_range lt child v -> in_range lt parent v) ->
  RangeIsIncluded order parent child = true.
Proof.
  pose proof TO as [[Hi Ht Htot] _].
  unfold RangeIsIncluded, in_range, valid_range.
  destruct parent as [sp ep op], child as [sc ec oc]; cbn [r_start r_end r_open].
  intros V H.
  destruct oc, op; cbn [negb andb].
  - apply Hge. apply (H sc). auto.
  - exfalso. destruct (lt_dec sc ep) as [L|L].
    + destruct (H ep) as [_ [?|?]]; [|discriminate|eapply Hi; eauto]. split; auto.
      intros ?; eapply Hi; eauto.
    + destruct (H sc) as [_ [?|?]]; [|discriminate|auto]. auto.
  - apply Hge. destruct V as [?|V]; [discriminate|]. apply (H sc). auto.
  - destruct V as [?|V]; [discriminate|].
    assert (E : (order sc sp >=? 0) = true) by (apply Hge; apply (H sc); auto).
    rewrite E. cbn [negb]. apply Hle. intros L.
    destruct (lt_dec sc ep) as [L'|L'].
    + destruct (H ep) as [_ [?|?]]; [|discriminate|eapply Hi; eauto]. split; auto.
      intros ?; eapply Hi; eauto.
    + destruct (H sc) as [_ [?|?]]; [|discriminate|auto]. auto.
Qed.
End Generic.

Lemma IsIncluded3d_spec r p : IsIncluded3d OrderSubspace r p = true <-> in_range3d r p.
Proof.
  unfold IsIncluded3d, in_range3d.
  rewrite <- (IsIncludedRange_spec _ _ OrderSubspace_total).
  rewrite <- (IsIncludedRange_spec _ _ OrderPath_total).
  rewrite <- (IsIncludedRange_spec _ _ OrderTimestamp_total).
  destruct (IsIncludedRange OrderTimestamp _ _), (IsIncludedRange OrderPath _ _),
    (IsIncludedRange OrderSubspace _ _); cbn; intuition discriminate.
Qed.

Lemma IsValidRange3d_spec r : IsValidRange3d OrderSubspace r = true <-> valid_range3d r.
Proof.
  unfold IsValidRange3d, valid_range3d.
  rewrite <- (IsValidRange_spec _ _ OrderSubspace_total).
  rewrite <- (IsValidRange_spec _ _ OrderPath_total).
  rewrite <- (IsValidRange_spec _ _ OrderTimestamp_total).
  destruct (IsValidRange OrderTimestamp _), (IsValidRange OrderPath _),
    (IsValidRange OrderSubspace _); cbn; intuition discriminate.
Qed.

Lemma IntersectRange3d_spec a b :
  match IntersectRange3d OrderSubspace a b with
  | Some r => forall p, in_range3d r p <-> in_range3d a p /\ in_range3d b p
  | None => forall p, ~ (in_range3d a p /\ in_range3d b p)
  end.
Proof.
  unfold IntersectRange3d, in_range3d.
  pose proof (IntersectRange_spec _ _ 0%N OrderTimestamp_total (time_range a) (time_range b)) as HT.
  destruct (IntersectRange OrderTimestamp _ _ _) as [t|].
  2:{ intros p. specialize (HT (pos_time p)). tauto. }
  pose proof (IntersectRange_spec _ _ ([] : bytes) OrderSubspace_total (subspace_range a) (subspace_range b)) as HS.
  destruct (IntersectRange OrderSubspace _ _ _) as [s|].
  2:{ intros p. specialize (HS (pos_subspace p)). tauto. }
  pose proof (IntersectRange_spec _ _ ([] : path) OrderPath_total (path_range a) (path_range b)) as HP.
  destruct (IntersectRange OrderPath _ _ _) as [q|].
  2:{ intros p. specialize (HP (pos_path p)). tauto. }
  intros p. cbn [subspace_range path_range time_range]. rewrite HT, HS, HP. tauto.
Qed.

Lemma IntersectRange3d_valid a b r :
  valid_range3d a -> valid_range3d b ->
  IntersectRange3d OrderSubspace a b = Some r -> valid_range3d r.
Proof.
  unfold IntersectRange3d, valid_range3d. intros (A1 & A2 & A3) (B1 & B2 & B3).
  destruct (IntersectRange OrderTimestamp _ _ _) as [t|] eqn:ET; [|discriminate].
  destruct (IntersectRange OrderSubspace _ _ _) as [s|] eqn:ES; [|discriminate].
  destruct (IntersectRange OrderPath _ _ _) as [q|] eqn:EP; [|discriminate].
  intros [= <-]. cbn. repeat split.
  - eapply (IntersectRange_valid _ _ ([] : bytes) OrderSubspace_total); [| |exact ES]; auto.
  - eapply (IntersectRange_valid _ _ ([] : path) OrderPath_total); [| |exact EP]; auto.
  - eapply (IntersectRange_valid _ _ 0%N OrderTimestamp_total); [| |exact ET]; auto.
Qed.
