(** C01-C05: comparators and ranges. *)
From Verif Require Import Base M_Order M_Ranges S_Order P_Order P_Ranges.
Local Open Scope N_scope.

(** * C01: comparators are total orders *)

Theorem C01_OrderBytes : strict_total_order bytes_lt /\ decides bytes_lt OrderBytes.
Proof. exact OrderBytes_total. Qed.
Print Assumptions C01_OrderBytes.
Theorem C01_OrderSubspace : strict_total_order bytes_lt /\ decides bytes_lt OrderSubspace.
Proof. exact OrderSubspace_total. Qed.
Print Assumptions C01_OrderSubspace.
Theorem C01_OrderTimestamp : strict_total_order N.lt /\ decides N.lt OrderTimestamp.
Proof. exact OrderTimestamp_total. Qed.
Print Assumptions C01_OrderTimestamp.
Theorem C01_OrderPath : strict_total_order path_lt /\ decides path_lt OrderPath.
Proof. exact OrderPath_total. Qed.
Print Assumptions C01_OrderPath.
Theorem C01_OrderSubspace_agrees a b : OrderSubspace a b = OrderBytes a b.
Proof. exact (OrderSubspace_OrderBytes a b). Qed.
Print Assumptions C01_OrderSubspace_agrees.

Example C01_instance :
  OrderBytes [1; 2] [1; 2; 0] = (-1)%Z /\ OrderSubspace [9; 160] [9; 17; 255] = 1%Z
  /\ OrderPath [[1]; [2]] [[1; 0]] = (-1)%Z /\ OrderPath [[7]] [[7]] = 0%Z.
Proof. vm_compute. auto. Qed.

(** * C02: range membership is interval membership *)

Theorem C02_membership A (lt : A -> A -> Prop) order r v :
  total_order lt order ->
  (IsIncludedRange order r v = true <-> ~ lt v (r_start r) /\ (r_open r = true \/ lt v (r_end r))).
Proof. intros TO. exact (IsIncludedRange_spec lt order TO r v). Qed.
Print Assumptions C02_membership.

Theorem C02_validity A (lt : A -> A -> Prop) order r :
  total_order lt order ->
  (IsValidRange order r = true <-> r_open r = true \/ lt (r_start r) (r_end r)).
Proof. intros TO. exact (IsValidRange_spec lt order TO r). Qed.
Print Assumptions C02_validity.

Theorem C02_invalid_is_empty A (lt : A -> A -> Prop) order r v :
  total_order lt order -> IsValidRange order r = false -> IsIncludedRange order r v = false.
Proof.
  intros TO H. apply not_true_is_false. rewrite (IsIncludedRange_spec lt order TO).
  exact (invalid_range_empty lt order TO r H v).
Qed.
Print Assumptions C02_invalid_is_empty.

Theorem C02_valid_has_start A (lt : A -> A -> Prop) order r :
  total_order lt order -> IsValidRange order r = true -> IsIncludedRange order r (r_start r) = true.
Proof.
  intros TO H. apply (IsIncludedRange_spec lt order TO). apply (valid_range_start lt order TO).
  apply (IsValidRange_spec lt order TO). exact H.
Qed.
Print Assumptions C02_valid_has_start.

Example C02_instance :
  total_order path_lt OrderPath
  /\ IsIncludedRange OrderPath (Range [[1]] [[1; 0]] false) [[1]; [200]] = true
  /\ IsValidRange OrderTimestamp (Range 5 5 false) = false
  /\ IsIncludedRange OrderTimestamp (Range 5 5 false) 5 = false.
Proof. split; [exact OrderPath_total|vm_compute; auto]. Qed.

(** * C03: range intersection is set intersection *)

Theorem C03_intersection A (lt : A -> A -> Prop) order zero a b :
  total_order lt order ->
  match IntersectRange order zero a b with
  | Some r => forall v, in_range lt r v <-> in_range lt a v /\ in_range lt b v
  | None => forall v, ~ (in_range lt a v /\ in_range lt b v)
  end.
Proof. intros TO. exact (IntersectRange_spec lt order zero TO a b). Qed.
Print Assumptions C03_intersection.

Theorem C03_nonempty A (lt : A -> A -> Prop) order zero a b :
  total_order lt order -> valid_range lt a -> valid_range lt b ->
  ((exists r, IntersectRange order zero a b = Some r) <-> exists v, in_range lt a v /\ in_range lt b v).
Proof.
  intros TO Va Vb. pose proof (IntersectRange_spec lt order zero TO a b) as H.
  destruct (IntersectRange order zero a b) as [r|] eqn:E.
  - split; [|eauto]. intros _. exists (r_start r). apply H. apply (valid_range_start lt order TO).
    exact (IntersectRange_valid lt order zero TO a b r Va Vb E).
  - split; [intros [? ?]; discriminate|]. intros [v Hv]. destruct (H v Hv).
Qed.
Print Assumptions C03_nonempty.

Example C03_instance :
  valid_range N.lt (Range 3 9 false) /\ valid_range N.lt (Range 5 0 true)
  /\ IntersectRange OrderTimestamp 0 (Range 3 9 false) (Range 5 0 true) = Some (Range 5 9 false)
  /\ IntersectRange OrderTimestamp 0 (Range 3 5 false) (Range 5 7 false) = None.
Proof. vm_compute. auto. Qed.

(** * C04: range containment *)

Theorem C04_sound A (lt : A -> A -> Prop) order parent child :
  total_order lt order -> RangeIsIncluded order parent child = true ->
  forall v, in_range lt child v -> in_range lt parent v.
Proof. intros TO. exact (RangeIsIncluded_sound lt order TO parent child). Qed.
Print Assumptions C04_sound.

Theorem C04_complete A (lt : A -> A -> Prop) order parent child :
  total_order lt order -> valid_range lt child ->
  (forall v, in_range lt child v -> in_range lt parent v) ->
  RangeIsIncluded order parent child = true.
Proof. intros TO. exact (RangeIsIncluded_complete lt order TO parent child). Qed.
Print Assumptions C04_complete.

Example C04_instance :
  RangeIsIncluded OrderBytes (Range [1] [9] false) (Range [1; 1] [9] false) = true
  /\ RangeIsIncluded OrderBytes (Range [1] [9] false) (Range [2] [] true) = false
  /\ valid_range bytes_lt (Range [2] [] true).
Proof. vm_compute. auto. Qed.

(** * C05: 3d ranges *)

Theorem C05_membership r p :
  IsIncluded3d OrderSubspace r p = true <->
  in_range bytes_lt (subspace_range r) (pos_subspace p)
  /\ in_range path_lt (path_range r) (pos_path p)
  /\ in_range N.lt (time_range r) (pos_time p).
Proof. exact (IsIncluded3d_spec r p). Qed.
Print Assumptions C05_membership.

Theorem C05_validity r :
  IsValidRange3d OrderSubspace r = true <->
  valid_range bytes_lt (subspace_range r) /\ valid_range path_lt (path_range r)
  /\ valid_range N.lt (time_range r).
Proof. exact (IsValidRange3d_spec r). Qed.
Print Assumptions C05_validity.

Theorem C05_intersection a b :
  match IntersectRange3d OrderSubspace a b with
  | Some r => forall p, in_range3d r p <-> in_range3d a p /\ in_range3d b p
  | None => forall p, ~ (in_range3d a p /\ in_range3d b p)
  end.
Proof. exact (IntersectRange3d_spec a b). Qed.
Print Assumptions C05_intersection.

Theorem C05_intersection_nonempty a b r :
  valid_range3d a -> valid_range3d b -> IntersectRange3d OrderSubspace a b = Some r ->
  exists p, in_range3d a p /\ in_range3d b p.
Proof.
  intros Va Vb E. pose proof (IntersectRange3d_spec a b) as H. rewrite E in H.
  destruct (IntersectRange3d_valid a b r Va Vb E) as (V1 & V2 & V3).
  exists (Position (r_start (subspace_range r)) (r_start (path_range r)) (r_start (time_range r))).
  apply H. repeat split;
    try apply (valid_range_start _ _ OrderSubspace_total); try apply (valid_range_start _ _ OrderPath_total);
    try apply (valid_range_start _ _ OrderTimestamp_total); auto.
Qed.
Print Assumptions C05_intersection_nonempty.

Definition C05_a := Range3d (Range [97] [] true) (Range [[1]] [[5]] false) (Range 10 20 false).
Definition C05_b := Range3d (Range [] [98] false) (Range [[3]] [] true) (Range 15 0 true).
Example C05_instance :
  valid_range3d C05_a /\ valid_range3d C05_b /\
  IntersectRange3d OrderSubspace C05_a C05_b
    = Some (Range3d (Range [97] [98] false) (Range [[3]] [[5]] false) (Range 15 20 false))
  /\ IsIncluded3d OrderSubspace C05_a (Position [97; 3] [[4]; [9]] 19) = true.
Proof.
  split; [|split; [|vm_compute; auto]]; apply IsValidRange3d_spec; reflexivity.
Qed.
