(** C15-C18: areas. *)
From Verif Require Import Base M_Order M_Paths M_Successor M_Ranges M_Areas S_Order
  P_Order P_Paths P_Ranges P_Successor P_Areas.
Local Open Scope N_scope.

(** * C15: AreaTo3dRange selects exactly the area

    Full statement: for all areas whose path is within the limits. Proved when
    the path is strictly below the length limits; refuted at the limits. *)

Theorem C15_exact_partial pp a :
  params_ok pp -> wf_path (area_path a) -> within_limits pp (area_path a) ->
  total_length (area_path a) < max_path_length pp ->
  Forall (fun c => len c < max_component_length pp) (area_path a) ->
  exists r, AreaTo3dRange [] SuccessorSubspaceId pp a = Ok r /\
    forall p, wf_path (pos_path p) -> within_limits pp (pos_path p) ->
      (in_range3d r p <-> in_area a p).
Proof.
  intros PO Hw Hl Ht HF.
  pose proof (SuccessorPrefix_caller_short pp (area_path a) PO HF) as Hc.
  destruct (AreaTo3dRange [] SuccessorSubspaceId pp a) as [r| | | |] eqn:E.
  1:{ exists r. split; [reflexivity|]. intros p Hwp Hlp.
      eapply (AreaTo3dRange_exact [] pp a r p); eauto. exact bytes_le_nil. }
  all: exfalso; unfold AreaTo3dRange in E;
    pose proof (SuccessorPrefix_spec pp (area_path a) PO Hw Hl) as H; unfold SuccessorPrefix in H;
    destruct (SuccessorPrefix_full (area_path a) pp) as [[e| | | |] s]; cbn in *; try discriminate; try tauto; lia.
Qed.
Print Assumptions C15_exact_partial.

Definition C15_pp := PathParams 64 50 50 50.

Theorem C15_wrong_start_refuted :
  exists a r p, within_limits C15_pp (area_path a) /\ within_limits C15_pp (pos_path p)
    /\ AreaTo3dRange [] SuccessorSubspaceId C15_pp a = Ok r
    /\ IsIncludedArea OrderSubspace a p = true
    /\ IsIncluded3d OrderSubspace r p = false.
Proof.
  exists (Area [97] [repeat 97 50] (Range 0 0 true) false).
  eexists. exists (Position [97] [repeat 97 50] 7).
  split; [apply within_limitsb_spec; reflexivity|].
  split; [apply within_limitsb_spec; reflexivity|].
  split; [vm_compute; reflexivity|]. split; reflexivity.
Qed.
Print Assumptions C15_wrong_start_refuted.

Theorem C15_ends_process_refuted :
  exists a, within_limits C15_pp (area_path a) /\ AreaTo3dRange [] SuccessorSubspaceId C15_pp a = Fatal.
Proof.
  exists (Area [97] [repeat 97 25; repeat 98 25] (Range 0 0 true) false).
  split; [apply within_limitsb_spec; reflexivity|reflexivity].
Qed.
Print Assumptions C15_ends_process_refuted.

Example C15_instance :
  AreaTo3dRange [] SuccessorSubspaceId C15_pp (Area [97] [[1]; [2]] (Range 3 9 false) false)
  = Ok (Range3d (Range [97] [97; 0] false) (Range [[1]; [2]] [[1]; [2; 0]] false) (Range 3 9 false)).
Proof. reflexivity. Qed.

(** * C16: area intersection

    Full statement: nil exactly when no position is shared, otherwise an area
    with exactly the shared positions. The nil part holds; the other part holds
    when the first area names a subspace, and is refuted when it does not. *)

Theorem C16_nil a b :
  valid_range N.lt (area_times a) -> valid_range N.lt (area_times b) ->
  (IntersectArea OrderSubspace a b = None <-> forall p, ~ (in_area a p /\ in_area b p)).
Proof.
  intros Va Vb. split; [exact (IntersectArea_none a b)|].
  intros H. destruct (IntersectArea OrderSubspace a b) as [r|] eqn:E; auto.
  destruct (IntersectArea_nonempty a b r Va Vb E) as [p Hp]. destruct (H p Hp).
Qed.
Print Assumptions C16_nil.

Theorem C16_exact_partial a b r :
  area_any a = false ->
  IntersectArea OrderSubspace a b = Some r ->
  forall p, in_area r p <-> in_area a p /\ in_area b p.
Proof. intros Ha E. pose proof (IntersectArea_exact a b Ha) as H. rewrite E in H. exact H. Qed.
Print Assumptions C16_exact_partial.

Theorem C16_drops_positions_refuted :
  exists a b r p, IntersectArea OrderSubspace a b = Some r /\ in_area a p /\ in_area b p /\ ~ in_area r p.
Proof.
  exists FullArea, (SubspaceArea [97]). eexists. exists (Position [97] [[1]] 5).
  split; [vm_compute; reflexivity|]. rewrite <- !IsIncludedArea_spec.
  repeat split; vm_compute; auto. discriminate.
Qed.
Print Assumptions C16_drops_positions_refuted.

Theorem C16_adds_positions_refuted :
  exists a b r p, IntersectArea OrderSubspace a b = Some r /\ in_area r p /\ ~ in_area b p.
Proof.
  exists FullArea, (SubspaceArea [97]). eexists. exists (Position [] [[1]] 5).
  split; [vm_compute; reflexivity|]. rewrite <- !IsIncludedArea_spec.
  repeat split; vm_compute; auto. discriminate.
Qed.
Print Assumptions C16_adds_positions_refuted.

(** When the result is right, exactly (for areas with times in them): when the
    first area names a subspace, or does not but has stored the one the second names. *)
Theorem C16_exactly a b r :
  valid_range N.lt (area_times a) -> valid_range N.lt (area_times b) ->
  IntersectArea OrderSubspace a b = Some r ->
  ((forall p, in_area r p <-> in_area a p /\ in_area b p)
   <-> area_any a = false \/ (area_any b = false /\ area_subspace a = area_subspace b)).
Proof.
  intros Va Vb E. split.
  - intros H. destruct (area_any a) eqn:Ea; [right|left; reflexivity].
    destruct (IntersectArea_some _ _ _ E) as (S1 & S2 & _).
    destruct (IntersectArea_nonempty a b r Va Vb E) as [p [Pa Pb]].
    assert (Pr : area_subspace a = pos_subspace p).
    { destruct (proj2 (H p) (conj Pa Pb)) as [[K|K] _]; congruence. }
    destruct (area_any b) eqn:Eb.
    + exfalso. set (q := Position (0 :: pos_subspace p) (pos_path p) (pos_time p)).
      assert (Q : in_area r q).
      { apply H. destruct Pa as (_ & A2 & A3), Pb as (_ & B2 & B3). split; (split; [left; assumption|split; assumption]). }
      destruct Q as [[K|K] _]; [congruence|]. rewrite S1, Pr in K. cbn [q pos_subspace] in K.
      apply (f_equal (@length N)) in K. cbn [length] in K. lia.
    + split; [reflexivity|]. destruct Pb as [[K|K] _]; congruence.
  - intros [H|[Hb Hs]]; [apply C16_exact_partial; assumption|]. intros p.
    destruct (IntersectArea_some _ _ _ E) as (S1 & S2 & S3). rewrite <- S3. unfold in_area, fix_any.
    cbn [area_any area_subspace area_times area_path]. rewrite Hb, S1, S2, Hs, andb_false_r. destruct (area_any a); rewrite ?Hs; tauto.
Qed.
Print Assumptions C16_exactly.

Example C16_instance_exactly :
  valid_range N.lt (Range 3 9 false)
  /\ IntersectArea OrderSubspace (Area [97] [] (Range 3 9 false) true) (Area [97] [[1]] (Range 5 0 true) false)
     = Some (Area [97] [[1]] (Range 5 9 false) false).
Proof. split; [right|]; reflexivity. Qed.

Example C16_instance :
  IntersectArea OrderSubspace (Area [97] [[1]] (Range 3 9 false) false) (Area [] [[1]; [2]] (Range 5 0 true) true)
  = Some (Area [97] [[1]; [2]] (Range 5 9 false) false).
Proof. reflexivity. Qed.

(** * C17: area containment, sound and complete *)

Theorem C17_sound inner outer :
  AreaIsIncluded OrderSubspace inner outer = true -> forall p, in_area inner p -> in_area outer p.
Proof. exact (AreaIsIncluded_sound inner outer). Qed.
Print Assumptions C17_sound.

Theorem C17_complete inner outer :
  valid_range N.lt (area_times inner) -> (forall p, in_area inner p -> in_area outer p) ->
  AreaIsIncluded OrderSubspace inner outer = true.
Proof. exact (AreaIsIncluded_complete inner outer). Qed.
Print Assumptions C17_complete.

Example C17_instance :
  AreaIsIncluded OrderSubspace (Area [97] [[1]; [2]] (Range 5 9 false) false) (Area [] [[1]] (Range 3 0 true) true) = true
  /\ AreaIsIncluded OrderSubspace (Area [] [[1]] (Range 5 9 false) true) (Area [97] [[1]] (Range 5 9 false) false) = false
  /\ valid_range N.lt (Range 5 9 false).
Proof. repeat split. right. reflexivity. Qed.

(** * C18: area membership *)

Theorem C18_membership a p :
  IsIncludedArea OrderSubspace a p = true <->
  (area_any a = true \/ area_subspace a = pos_subspace p)
  /\ in_range N.lt (area_times a) (pos_time p)
  /\ exists s, pos_path p = area_path a ++ s.
Proof. exact (IsIncludedArea_spec a p). Qed.
Print Assumptions C18_membership.

Theorem C18_FullArea p : IsIncludedArea OrderSubspace FullArea p = true.
Proof. apply IsIncludedArea_spec, FullArea_all. Qed.
Print Assumptions C18_FullArea.

Theorem C18_SubspaceArea s p : IsIncludedArea OrderSubspace (SubspaceArea s) p = true <-> pos_subspace p = s.
Proof. rewrite IsIncludedArea_spec. exact (SubspaceArea_spec s p). Qed.
Print Assumptions C18_SubspaceArea.

Example C18_instance :
  IsIncludedArea OrderSubspace (Area [97] [[1]] (Range 3 9 false) false) (Position [97] [[1]; [2]] 8) = true
  /\ IsIncludedArea OrderSubspace (Area [97] [[1]] (Range 3 9 false) false) (Position [97] [[1]; [2]] 9) = false.
Proof. split; reflexivity. Qed.
