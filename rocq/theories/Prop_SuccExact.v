(** C12, C13, C15: on which paths exactly the functions of successor.go end the process or write into their argument, and
    on which areas AreaTo3dRange is right. *)
From Verif Require Import Base M_Order M_Encoding M_Paths M_Successor M_Ranges M_Areas S_Order
  P_Order P_Encoding P_Paths P_Successor P_Ranges P_Areas P_SuccExact.
Local Open Scope N_scope.

(** SuccessorPrefix ends the process exactly for paths of the maximal length whose last component is shorter than components
    may be (unless the limit is the greatest value of its type, see C12_result_over_limit_refuted). *)
Theorem C12_ends_exactly pp p :
  params_ok pp -> max_path_length pp + 1 < 2 ^ pp_bits pp -> wf_path p -> within_limits pp p ->
  (SuccessorPrefix p pp = Fatal <->
   total_length p = max_path_length pp /\ exists pre c, p = pre ++ [c] /\ len c < max_component_length pp).
Proof. intros PO HB. exact (prefix_ends pp PO HB p). Qed.
Print Assumptions C12_ends_exactly.

(** It changes the path of its caller exactly when, the greatest components at the end left aside, the last component has
    maximal length. *)
Theorem C12_changes_exactly pp p :
  params_ok pp -> wf_path p -> within_limits pp p ->
  (SuccessorPrefix_caller p pp <> p <->
   exists pre c t, p = pre ++ c :: t /\ len c = max_component_length pp /\ ~ Forall (fun b => b = 255) c
     /\ Forall (fun d => len d = max_component_length pp /\ Forall (fun b => b = 255) d) t).
Proof.
  intros PO W L. rewrite (prefix_changes pp p PO W L). unfold full.
  split; intros (pre & c & t & E & Lc & N & F); exists pre, c, t; repeat split; auto; tauto.
Qed.
Print Assumptions C12_changes_exactly.

Example C12_instance_exactly :
  let pp := PathParams 64 3 2 5 in
  within_limits pp [[1; 2]; [3; 4]; [5]] /\ SuccessorPrefix [[1; 2]; [3; 4]; [5]] pp = Fatal
  /\ within_limits pp [[5]; [1; 2]; [3; 4]] /\ SuccessorPrefix [[5]; [1; 2]; [3; 4]] pp = Ok (Some [[5]; [1; 2]; [3; 5]])
  /\ SuccessorPrefix_caller [[5]; [1; 2]; [3; 4]] pp = [[5]; [1; 2]; [3; 5]]
  /\ SuccessorPrefix_caller [[5]; [7; 255]; [255; 255]] pp = [[5]; [8; 255]; [255; 255]]
  /\ SuccessorPrefix_caller [[1; 2]; [5]; [255; 255]] pp = [[1; 2]; [5]; [255; 255]].
Proof. cbv zeta. rewrite <- !within_limitsb_spec. vm_compute. repeat split. Qed.

(** SuccessorPath ends the process exactly for paths with as many components as there may be where the same holds, or where,
    the greatest components at the end left aside, the last component has maximal length. *)
Theorem C13_ends_exactly pp p :
  params_ok pp -> 0 < max_component_count pp ->
  max_component_count pp + 1 < 2 ^ pp_bits pp -> max_path_length pp + 1 < 2 ^ pp_bits pp ->
  wf_path p -> within_limits pp p ->
  (SuccessorPath p pp = Fatal <->
   len p = max_component_count pp
   /\ ((total_length p = max_path_length pp /\ exists pre c, p = pre ++ [c] /\ len c < max_component_length pp)
       \/ exists pre c t, p = pre ++ c :: t /\ len c = max_component_length pp /\ ~ Forall (fun b => b = 255) c
            /\ Forall (fun d => len d = max_component_length pp /\ Forall (fun b => b = 255) d) t)).
Proof.
  intros PO C0 HC HB W L. rewrite (path_ends pp PO HB HC p W L C0). unfold full.
  split; intros [E [H|(pre & c & t & Ep & Lc & N & F)]]; split; auto; right; exists pre, c, t; repeat split; auto; tauto.
Qed.
Print Assumptions C13_ends_exactly.

Example C13_instance_exactly :
  let pp := PathParams 64 3 2 5 in
  within_limits pp [[1; 2]; [3; 4]; [5]] /\ SuccessorPath [[1; 2]; [3; 4]; [5]] pp = Fatal
  /\ SuccessorPath [[5]; [7; 255]; [255; 255]] pp = Fatal
  /\ SuccessorPath [[1; 2]; [5]; [255; 255]] pp = Ok (Some [[1; 2]; [5; 0]])
  /\ SuccessorPath [[255; 255]; [255; 255]] pp = Ok (Some [[255; 255]; [255; 255]; []]).
Proof. cbv zeta. rewrite <- !within_limitsb_spec. vm_compute. repeat split. Qed.

(** AreaTo3dRange is right for exactly the areas (with times in them) whose path is of neither kind. *)
Theorem C15_exactly pp a :
  params_ok pp -> max_path_length pp + 1 < 2 ^ pp_bits pp -> wf_path (area_path a) -> within_limits pp (area_path a) ->
  valid_range N.lt (area_times a) ->
  ((exists r, AreaTo3dRange [] SuccessorSubspaceId pp a = Ok r /\
      forall p, wf_path (pos_path p) -> within_limits pp (pos_path p) -> (in_range3d r p <-> in_area a p))
   <-> ~ (total_length (area_path a) = max_path_length pp
          /\ exists pre c, area_path a = pre ++ [c] /\ len c < max_component_length pp)
       /\ ~ exists pre c t, area_path a = pre ++ c :: t /\ len c = max_component_length pp /\ ~ Forall (fun b => b = 255) c
              /\ Forall (fun d => len d = max_component_length pp /\ Forall (fun b => b = 255) d) t).
Proof.
  intros PO HB W L V. pose proof (C12_ends_exactly pp _ PO HB W L) as HE.
  pose proof (prefix_changes pp _ PO W L) as HC. split.
  - intros (r & Er & H). split.
    + intros K. apply HE in K. unfold AreaTo3dRange in Er. unfold SuccessorPrefix in K.
      destruct (SuccessorPrefix_full (area_path a) pp) as [e st]. cbn [fst] in K. subst e. discriminate Er.
    + intros (pre & c & t & Ep & Lc & N & F).
      assert (NF : ~ full pp c) by (unfold full; tauto).
      pose proof W as W0. pose proof L as L0. rewrite Ep in W0, L0.
      destruct (prefix_stops pp PO pre c t W0 L0 NF F) as [[Lc' _]|(_ & d & x & n & Ec & Lx & E)]; [lia|].
      unfold AreaTo3dRange in Er. rewrite Ep, E in Er. cbn [bind] in Er.
      assert (exists u v, pre ++ [d ++ [x + 1]] = u :: v) as (u & v & Eq) by (destruct pre; cbn; eauto).
      rewrite Eq in Er. injection Er as <-.
      specialize (H (Position (area_subspace a) (area_path a) (r_start (area_times a))) W L).
      destruct H as [_ H]. destruct H as (_ & [H _] & _).
      * split; [right; reflexivity|]. split; [|exists []; rewrite app_nil_r; reflexivity].
        split; [cbn; lia|]. destruct V as [V|V]; [left|right]; exact V.
      * apply H. cbn [pos_path path_range r_start]. rewrite Ep, Ec.
        clear. induction pre as [|y pre IH]; cbn [app]; [|apply lex_tail; exact IH].
        apply lex_head. induction d as [|z d IH]; cbn [app]; [apply lex_head; lia|apply lex_tail; exact IH].
  - intros [H1 H2].
    assert (Hc : SuccessorPrefix_caller (area_path a) pp = area_path a).
    { destruct (last_not_full pp (area_path a)) as [F|(pre & c & t & Ep & NF & F)].
      - unfold SuccessorPrefix_caller. rewrite (prefix_all_full pp PO _ F). reflexivity.
      - pose proof W as W0. pose proof L as L0. rewrite Ep in W0, L0 |- *. unfold SuccessorPrefix_caller.
        destruct (prefix_stops pp PO pre c t W0 L0 NF F) as [[_ ->]|(Lc & d & x & n & Ec & Lx & E)]; [reflexivity|].
        exfalso. apply H2. exists pre, c, t. repeat split; auto. intros K. apply NF. split; auto. }
    assert (HF : SuccessorPrefix (area_path a) pp <> Fatal) by (intros K; apply H1, HE, K).
    pose proof (SuccessorPrefix_spec pp (area_path a) PO W L) as HS.
    destruct (AreaTo3dRange [] SuccessorSubspaceId pp a) as [r| | | |] eqn:E.
    1:{ exists r. split; auto. intros p Wp Lp. eapply (AreaTo3dRange_exact [] pp a r p); eauto. exact bytes_le_nil. }
    all: exfalso; unfold AreaTo3dRange in E; unfold SuccessorPrefix in *;
      destruct (SuccessorPrefix_full (area_path a) pp) as [[e| | | |] s]; cbn [fst bind] in *; try discriminate; try tauto; congruence.
Qed.
Print Assumptions C15_exactly.

Example C15_instance_exactly :
  let pp := PathParams 64 3 2 5 in
  valid_range N.lt (Range 3 9 false)
  /\ AreaTo3dRange [] SuccessorSubspaceId pp (Area [97] [[5]; [255; 255]] (Range 3 9 false) false)
     = Ok (Range3d (Range [97] [97; 0] false) (Range [[5]; [255; 255]] [[5; 0]] false) (Range 3 9 false))
  /\ AreaTo3dRange [] SuccessorSubspaceId pp (Area [97] [[5]; [7; 255]] (Range 3 9 false) false)
     = Ok (Range3d (Range [97] [97; 0] false) (Range [[5]; [8; 255]] [[5]; [8]] false) (Range 3 9 false)).
Proof. split; [right; reflexivity|]. split; reflexivity. Qed.
