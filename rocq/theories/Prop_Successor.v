(** C12-C14: successors. *)
From Verif Require Import Base M_Order M_Encoding M_Paths M_Successor S_Order P_Order P_Encoding P_Paths P_Successor.
Local Open Scope N_scope.

(** * C12: SuccessorPrefix

    Full statement: for all parameters and paths within the limits the result
    bounds exactly the extensions (first two theorems, proved), the call never
    ends the process and never changes its argument (both refuted; the third
    theorem gives the part that holds). *)

Theorem C12_bounds_extensions pp p q :
  params_ok pp -> wf_path p -> within_limits pp p ->
  SuccessorPrefix p pp = Ok (Some q) ->
  (forall s, path_lt (p ++ s) q)
  /\ (forall r, wf_path r -> within_limits pp r -> path_le p r -> path_lt r q -> prefix_of p r).
Proof.
  intros PO Hw Hl E. pose proof (SuccessorPrefix_spec pp p PO Hw Hl) as H. rewrite E in H. tauto.
Qed.
Print Assumptions C12_bounds_extensions.

Theorem C12_nothing_above pp p :
  params_ok pp -> wf_path p -> within_limits pp p ->
  SuccessorPrefix p pp = Ok None ->
  forall r, wf_path r -> within_limits pp r ->
    exists s, within_limits pp (p ++ s) /\ ~ path_lt (p ++ s) r.
Proof.
  intros PO Hw Hl E. pose proof (SuccessorPrefix_spec pp p PO Hw Hl) as H. rewrite E in H. auto.
Qed.
Print Assumptions C12_nothing_above.

Theorem C12_safe_partial pp p :
  params_ok pp -> wf_path p -> within_limits pp p ->
  total_length p < max_path_length pp ->
  Forall (fun c => len c < max_component_length pp) p ->
  (exists r, SuccessorPrefix p pp = Ok r) /\ SuccessorPrefix_caller p pp = p.
Proof.
  intros PO Hw Hl Ht HF. pose proof (SuccessorPrefix_spec pp p PO Hw Hl) as H.
  split; [|apply SuccessorPrefix_caller_short; auto].
  destruct (SuccessorPrefix p pp) as [r| | | |]; eauto; try tauto. lia.
Qed.
Print Assumptions C12_safe_partial.

Definition C12_pp := PathParams 64 50 50 50.   (* the shipped parameters *)

Theorem C12_ends_process_refuted :
  exists pp p, params_ok pp /\ wf_path p /\ within_limits pp p /\ SuccessorPrefix p pp = Fatal.
Proof.
  exists C12_pp, [repeat 97 25; repeat 98 25].
  split; [repeat split|]. split; [|split; [apply within_limitsb_spec|]; reflexivity].
  repeat (constructor; [repeat (constructor; [reflexivity|]); constructor|]). constructor.
Qed.
Print Assumptions C12_ends_process_refuted.

Theorem C12_changes_argument_refuted :
  exists pp p, params_ok pp /\ wf_path p /\ within_limits pp p /\ SuccessorPrefix_caller p pp <> p.
Proof.
  exists C12_pp, [repeat 97 50].
  split; [repeat split|]. split; [|split; [apply within_limitsb_spec; reflexivity|vm_compute; discriminate]].
  repeat (constructor; [repeat (constructor; [reflexivity|]); constructor|]). constructor.
Qed.
Print Assumptions C12_changes_argument_refuted.

(** The successor itself is within the limits unless the length limit is the
    greatest value of its type. *)
Theorem C12_result_within_limits pp p q :
  params_ok pp -> wf_path p -> within_limits pp p ->
  max_path_length pp + 1 < 2 ^ pp_bits pp ->
  SuccessorPrefix p pp = Ok (Some q) -> wf_path q /\ within_limits pp q.
Proof.
  intros PO Hw Hl HB E. pose proof (SuccessorPrefix_spec pp p PO Hw Hl) as H. rewrite E in H. tauto.
Qed.
Print Assumptions C12_result_within_limits.

Theorem C12_result_over_limit_refuted :
  exists pp p q, params_ok pp /\ wf_path p /\ within_limits pp p
    /\ SuccessorPrefix p pp = Ok (Some q) /\ ~ within_limits pp q.
Proof.
  exists (PathParams 8 50 255 255), [repeat 97 100; repeat 98 155], [repeat 97 100; repeat 98 155 ++ [0]].
  split; [repeat split|]. split.
  { repeat (constructor; [repeat (constructor; [reflexivity|]); constructor|]). constructor. }
  split; [apply within_limitsb_spec; reflexivity|]. split; [reflexivity|].
  rewrite <- within_limitsb_spec. vm_compute. discriminate.
Qed.
Print Assumptions C12_result_over_limit_refuted.

Example C12_instance :
  SuccessorPrefix [[97]; [98]] C12_pp = Ok (Some [[97]; [98; 0]])
  /\ SuccessorPrefix [[1]; [7; 255]; [255; 255]] (PathParams 8 5 2 9) = Ok (Some [[1]; [8]])
  /\ SuccessorPrefix [] C12_pp = Ok None
  /\ SuccessorPrefix [[255; 255]] (PathParams 8 5 2 9) = Ok None.
Proof. vm_compute. auto. Qed.

(** * C13: SuccessorPath

    Full statement: for all parameters and paths within the limits the result is
    the least greater path within the limits, or nothing for the greatest path,
    and the process never ends. Proved when a value is returned (for parameters
    that are not the greatest values of their type and allow a component), and
    the cases in which the process ends are delimited; refuted otherwise. *)

Theorem C13_least_greater_partial pp p :
  params_ok pp -> 0 < max_component_count pp ->
  max_component_count pp + 1 < 2 ^ pp_bits pp -> max_path_length pp + 1 < 2 ^ pp_bits pp ->
  wf_path p -> within_limits pp p ->
  match SuccessorPath p pp with
  | Ok (Some q) =>
      wf_path q /\ within_limits pp q /\ path_lt p q
      /\ (forall r, wf_path r -> within_limits pp r -> path_lt p r -> path_le q r)
  | Ok None => forall r, wf_path r -> within_limits pp r -> path_le r p
  | Fatal => len p = max_component_count pp
             /\ (total_length p = max_path_length pp
                 \/ exists c, In c p /\ len c = max_component_length pp /\ ~ Forall (fun b => b = 255) c)
  | _ => False
  end.
Proof. exact (SuccessorPath_spec pp p). Qed.
Print Assumptions C13_least_greater_partial.

Theorem C13_ends_process_refuted :
  exists pp p, params_ok pp /\ wf_path p /\ within_limits pp p /\ SuccessorPath p pp = Fatal
    /\ exists q, within_limits pp q /\ path_lt p q.
Proof.
  exists (PathParams 64 1 2 10), [[97; 98]].
  split; [repeat split|]. split; [repeat constructor|].
  split; [apply within_limitsb_spec; reflexivity|]. split; [reflexivity|].
  exists [[97; 99]]. split; [apply within_limitsb_spec; reflexivity|].
  apply lex_head, lex_tail, lex_head. reflexivity.
Qed.
Print Assumptions C13_ends_process_refuted.

Theorem C13_result_over_limit_refuted :
  exists pp q, params_ok pp /\ within_limits pp [] /\ SuccessorPath [] pp = Ok (Some q) /\ ~ within_limits pp q.
Proof.
  exists (PathParams 64 0 2 10), [[]].
  split; [repeat split|]. split; [apply within_limitsb_spec; reflexivity|]. split; [reflexivity|].
  rewrite <- within_limitsb_spec. vm_compute. discriminate.
Qed.
Print Assumptions C13_result_over_limit_refuted.

Example C13_instance :
  SuccessorPath [[97]; [98]] C12_pp = Ok (Some [[97]; [98]; []])
  /\ SuccessorPath [[97]; [98]] (PathParams 64 2 5 10) = Ok (Some [[97]; [98; 0]])
  /\ SuccessorPath [[97]; [255; 255]] (PathParams 64 2 2 10) = Ok (Some [[97; 0]])
  /\ SuccessorPath [[255; 255]] (PathParams 64 1 2 10) = Ok None.
Proof. vm_compute. auto. Qed.

(** * C14: byte-string successors *)

Theorem C14_SuccessorSubspaceId s :
  bytes_lt s (SuccessorSubspaceId s) /\ forall r, bytes_lt s r -> bytes_le (SuccessorSubspaceId s) r.
Proof. split; [exact (bytes_lt_append_zero s)|exact (append_zero_least s)]. Qed.
Print Assumptions C14_SuccessorSubspaceId.

Theorem C14_FixedWidth b b' : wf_bytes b -> SuccessorBytesFixedWidth b = Some b' ->
  length b' = length b /\ wf_bytes b' /\ be_decode b' = be_decode b + 1
  /\ bytes_lt b b' /\ forall r, wf_bytes r -> length r = length b -> bytes_lt b r -> bytes_le b' r.
Proof.
  intros Hb H. destruct (SuccessorBytesFixedWidth_some b b' Hb H) as (K1 & K2 & K3).
  destruct (SuccessorBytesFixedWidth_least b b' Hb H) as (K4 & K5). auto.
Qed.
Print Assumptions C14_FixedWidth.

Theorem C14_FixedWidth_none b : wf_bytes b ->
  (SuccessorBytesFixedWidth b = None <-> Forall (fun x => x = 255) b).
Proof. exact (SuccessorBytesFixedWidth_none b). Qed.
Print Assumptions C14_FixedWidth_none.

Example C14_instance :
  SuccessorSubspaceId [97; 255] = [97; 255; 0]
  /\ SuccessorBytesFixedWidth [1; 254; 255; 255] = Some [1; 255; 0; 0]
  /\ SuccessorBytesFixedWidth [255; 255] = None /\ wf_bytes [1; 254; 255; 255].
Proof. repeat split. repeat constructor. Qed.
