(** C23, C36, C52, C55, C65, C71, continued: what calls do of which so far only examples and counterexamples spoke. *)
From Verif Require Import Base M_Order M_Encoding M_Paths M_Successor M_Ranges M_Areas M_Keys M_Entry M_Map M_Store M_Query M_Payload M_Cli
  M_Transport M_Sync M_Messages S_Order P_Order P_Encoding P_Map P_Demo Prop_Store Prop_Transport Prop_Sync.
From Verif Require M_Growing.
Local Open Scope N_scope.

(** * C23: the tokens of HasUnfulfilledRequest *)
Section Tokens.
Import M_Growing.
(** Whether a step puts a token into the channel, and whether it takes one out. *)
Definition puts (l : label) (s : gstate) : bool :=
  match l, g_c s, g_p s with LReader, CToken _ _, _ => true | LProducer, _, PToken => true | _, _, _ => false end.
Fixpoint token_puts (ls : list label) (s : gstate) : nat :=
  match ls with
  | [] => 0
  | l :: r => match gstep l s with Some s' => (if puts l s then 1 else 0) + token_puts r s' | None => 0 end
  end.
Definition token_takes (ls : list label) : nat := length (filter (fun l => match l with LTakeToken => true | _ => false end) ls).

(** In every run, each request that is registered and each answer that is given leaves one token, and the channel holds those that the
    goroutine has not taken; it is never asked to hold two. *)
Theorem C23_tokens ls s : gruns ls ginit = Some s ->
  token_puts ls ginit = (token_takes ls + if g_token s then 1 else 0)%nat.
Proof.
  assert (H : forall ls s0, gruns ls s0 = Some s -> (token_puts ls s0 + (if g_token s0 then 1 else 0) = token_takes ls + if g_token s then 1 else 0)%nat).
  { clear ls. induction ls as [|l ls IH]; intros s0 HR; cbn [gruns token_puts] in *; [injection HR as ->; reflexivity|].
    destruct (gstep l s0) as [s1|] eqn:E; [|discriminate HR]. specialize (IH s1 HR).
    assert (K : ((if puts l s0 then 1 else 0) + (if g_token s0 then 1 else 0)
                 = (match l with LTakeToken => 1 | _ => 0 end) + if g_token s1 then 1 else 0)%nat).
    { destruct s0 as [inn arr held def tok boxes nxt p c sent gone ret]. unfold puts. destruct l as [ch| | | |n|k|]; cbn [gstep g_c g_p g_token] in *;
        repeat match type of E with
        | context [match ?x with _ => _ end] => destruct x eqn:?; try discriminate E
        end; injection E as <-; cbn; try reflexivity; try (destruct tok; reflexivity); try (destruct c; reflexivity). }
    unfold token_takes in *. cbn [filter]. destruct l; cbn [length]; lia. }
  intros HR. specialize (H ls ginit HR). cbn [ginit g_token] in H. lia.
Qed.
Print Assumptions C23_tokens.
Example C23_instance_tokens :
  exists s, gruns [LCall 3; LReader; LReader; LReader; LTakeToken; LSend [7; 7; 7]; LTakeChunk; LProducer; LProducer; LProducer; LReader; LProducer; LProducer] ginit = Some s
    /\ g_token s = true /\ token_takes [LCall 3; LReader; LReader; LReader; LTakeToken; LSend [7; 7; 7]; LTakeChunk; LProducer; LProducer; LProducer; LReader; LProducer; LProducer] = 1%nat.
Proof. eexists. split; [vm_compute; reflexivity|]. split; reflexivity. Qed.
End Tokens.

(** * C36: a later part without a first *)
Theorem C36_no_first_part hash fname tmp payload offset d st : (0 < offset)%Z -> mget (p_partial st) (fname d) = None ->
  pd_Receive hash fname tmp payload offset d st = (Panic, st).
Proof. intros L E. unfold pd_Receive. rewrite E. destruct (Z.ltb_spec 0 offset); [reflexivity|lia]. Qed.
Print Assumptions C36_no_first_part.
Example C36_instance_no_first : (0 < 2)%Z /\ mget (p_partial pd_empty) (shipped_fname (hex_encode [1; 2; 3])) = None /\ shipped_fname (hex_encode [1; 2; 3]) <> [].
Proof. split; [reflexivity|]. split; [reflexivity|discriminate]. Qed.

(** * C52: when the initiator gets through *)
(** It needs a summary, an open transport and the stream it has opened itself; streams it has accepted do not help and are not used. *)
Theorem C52_initiator_needs gob_type t r q s : Summarise t r = Ok s ->
  HandleMsgReconciliationInitiator gob_type t r q
  = if t_closed q then Err
    else match t_initiated q with
         | s0 :: Some w :: rest => Ok (Transport (t_accepted q) (s0 :: Some (w ++ gob_type) :: rest) (t_closed q))
         | _ => Panic
         end.
Proof.
  intros E. unfold HandleMsgReconciliationInitiator. rewrite E. cbn [bind]. unfold Send, EncodeSummary, write, ReconciliationChannel.
  destruct q as [acc ini cl]. cbn [t_closed t_initiated t_accepted]. destruct cl; [reflexivity|]. unfold index. change (N.to_nat 1) with 1%nat.
  destruct ini as [|x [|y ini]]; cbn [nth_error bind]; try reflexivity. destruct y as [w|]; reflexivity.
Qed.
Print Assumptions C52_initiator_needs.
Example C52_instance_needs : exists s, Summarise (tree (after_ops [demo_set [[97]] [1] 5])) everything = Ok s
  /\ nth_error (t_initiated (Initiate NewQuicTransport)) 1 <> None
  /\ HandleMsgReconciliationInitiator [7] (tree (after_ops [demo_set [[97]] [1] 5])) everything (accept NewQuicTransport) = Panic.
Proof. eexists. split; [vm_compute; reflexivity|]. split; [discriminate|]. vm_compute. reflexivity. Qed.

(** * C55: two listeners that take whole messages *)
(** If between two messages it is undecided who reads but nobody is interrupted, every message arrives once, whole and in order. *)
Theorem C55_whole_turns ms who frags tail : Forall (fun m => len m < 2 ^ 63) ms -> (length who <= length ms)%nat ->
  concat frags = concat (map frame ms) ++ tail ->
  let l := listen_run (flat_map (fun a => [a; a]) who) frags in
  ls_got_a l = map snd (filter fst (combine who ms)) /\ ls_got_b l = map snd (filter (fun x => negb (fst x)) (combine who ms))
  /\ ls_a l = None /\ ls_b l = None /\ concat (ls_frags l) = concat (map frame (skipn (length who) ms)) ++ tail.
Proof.
  unfold listen_run.
  assert (H : forall who ms frags ga gb, Forall (fun m => len m < 2 ^ 63) ms -> (length who <= length ms)%nat ->
    concat frags = concat (map frame ms) ++ tail ->
    let l := fold_left listen_step (flat_map (fun a => [a; a]) who) (Listeners frags None None ga gb) in
    ls_got_a l = ga ++ map snd (filter fst (combine who ms)) /\ ls_got_b l = gb ++ map snd (filter (fun x => negb (fst x)) (combine who ms))
    /\ ls_a l = None /\ ls_b l = None /\ concat (ls_frags l) = concat (map frame (skipn (length who) ms)) ++ tail).
  { clear. induction who as [|w who IH]; intros ms frags ga gb F L E.
    - cbn [flat_map fold_left combine filter map length skipn ls_got_a ls_got_b ls_a ls_b ls_frags]. rewrite !app_nil_r. auto.
    - destruct ms as [|m ms]; [cbn in L; lia|]. inversion F as [|? ? FM FS]; subst.
      assert (T : exists fs, listen frags None = Some (fs, Some (len m), []) /\ exists fs', listen fs (Some (len m)) = Some (fs', None, [m])
                 /\ concat fs' = concat (map frame ms) ++ tail).
      { cbn [map concat] in E. rewrite <- app_assoc in E. destruct (frame_head m (concat (map frame ms) ++ tail) FM) as (A1 & A2 & A3).
        unfold listen. pose proof (read_full_spec 8 frags) as R. destruct (read_full 8 frags) as [[h fs]|].
        - destruct R as (R1 & -> & R3). rewrite E, A2 in R3. rewrite E, A1, A3. exists fs. split; [reflexivity|].
          rewrite R3. assert (G : N.of_nat (length (m ++ concat (map frame ms) ++ tail)) <? len m = false) by (apply N.ltb_ge; unfold len; rewrite app_length; lia).
          rewrite G. pose proof (read_full_spec (N.to_nat (len m)) fs) as R2. destruct (read_full (N.to_nat (len m)) fs) as [[b fs']|].
          + destruct R2 as (_ & -> & R5). exists fs'. rewrite R3. replace (N.to_nat (len m)) with (length m) in * by (unfold len; lia).
            rewrite firstn_app, firstn_all, Nat.sub_diag, firstn_O, app_nil_r. split; [reflexivity|].
            rewrite R5, R3, skipn_app, skipn_all, Nat.sub_diag. reflexivity.
          + exfalso. rewrite R3 in R2. unfold len in R2. rewrite app_length in R2. lia.
        - exfalso. rewrite E in R. unfold frame in R. rewrite !app_length, BigIntToBytes_length in R. lia. }
      destruct T as (fs & T1 & fs' & T2 & T3). cbn [length] in L.
      assert (ST : listen_step (listen_step (Listeners frags None None ga gb) w) w = Listeners fs' None None (if w then ga ++ [m] else ga) (if w then gb else gb ++ [m])).
      { unfold listen_step. destruct w; cbn [ls_frags ls_a ls_b ls_got_a ls_got_b]; rewrite T1; cbn [ls_frags ls_a ls_b ls_got_a ls_got_b]; rewrite T2, app_nil_r; reflexivity. }
      cbn [flat_map app fold_left]. rewrite ST. clear ST.
      destruct (IH ms fs' (if w then ga ++ [m] else ga) (if w then gb else gb ++ [m]) FS ltac:(lia) T3) as (I1 & I2 & I3). cbv zeta. rewrite I1, I2.
      cbn [combine filter fst length skipn]. destruct w; cbn [negb map snd]; rewrite <- ?app_assoc; auto. }
  intros F L E. exact (H who ms frags [] [] F L E).
Qed.
Print Assumptions C55_whole_turns.
Example C55_instance_turns :
  let l := listen_run [true; true; false; false; true; true] [firstn 3 (concat (map frame [[1]; [2; 2]; []])); skipn 3 (concat (map frame [[1]; [2; 2]; []]))] in
  ls_got_a l = [[1]; []] /\ ls_got_b l = [[2; 2]].
Proof. vm_compute. split; reflexivity. Qed.

(** * C65: get at the limits *)
(** Asking for a path without a computable successor ends the process, whatever the store holds. *)
Theorem C65_limit C dir s arg st : SuccessorPath (parse_path arg) (c_pp C) = Fatal -> cli_get C dir s arg st = Fatal.
Proof. intros E. unfold cli_get, driver_Get, driver_Get_at, storage_Get, bindM, lift. rewrite E. reflexivity. Qed.
Print Assumptions C65_limit.
Example C65_instance_limit : let arg := 97 :: flat_map (fun _ => [47; 97]) (repeat tt 49) in
  IsValidPath (parse_path arg) (PathParams 64 50 50 50) = true /\ SuccessorPath (parse_path arg) (PathParams 64 50 50 50) = Fatal.
Proof. vm_compute. split; reflexivity. Qed.

(** * C71: the range from which both ends start *)
(** It holds every path and every time of the subspaces from the default on. *)
Theorem C71_default ss x : in_range3d (DefaultRange3d ss) x <-> ~ bytes_lt (pos_subspace x) ss.
Proof.
  unfold in_range3d, DefaultRange3d, in_range. cbn [subspace_range path_range time_range r_start r_end r_open]. split; [intros ((H & _) & _); exact H|].
  intros H. split; [auto|]. split; [split; [intros L; inversion L|auto]|]. split; [lia|auto].
Qed.
Print Assumptions C71_default.
Example C71_instance_default : in_range3d (DefaultRange3d [3]) (Position [3; 1] [[7]; []] 12) /\ ~ in_range3d (DefaultRange3d [3]) (Position [2; 9] [] 0).
Proof.
  split; [apply C71_default|intros H; apply C71_default in H; apply H]; cbn [pos_subspace].
  - intros L. inversion L; subst; try lia. inversion H0.
  - apply lex_head. lia.
Qed.
