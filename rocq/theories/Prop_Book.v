(** C39, C40, C47-C49: bookkeeping of the sync protocol. *)
From Verif Require Import Base M_Order M_Paths M_Ranges M_Areas M_Entry M_Book S_Order S_Book P_Order P_Areas P_AreaCodec P_Book.
From Coq Require Import Permutation.
Local Open Scope N_scope.

(** * C39: handle stores

    Full statement: Bind never returns a handle twice, whatever the history. Proved
    for histories with at most 2^64 calls of Bind; the next one returns handle 0
    again. *)
Theorem C39_fresh_partial {V} (ops : list (hs_op V)) :
  N.of_nat (binds ops) <= 2 ^ 64 -> NoDup (hs_handles hs_new ops).
Proof.
  intros H. rewrite (hs_handles_spec hs_new ops 0) by reflexivity.
  rewrite (map_ext_in _ N.of_nat).
  - apply FinFun.Injective_map_NoDup; [|apply seq_NoDup]. intros a b. apply Nat2N.inj.
  - intros i Hi. apply in_seq in Hi. rewrite N.add_0_l. apply N.mod_small. lia.
Qed.
Print Assumptions C39_fresh_partial.

Lemma binds_repeat {V} (v : V) n : binds (repeat (HBind v) n) = n.
Proof. unfold binds. induction n; cbn [repeat filter length]; auto. Qed.

Theorem C39_fresh_refuted : exists ops : list (hs_op N), ~ NoDup (hs_handles hs_new ops).
Proof.
  assert (G : forall k, (0 < k)%nat -> N.of_nat k mod 2 ^ 64 = 0 -> ~ NoDup (hs_handles hs_new (repeat (HBind 7) (k + 1)))).
  { intros k H1 H2. rewrite (hs_handles_spec hs_new _ 0), binds_repeat by reflexivity.
    rewrite seq_app, map_app. cbn [seq map plus]. intros H. apply NoDup_remove_2 in H. apply H. rewrite app_nil_r.
    rewrite N.add_0_l, H2. apply in_map_iff. exists O. split; auto. apply in_seq. lia. }
  exists (repeat (HBind 7) (N.to_nat (2 ^ 64) + 1)). apply G; [lia|]. rewrite N2Nat.id. apply N.mod_same. discriminate.
Qed.
Print Assumptions C39_fresh_refuted.

(** From its Bind on, a handle is found until the first moment at which it has been
    freed and no message refers to it, and then never again; while it is found, Get
    gives the value last bound or updated, and CanUse tells whether it was freed. *)
Theorem C39_life {V} (before after : list (hs_op V)) (v : V) :
  let s := hs_run hs_new before in
  let h := fst (hs_Bind s v) in
  let s' := hs_run (snd (hs_Bind s v)) after in
  N.of_nat (S (binds after)) <= 2 ^ 64 -> balanced h after -> (Z.of_nat (length after) < 2 ^ 63)%Z ->
  (released h after -> hs_Get s' h = None /\ hs_CanUse s' h = false)
  /\ (~ released h after -> hs_Get s' h = Some (last_value h v after)
        /\ (hs_CanUse s' h = true <-> ~ In (HFree h) after)).
Proof.
  intros s h s' H1 H2 H3.
  assert (L : h < 2 ^ 64).
  { unfold h, s. cbn [fst hs_Bind]. rewrite (hs_run_least _ _ 0) by reflexivity. apply N.mod_lt. discriminate. }
  destruct (hs_life s h v after eq_refl H1 L H2 H3) as [A B]. fold s' in A, B. unfold hs_Get, hs_CanUse. split; intros R.
  - rewrite (A R). auto.
  - rewrite (B R). cbn [option_map t_value t_asked]. split; auto.
    rewrite <- freed_In. destruct (freed h after); cbn; split; auto; congruence.
Qed.
Print Assumptions C39_life.

(** A call on another handle changes neither the value nor the state of [h]. *)
Theorem C39_independent {V} (s : hstore V) (o : hs_op V) h :
  match o with HBind _ => h <> h_least s | HUpdate h' _ | HFree h' | HInc h' | HDec h' => h <> h' end ->
  hs_Get (hs_step s o) h = hs_Get s h /\ hs_CanUse (hs_step s o) h = hs_CanUse s h.
Proof.
  intros H. unfold hs_Get, hs_CanUse. rewrite hs_step_other; auto. destruct o; exact H.
Qed.
Print Assumptions C39_independent.

(** A call on a handle that is not bound is refused, one on a bound handle never is. *)
Theorem C39_reported {V} (s : hstore V) h v :
  (hs_Get s h = None ->
     hs_Update s h v = Err /\ hs_Free s h = Err /\ hs_Increment s h = Err /\ hs_Decrement s h = Err)
  /\ (hs_Get s h <> None ->
     hs_Update s h v = Ok (hs_step s (HUpdate h v)) /\ hs_Free s h = Ok (hs_step s (HFree h))
     /\ hs_Increment s h = Ok (hs_step s (HInc h)) /\ hs_Decrement s h = Ok (hs_step s (HDec h))).
Proof.
  unfold hs_Get, hs_step, hs_Update, hs_Free, hs_Increment, hs_Decrement.
  destruct (mget N.eqb (h_map s) h); cbn [option_map]; split; intros H; try congruence; auto.
Qed.
Print Assumptions C39_reported.

Example C39_instance_reported :
  let s := hs_run hs_new [HBind [1]; HFree 0; HBind [2]] in hs_Get s 0 = None /\ hs_Get s 1 <> None.
Proof. vm_compute. split; [reflexivity|discriminate]. Qed.

(** A handle freed while a message refers to it lives until that is processed. *)
Example C39_instance :
  let s := hs_run hs_new [HBind [1]; HBind [2]; HInc 1; HFree 1] in
  hs_Get s 1 = Some [2] /\ hs_CanUse s 1 = false /\ hs_Get (hs_step s (HDec 1)) 1 = None
  /\ hs_Get (hs_step s (HDec 1)) 0 = Some [1]
  /\ hs_handles hs_new [HBind [1]; HBind [2]; HInc 1; HFree 1; HBind [3]] = [0; 1; 2].
Proof. vm_compute. auto 10. Qed.
Example C39_instance_balanced : balanced 1 [HInc 1; HFree 1; HDec 1 : hs_op bytes].
Proof.
  intros p q H. destruct p as [|x p]; [cbn; lia|]. injection H as <- H.
  destruct p as [|x p]; [cbn; lia|]. injection H as <- H.
  destruct p as [|x p]; [cbn; lia|]. injection H as <- H. destruct p; [cbn; lia|discriminate].
Qed.

(** * C40: guaranteed queues

    Full statement: messages leave in order, once each, never more bytes than
    guarantees were added, and no account wraps. Proved: order, for every history
    in which no call panics or blocks. The queue's receivers are commented out in
    /repo/pkg/wgps/wgps_messenger.go:724-780; the model lets a receiver take any
    number of messages at any moment. *)
Theorem C40_order_partial ops q :
  q_run q_new ops = Ok q ->
  q_sent q ++ q_queue q = pushed ops
  /\ q_outgoing q ++ q_received q = [0; 0] ++ concat (pushed ops).
Proof. intros H. apply q_run_inv in H. destruct H as [H1 H2]. split; [exact H1|exact H2]. Qed.
Print Assumptions C40_order_partial.

(** Nothing is granted, and yet the message is sent and the account wraps. *)
Theorem C40_guarantees_refuted : exists ops q,
  q_run q_new ops = Ok q /\ added ops = 0 /\ q_sent q = [[5; 6; 7]] /\ q_guarantees q = 2 ^ 64 - 1.
Proof. exists [QPush [0; 0; 1]%nat [5; 6; 7]]. eexists. vm_compute. split; [reflexivity|]. auto. Qed.
Print Assumptions C40_guarantees_refuted.

(** No message is sent while the receiver sleeps: every Push of a message of bytes
    below 128 ends the process, whatever was granted before. *)
Theorem C40_sleeping_receiver_refuted q m :
  len (q_queue q) < 32 -> Forall (fun b => b < 128) (q_received q ++ m) ->
  Push [] m q = Panic.
Proof.
  intros H HF. unfold Push, q_take. cbn [hd tl q_queue skipn q_guarantees q_received q_outgoing q_sent].
  rewrite (proj2 (N.leb_gt queue_capacity _) H). unfold UseGuarantees. cbn [q_received]. apply use_loop_panic; auto.
  cbn [q_queue]. destruct (q_queue q); discriminate.
Qed.
Print Assumptions C40_sleeping_receiver_refuted.

(** With 32 messages in the queue and a receiver that takes none, Push never returns. *)
Theorem C40_full q m sched : 32 <= len (q_queue q) -> Push (0%nat :: sched) m q = Hang.
Proof.
  intros H. unfold Push, q_take. cbn [hd tl q_queue skipn]. rewrite (proj2 (N.leb_le queue_capacity _) H). reflexivity.
Qed.
Print Assumptions C40_full.
Example C40_instance_full : len (q_queue (GQueue 9 (repeat [5] 32) [] [] [])) = 32
  /\ Push [1; 0; 31; 1]%nat [7] (GQueue 9 (repeat [5] 32) [1; 2; 3] [] []) <> Hang.
Proof. split; [reflexivity|vm_compute; discriminate]. Qed.

(** A plea for less than the account lowers it to the target, and absolves of the
    difference. *)
Theorem C40_absolve_partial target q :
  target <= q_guarantees q -> q_guarantees q < 2 ^ 64 ->
  fst (Plead target q) = q_guarantees q - target /\ q_guarantees (snd (Plead target q)) = target.
Proof.
  intros H1 H2. unfold Plead. cbn [fst snd q_guarantees]. rewrite (sub64_le _ _ H2 H1).
  split; auto. rewrite sub64_le; lia.
Qed.
Print Assumptions C40_absolve_partial.

(** A plea above the account does not lower it but creates guarantees from nothing,
    and absolves the other side of almost 2^64 bytes. *)
Theorem C40_plead_refuted target q :
  q_guarantees q < target -> target < 2 ^ 64 ->
  fst (Plead target q) = 2 ^ 64 - (target - q_guarantees q)
  /\ q_guarantees (snd (Plead target q)) = target.
Proof.
  intros H1 H2. unfold Plead. cbn [fst snd q_guarantees].
  assert (E : sub64 (q_guarantees q) target = 2 ^ 64 - (target - q_guarantees q)).
  { unfold sub64, two64. rewrite (N.mod_small target) by auto. rewrite N.mod_small; lia. }
  split; auto. rewrite E. unfold sub64, two64.
  rewrite (N.mod_small (2 ^ 64 - (target - q_guarantees q))) by lia.
  replace (q_guarantees q + 2 ^ 64 - _) with target by lia. apply N.mod_small. auto.
Qed.
Print Assumptions C40_plead_refuted.

(** The account: what was granted and what the bytes moved to Outgoing were charged for, in
    arithmetic modulo 2^64, over every history without pleas. *)
Definition charged (l : bytes) : N := fold_right (fun b s => rune_length b + s) 0 l.
Lemma charged_app a b : charged (a ++ b) = charged a + charged b.
Proof. induction a as [|x a IH]; [reflexivity|]. cbn [app charged fold_right]. fold (charged (a ++ b)). fold (charged a). rewrite IH. lia. Qed.
Lemma sub64_add a b x : (sub64 a b + (x + b)) mod 2 ^ 64 = (a + x) mod 2 ^ 64.
Proof.
  unfold sub64, two64. pose proof (N.mod_lt b (2 ^ 64)). rewrite N.add_mod_idemp_l by discriminate.
  rewrite (N.div_mod b (2 ^ 64)) at 2 by discriminate.
  replace (a + 2 ^ 64 - b mod 2 ^ 64 + (x + (2 ^ 64 * (b / 2 ^ 64) + b mod 2 ^ 64))) with (a + x + (1 + b / 2 ^ 64) * 2 ^ 64) by lia.
  apply N.mod_add. discriminate.
Qed.
Lemma use_loop_account received : forall sched q q', use_loop sched received q = Ok q' ->
  exists used, q_outgoing q' = q_outgoing q ++ used /\ (q_guarantees q' + charged used) mod 2 ^ 64 = q_guarantees q mod 2 ^ 64.
Proof.
  induction received as [|b rest IH]; intros sched q q' H; cbn [use_loop q_take q_queue q_guarantees q_outgoing q_sent] in H.
  - destruct (skipn _ _); [|discriminate H]. injection H as <-. exists []. cbn [q_outgoing q_guarantees charged fold_right]. rewrite app_nil_r, N.add_0_r. auto.
  - destruct (skipn _ _) as [|m ms].
    + injection H as <-. exists []. cbn [q_outgoing q_guarantees charged fold_right]. rewrite app_nil_r, N.add_0_r. auto.
    + destruct (_ <? _).
      * injection H as <-. exists []. cbn [q_outgoing q_guarantees charged fold_right]. rewrite app_nil_r, N.add_0_r. auto.
      * apply IH in H as (used & E1 & E2). cbn [q_outgoing q_guarantees] in E1, E2. exists (b :: used). split; [rewrite E1, <- app_assoc; reflexivity|].
        cbn [charged fold_right]. fold (charged used). replace (q_guarantees q' + (rune_length b + charged used)) with ((q_guarantees q' + charged used) + rune_length b) by lia.
        rewrite <- N.add_mod_idemp_l, E2, N.add_mod_idemp_l by discriminate. pose proof (sub64_add (q_guarantees q) (rune_length b) 0) as S. rewrite N.add_0_l, N.add_0_r in S. exact S.
Qed.
Theorem C40_account_partial ops q :
  q_run q_new ops = Ok q -> (forall t, ~ In (QPlead t) ops) ->
  exists used, q_outgoing q = [0] ++ used /\ (q_guarantees q + charged used) mod 2 ^ 64 = added ops mod 2 ^ 64.
Proof.
  enough (G : forall q0, q_run q0 ops = Ok q -> (forall t, ~ In (QPlead t) ops) ->
    exists used, q_outgoing q = q_outgoing q0 ++ used /\ (q_guarantees q + charged used) mod 2 ^ 64 = (q_guarantees q0 + added ops) mod 2 ^ 64)
    by (intros H N; destruct (G q_new H N) as (u & E1 & E2); exists u; split; auto).
  induction ops as [|o ops IH]; intros q0 H N.
  - injection H as <-. exists []. cbn [added charged fold_right]. rewrite app_nil_r. auto.
  - cbn [q_run] in H. destruct (q_step q0 o) as [q1| | | |] eqn:E; try discriminate H. cbn [bind] in H.
    destruct (IH q1 H) as (u & U1 & U2). { intros t Ht. apply (N t). right. exact Ht. }
    assert (S : exists u1, q_outgoing q1 = q_outgoing q0 ++ u1 /\ (q_guarantees q1 + charged u1) mod 2 ^ 64 = (q_guarantees q0 + added [o]) mod 2 ^ 64).
    { destruct o as [sched m|sched n|t|n]; cbn [q_step] in E.
      - unfold Push in E. destruct (queue_capacity <=? _); [discriminate E|]. apply use_loop_account in E as (u1 & V1 & V2). cbn [q_outgoing q_guarantees q_take] in V1, V2.
        exists u1. split; auto. cbn [added]. rewrite N.add_0_r. exact V2.
      - unfold AddGuarantees in E. apply use_loop_account in E as (u1 & V1 & V2). cbn [q_outgoing q_guarantees] in V1, V2.
        exists u1. split; auto. rewrite V2. unfold add64, two64. rewrite N.mod_mod by discriminate. cbn [added]. rewrite N.add_0_r. reflexivity.
      - contradiction (N t). left. reflexivity.
      - injection E as <-. exists []. cbn [q_take q_outgoing q_guarantees added charged fold_right]. rewrite app_nil_r. auto. }
    destruct S as (u1 & V1 & V2). exists (u1 ++ u). split; [rewrite U1, V1, app_assoc; reflexivity|].
    assert (A : added (o :: ops) = added [o] + added ops) by (destruct o; cbn [added]; lia).
    rewrite charged_app, A. replace (q_guarantees q + (charged u1 + charged u)) with ((q_guarantees q + charged u) + charged u1) by lia.
    rewrite <- N.add_mod_idemp_l, U2, N.add_mod_idemp_l by discriminate.
    replace (q_guarantees q1 + added ops + charged u1) with ((q_guarantees q1 + charged u1) + added ops) by lia.
    rewrite <- N.add_mod_idemp_l, V2, N.add_mod_idemp_l by discriminate. f_equal. lia.
Qed.
Print Assumptions C40_account_partial.

(** What holds a byte back is not the number of guarantees but how many digits it has: while a message waits, a byte
    from 128 on (two bytes as a string) is kept back with fewer than ten guarantees, and used with ten or more. *)
Theorem C40_digits_refuted sched q b rest : q_received q = b :: rest -> 128 <= b ->
  skipn (hd O sched) (q_queue q) <> [] -> q_guarantees q < 2 ^ 64 ->
  (q_guarantees q < 10 -> UseGuarantees sched q = Ok (q_take (hd O sched) q))
  /\ (10 <= q_guarantees q -> forall q', UseGuarantees sched q = Ok q' -> exists more, q_outgoing q' = q_outgoing q ++ b :: more).
Proof.
  intros ER HB HQ HG. unfold UseGuarantees. rewrite ER. cbn [use_loop]. cbn zeta. unfold q_take. cbn [q_queue q_guarantees q_received q_outgoing q_sent].
  destruct (skipn (hd O sched) (q_queue q)) as [|m l] eqn:EQ; [congruence|]. unfold rune_length. rewrite (proj2 (N.ltb_ge b 128)) by exact HB.
  split.
  - intros L. rewrite ER. replace (decimal_length (q_guarantees q)) with 1; [reflexivity|]. unfold decimal_length.
    destruct (N.eqb_spec (q_guarantees q) 0); [reflexivity|]. rewrite N.div_small by exact L. reflexivity.
  - intros L q' H. rewrite (proj2 (N.ltb_ge _ _)) in H.
    + destruct (use_loop_account _ _ _ _ H) as (u & H1 & _). cbn [q_outgoing] in H1. rewrite <- app_assoc in H1. exists u. exact H1.
    + unfold decimal_length. destruct (N.eqb_spec (q_guarantees q) 0); [lia|]. cbn beta iota. set (d := q_guarantees q / 10).
      assert (D : d <> 0) by (unfold d; intros E; apply N.div_small_iff in E; lia). destruct (N.eqb_spec d 0); lia.
Qed.
Print Assumptions C40_digits_refuted.
Example C40_instance_digits :
  UseGuarantees [] (GQueue 9 [[200]] [200] [] []) = Ok (GQueue 9 [[200]] [200] [] [])
  /\ UseGuarantees [0; 1]%nat (GQueue 10 [[200]] [200] [] []) = Ok (GQueue 8 [] [] [200] [[200]]).
Proof. vm_compute. split; reflexivity. Qed.

Example C40_instance_account :
  exists q, q_run q_new [QAdd [] 900; QPush [0; 0; 0; 1]%nat [200; 8]] = Ok q /\ q_outgoing q = [0; 0; 200] /\ q_guarantees q = 897 /\ charged [0; 200] = 3.
Proof. eexists. vm_compute. split; [reflexivity|]. auto. Qed.

Example C40_instance :
  q_run q_new [QPush [0; 1]%nat [9; 8]; QPush [0; 1]%nat [7]; QAdd [] 5; QPlead 2]
  = Ok (GQueue 2 [] [0; 9; 8; 7] [0] [[9; 8]; [7]]).
Proof. vm_compute. reflexivity. Qed.

(** * C47: the capability finder

    Full statement: FindCapHandle finds a capability added before. Proved: what it
    returns for any finder. Refuted: nothing can be added. *)
Section C47.
Context {C : Type} (encode_namespace : bytes -> bytes) (granted_namespace : C -> bytes)
  (granted_area : C -> area) (cap_of : N -> C).

Theorem C47_find_partial iter c e set :
  (forall l, Permutation (iter l) l) ->
  mget bytes_eqb c (encode_namespace (e_namespace e)) = Some set ->
  let pos := Position (e_subspace e) (e_path e) (e_time e) in
  let h := FindCapHandle encode_namespace granted_area cap_of iter c e in
  ((exists h', In h' set /\ in_area (granted_area (cap_of h')) pos) ->
     In h set /\ in_area (granted_area (cap_of h)) pos)
  /\ ((forall h', In h' set -> ~ in_area (granted_area (cap_of h')) pos) -> h = 0).
Proof.
  intros HP HS pos h. unfold h, FindCapHandle. rewrite HS. fold pos. destruct (find _ _) as [x|] eqn:E.
  - apply find_some in E. destruct E as [E1 E2]. apply (Permutation_in _ (HP set)) in E1. apply IsIncludedArea_spec in E2.
    split; auto. intros H. destruct (H x); auto.
  - split; auto. intros (h' & H1 & H2). exfalso. apply (Permutation_in _ (Permutation_sym (HP set))) in H1.
    pose proof (find_none _ _ E h' H1) as F. cbv beta in F. apply IsIncludedArea_spec in H2. congruence.
Qed.

(** Where a namespace has capabilities already, one that is added is found for the entries of its
    area, and those that were there are kept. *)
Theorem C47_added_partial iter c handle c' e :
  (forall l, Permutation (iter l) l) ->
  AddCap encode_namespace granted_namespace cap_of c handle = Ok c' ->
  let pos := Position (e_subspace e) (e_path e) (e_time e) in
  let found (c : cap_finder) := in_area (granted_area (cap_of (FindCapHandle encode_namespace granted_area cap_of iter c e))) pos in
  (e_namespace e = granted_namespace (cap_of handle) -> in_area (granted_area (cap_of handle)) pos -> found c')
  /\ ((exists h set, mget bytes_eqb c (encode_namespace (e_namespace e)) = Some set /\ In h set /\ in_area (granted_area (cap_of h)) pos) -> found c').
Proof.
  intros HP H pos found. unfold AddCap in H. set (key := encode_namespace _) in H.
  destruct (mget bytes_eqb c key) as [set|] eqn:G; [|discriminate H]. injection H as <-. set (set' := if existsb (N.eqb handle) set then set else set ++ [handle]).
  assert (I1 : In handle set').
  { unfold set'. destruct (existsb (N.eqb handle) set) eqn:X; [|apply in_or_app; right; left; reflexivity].
    apply existsb_exists in X as (x & Hx & Ex). apply N.eqb_eq in Ex. subst x. exact Hx. }
  assert (I2 : forall h, In h set -> In h set') by (intros h Hh; unfold set'; destruct (existsb _ _); [exact Hh|apply in_or_app; auto]).
  split.
  - intros N A. unfold found. assert (K : encode_namespace (e_namespace e) = key) by (unfold key; rewrite N; reflexivity).
    apply (proj1 (C47_find_partial iter _ e set' HP ltac:(rewrite K; apply mget_put, bytes_eqb_eq))). exists handle. auto.
  - intros (h & s & S1 & S2 & S3). unfold found. destruct (bytes_eqb (encode_namespace (e_namespace e)) key) eqn:K.
    + apply bytes_eqb_eq in K. rewrite K in S1. replace s with set in * by congruence.
      apply (proj1 (C47_find_partial iter _ e set' HP ltac:(rewrite K; apply mget_put, bytes_eqb_eq))). exists h. auto.
    + assert (K' : encode_namespace (e_namespace e) <> key) by (intros K'; apply bytes_eqb_eq in K'; congruence).
      apply (proj1 (C47_find_partial iter _ e s HP ltac:(rewrite mget_put_other; [exact S1|apply bytes_eqb_eq|exact K']))). exists h. auto.
Qed.

(** Adding the first capability of a namespace ends the process, so that from a new
    finder nothing is ever added. *)
Theorem C47_add_refuted c handle :
  mget bytes_eqb c (encode_namespace (granted_namespace (cap_of handle))) = None ->
  AddCap encode_namespace granted_namespace cap_of c handle = Panic.
Proof. intros H. unfold AddCap. rewrite H. reflexivity. Qed.
Theorem C47_nothing_added_refuted handle :
  AddCap encode_namespace granted_namespace cap_of NewCapFinder handle = Panic.
Proof. reflexivity. Qed.
End C47.
Print Assumptions C47_find_partial.
Print Assumptions C47_added_partial.
Print Assumptions C47_add_refuted.
Print Assumptions C47_nothing_added_refuted.

(** Handle 0 both is a capability and means that there is none: a caller cannot
    tell these apart. *)
Theorem C47_ambiguous_refuted : exists (area_of : N -> area) (c c' : cap_finder) (e : entry),
  let find c := FindCapHandle (fun n => n) area_of (fun h => h) (fun l => l) c e in
  find c = find c'
  /\ in_area (area_of (find c)) (Position (e_subspace e) (e_path e) (e_time e))
  /\ c' = NewCapFinder.
Proof.
  exists (fun _ => Area [] [] (Range 0 0 true) true), [([110], [0])], [], (Entry [110] [97] [1] [[1]] 3 1).
  cbv zeta. split; [reflexivity|]. split; [|reflexivity]. apply IsIncludedArea_spec. reflexivity.
Qed.
Print Assumptions C47_ambiguous_refuted.

Example C47_instance :
  FindCapHandle (fun n => n) (fun h => Area [h] [] (Range 0 10 false) false) (fun h => h) (@rev N)
    [([110], [3; 97; 5])] (Entry [110] [97] [1] [[1]] 3 1) = 97.
Proof. vm_compute. reflexivity. Qed.

Example C47_instance_added :
  AddCap (fun n => n) (fun _ => [110]) (fun h => h) [([110], [3])] 97 = Ok [([110], [3; 97])]
  /\ FindCapHandle (fun n => n) (fun h => Area [h] [] (Range 0 10 false) false) (fun h => h) (@rev N)
       [([110], [3; 97])] (Entry [110] [97] [1] [[1]] 3 1) = 97.
Proof. split; vm_compute; reflexivity. Qed.

(** * C48: intersections of areas of interest

    Full statement: one intersection, with its area, for each pair that meets.
    Proved: after any calls with each handle bound once on its side, the queue holds
    each pair of handles of equal namespaces whose areas share a position exactly
    once, and no other pair. The queue carries the handles and the namespace, not the
    area. *)
Theorem C48_complete_partial ours_area theirs_area isEqual cs :
  (forall a b, isEqual a b = true <-> a = b) ->
  Forall (valid_call ours_area theirs_area) cs ->
  NoDup (map fst (side true cs)) -> NoDup (map fst (side false cs)) ->
  let q := f_queue (run_calls ours_area theirs_area isEqual cs) in
  NoDup (map (fun i => (snd (fst i), snd i)) q)
  /\ forall ns o t, In (ns, o, t) q <->
       In (o, ns) (side true cs) /\ In (t, ns) (side false cs) /\ shared ours_area theirs_area o t.
Proof.
  intros H1 H2 H3 H4. destruct (finder_spec ours_area theirs_area isEqual H1 cs H2 H3 H4) as (_ & _ & A & B). auto.
Qed.
Print Assumptions C48_complete_partial.

(** A handle bound twice (after it was freed, or its binding repeated) is announced
    twice. *)
Theorem C48_rebind_refuted : exists ours_area theirs_area cs,
  Forall (valid_call ours_area theirs_area) cs
  /\ f_queue (run_calls ours_area theirs_area bytes_eqb cs) = [([1], 0, 0); ([1], 0, 0)].
Proof.
  exists (fun _ => Area [] [] (Range 0 0 true) true), (fun _ => Area [] [] (Range 0 0 true) true),
    [BindCall 0 [1] true (fun l => l); BindCall 0 [1] false (fun l => l); BindCall 0 [1] false (fun l => l)].
  split; [|reflexivity]. repeat constructor; cbn; auto.
Qed.
Print Assumptions C48_rebind_refuted.

(** A binding moved to another namespace leaves its announcement behind. *)
Theorem C48_stale_refuted : exists ours_area theirs_area cs,
  Forall (valid_call ours_area theirs_area) cs
  /\ In ([1], 0, 0) (f_queue (run_calls ours_area theirs_area bytes_eqb cs))
  /\ mget N.eqb (f_theirs (run_calls ours_area theirs_area bytes_eqb cs)) 0 = Some [2].
Proof.
  exists (fun _ => Area [] [] (Range 0 0 true) true), (fun _ => Area [] [] (Range 0 0 true) true),
    [BindCall 0 [1] true (fun l => l); BindCall 0 [1] false (fun l => l); BindCall 0 [2] false (fun l => l)].
  split; [|split; [left; reflexivity|reflexivity]]. repeat constructor; cbn; auto.
Qed.
Print Assumptions C48_stale_refuted.

(** What the finder says of a handle: the namespace it was last bound to on that
    side, whatever else was bound, in any order and on either side; nothing if it
    never was. *)
Theorem C48_namespace ours_area theirs_area isEqual cs handle ours :
  HandleToNamespaceId handle ours (run_calls ours_area theirs_area isEqual cs)
  = match find (fun p => N.eqb (fst p) handle) (rev (side ours cs)) with Some p => snd p | None => [] end.
Proof.
  unfold run_calls, HandleToNamespaceId.
  induction cs as [|c cs IH] using rev_ind; [destruct ours; reflexivity|].
  rewrite fold_left_app. cbn [fold_left]. unfold side in *. rewrite flat_map_app, rev_app_distr. cbn [flat_map].
  rewrite app_nil_r. destruct (fold_left _ cs _) as [fo ft fq]. destruct c as [h ns b it].
  unfold add_call, AddAoiHandleToNamespace. cbn [b_handle b_namespace b_ours b_iter f_ours f_theirs f_queue] in *.
  destruct b, ours; cbn [Bool.eqb rev app find fst snd]; auto;
    destruct (N.eqb_spec h handle) as [->|NE];
    try (rewrite (mget_put N.eqb N.eqb_eq); reflexivity);
    rewrite (mget_put_other N.eqb N.eqb_eq) by congruence; exact IH.
Qed.
Print Assumptions C48_namespace.

Definition C48_area (h : N) : area := Area [h] [] (Range 0 10 false) false.
Definition C48_calls : list bind_call :=
  [BindCall 1 [7] true (fun l => l); BindCall 1 [7] false (@rev _); BindCall 2 [7] true (fun l => l);
   BindCall 2 [7] false (fun l => l); BindCall 3 [8] true (fun l => l); BindCall 3 [9] false (fun l => l)].
Example C48_instance : f_queue (run_calls C48_area C48_area bytes_eqb C48_calls) = [([7], 1, 1); ([7], 2, 2)].
Proof. vm_compute. reflexivity. Qed.
Example C48_instance_hypotheses :
  (forall a b, bytes_eqb a b = true <-> a = b) /\ Forall (valid_call C48_area C48_area) C48_calls
  /\ NoDup (map fst (side true C48_calls)) /\ NoDup (map fst (side false C48_calls)).
Proof.
  split; [exact bytes_eqb_eq|]. split.
  - repeat (apply Forall_cons; [split; [right; reflexivity|intros m; cbn; auto using Permutation_sym, Permutation_rev]|]).
    constructor.
  - split; repeat constructor; cbn; intuition congruence.
Qed.

Example C48_instance_namespace :
  let f := run_calls C48_area C48_area bytes_eqb (C48_calls ++ [BindCall 2 [9] true (fun l => l)]) in
  HandleToNamespaceId 2 true f = [9] /\ HandleToNamespaceId 2 false f = [7] /\ HandleToNamespaceId 4 true f = [].
Proof. vm_compute. auto. Qed.

(** * C49: the reconciler map

    Full statement: the reconciler last added for a pair, whatever is added for
    other pairs. Proved for pairs of different first handles. Refuted: a second
    reconciler with the same handle of ours replaces the first. *)
Theorem C49_get_partial {R} (before after : list (N * N * R)) ours theirs r :
  (forall c, In c after -> fst (fst c) <> ours) ->
  GetReconciler ours theirs (add_all (before ++ (ours, theirs, r) :: after)) = Ok r.
Proof.
  intros H. unfold add_all. rewrite fold_left_app. cbn [fold_left fst snd].
  set (m := fold_left _ before _). clearbody m.
  assert (G : GetReconciler ours theirs (AddReconciler ours theirs r m) = Ok r)
    by (rewrite get_add, !N.eqb_refl; reflexivity).
  revert G. generalize (AddReconciler ours theirs r m) as m'. clear m.
  induction after as [|[[o t] r'] after IH]; intros m' G; auto. cbn [fold_left fst snd]. apply IH.
  - intros c Hc. apply H. right. auto.
  - rewrite get_add. destruct (N.eqb_spec ours o) as [->|_]; auto. exfalso. apply (H (o, t, r')); [left|]; auto.
Qed.
Print Assumptions C49_get_partial.

Theorem C49_independent_partial {R} (m : reconciler_map R) ours theirs ours' theirs' r :
  ours <> ours' -> GetReconciler ours theirs (AddReconciler ours' theirs' r m) = GetReconciler ours theirs m.
Proof. intros H. rewrite get_add, (proj2 (N.eqb_neq _ _) H). reflexivity. Qed.
Print Assumptions C49_independent_partial.

Theorem C49_lost_refuted {R} (m : reconciler_map R) ours theirs theirs' r :
  theirs <> theirs' -> GetReconciler ours theirs (AddReconciler ours theirs' r m) = Err.
Proof. intros H. rewrite get_add, N.eqb_refl, (proj2 (N.eqb_neq _ _) H). reflexivity. Qed.
Print Assumptions C49_lost_refuted.

(** What a lookup returns, exactly: only the last addition with this handle of
    ours counts, whatever its handle of theirs; without one it is an error. *)
Theorem C49_exact {R} (calls : list (N * N * R)) ours theirs :
  GetReconciler ours theirs (add_all calls) =
  match find (fun c => fst (fst c) =? ours) (rev calls) with
  | Some (_, t, r) => if t =? theirs then Ok r else Err
  | None => Err
  end.
Proof.
  induction calls as [|c calls IH] using rev_ind; [reflexivity|].
  unfold add_all in *. rewrite fold_left_app, rev_app_distr. destruct c as [[o t] r]. cbn [fold_left rev app find fst snd].
  rewrite get_add, IH, (N.eqb_sym ours o). destruct (o =? ours); [rewrite (N.eqb_sym theirs t)|]; reflexivity.
Qed.
Print Assumptions C49_exact.

Example C49_instance :
  let m := add_all [(1, 5, 10); (2, 5, 20); (2, 5, 21); (3, 5, 30); (3, 6, 31)] in
  GetReconciler 1 5 m = Ok 10 /\ GetReconciler 2 5 m = Ok 21 /\ GetReconciler 3 5 m = Err /\ GetReconciler 3 6 m = Ok 31
  /\ GetReconciler 4 5 m = Err.
Proof. vm_compute. repeat split. Qed.
