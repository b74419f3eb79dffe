(** The exact effect of every operation on the reference counts and on the payload files. *)
From Coq Require Import Sorting.Permutation.
From Verif Require Import Base M_Order M_Encoding M_Paths M_Successor M_Ranges M_Keys M_Entry M_Map M_Store
  S_Order S_Store P_Order P_Encoding P_Paths P_Ranges P_Successor P_Areas P_Keys P_Map P_Store P_History.
Local Open Scope N_scope.

Section Ledger.
Variable C : cfg.
Notation pp := (c_pp C).
Variable U : bytes -> Prop.
Hypothesis PP : store_params pp.
Hypothesis HU : universe C U.
Notation Rep := (Rep C U).
Notation Inv := (Inv C U).
Notation Files := (Files C U).
Notation stored_ok := (stored_ok C U).
Notation others := P_Store.others.

Definition one (a d : bytes) : N := if beqb a d then 1 else 0.

Lemma cnt_app d xs ys : cnt d (xs ++ ys) = cnt d xs + cnt d ys.
Proof. induction xs as [|x xs IH]; cbn; [reflexivity|lia]. Qed.
Lemma cnt_pos d xs : cnt d xs <> 0 <-> exists x, In x xs /\ e_digest x = d.
Proof.
  induction xs as [|a xs IH]; cbn; [split; [lia|intros (x & [] & _)]|]. destruct (beqb_spec (e_digest a) d) as [E|E].
  - split; [|lia]. intros _. exists a. auto.
  - rewrite N.add_0_l, IH. split; [intros (x & H & Hx); eauto|intros (x & [->|H] & Hx); [congruence|eauto]].
Qed.

Lemma dec_exact n x xs st : budget st = None -> n < 2 ^ 64 -> Refs n (x :: xs) (refs st) ->
  exists c st', ref_Decrement (e_digest x) st = (Ok c, st') /\ c = getd (refs st') (e_digest x)
   /\ (forall d, getd (refs st') d + one (e_digest x) d = getd (refs st) d) /\ files st' = files st.
Proof.
  intros B Hn R. unfold ref_Decrement, bindM, gets.
  pose proof (R (e_digest x)) as [H1 H2]. cbn in H1. rewrite beqb_refl in H1.
  unfold getd in H1, H2. destruct (mget (refs st) (e_digest x)) as [c|] eqn:E; [|lia].
  unfold durable. rewrite B. cbn [bindM].
  assert (S : sub64 c 1 = c - 1).
  { unfold sub64, two64. rewrite (N.mod_small 1) by lia.
    replace (c + 2 ^ 64 - 1) with ((c - 1) + 1 * 2 ^ 64) by lia. rewrite N.mod_add by lia. apply N.mod_small. lia. }
  exists (c - 1). eexists. split; [unfold ret; rewrite S; reflexivity|]. cbn [refs files set_refs].
  split; [rewrite getd_mset, beqb_refl; reflexivity|]. split; [|reflexivity].
  intros d. rewrite getd_mset, (beqb_sym d). unfold one. destruct (beqb_spec (e_digest x) d) as [<-|]; [unfold getd; rewrite E; lia|lia].
Qed.

Lemma inc_exact n d0 st : budget st = None -> n + 1 < 2 ^ 64 -> getd (refs st) d0 <= n ->
  exists c st', ref_Increment d0 st = (Ok c, st')
   /\ (forall d, getd (refs st') d = getd (refs st) d + one d0 d) /\ files st' = files st.
Proof.
  intros B Hn R. unfold ref_Increment, bindM, gets, durable. rewrite B.
  eexists _, _. split; [reflexivity|]. cbn [refs files set_refs]. split; [|reflexivity].
  intros d. rewrite getd_mset, (beqb_sym d). unfold one. destruct (beqb_spec d0 d) as [<-|]; [|lia].
  unfold getd in *. destruct (mget (refs st) d0) as [c|]; [|lia]. rewrite add64_small by lia. lia.
Qed.

(** whether one of the entries [ys] goes with its last count *)
Definition last_of (m : bmap N) (ys : list entry) (f : bytes) : bool :=
  existsb (fun y => beqb (c_fname C (e_digest y)) f && (getd m (e_digest y) =? 0)) ys.

Lemma last_of_spec m ys f : last_of m ys f = true <-> exists y, In y ys /\ c_fname C (e_digest y) = f /\ getd m (e_digest y) = 0.
Proof.
  unfold last_of. rewrite existsb_exists. split; intros (y & Hy & H); exists y.
  - apply andb_true_iff in H as [H1 H2]. apply N.eqb_eq in H2. destruct (beqb_spec (c_fname C (e_digest y)) f); [auto|discriminate].
  - destruct H as [<- H]. rewrite beqb_refl, H. auto.
Qed.

Lemma prune_exact n ys zs st :
  budget st = None -> n < 2 ^ 64 ->
  Rep (ys ++ zs) st -> Refs n (ys ++ zs) (refs st) -> Files st ->
  exists st', prune_loop C (map (fun x => (x, c_hash C (e_subspace x))) ys) st = (Ok ys, st')
    /\ (forall d, getd (refs st') d + cnt d ys = getd (refs st) d)
    /\ (forall f, mget (files st') f = if last_of (refs st') ys f then None else mget (files st) f).
Proof.
  intros B Hn. revert st B. induction ys as [|y ys IH]; intros st B R RF FS; cbn [map prune_loop].
  - exists st. cbn in *. unfold ret. split; [reflexivity|]. split; [intros d; lia|reflexivity].
  - cbn [app] in *.
    destruct (driver_Delete_spec C U y (ys ++ zs) st B R) as (s1 & E1 & R1 & Er1 & Ef1 & El1 & B1).
    assert (RF1 : Refs n (y :: ys ++ zs) (refs s1)) by (rewrite Er1; exact RF).
    destruct (ref_Decrement_spec n y (ys ++ zs) s1 B1 Hn RF1) as (c & s2 & E2 & RF2 & Hc & K2 & T2 & F2 & L2 & B2).
    destruct (dec_exact n y (ys ++ zs) s1 B1 Hn RF1) as (c0 & s0 & E0 & Ec0 & D0 & _).
    rewrite E2 in E0. injection E0 as <- <-.
    unfold bindM at 1. rewrite E1. unfold bindM at 1. rewrite E2.
    assert (R2 : Rep (ys ++ zs) s2) by (eapply Rep_same; eauto).
    assert (FS2 : Files s2) by (unfold P_Store.Files; rewrite F2, Ef1; auto).
    assert (Cy : cnt (e_digest y) ys <= c).
    { pose proof (RF2 (e_digest y)) as [H _]. rewrite cnt_app in H. rewrite Ec0. lia. }
    destruct (N.eqb_spec c 0) as [Ec|Ec].
    + unfold bindM at 1. unfold payload_Erase, durable. rewrite B2.
      set (s3 := set_files (fun m => mdel m (c_fname C (e_digest y))) s2).
      destruct (IH s3) as (s4 & E4 & D4 & F4); auto.
      { apply (Rep_same _ _ _ s2); auto. }
      { apply Files_erase; auto. }
      exists s4. unfold bindM at 1. rewrite E4. unfold ret. split; [reflexivity|]. split.
      * intros d. cbn [cnt]. specialize (D4 d). specialize (D0 d). rewrite <- Er1. unfold one in D0. change (refs s3) with (refs s2) in D4. lia.
      * intros f. rewrite F4. unfold last_of at 2. cbn [existsb]. fold (last_of (refs s4) ys f).
        assert (Z : getd (refs s4) (e_digest y) = 0).
        { specialize (D4 (e_digest y)). change (refs s3) with (refs s2) in D4. lia. }
        rewrite Z. cbn [N.eqb]. rewrite andb_true_r. destruct (last_of (refs s4) ys f); [rewrite orb_true_r; reflexivity|]. rewrite orb_false_r.
        cbn [files set_files s3]. rewrite mget_mdel, F2, Ef1, (beqb_sym f). destruct (beqb (c_fname C (e_digest y)) f); reflexivity.
    + unfold bindM at 1. unfold ret at 1. destruct (IH s2) as (s4 & E4 & D4 & F4); auto.
      exists s4. unfold bindM at 1. rewrite E4. unfold ret. split; [reflexivity|]. split.
      * intros d. cbn [cnt]. specialize (D4 d). specialize (D0 d). rewrite <- Er1. unfold one in D0. lia.
      * intros f. rewrite F4, F2, Ef1. unfold last_of at 2. cbn [existsb]. fold (last_of (refs s4) ys f).
        destruct (beqb_spec (c_fname C (e_digest y)) f) as [Ey|Ey]; [|reflexivity]. cbn [andb].
        destruct (N.eqb_spec (getd (refs s4) (e_digest y)) 0) as [Z|Z]; [|reflexivity]. cbn [orb].
        replace (last_of (refs s4) ys f) with true; [reflexivity|]. symmetry. apply last_of_spec.
        specialize (D4 (e_digest y)). assert (HC : cnt (e_digest y) ys <> 0) by (rewrite <- Ec0 in D4; lia).
        apply cnt_pos in HC as (y' & Hy' & Ed'). exists y'. rewrite Ed'. auto.
Qed.

Lemma insert_exact n xs st e :
  budget st = None -> n + 1 < 2 ^ 64 -> Rep xs st -> Refs n xs (refs st) -> Files st -> stored_ok e ->
  (forall y, In y xs -> e_subspace y = e_subspace e -> e_path y = e_path e -> False) ->
  exists pruned st', InsertEntry C e (e_subspace e) st = (Ok pruned, st')
    /\ (forall d, getd (refs st') d + cnt d pruned = getd (refs st) d + one (e_digest e) d)
    /\ (forall f, mget (files st') f =
          if last_of (refs st') pruned f then None
          else if beqb f (c_fname C (c_hash C (e_subspace e))) then Some (e_subspace e) else mget (files st) f).
Proof.
  intros B Hn R RF FS Oe HN. unfold InsertEntry, payload_Set.
  pose proof (stored_sub _ _ _ Oe) as Us.
  unfold bindM at 1. unfold bindM at 1. unfold durable at 1. rewrite B. unfold ret at 1. cbn [fst].
  set (s1 := set_files _ st).
  assert (R1 : Rep xs s1) by (apply (Rep_same _ _ _ st); auto).
  assert (FS1 : Files s1) by (apply Files_set; auto).
  assert (Ee : Entry (c_ns C) (e_subspace e) (e_digest e) (e_path e) (e_time e) (e_length e) = e).
  { destruct Oe as [_ Oe]. destruct e; cbn in *; subst; auto. }
  rewrite Ee.
  destruct (driver_Insert_spec C U PP e xs s1 B R1 Oe HN) as (s2 & E2 & R2 & Rf2 & F2 & L2 & B2 & T2).
  unfold bindM at 1. rewrite E2.
  assert (RF2 : Refs n xs (refs s2)) by (rewrite Rf2; exact RF).
  destruct (ref_Increment_spec n e xs s2 B2 Hn RF2) as (c & s3 & E3 & RF3 & K3 & T3 & F3 & L3 & B3).
  destruct (inc_exact n (e_digest e) s2 B2 Hn (proj2 (RF2 (e_digest e)))) as (c0 & s0 & E0 & D0 & _).
  rewrite E3 in E0. injection E0 as <- <-.
  unfold bindM at 1. rewrite E3.
  assert (R3 : Rep (e :: xs) s3) by (apply (Rep_same _ _ _ s2); auto).
  assert (T3' : tree s3 = Node (e_subspace e) (e_path e) (e_time e) [] false :: tree s1) by congruence.
  destruct (PrunableEntries_spec C U PP HU (e :: xs) s3 e _ _ R3 (proj1 (proj1 Oe)) T3' eq_refl) as (ys & E4 & HY).
  assert (NS : prunesb e e = false).
  { destruct (prunesb_spec e e) as [[_ H]|]; auto; [apply Oe|lia]. }
  cbn [filter] in HY. rewrite NS in HY.
  unfold bindM at 1. rewrite E4.
  assert (HP : Permutation (e :: xs) (ys ++ (e :: kept e xs))).
  { apply Permutation_cons_app. etransitivity; [apply (filter_partition (prunesb e))|].
    apply Permutation_app_tail. symmetry; auto. }
  assert (FS3 : Files s3) by (unfold P_Store.Files; rewrite F3, F2; auto).
  destruct (prune_exact (n + 1) ys (e :: kept e xs) s3) as (s4 & E5 & D5 & F5);
    auto; [eapply Rep_perm; eauto|eapply Refs_perm; eauto|].
  exists ys, s4. rewrite E5. split; [reflexivity|]. split.
  - intros d. rewrite D5, D0, Rf2. reflexivity.
  - intros f. rewrite F5. destruct (last_of (refs s4) ys f); [reflexivity|]. rewrite F3, F2. cbn [s1 files set_files]. rewrite mget_mset. reflexivity.
Qed.

(** the entry that is replaced, unless it has the digest of the new one *)
Definition dropped (e : entry) (xs : list entry) : list entry :=
  filter (fun x => negb (otherb e x) && negb (beqb (e_digest x) (e_digest e))) xs.

Lemma replace_exact n x xs st e :
  budget st = None -> n < 2 ^ 64 -> Rep (x :: xs) st -> Refs n (x :: xs) (refs st) -> Files st ->
  stored_ok e -> same_place x e -> e_time x < e_time e ->
  exists st', replace_other C e (x, c_hash C (e_subspace x)) st = (Ok true, st')
    /\ (forall d, getd (refs st') d + (if beqb (e_digest x) (e_digest e) then 0 else one (e_digest x) d) = getd (refs st) d)
    /\ (forall f, mget (files st') f =
          if beqb f (c_fname C (c_hash C (e_subspace e)))
             || (negb (beqb (e_digest x) (e_digest e)) && beqb f (c_fname C (e_digest x)) && (getd (refs st') (e_digest x) =? 0))
          then None else mget (files st) f).
Proof.
  intros B Hn R RF FS Oe [E1 E2] Ht. unfold replace_other.
  rewrite E2, (order_refl _ _ OrderPath_total). cbn [Z.eqb].
  destruct (N.leb_spec (e_time e) (e_time x)); [lia|].
  destruct (driver_Delete_spec C U x xs st B R) as (s1 & D1 & R1 & Rf1 & F1 & L1 & B1).
  unfold bindM at 1. rewrite D1. unfold bindM at 1. unfold payload_Erase at 1, durable at 1. rewrite B1.
  set (s2 := set_files _ s1).
  assert (G2 : forall f, mget (files s2) f = if beqb f (c_fname C (c_hash C (e_subspace e))) then None else mget (files st) f).
  { intros f. cbn [s2 files set_files]. rewrite mget_mdel, F1, E1. reflexivity. }
  destruct (beqb_spec (e_digest x) (e_digest e)) as [Ed|Ed]; cbn [negb].
  - exists s2. unfold bindM, ret. split; [auto|]. split; [intros d; cbn [s2 refs set_files]; rewrite Rf1; lia|].
    intros f. rewrite G2. cbn [andb]. rewrite orb_false_r. reflexivity.
  - destruct (ref_Decrement_spec n x xs s2) as (c & s3 & D3 & RF3 & Hc & K3 & T3 & F3 & L3 & B3); auto.
    { cbn. rewrite Rf1. auto. }
    destruct (dec_exact n x xs s2) as (c0 & s0 & E0 & Ec0 & D0 & _); auto.
    { cbn. rewrite Rf1. auto. }
    rewrite D3 in E0. injection E0 as <- <-. unfold bindM at 1. unfold bindM at 1. rewrite D3.
    assert (D0' : forall d, getd (refs s3) d + one (e_digest x) d = getd (refs st) d) by (intros d; rewrite D0; cbn [s2 refs set_files]; rewrite Rf1; reflexivity).
    destruct (N.eqb_spec c 0) as [Ec|Ec].
    + unfold payload_Erase, durable. rewrite B3. unfold ret. eexists. split; [reflexivity|]. cbn [refs files set_files]. split; [exact D0'|].
      intros f. rewrite mget_mdel, F3, G2. rewrite <- Ec0, Ec. cbn [N.eqb andb]. rewrite andb_true_r.
      destruct (beqb f (c_fname C (e_digest x))); [rewrite orb_true_r; reflexivity|]. rewrite orb_false_r. reflexivity.
    + unfold ret. exists s3. split; [reflexivity|]. split; [exact D0'|]. intros f. rewrite F3, G2, <- Ec0.
      destruct (N.eqb_spec c 0); [contradiction|]. rewrite andb_false_r, orb_false_r. reflexivity.
Qed.

Lemma dropped_none e xs : (forall x, In x xs -> same_place x e -> False) -> dropped e xs = [].
Proof.
  intros H. unfold dropped. induction xs as [|a xs IH]; [reflexivity|]. cbn [filter].
  assert (O : otherb e a = true).
  { unfold otherb. destruct (beqb_spec (e_subspace a) (e_subspace e)), (peqb_spec (e_path a) (e_path e)); auto. exfalso. apply (H a); [left; auto|split; auto]. }
  rewrite O. cbn [negb andb]. apply IH. intros x Hx. apply H. right. exact Hx.
Qed.
Lemma dropped_In e xs x : In x (dropped e xs) <-> In x xs /\ same_place x e /\ e_digest x <> e_digest e.
Proof.
  unfold dropped. rewrite filter_In. unfold otherb, same_place. rewrite negb_involutive.
  destruct (beqb_spec (e_subspace x) (e_subspace e)), (peqb_spec (e_path x) (e_path e)), (beqb_spec (e_digest x) (e_digest e)); cbn; intuition congruence.
Qed.
Lemma dropped_perm e xs ys : Permutation xs ys -> Permutation (dropped e xs) (dropped e ys).
Proof.
  unfold dropped. generalize (fun x : entry => negb (otherb e x) && negb (beqb (e_digest x) (e_digest e))). intros g H.
  induction H; cbn; auto; repeat destruct (g _); auto; try apply perm_swap. eapply perm_trans; eauto.
Qed.
Lemma dropped_one e xs x : NoDup (map place xs) -> In x xs -> same_place x e ->
  Permutation (dropped e xs) (if beqb (e_digest x) (e_digest e) then [] else [x]).
Proof.
  intros HN Hx SP. rewrite (dropped_perm e _ _ (others_one e xs x HN Hx SP)). unfold dropped at 1. cbn [filter]. fold (dropped e (others e xs)).
  assert (O : otherb e x = false) by (destruct SP as [S1 S2]; unfold otherb; rewrite S1, S2, beqb_refl, peqb_refl; auto).
  rewrite O, (dropped_none e (others e xs)) by (intros y Hy; apply others_In in Hy; tauto). cbn [negb andb].
  destruct (beqb (e_digest x) (e_digest e)); reflexivity.
Qed.

(** What an accepted entry does to counts and files. [old] are the files before the ingestion. *)
Definition ledger_step (e : entry) (xs : list entry) (pruned : list entry) (m : bmap N) (old : bytes -> option bytes) (st' : state) : Prop :=
  (forall d, getd (refs st') d + cnt d (dropped e xs) + cnt d pruned = getd m d + one (e_digest e) d)
  /\ (forall f, mget (files st') f =
        if last_of (refs st') pruned f then None
        else if beqb f (c_fname C (c_hash C (e_subspace e))) then Some (e_subspace e)
        else if last_of (refs st') (dropped e xs) f then None else old f).

Lemma last_of_perm m a b f : Permutation a b -> last_of m a f = last_of m b f.
Proof. unfold last_of. induction 1; cbn; auto; [rewrite IHPermutation; reflexivity|rewrite !orb_assoc, (orb_comm (_ && _)); reflexivity|congruence]. Qed.

Lemma ingest_exact n xs st e token :
  n + 1 < 2 ^ 64 -> Inv n xs st -> entry_ok C U e -> acceptable C (fun x => In x xs) e token ->
  exists pruned st', IngestEntry C e token st = (Ok pruned, st')
    /\ Permutation pruned (filter (prunesb e) (others e xs))
    /\ ledger_step e xs pruned (refs st) (fun f => mget (files st) f) st'.
Proof.
  intros Hn I Oe HAcc. assert (Hn' : n < 2 ^ 64) by lia. pose proof I as [R RF FS L B].
  destruct (IngestEntry_spec C U PP HU n xs st e token Hn I Oe) as [(_ & pr & st' & EI & HP & I' & _ & _)|(NA & _)]; [|contradiction].
  assert (HS : strict_path pp (e_path e)) by apply Oe.
  exists pr, st'. split; [exact EI|]. split; [exact HP|].
  pose proof HAcc as (An & At & Aa & Ap).
  unfold IngestEntry in EI. unfold bindM at 1, lock in EI. rewrite L in EI. set (s1 := set_locked true st) in *.
  assert (R1 : Rep xs s1) by (apply (Rep_same _ _ _ st); auto).
  unfold ns_equal in EI. destruct (beqb_spec (c_ns C) (e_namespace e)) as [En|En]; [|congruence]. cbn [negb] in EI.
  unfold IsAuthoriseWrite in EI. destruct (beqb_spec (e_subspace e) token) as [Et|Et]; [|congruence]. cbn [negb] in EI.
  destruct (DriverPrefixesOf_spec C U PP xs s1 e R1 HS) as (ns & E1 & Hns).
  unfold bindM at 1 in EI. rewrite E1 in EI. destruct (existsb _ ns).
  { exfalso. destruct (proj1 Hns eq_refl) as (x & Hx & Ha & Ht). specialize (Aa x Hx Ha). lia. }
  unfold bindM at 1 in EI. assert (Se : stored_ok e) by (split; auto).
  destruct (driver_Get_spec C U PP HU xs s1 (e_subspace e) (e_path e) R1 HS) as [[G HN]|(x & G & Hx & X1 & X2)]; rewrite G in EI; clear G.
  - unfold bindM at 1, ret at 1 in EI. cbn [negb] in EI. rewrite <- Et in EI.
    destruct (insert_exact n xs s1 e) as (pr2 & s2 & E2 & D2 & F2); auto.
    unfold bindM at 1 in EI. rewrite E2 in EI. unfold bindM, unlock, ret in EI. injection EI as -> <-.
    assert (DN : dropped e xs = []) by (apply dropped_none; intros x Hx [S1 S2]; eauto).
    split; cbn [refs files set_locked].
    + intros d. rewrite DN. cbn [cnt]. rewrite N.add_0_r. apply D2.
    + intros f. rewrite F2, DN. reflexivity.
  - assert (SPx : same_place x e) by (split; auto). pose proof (Ap x Hx SPx) as Ht.
    pose proof (others_one e xs x (rep_place _ _ _ _ R) Hx SPx) as HPo.
    assert (Rx : Rep (x :: others e xs) s1) by (eapply Rep_perm; eauto).
    assert (RFx : Refs n (x :: others e xs) (refs s1)) by (eapply Refs_perm; eauto).
    destruct (replace_older_spec C U HU n x (others e xs) s1 e) as (s2 & E2 & R2 & RF2 & FS2 & L2 & B2 & _ & _); auto.
    destruct (replace_exact n x (others e xs) s1 e) as (s0 & E0 & D0 & F0); auto.
    rewrite E2 in E0. injection E0 as <-.
    unfold bindM at 1 in EI. rewrite E2 in EI. cbn [negb] in EI.
    destruct (insert_exact n (others e xs) s2 e) as (pr3 & s3 & E3 & D3 & F3); auto.
    { intros y Hy Y1 Y2. apply others_In in Hy as [_ Hy]. apply Hy. split; auto. }
    rewrite <- Et in EI. unfold bindM at 1 in EI. rewrite E3 in EI. unfold bindM, unlock, ret in EI. injection EI as -> <-.
    pose proof (dropped_one e xs x (rep_place _ _ _ _ R) Hx SPx) as DP.
    assert (DC : forall d, cnt d (dropped e xs) = if beqb (e_digest x) (e_digest e) then 0 else one (e_digest x) d).
    { intros d. rewrite (cnt_perm d _ _ DP). destruct (beqb (e_digest x) (e_digest e)); [reflexivity|]. cbn [cnt]. unfold one. lia. }
    split; cbn [refs files set_locked].
    + intros d. rewrite DC. specialize (D0 d). specialize (D3 d). change (refs s1) with (refs st) in D0. lia.
    + intros f. rewrite F3. destruct (last_of (refs s3) pr f) eqn:LP; [reflexivity|].
      rewrite F0. destruct (beqb_spec f (c_fname C (c_hash C (e_subspace e)))) as [Ef|Ef]; [reflexivity|]. cbn [orb].
      rewrite (last_of_perm _ _ _ f DP). change (files s1) with (files st).
      destruct (beqb_spec (e_digest x) (e_digest e)) as [Ed|Ed]; [reflexivity|]. cbn [negb andb]. unfold last_of. cbn [existsb]. rewrite orb_false_r, (beqb_sym f).
      destruct (beqb_spec (c_fname C (e_digest x)) f) as [Ex|Ex]; [|reflexivity]. cbn [andb].
      assert (Hone : one (e_digest e) (e_digest x) = 0) by (unfold one; rewrite beqb_neq by congruence; reflexivity).
      pose proof (D3 (e_digest x)) as D3x. rewrite Hone, N.add_0_r in D3x.
      destruct (N.eqb_spec (getd (refs s2) (e_digest x)) 0) as [Z2|Z2].
      * replace (getd (refs s3) (e_digest x)) with 0 by lia. reflexivity.
      * destruct (N.eqb_spec (getd (refs s3) (e_digest x)) 0) as [Z3|Z3]; [|reflexivity]. exfalso.
        assert (HC : cnt (e_digest x) pr <> 0) by lia. apply cnt_pos in HC as (y & Hy & Ey).
        assert (last_of (refs s3) pr f = true) by (apply last_of_spec; exists y; rewrite Ey; auto). congruence.
Qed.

Lemma set_exact n xs st i auth now :
  n + 1 < 2 ^ 64 -> Inv n xs st -> U (i_payload i) -> entry_ok C U (set_entry C i now) ->
  let e := set_entry C i now in
  let old f := if beqb f (c_fname C (e_digest e)) then Some (i_payload i) else mget (files st) f in
  (acceptable C (fun x => In x xs) e auth ->
   exists pruned st', Set_ C i auth now st = (Ok pruned, st')
     /\ Permutation pruned (filter (prunesb e) (others e xs)) /\ ledger_step e xs pruned (refs st) old st')
  /\ (~ acceptable C (fun x => In x xs) e auth ->
      exists st', Set_ C i auth now st = (Err, st') /\ refs st' = refs st /\ forall f, mget (files st') f = old f).
Proof.
  intros Hn I Ub Oe e old. set (s1 := set_files (fun m => mset m (c_fname C (e_digest e)) (i_payload i)) st).
  assert (I1 : Inv n xs s1) by (apply Inv_files; auto).
  assert (O1 : forall f, mget (files s1) f = old f) by (intros f; cbn [s1 files set_files]; apply mget_mset).
  assert (ES : Set_ C i auth now st = bindM (lift (Authorise e auth)) (fun token =>
     bindM (IngestEntry C e token) (fun pruned => bindM (ref_Count (e_digest e)) (fun c => (if c =? 0 then payload_Erase C (e_digest e) else ret tt) ;; ret pruned))) s1).
  { unfold Set_. unfold bindM at 1. unfold payload_Set. unfold bindM at 1. unfold durable at 1. rewrite (inv_budget _ _ _ _ _ I). reflexivity. }
  unfold bindM at 1, lift, Authorise in ES. split.
  - intros A. pose proof A as (_ & At & _). destruct (beqb_spec (e_subspace e) auth) as [Ea|Ea]; [|congruence].
    destruct (ingest_exact n xs s1 e (e_subspace e) Hn I1 Oe) as (pr & s2 & E2 & HP & LS); [rewrite <- Ea in A; exact A|].
    unfold bindM at 1 in ES. rewrite E2 in ES. exists pr, s2. split; [|split; [exact HP|]].
    + rewrite ES. destruct (IngestEntry_spec C U PP HU n xs s1 e (e_subspace e) Hn I1 Oe) as [(_ & pr' & s' & E' & _ & I' & _)|(NA & _)]; [|rewrite <- Ea in A; contradiction].
      rewrite E2 in E'. injection E' as <- <-. unfold bindM at 1, ref_Count, bindM at 1, gets.
      pose proof (inv_refs _ _ _ _ _ I' (e_digest e)) as [H1 _]. cbn [cnt] in H1. rewrite beqb_refl in H1. unfold getd in H1.
      destruct (mget (refs s2) (e_digest e)) as [c|]; [|lia]. unfold ret at 1. destruct (N.eqb_spec c 0); [lia|]. reflexivity.
    + destruct LS as (L1 & L2). split; [exact L1|]. intros f. rewrite L2. rewrite O1. reflexivity.
  - intros NA. destruct (beqb_spec (e_subspace e) auth) as [Ea|Ea]; [|exists s1; split; [exact ES|split; [reflexivity|exact O1]]].
    unfold bindM at 1 in ES. destruct (IngestEntry_spec C U PP HU n xs s1 e (e_subspace e) Hn I1 Oe) as [(A & _)|(_ & E')]; [rewrite <- Ea in NA; contradiction|].
    rewrite E' in ES. exists s1. split; [exact ES|split; [reflexivity|exact O1]].
Qed.

(** the file [f] once an operation has written its payload *)
Definition written (o : op) (st : state) (f : bytes) : option bytes :=
  match o with
  | OpSet i _ _ => if beqb f (c_fname C (c_hash C (i_payload i))) then Some (i_payload i) else mget (files st) f
  | _ => mget (files st) f
  end.

Lemma step_exact n xs st o e token :
  n + 1 < 2 ^ 64 -> Inv n xs st -> op_ok C U o -> offer C o = Some (e, token) ->
  (acceptable C (fun x => In x xs) e token ->
   exists pruned st', step C o st = (Ok pruned, st')
     /\ Permutation pruned (filter (prunesb e) (others e xs)) /\ ledger_step e xs pruned (refs st) (written o st) st')
  /\ (~ acceptable C (fun x => In x xs) e token ->
      exists st', step C o st = (Err, st') /\ refs st' = refs st /\ forall f, mget (files st') f = written o st f).
Proof.
  intros Hn I O E. destruct o as [i auth now|e' t'|]; cbn [offer op_ok step] in *; [| |discriminate]; injection E as <- <-.
  - destruct O as [O1 O2]. exact (set_exact n xs st i auth now Hn I O1 O2).
  - split.
    + intros A. exact (ingest_exact n xs st e' t' Hn I O A).
    + intros NA. destruct (IngestEntry_spec C U PP HU n xs st e' t' Hn I O) as [(A & _)|(_ & E')]; [contradiction|].
      exists st. split; [exact E'|split; reflexivity].
Qed.

(** [xs] splits into what goes and what stays *)
Lemma cnt_split e xs d : (forall x, In x xs -> same_place x e -> e_digest x <> e_digest e) ->
  cnt d xs = cnt d (dropped e xs) + cnt d (filter (prunesb e) (others e xs)) + cnt d (kept e (others e xs)).
Proof.
  intros H. transitivity (cnt d (dropped e xs) + cnt d (others e xs)).
  - revert H. unfold dropped, P_Store.others. induction xs as [|a xs IH]; intros H; cbn; [reflexivity|].
    specialize (IH (fun x Hx => H x (or_intror Hx))). rewrite IH. destruct (otherb e a) eqn:O; cbn [negb andb]; [cbn [cnt]; lia|].
    assert (SP : same_place a e).
    { unfold otherb in O. unfold same_place. destruct (beqb_spec (e_subspace a) (e_subspace e)), (peqb_spec (e_path a) (e_path e)); auto; discriminate. }
    specialize (H a (or_introl eq_refl) SP). destruct (beqb_spec (e_digest a) (e_digest e)); [contradiction|]. cbn [negb cnt]. lia.
  - rewrite (cnt_perm d _ _ (filter_partition (prunesb e) (others e xs))), cnt_app. unfold kept. lia.
Qed.

Lemma last_of_zero e xs pr st d f :
  last_of (refs st) (dropped e xs) f = false -> last_of (refs st) pr f = false ->
  f = c_fname C d -> getd (refs st) d = 0 -> cnt d (dropped e xs) + cnt d pr = 0.
Proof.
  intros H1 H2 -> Z.
  assert (HZ : forall ys, last_of (refs st) ys (c_fname C d) = false -> cnt d ys = 0).
  { intros ys H. destruct (N.eq_dec (cnt d ys) 0) as [|N0]; [assumption|]. apply cnt_pos in N0 as (y & Hy & Ey).
    assert (last_of (refs st) ys (c_fname C d) = true) by (apply last_of_spec; exists y; rewrite Ey; auto). congruence. }
  rewrite (HZ _ H1), (HZ _ H2). reflexivity.
Qed.
End Ledger.
