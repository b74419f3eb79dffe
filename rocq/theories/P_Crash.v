(** Operations cut short at any durable write, in any state whose index and
    database agree (nothing is assumed about counts, payloads or the lock). *)
From Coq Require Import Sorting.Permutation.
From Verif Require Import Base M_Order M_Encoding M_Paths M_Successor M_Ranges M_Keys M_Entry M_Map M_Store
  S_Order S_Store P_Order P_Encoding P_Paths P_Ranges P_Successor P_Areas P_Keys P_Map P_Store P_History P_Auth.
Local Open Scope N_scope.

Lemma durable_any f st : 
  durable f st = (Fatal, st)
  \/ exists st', durable f st = (Ok tt, st') /\ kv st' = kv (f st) /\ tree st' = tree (f st)
       /\ refs st' = refs (f st) /\ files st' = files (f st) /\ locked st' = locked (f st).
Proof.
  unfold durable. destruct (budget st) as [[|m]|]; [left; reflexivity| |]; right; eexists; repeat split; reflexivity.
Qed.

Lemma Permutation_filter {A} (f : A -> bool) l l' : Permutation l l' -> Permutation (filter f l) (filter f l').
Proof.
  induction 1; cbn; auto.
  - destruct (f x); auto.
  - destruct (f x), (f y); auto using perm_swap, Permutation_refl.
  - etransitivity; eauto.
Qed.
Lemma filter_filter_idem {A} (f : A -> bool) l : filter f (filter f l) = filter f l.
Proof. apply filter_all. intros x Hx. apply filter_In in Hx. tauto. Qed.

Section Crash.
Variable C : cfg.
Notation pp := (c_pp C).
Variable U : bytes -> Prop.
Hypothesis PP : store_params pp.
Hypothesis HU : universe C U.
Notation Rep := (Rep C U).

Definition quiet (st st' : state) : Prop := kv st' = kv st /\ tree st' = tree st.
Lemma Rep_quiet xs st st' : quiet st st' -> Rep xs st -> Rep xs st'.
Proof. intros [H1 H2]. apply Rep_same; auto. Qed.

Lemma Erase_any d st : exists r st', payload_Erase C d st = (r, st') /\ quiet st st' /\ refs st' = refs st
  /\ (r = Ok tt \/ r = Fatal).
Proof.
  unfold payload_Erase. destruct (durable_any (set_files (fun m => mdel m (c_fname C d))) st)
    as [->|(st' & -> & K & T & R & _)].
  - exists Fatal, st. repeat split; auto.
  - exists (Ok tt), st'. repeat split; auto.
Qed.

Lemma PSet_any b st : exists r st', payload_Set C b st = (r, st') /\ quiet st st' /\ refs st' = refs st
  /\ locked st' = locked st
  /\ (r = Ok (c_hash C b, len b) \/ r = Fatal).
Proof.
  unfold payload_Set, bindM. destruct (durable_any (set_files (fun m => mset m (c_fname C (c_hash C b)) b)) st)
    as [->|(st' & -> & K & T & R & F & L)].
  - exists Fatal, st. repeat split; auto.
  - exists (Ok (c_hash C b, len b)), st'. repeat split; auto.
Qed.

Lemma Decrement_any d st : exists r st', ref_Decrement d st = (r, st') /\ quiet st st'.
Proof.
  unfold ref_Decrement, bindM, gets, fail, ret. destruct (mget (refs st) d) as [c|].
  - destruct (durable_any (set_refs (fun m => mset m d (sub64 c 1))) st) as [->|(st' & -> & K & T & _)].
    + exists Fatal, st. repeat split.
    + eexists _, st'. repeat split; auto.
  - exists Err, st. repeat split.
Qed.

Lemma Increment_any d st : exists r st', ref_Increment d st = (r, st') /\ quiet st st'.
Proof.
  unfold ref_Increment, bindM, gets, ret.
  match goal with |- context [durable ?f st] => destruct (durable_any f st) as [->|(st' & -> & K & T & _)] end.
  - exists Fatal, st. repeat split.
  - eexists _, st'. repeat split; auto.
Qed.

Lemma Delete_any x xs st : Rep (x :: xs) st ->
  driver_Delete C x st = (Fatal, st)
  \/ exists st', driver_Delete C x st = (Ok tt, st') /\ Rep xs st' /\ refs st' = refs st.
Proof.
  intros R. unfold driver_Delete, bindM.
  destruct (durable_any (set_kv (fun m => mdel m (EncodeKey (EntryPosition x) pp))) st)
    as [->|(s1 & -> & K & T & Rf & _)]; [left; reflexivity|right].
  eexists. split; [reflexivity|]. split; [|exact Rf].
  destruct R as [R1 R2 R3 R4 R5]. split; cbn [kv tree set_tree]; rewrite ?K, ?T; cbn [kv tree set_kv].
  - apply mdel_sorted; auto.
  - eapply mdel_perm; [apply msorted_NoDup; auto|exact R2].
  - eapply remove_first_perm; [|exact R3]. intros n.
    destruct (node_is_spec (e_subspace x) (e_path x) (e_time x) n); split; auto; congruence.
  - inversion R4; auto.
  - inversion R5; auto.
Qed.

(** [driver_Insert] on a copy of the state without a budget. *)
Lemma Insert_any x xs st : Rep xs st -> stored_ok C U x ->
  (forall y, In y xs -> e_subspace y = e_subspace x -> e_path y = e_path x -> False) ->
  driver_Insert C (x, c_hash C (e_subspace x)) st = (Fatal, st)
  \/ exists st', driver_Insert C (x, c_hash C (e_subspace x)) st = (Ok tt, st') /\ Rep (x :: xs) st'
    /\ tree st' = Node (e_subspace x) (e_path x) (e_time x) [] false :: tree st.
Proof.
  intros R Ox HN.
  assert (R0 : Rep xs (set_budget None st)) by (eapply Rep_quiet; [|exact R]; split; reflexivity).
  destruct (driver_Insert_spec C U PP x xs (set_budget None st) eq_refl R0 Ox HN)
    as (s1 & E1 & R1 & _ & _ & _ & _ & T1).
  unfold driver_Insert, bindM in *.
  match goal with |- context [durable ?f st] => destruct (durable_any f st) as [->|(s2 & -> & K & T & _)] end.
  - left. reflexivity.
  - right. unfold durable in E1. cbn [budget set_budget] in E1. unfold gets in *. rewrite T.
    cbn [tree set_kv set_budget] in *. destruct (existsb _ (tree st)); [discriminate E1|].
    inversion E1; subst s1. cbn [tree set_tree set_kv set_budget] in T1.
    eexists. split; [reflexivity|]. split.
    + eapply Rep_quiet; [|exact R1]. split; cbn [kv tree set_tree set_kv set_budget].
      * rewrite K. reflexivity.
      * rewrite T. reflexivity.
    + cbn [tree set_tree]. rewrite T. reflexivity.
Qed.

Lemma prune_loop_any ys zs st r st' :
  Rep (ys ++ zs) st -> prune_loop C (map (fun x => (x, c_hash C (e_subspace x))) ys) st = (r, st') ->
  exists ys', Rep (ys' ++ zs) st' /\ incl ys' ys /\ (forall l, r = Ok l -> ys' = [] /\ l = ys).
Proof.
  revert st r st'. induction ys as [|y ys IH]; intros st r st' R E; cbn [map prune_loop] in E.
  - inversion E; subst. exists []. split; auto. split; [intros z []|]. intros l El; inversion El; auto.
  - unfold bindM at 1 in E.
    destruct (Delete_any y (ys ++ zs) st R) as [D|(s1 & D & R1 & _)]; rewrite D in E.
    { inversion E; subst. exists (y :: ys). split; auto. split; [apply incl_refl|discriminate]. }
    unfold bindM at 1 in E. destruct (Decrement_any (e_digest y) s1) as (r2 & s2 & E2 & Q2). rewrite E2 in E.
    pose proof (Rep_quiet _ _ _ Q2 R1) as R2.
    assert (Stop : r <> r -> False) by auto.
    destruct r2 as [c| | | |];
      try (inversion E; subst; exists ys; split; [auto|split; [apply incl_tl, incl_refl|discriminate]]; fail).
    unfold bindM at 1 in E.
    assert (X : exists r3 s3, (if c =? 0 then payload_Erase C (e_digest y) else ret tt) s2 = (r3, s3) /\ quiet s2 s3
       /\ (r3 = Ok tt \/ r3 = Fatal)).
    { destruct (c =? 0).
      - destruct (Erase_any (e_digest y) s2) as (r3 & s3 & E3 & Q3 & _ & H3). eauto 6.
      - exists (Ok tt), s2. repeat split; auto. }
    destruct X as (r3 & s3 & E3 & Q3 & H3). rewrite E3 in E. pose proof (Rep_quiet _ _ _ Q3 R2) as R3.
    destruct H3 as [->| ->].
    2:{ inversion E; subst. exists ys. split; auto. split; [apply incl_tl, incl_refl|discriminate]. }
    unfold bindM in E. destruct (prune_loop C _ s3) as [r4 s4] eqn:E4.
    destruct (IH _ _ _ R3 E4) as (ys' & R4 & I4 & O4). exists ys'.
    destruct r4 as [l| | | |]; inversion E; subst; (split; [auto|split; [apply incl_tl; auto|]]); try discriminate.
    intros l0 El. inversion El; subst. destruct (O4 l eq_refl) as [-> ->]. auto.
Qed.

(** Insertion, cut anywhere. *)
Lemma InsertEntry_any xs st e r st' : Rep xs st -> stored_ok C U e ->
  (forall y, In y xs -> e_subspace y = e_subspace e -> e_path y = e_path e -> False) ->
  InsertEntry C e (e_subspace e) st = (r, st') ->
  (Rep xs st' /\ refs st' = refs st /\ r = Fatal)
  \/ exists ys, Rep (e :: ys) st' /\ incl ys xs /\ incl (kept e xs) ys
       /\ (forall l, r = Ok l -> ys = kept e xs).
Proof.
  intros R Oe HN E. unfold InsertEntry in E. unfold bindM at 1 in E.
  destruct (PSet_any (e_subspace e) st) as (r1 & s1 & E1 & Q1 & F1 & _ & H1). rewrite E1 in E.
  pose proof (Rep_quiet _ _ _ Q1 R) as R1.
  destruct H1 as [->| ->].
  2:{ left. inversion E; subst. auto. }
  cbn [fst] in E. unfold bindM at 1 in E.
  assert (Ee : Entry (c_ns C) (e_subspace e) (e_digest e) (e_path e) (e_time e) (e_length e) = e).
  { destruct Oe as [_ Oe]. destruct e; cbn in *; subst; auto. }
  rewrite Ee in E.
  destruct (Insert_any e xs s1 R1 Oe HN) as [D|(s2 & D & R2 & T2)]; rewrite D in E.
  { left. inversion E; subst. auto. }
  right. unfold bindM at 1 in E. destruct (Increment_any (e_digest e) s2) as (r3 & s3 & E3 & Q3). rewrite E3 in E.
  pose proof (Rep_quiet _ _ _ Q3 R2) as R3.
  assert (KI : incl (kept e xs) xs) by (intros z Hz; apply filter_In in Hz; tauto).
  destruct r3 as [c| | | |];
    try (inversion E; subst; exists xs; split; [auto|split; [apply incl_refl|split; [auto|discriminate]]]; fail).
  unfold bindM in E.
  assert (T3 : tree s3 = Node (e_subspace e) (e_path e) (e_time e) [] false :: tree s1).
  { destruct Q3 as [_ Q3]. rewrite Q3. auto. }
  destruct (PrunableEntries_spec C U PP HU (e :: xs) s3 e _ _ R3 (proj1 (proj1 Oe)) T3 eq_refl) as (ys & E4 & HY).
  rewrite E4 in E.
  assert (NS : prunesb e e = false).
  { destruct (prunesb_spec e e) as [[_ H]|]; auto; [apply Oe|lia]. }
  cbn [filter] in HY. rewrite NS in HY.
  assert (HP : Permutation (e :: xs) (ys ++ (e :: kept e xs))).
  { apply Permutation_cons_app. etransitivity; [apply (filter_partition (prunesb e))|].
    apply Permutation_app_tail. symmetry; auto. }
  destruct (prune_loop_any ys (e :: kept e xs) s3 r st' (Rep_perm _ _ _ _ _ HP R3) E) as (ys' & R5 & I5 & O5).
  exists (ys' ++ kept e xs). split; [|split; [|split]].
  - eapply Rep_perm; [|exact R5]. symmetry. apply Permutation_middle.
  - intros z Hz. apply in_app_or in Hz as [Hz|Hz]; auto. apply I5 in Hz.
    eapply Permutation_in in Hz; [|exact HY]. apply filter_In in Hz. tauto.
  - apply incl_appr, incl_refl.
  - intros l El. destruct (O5 l El) as [-> _]. auto.
Qed.

(** Replacement, cut anywhere. *)
Lemma replace_any x xs st e r st' : Rep (x :: xs) st -> same_place x e -> e_time x < e_time e ->
  replace_other C e (x, c_hash C (e_subspace x)) st = (r, st') ->
  exists ys, Rep ys st' /\ (ys = xs \/ (ys = x :: xs /\ r = Fatal))
    /\ (r = Ok true -> ys = xs) /\ r <> Ok false
    /\ (forall n, n < 2 ^ 64 -> Refs n (x :: xs) (refs st) -> Refs n ys (refs st')).
Proof.
  intros R [E1 E2] Ht E. unfold replace_other in E.
  rewrite E2, (order_refl _ _ OrderPath_total) in E. cbn [Z.eqb] in E.
  destruct (N.leb_spec (e_time e) (e_time x)); [lia|].
  unfold bindM at 1 in E.
  destruct (Delete_any x xs st R) as [D|(s1 & D & R1 & F1)]; rewrite D in E.
  { inversion E; subst. exists (x :: xs). split; [auto|]. split; [auto|]. split; [discriminate|]. split; [discriminate|auto]. }
  unfold bindM at 1 in E.
  destruct (Erase_any (c_hash C (e_subspace x)) s1) as (r2 & s2 & D2 & Q2 & F2 & H2). rewrite D2 in E.
  pose proof (Rep_quiet _ _ _ Q2 R1) as R2.
  assert (RF2 : forall n, Refs n (x :: xs) (refs st) -> Refs n xs (refs s2)).
  { intros n H'. rewrite F2, F1. eapply Refs_drop; eauto. }
  destruct H2 as [->| ->].
  2:{ inversion E; subst. exists xs. split; [auto|]. split; [auto|]. split; [discriminate|]. split; [discriminate|auto]. }
  destruct (beqb_spec (e_digest x) (e_digest e)) as [Ed|Ed]; cbn [negb] in E.
  { unfold bindM, ret in E. inversion E; subst. exists xs. split; [auto|]. split; [auto|]. split; [auto|].
    split; [discriminate|auto]. }
  unfold bindM at 1 in E. unfold bindM at 1 in E.
  destruct (Decrement_any (e_digest x) s2) as (r3 & s3 & D3 & Q3). rewrite D3 in E.
  pose proof (Rep_quiet _ _ _ Q3 R2) as R3.
  assert (RF3 : forall n, n < 2 ^ 64 -> Refs n (x :: xs) (refs st) -> Refs n xs (refs s3)).
  { intros n Hn H'. assert (RS : Refs n (x :: xs) (refs s2)) by (rewrite F2, F1; auto).
    clear - D3 RS Hn. unfold ref_Decrement, bindM, gets, fail, ret in D3.
    destruct (mget (refs s2) (e_digest x)) as [c|] eqn:Ec; [|inversion D3; subst; eapply Refs_drop; eauto].
    destruct (durable_any (set_refs (fun m => mset m (e_digest x) (sub64 c 1))) s2) as [Du|(s & Du & _ & _ & Rs & _)];
      rewrite Du in D3; inversion D3; subst; [eapply Refs_drop; eauto|].
    rewrite Rs. cbn [refs set_refs].
    pose proof (RS (e_digest x)) as [H1 H2]. cbn [cnt] in H1. rewrite beqb_refl in H1.
    unfold getd in H1, H2. rewrite Ec in H1, H2.
    assert (S : sub64 c 1 = c - 1).
    { unfold sub64, two64. rewrite (N.mod_small 1) by lia.
      replace (c + 2 ^ 64 - 1) with ((c - 1) + 1 * 2 ^ 64) by lia.
      rewrite N.mod_add by lia. apply N.mod_small. lia. }
    rewrite S. intros d. rewrite getd_mset. pose proof (RS d) as [H3 H4]. cbn [cnt] in H3.
    rewrite (beqb_sym d). destruct (beqb_spec (e_digest x) d) as [Ed|Ed]; [subst d; lia|lia]. }
  destruct r3 as [c| | | |];
    try (inversion E; subst; exists xs; split; [auto|split; [auto|split; [discriminate|split; [discriminate|auto]]]]; fail).
  assert (X : exists r4 s4, (if c =? 0 then payload_Erase C (e_digest x) else ret tt) s3 = (r4, s4) /\ quiet s3 s4
       /\ refs s4 = refs s3 /\ (r4 = Ok tt \/ r4 = Fatal)).
  { destruct (c =? 0).
    - destruct (Erase_any (e_digest x) s3) as (r4 & s4 & E4 & Q4 & F4 & H4). eauto 7.
    - exists (Ok tt), s3. repeat split; auto. }
  destruct X as (r4 & s4 & E4 & Q4 & F4 & H4). rewrite E4 in E. pose proof (Rep_quiet _ _ _ Q4 R3) as R4.
  exists xs. destruct H4 as [->| ->]; unfold ret in E; inversion E; subst.
  - split; [auto|]. split; [auto|]. split; [auto|]. split; [discriminate|]. rewrite F4. auto.
  - split; [auto|]. split; [auto|]. split; [discriminate|]. split; [discriminate|]. rewrite F4. auto.
Qed.

(** IngestEntry, cut anywhere, in any state whose index agrees. *)
Definition cut_outcome (xs : list entry) (st : state) (e : entry) (token : bytes)
    (r : res (list entry)) (st' : state) : Prop :=
  exists ys, Rep ys st' /\
    (((Permutation ys xs \/ (acceptable C (fun x => In x xs) e token /\ Permutation ys (others e xs)))
        /\ (forall l, r <> Ok l)
        /\ (forall n, n < 2 ^ 64 -> Refs n xs (refs st) -> Refs n ys (refs st')))
     \/ (acceptable C (fun x => In x xs) e token
         /\ exists zs, ys = e :: zs /\ incl zs (others e xs) /\ incl (kept e (others e xs)) zs
            /\ (forall l, r = Ok l -> zs = kept e (others e xs)))).

Lemma IngestEntry_any xs st e token r st' : Rep xs st -> entry_ok C U e ->
  IngestEntry C e token st = (r, st') -> cut_outcome xs st e token r st'.
Proof.
  intros R Oe E. assert (HS : strict_path pp (e_path e)) by apply Oe.
  assert (Same : forall s, quiet st s -> refs s = refs st ->
     (forall l, r <> Ok l) -> st' = s -> cut_outcome xs st e token r st').
  { intros s Q F H ->. exists xs. split; [eapply Rep_quiet; eauto|]. left. rewrite F. auto. }
  unfold IngestEntry in E. unfold bindM at 1, lock in E. destruct (locked st).
  { injection E as Er Es. apply (Same st); [split; auto|auto|intros l; rewrite <- Er; discriminate|auto]. }
  set (s1 := set_locked true st) in *.
  assert (R1 : Rep xs s1) by (eapply Rep_quiet; [|exact R]; split; reflexivity).
  assert (Stop : (Err, set_locked false s1) = (r, st') -> cut_outcome xs st e token r st').
  { intros E0. injection E0 as Er Es. apply (Same (set_locked false s1)); [split; reflexivity|reflexivity| |auto].
    intros l; rewrite <- Er; discriminate. }
  unfold ns_equal in E. destruct (beqb_spec (c_ns C) (e_namespace e)) as [En|En]; cbn [negb] in E; [|apply Stop; exact E].
  unfold IsAuthoriseWrite in E. destruct (beqb_spec (e_subspace e) token) as [Et|Et]; cbn [negb] in E; [|apply Stop; exact E].
  destruct (DriverPrefixesOf_spec C U PP xs s1 e R1 HS) as (ns & E1 & Hns).
  unfold bindM at 1 in E. rewrite E1 in E.
  destruct (existsb _ ns); [apply Stop; exact E|].
  assert (HA : forall x, In x xs -> above x e -> e_time x < e_time e).
  { intros x Hx Ha. destruct (N.lt_ge_cases (e_time x) (e_time e)); auto.
    destruct Hns as [_ Hns]. discriminate Hns. eauto. }
  clear Hns. unfold bindM at 1 in E.
  assert (Se : stored_ok C U e) by (split; auto).
  destruct (driver_Get_spec C U PP HU xs s1 (e_subspace e) (e_path e) R1 HS) as [[G HN]|(x & G & Hx & X1 & X2)];
    rewrite G in E; clear G.
  - unfold bindM at 1, ret at 1 in E. cbn [negb] in E. rewrite <- Et in E. unfold bindM at 1 in E.
    destruct (InsertEntry C e (e_subspace e) s1) as [r2 s2] eqn:E2.
    assert (Q : (st' = s2 \/ st' = set_locked false s2) /\ (forall l, r = Ok l -> r2 = Ok l)).
    { destruct r2; unfold bindM, unlock, ret in E; injection E as Er Es; subst r st'; split; auto; try discriminate. }
    destruct Q as [Q Rr].
    assert (RS : forall ys, Rep ys s2 -> Rep ys st').
    { intros ys H. destruct Q as [Q|Q]; rewrite Q; auto. eapply Rep_quiet; [|exact H]. split; reflexivity. }
    assert (FS : refs st' = refs s2) by (destruct Q as [Q|Q]; rewrite Q; reflexivity).
    assert (AC : acceptable C (fun x => In x xs) e token).
    { repeat split; auto. intros y Hy [Y1 Y2]. exfalso; eauto. }
    unfold cut_outcome. rewrite others_none by auto.
    destruct (InsertEntry_any xs s1 e r2 s2 R1 Se HN E2) as [(R2 & F2 & H2)|(ys & R2 & I1 & I2 & O2)].
    + exists xs. split; auto. left. split; auto. split; [intros l El; apply Rr in El; congruence|].
      intros n _ H. rewrite FS, F2. auto.
    + exists (e :: ys). split; auto. right. split; auto. exists ys. split; auto. split; auto. split; auto.
      intros l El. apply Rr in El. eauto.
  - assert (SPx : same_place x e) by (split; auto).
    destruct (N.lt_ge_cases (e_time x) (e_time e)) as [Ht|Ht].
    + pose proof (others_one e xs x (rep_place _ _ _ _ R) Hx SPx) as HPo.
      assert (AC : acceptable C (fun x => In x xs) e token).
      { repeat split; auto. intros y Hy [Y1 Y2].
        assert (y = x) by (eapply place_inj; [apply (rep_place _ _ _ _ R)| | | |]; eauto; congruence).
        subst y; auto. }
      unfold bindM at 1 in E.
      destruct (replace_other C e (x, c_hash C (e_subspace x)) s1) as [r2 s2] eqn:E2.
      destruct (replace_any x (others e xs) s1 e r2 s2 (Rep_perm _ _ _ _ _ HPo R1) SPx Ht E2)
        as (ys & R2 & C2 & O2 & N2 & RF2).
      assert (RFX : forall n, n < 2 ^ 64 -> Refs n xs (refs st) -> Refs n ys (refs s2)).
      { intros n Hn H. apply RF2; auto. eapply Refs_perm; eauto. }
      assert (PY : Permutation ys xs \/ (acceptable C (fun x => In x xs) e token /\ Permutation ys (others e xs))).
      { destruct C2 as [->|[-> _]]; [right; auto|left; symmetry; auto]. }
      destruct r2 as [go| | | |].
      2-5: injection E as Er Es; exists ys; rewrite <- Er, <- Es; split; [exact R2|left; split; [exact PY|split; [discriminate|exact RFX]]].
      destruct go; [|congruence]. rewrite (O2 eq_refl) in *. clear O2 N2 C2 PY.
      cbn [negb] in E. rewrite <- Et in E. unfold bindM at 1 in E.
      destruct (InsertEntry C e (e_subspace e) s2) as [r3 s3] eqn:E3.
      assert (Q : (st' = s3 \/ st' = set_locked false s3) /\ (forall l, r = Ok l -> r3 = Ok l)).
      { destruct r3; unfold bindM, unlock, ret in E; injection E as Er Es; subst r st'; split; auto; try discriminate. }
      destruct Q as [Q Rr].
      assert (RS : forall ys, Rep ys s3 -> Rep ys st').
      { intros zs H. destruct Q as [Q|Q]; rewrite Q; auto. eapply Rep_quiet; [|exact H]. split; reflexivity. }
      assert (FS : refs st' = refs s3) by (destruct Q as [Q|Q]; rewrite Q; reflexivity).
      assert (HN : forall y, In y (others e xs) -> e_subspace y = e_subspace e -> e_path y = e_path e -> False).
      { intros y Hy Y1 Y2. apply others_In in Hy as [_ Hy]. apply Hy. split; auto. }
      destruct (InsertEntry_any (others e xs) s2 e r3 s3 R2 Se HN E3) as [(R3 & F3 & H3)|(zs & R3 & I1 & I2 & O3)].
      * exists (others e xs). split; auto. left. split; auto. split; [intros l El; apply Rr in El; congruence|].
        intros n Hn H. rewrite FS, F3. auto.
      * exists (e :: zs). split; auto. right. split; auto. exists zs. split; auto. split; auto. split; auto.
        intros l El. apply Rr in El. eauto.
    + unfold replace_other in E. rewrite X2, (order_refl _ _ OrderPath_total) in E. cbn [Z.eqb] in E.
      destruct (N.leb_spec (e_time e) (e_time x)); [|lia].
      unfold bindM, unlock, ret, fail in E. cbn [negb] in E. apply Stop; exact E.
Qed.

(** One operation, cut anywhere. [e] is what it offers. *)
Definition cut_step (xs : list entry) (o : op) (st' : state) : Prop :=
  exists ys, Rep ys st' /\
    match offer C o with
    | None => Permutation ys xs
    | Some (e, token) =>
        Permutation ys xs
        \/ (acceptable C (fun x => In x xs) e token
            /\ (Permutation ys (others e xs)
                \/ exists zs, ys = e :: zs /\ incl zs (others e xs) /\ incl (kept e (others e xs)) zs))
    end.

Lemma Rep_reopen xs st : Rep xs st -> exists st', reopen C st = Ok st' /\ Rep xs st'
  /\ kv st' = kv st /\ refs st' = refs st /\ files st' = files st /\ locked st' = false /\ budget st' = None.
Proof.
  intros R. pose proof (rep_kv _ _ _ _ R) as HK.
  apply Permutation_map_inv in HK as (ys & EK & HP).
  pose proof (Rep_perm _ _ _ _ _ HP R) as R'.
  unfold reopen. rewrite EK, (load_nodes_spec C U PP HU) by apply (rep_ok _ _ _ _ R'). cbn [bind].
  eexists; split; [reflexivity|]. cbn [kv refs files locked budget]. split; [|auto 6].
  apply (Rep_perm _ _ ys); [symmetry; auto|]. destruct R' as [A1 A2 A3 A4 A5]. split; cbn [kv tree]; auto.
  - rewrite <- EK. auto.
  - rewrite map_map. apply Permutation_refl.
Qed.

Lemma Set_any xs st i auth now r st' : Rep xs st -> entry_ok C U (set_entry C i now) ->
  Set_ C i auth now st = (r, st') -> cut_step xs (OpSet i auth now) st'.
Proof.
  intros R Oe E. unfold cut_step. cbn [offer]. unfold Set_ in E. unfold bindM at 1 in E.
  destruct (PSet_any (i_payload i) st) as (r1 & s1 & E1 & Q1 & _ & _ & H1). rewrite E1 in E.
  pose proof (Rep_quiet _ _ _ Q1 R) as R1.
  destruct H1 as [->| ->].
  2:{ injection E as Er Es. exists xs. rewrite <- Es. split; auto. }
  cbn [fst snd] in E. fold (set_entry C i now) in E. set (e := set_entry C i now) in *.
  unfold bindM at 1, lift at 1 in E. unfold Authorise in E.
  destruct (beqb_spec (e_subspace e) auth) as [Ea|Ea].
  2:{ injection E as Er Es. exists xs. rewrite <- Es. split; auto. }
  unfold bindM at 1 in E. destruct (IngestEntry C e (e_subspace e) s1) as [r2 s2] eqn:E2.
  assert (Q : quiet s2 st').
  { destruct r2 as [pr| | | |]; try (injection E as Er Es; rewrite <- Es; split; reflexivity).
    unfold bindM at 1 in E. unfold ref_Count, gets, bindM at 1 in E.
    destruct (mget (refs s2) (c_hash C (i_payload i))) as [c|];
      [|unfold fail in E; injection E as Er Es; rewrite <- Es; split; reflexivity].
    unfold ret at 1 in E. unfold bindM in E. destruct (c =? 0).
    - destruct (Erase_any (c_hash C (i_payload i)) s2) as (r3 & s3 & E3 & Q3 & _ & H3). rewrite E3 in E.
      destruct H3 as [->| ->]; unfold ret in E; injection E as Er Es; rewrite <- Es; auto.
    - unfold ret in E. injection E as Er Es. rewrite <- Es. split; reflexivity. }
  destruct (IngestEntry_any xs s1 e (e_subspace e) r2 s2 R1 Oe E2) as (ys & R2 & H).
  exists ys. split; [eapply Rep_quiet; eauto|]. rewrite Ea in H.
  destruct H as [([H|H] & _)|(A & zs & -> & I1 & I2 & _)]; auto.
  - right. destruct H; auto.
  - right. split; auto. right. exists zs. auto.
Qed.

Lemma step_any xs st o r st' : Rep xs st -> op_ok C U o -> step C o st = (r, st') -> cut_step xs o st'.
Proof.
  intros R O E. destruct o as [i auth now|e token|]; cbn [step op_ok] in *.
  - eapply Set_any; eauto. apply O.
  - unfold cut_step. cbn [offer].
    destruct (IngestEntry_any xs st e token r st' R O E) as (ys & R2 & H).
    exists ys. split; auto. destruct H as [([H|H] & _)|(A & zs & -> & I1 & I2 & _)]; auto.
    + right. destruct H; auto.
    + right. split; auto. right. exists zs. auto.
  - unfold cut_step. cbn [offer]. destruct (Rep_reopen xs st R) as (s & E2 & R2 & _). rewrite E2 in E.
    injection E as Er Es. exists xs. rewrite <- Es. auto.
Qed.

(** Any history of operations and crashes. *)
Lemma lives_Rep ops st : lives C ops st -> Forall (op_ok C U) ops -> exists xs, Rep xs st.
Proof.
  induction 1 as [|ops o st r st' H IH E _|ops o b st r st' st'' H IH E E2]; intros HO.
  - exists []. split; cbn; auto using Permutation_refl. constructor. constructor.
  - apply Forall_app in HO as [HO H1]. inversion H1; subst. destruct (IH HO) as (xs & R).
    destruct (step_any xs st o r st' R ltac:(auto) E) as (ys & R' & _). eauto.
  - apply Forall_app in HO as [HO H1]. inversion H1; subst. destruct (IH HO) as (xs & R).
    assert (Rb : Rep xs (set_budget b st)) by (eapply Rep_quiet; [|exact R]; split; reflexivity).
    destruct (step_any xs _ o r st' Rb ltac:(auto) E) as (ys & R' & _).
    destruct (Rep_reopen ys st' R') as (s & E3 & R3 & _). rewrite E3 in E2. injection E2 as <-. eauto.
Qed.

(** Payload files stay well-formed, whatever happens. *)
Notation Files := (Files C U).
Definition keepsF {A} (m : M A) : Prop := forall st r st', m st = (r, st') -> Files st -> Files st'.

Lemma keepsF_same {A} (m : M A) : (forall st, files (snd (m st)) = files st) -> keepsF m.
Proof. intros H st r st' E HF. specialize (H st). rewrite E in H. cbn in H. unfold Files. rewrite H. auto. Qed.
Lemma keepsF_bind {A B} (m : M A) (f : A -> M B) : keepsF m -> (forall a, keepsF (f a)) -> keepsF (bindM m f).
Proof.
  intros H1 H2 st r st' E HP. unfold bindM in E. destruct (m st) as [r1 s1] eqn:E1.
  specialize (H1 _ _ _ E1 HP). destruct r1; try (injection E as Er Es; rewrite <- Es; auto; fail). eapply H2; eauto.
Qed.
Lemma keepsF_if {A} (b : bool) (m1 m2 : M A) : keepsF m1 -> keepsF m2 -> keepsF (if b then m1 else m2).
Proof. destruct b; auto. Qed.
Lemma keepsF_durable f : (forall st, Files st -> Files (f st)) -> keepsF (durable f).
Proof.
  intros H st r st' E HP. unfold durable in E.
  destruct (budget st) as [[|n]|]; injection E as Er Es; rewrite <- Es; auto.
  specialize (H st HP). intros g x Hg. apply (H g x Hg).
Qed.
Lemma keepsF_durable_same f : (forall st, files (f st) = files st) -> keepsF (durable f).
Proof. intros H. apply keepsF_durable. intros st HF g x. rewrite H. apply HF. Qed.

Ltac kf1 :=
  first
    [ apply keepsF_if
    | apply keepsF_bind; [|intros ?]
    | match goal with
      | |- keepsF (match ?x with _ => _ end) => destruct x
      end
    | apply keepsF_durable_same; reflexivity
    | apply keepsF_same; reflexivity ].

Lemma keepsF_Erase d : keepsF (payload_Erase C d).
Proof. unfold payload_Erase. apply keepsF_durable. intros. apply Files_erase; auto. Qed.
Lemma keepsF_PSet b : U b -> keepsF (payload_Set C b).
Proof. intros. unfold payload_Set. kf1; [|kf1]. apply keepsF_durable. intros. apply Files_set; auto. Qed.
Lemma keepsF_lock : keepsF lock.
Proof. apply keepsF_same. intros st. unfold lock. destruct (locked st); reflexivity. Qed.
Lemma keepsF_Decr d : keepsF (ref_Decrement d).  Proof. unfold ref_Decrement. repeat kf1. Qed.
Lemma keepsF_Incr d : keepsF (ref_Increment d).  Proof. unfold ref_Increment. repeat kf1. Qed.
Lemma keepsF_Delete e : keepsF (driver_Delete C e).  Proof. unfold driver_Delete. repeat kf1. Qed.
Lemma keepsF_DInsert x : keepsF (driver_Insert C x).
Proof. unfold driver_Insert. destruct x. repeat kf1. Qed.
Lemma keepsF_Get s0 s1 p : keepsF (driver_Get_at C s0 s1 p).
Proof. unfold driver_Get_at, storage_Get. repeat kf1. Qed.
Lemma keepsF_prunable t cands : keepsF (prunable_loop C t cands).
Proof. induction cands; cbn [prunable_loop]; repeat first [exact IHcands|apply keepsF_Get|kf1]. Qed.
Lemma keepsF_prune xs : keepsF (prune_loop C xs).
Proof.
  induction xs as [|[e a] xs IH]; cbn [prune_loop];
    repeat first [exact IH|apply keepsF_Delete|apply keepsF_Decr|apply keepsF_Erase|kf1].
Qed.
Lemma keepsF_Ingest e token : U (e_subspace e) -> keepsF (IngestEntry C e token).
Proof.
  intros Hu. unfold IngestEntry, IsAuthoriseWrite.
  apply keepsF_bind; [apply keepsF_lock|intros _].
  apply keepsF_if; [repeat kf1|].
  destruct (beqb_spec (e_subspace e) token) as [<-|]; cbn [negb]; [|repeat kf1].
  apply keepsF_bind; [unfold DriverPrefixesOf; repeat kf1|intros ns].
  apply keepsF_if; [repeat kf1|].
  apply keepsF_bind; [apply keepsF_Get|intros o].
  apply keepsF_bind; [destruct o as [p|]; [|repeat kf1]|intros go].
  - unfold replace_other. destruct p.
    repeat first [apply keepsF_Delete|apply keepsF_Decr|apply keepsF_Erase|kf1].
  - apply keepsF_if; [repeat kf1|]. apply keepsF_bind; [|intros; repeat kf1].
    unfold InsertEntry, PrunableEntries, PrefixedBy.
    repeat first [apply keepsF_PSet; auto|apply keepsF_DInsert|apply keepsF_Incr|apply keepsF_prunable
      |apply keepsF_prune|kf1].
Qed.

(** Recovery by offering the same entry again. *)
Lemma reingest n xs st e token b r st' st'' : n + 1 < 2 ^ 64 -> Inv C U n xs st -> entry_ok C U e ->
  IngestEntry C e token (set_budget b st) = (r, st') -> reopen C st' = Ok st'' -> ~ live C st'' e ->
  acceptable C (fun x => In x xs) e token ->
  exists pruned ys s, IngestEntry C e token st'' = (Ok pruned, s) /\ Rep ys s
    /\ Permutation ys (e :: kept e (others e xs)).
Proof.
  intros Hn I Oe E E2 NL AC. destruct I as [R RF FS L B].
  assert (Rb : Rep xs (set_budget b st)) by (eapply Rep_quiet; [|exact R]; split; reflexivity).
  assert (Fb : Files (set_budget b st)) by (intros g x; apply FS).
  destruct (IngestEntry_any xs _ e token r st' Rb Oe E) as (ys & R1 & H).
  destruct (Rep_reopen ys st' R1) as (s & E3 & R3 & K3 & F3 & G3 & L3 & B3).
  rewrite E3 in E2. injection E2 as <-.
  assert (F' : Files st') by (eapply keepsF_Ingest; [|exact E|exact Fb]; apply Oe).
  assert (Hys : (Permutation ys xs \/ Permutation ys (others e xs)) /\ Refs n ys (refs st')).
  { destruct H as [(H & _ & H2)|(_ & zs & -> & _)].
    - split; [destruct H as [H|[_ H]]; auto|]. apply H2; [lia|exact RF].
    - exfalso. apply NL. apply (Rep_live C U PP HU _ s e R3). left; auto. }
  destruct Hys as [HP HR].
  assert (Is : Inv C U n ys s).
  { split; auto; [rewrite F3; auto|]. intros g x. rewrite G3. apply F'. }
  assert (Hin : forall x, In x ys -> In x xs).
  { intros x Hx. destruct HP as [HP|HP]; apply (Permutation_in _ HP) in Hx; auto. apply others_In in Hx; tauto. }
  destruct (IngestEntry_spec C U PP HU n ys s e token Hn Is Oe) as [(A & pr & s' & E4 & _ & I4 & _)|(A & _)].
  - exists pr, (e :: kept e (others e ys)), s'. split; auto. split; [apply I4|].
    apply perm_skip. unfold kept.
    assert (HO : Permutation (others e ys) (others e xs)).
    { destruct HP as [HP|HP]; [apply (Permutation_filter _ _ _ HP)|].
      unfold others. rewrite (Permutation_filter _ _ _ HP). unfold others.
      rewrite filter_filter_idem. reflexivity. }
    apply Permutation_filter. exact HO.
  - exfalso. apply A. destruct AC as (A1 & A2 & A3 & A4). repeat split; auto.
Qed.
End Crash.

(** Histories without crashes are among those with crashes. *)
Lemma run_lives_from C ops2 : forall ops1 st st', lives C ops1 st -> run C ops2 st = Some st' -> lives C (ops1 ++ ops2) st'.
Proof.
  induction ops2 as [|o ops2 IH]; intros ops1 st st' HL HR; cbn [run] in HR.
  - injection HR as <-. rewrite app_nil_r; auto.
  - replace (ops1 ++ o :: ops2) with ((ops1 ++ [o]) ++ ops2) by (rewrite <- app_assoc; auto).
    destruct (step C o st) as [r s] eqn:E. destruct r; try discriminate; eapply IH; eauto; eapply lives_step; eauto.
Qed.
Lemma run_lives C ops st : run C ops empty_store = Some st -> lives C ops st.
Proof. intros H. apply (run_lives_from C ops [] empty_store st); auto. constructor. Qed.
