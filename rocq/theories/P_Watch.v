(** What is read while an operation runs: entries and payloads it does not touch. *)
From Coq Require Import Sorting.Permutation.
From Verif Require Import Base M_Order M_Encoding M_Paths M_Successor M_Ranges M_Keys M_Entry M_Map M_Store M_Query M_Watch
  S_Order S_Store P_Order P_Encoding P_Paths P_Ranges P_Successor P_Areas P_Keys P_Map P_Store P_History P_Auth P_Crash.
Local Open Scope N_scope.

Lemma mset_mset {V} (m : bmap V) k v : mset (mset m k v) k v = mset m k v.
Proof.
  assert (Z : (OrderBytes k k <? 0)%Z = false) by (rewrite (order_refl _ _ OrderBytes_total); reflexivity).
  induction m as [|[k' v'] m IH]; cbn [mset].
  - rewrite Z, beqb_refl. reflexivity.
  - destruct (OrderBytes k k' <? 0)%Z eqn:O; cbn [mset]; [rewrite Z, beqb_refl; reflexivity|].
    destruct (beqb k k') eqn:B; cbn [mset]; [rewrite Z, beqb_refl; reflexivity|]. rewrite O, B, IH. reflexivity.
Qed.

(** ** Decisions *)
Lemma same_place_dec x e : same_place x e \/ ~ same_place x e.
Proof.
  unfold same_place. destruct (beqb_spec (e_subspace x) (e_subspace e)), (peqb_spec (e_path x) (e_path e)); tauto.
Qed.
Lemma above_dec x e : above x e \/ ~ above x e.
Proof.
  unfold above. destruct (beqb_spec (e_subspace x) (e_subspace e)), (ppfx_spec (e_path x) (e_path e)), (peqb_spec (e_path x) []); tauto.
Qed.
Lemma prunes_dec e x : prunes e x \/ ~ prunes e x.
Proof. unfold prunes. destruct (above_dec e x), (N.lt_ge_cases (e_time x) (e_time e)); [left; auto|right|right|right]; intros [H1 H2]; try contradiction; lia. Qed.
Lemma all_dec {A} (P : A -> Prop) : (forall x, P x \/ ~ P x) -> forall xs, (forall x, In x xs -> P x) \/ ~ (forall x, In x xs -> P x).
Proof.
  intros D xs. induction xs as [|x xs [IH|IH]]; [left; intros x []| |].
  - destruct (D x) as [H|H]; [left; intros y [<-|Hy]; auto|right; intros X; apply H, X; left; auto].
  - right. intros X. apply IH. intros y Hy. apply X. right; auto.
Qed.
Lemma acceptable_dec C xs e token : acceptable C (fun x => In x xs) e token \/ ~ acceptable C (fun x => In x xs) e token.
Proof.
  unfold acceptable.
  assert (T : forall x, e_time x < e_time e \/ ~ e_time x < e_time e) by (intros x; lia).
  destruct (all_dec (fun x => above x e -> e_time x < e_time e)) with (xs := xs) as [H1|H1].
  { intros x. destruct (above_dec x e), (T x); tauto. }
  2:{ right. intros (_ & _ & H & _). auto. }
  destruct (all_dec (fun x => same_place x e -> e_time x < e_time e)) with (xs := xs) as [H2|H2].
  { intros x. destruct (same_place_dec x e), (T x); tauto. }
  2:{ right. intros (_ & _ & _ & H). auto. }
  destruct (beqb_spec (e_namespace e) (c_ns C)), (beqb_spec token (e_subspace e)); tauto.
Qed.

Section Watch.
Variable C : cfg.
Notation pp := (c_pp C).
Variable U : bytes -> Prop.
Hypothesis PP : store_params pp.
Hypothesis HU : universe C U.
Notation Rep := (Rep C U).

(** ** Files *)
Section Held.
Variables (d b : bytes).
Hypothesis Dd : digest_ok C U d.

Definition Held (lo hi : N) (st : state) : Prop :=
  file_of C st d = Some b /\ lo <= getd (refs st) d /\ getd (refs st) d <= hi.

Lemma Held_weaken lo hi lo' hi' st : lo' <= lo -> hi <= hi' -> Held lo hi st -> Held lo' hi' st.
Proof. intros L1 L2 (F & R1 & R2). split; [exact F|lia]. Qed.

Lemma Held_same lo hi st st' : refs st' = refs st -> files st' = files st -> Held lo hi st -> Held lo hi st'.
Proof. intros E1 E2. unfold Held, file_of. rewrite E1, E2. auto. Qed.

Lemma held_Erase d' st r st' lo hi : digest_ok C U d' -> d' <> d -> Held lo hi st ->
  payload_Erase C d' st = (r, st') -> Held lo hi st' /\ (r = Ok tt \/ r = Fatal).
Proof.
  intros D' N H E. unfold payload_Erase in E.
  destruct (durable_any (set_files (fun m => mdel m (c_fname C d'))) st) as [X|(s & X & K & T & R & F & _)]; rewrite X in E; injection E as <- <-; split; auto.
  destruct H as (H1 & H2 & H3). split; [|rewrite R; auto]. unfold file_of in *. rewrite F. cbn [files set_files].
  rewrite mget_mdel, beqb_neq; auto. intros Q. apply N. symmetry. eapply (fname_inj C U HU); eauto.
Qed.

Lemma held_PSet x st r st' lo hi : U x -> (c_hash C x = d -> x = b) -> Held lo hi st ->
  payload_Set C x st = (r, st') -> Held lo hi st' /\ (r = Ok (c_hash C x, len x) \/ r = Fatal).
Proof.
  intros Ux N H E. unfold payload_Set, bindM in E.
  destruct (durable_any (set_files (fun m => mset m (c_fname C (c_hash C x)) x)) st) as [X|(s & X & K & T & R & F & _)]; rewrite X in E.
  - injection E as <- <-. auto.
  - unfold ret in E. injection E as <- <-. split; auto. destruct H as (H1 & H2 & H3). split; [|rewrite R; auto]. unfold file_of in *. rewrite F. cbn [files set_files].
    rewrite mget_mset. destruct (beqb_spec (c_fname C d) (c_fname C (c_hash C x))) as [Q|Q]; [|exact H1]. f_equal. apply N. symmetry. eapply (fname_inj C U HU); eauto. exists x; auto.
Qed.

Lemma sub64_pred c : 1 <= c -> c < 2 ^ 64 -> sub64 c 1 = c - 1.
Proof.
  intros L1 L2. unfold sub64, two64. rewrite (N.mod_small 1) by lia.
  replace (c + 2 ^ 64 - 1) with ((c - 1) + 1 * 2 ^ 64) by lia. rewrite N.mod_add by lia. apply N.mod_small. lia.
Qed.

Lemma held_Decrement d' st r st' lo hi : hi < 2 ^ 64 -> Held lo hi st ->
  (d' = d -> 1 <= lo) -> ref_Decrement d' st = (r, st') ->
  Held (if beqb d' d then lo - 1 else lo) hi st' /\ (forall c, r = Ok c -> d' = d -> lo - 1 <= c).
Proof.
  intros L H P E. unfold ref_Decrement, bindM, gets, fail, ret in E.
  assert (W : Held (if beqb d' d then lo - 1 else lo) hi st).
  { eapply Held_weaken; [| |exact H]; [destruct (beqb d' d)|]; lia. }
  destruct (mget (refs st) d') as [c|] eqn:G; [|injection E as <- <-; split; auto; discriminate].
  destruct (durable_any (set_refs (fun m => mset m d' (sub64 c 1))) st) as [X|(s & X & K & T & R & F & _)]; rewrite X in E;
    injection E as <- <-; [split; auto; discriminate|].
  destruct H as (H1 & H2 & H3). split.
  - split; [unfold file_of in *; rewrite F; exact H1|]. rewrite R. cbn [refs set_refs]. rewrite getd_mset, (beqb_sym d d').
    destruct (beqb_spec d' d) as [->|N]; [|auto]. unfold getd in H2, H3. rewrite G in H2, H3. specialize (P eq_refl). rewrite sub64_pred; lia.
  - intros c' [= <-] ->. unfold getd in H2, H3. rewrite G in H2, H3. specialize (P eq_refl). rewrite sub64_pred; lia.
Qed.

Lemma held_Increment d' st r st' lo hi : hi + 1 < 2 ^ 64 -> Held lo hi st ->
  ref_Increment d' st = (r, st') ->
  Held lo (hi + 1) st' /\ forall c, r = Ok c -> Held (if beqb d' d then lo + 1 else lo) (hi + 1) st'.
Proof.
  intros L H E. unfold ref_Increment, bindM, gets, ret in E.
  match type of E with context [durable ?f st] => destruct (durable_any f st) as [X|(s & X & K & T & R & F & _)] end; rewrite X in E; injection E as <- <-.
  - split; [|discriminate]. eapply Held_weaken; [| |exact H]; lia.
  - cut (Held (if beqb d' d then lo + 1 else lo) (hi + 1) s).
    { intros Q. split; auto. eapply Held_weaken; [| |exact Q]; [destruct (beqb d' d)|]; lia. }
    destruct H as (H1 & H2 & H3). split; [unfold file_of in *; rewrite F; exact H1|]. rewrite R. cbn [refs set_refs]. rewrite getd_mset, (beqb_sym d d').
    destruct (beqb_spec d' d) as [->|N]; [|lia]. unfold getd in H2, H3. destruct (mget (refs st) d) as [c|]; [|lia]. rewrite add64_small by lia. lia.
Qed.

Lemma held_Delete e st r st' lo hi : Held lo hi st -> driver_Delete C e st = (r, st') -> Held lo hi st' /\ (r = Ok tt \/ r = Fatal).
Proof.
  intros H E. unfold driver_Delete, bindM in E.
  destruct (durable_any (set_kv (fun m => mdel m (EncodeKey (EntryPosition e) pp))) st) as [X|(s & X & K & T & R & F & _)]; rewrite X in E; injection E as <- <-; split; auto.
  eapply Held_same; [| |exact H]; cbn; auto.
Qed.

Lemma held_Insert x st r st' lo hi : Held lo hi st -> driver_Insert C x st = (r, st') -> Held lo hi st'.
Proof.
  intros H E. destruct x as [e a]. unfold driver_Insert, bindM in E.
  match type of E with context [durable ?f st] => destruct (durable_any f st) as [X|(s & X & K & T & R & F & _)] end; rewrite X in E; [injection E as <- <-; auto|].
  unfold gets in E. destruct (existsb _ _); unfold fail in E; injection E as <- <-; (eapply Held_same; [| |exact H]; cbn; auto).
Qed.

Lemma held_prune ys st r st' hi : hi < 2 ^ 64 -> Forall (stored_ok C U) ys -> Held (cnt d ys + 1) hi st ->
  prune_loop C (map (fun x => (x, c_hash C (e_subspace x))) ys) st = (r, st') -> Held 1 hi st'.
Proof.
  intros L. revert st r st'. induction ys as [|y ys IH]; intros st r st' O H E; cbn [map prune_loop] in E.
  - injection E as <- <-. exact H.
  - inversion O as [|? ? Oy Os]; subst. cbn [cnt] in H. unfold bindM at 1 in E.
    destruct (driver_Delete C y st) as [r1 s1] eqn:E1. destruct (held_Delete _ _ _ _ _ _ H E1) as [H1 [->| ->]].
    2:{ injection E as <- <-. eapply Held_weaken; [| |exact H1]; lia. }
    unfold bindM at 1 in E. destruct (ref_Decrement (e_digest y) s1) as [r2 s2] eqn:E2.
    assert (P2 : e_digest y = d -> 1 <= (if beqb (e_digest y) d then 1 else 0) + cnt d ys + 1) by (intros ->; rewrite beqb_refl; lia).
    destruct (held_Decrement _ _ _ _ _ _ L H1 P2 E2) as [H2 Z].
    assert (H2' : Held (cnt d ys + 1) hi s2).
    { eapply Held_weaken; [| |exact H2]; [|lia]. destruct (beqb_spec (e_digest y) d); lia. }
    destruct r2 as [c| | | |]; try (injection E as <- <-; eapply Held_weaken; [| |exact H2']; lia).
    unfold bindM at 1 in E.
    assert (X : exists r3 s3, (if c =? 0 then payload_Erase C (e_digest y) else ret tt) s2 = (r3, s3) /\ Held (cnt d ys + 1) hi s3 /\ (r3 = Ok tt \/ r3 = Fatal)).
    { destruct (N.eqb_spec c 0) as [Ec|Ec]; [|exists (Ok tt), s2; auto].
      destruct (payload_Erase C (e_digest y) s2) as [r3 s3] eqn:E3. exists r3, s3. split; auto.
      apply (held_Erase (e_digest y) s2 r3 s3); auto; [apply stored_digest; exact Oy|].
      intros Q. specialize (Z c eq_refl Q). rewrite Q, beqb_refl in Z. lia. }
    destruct X as (r3 & s3 & E3 & H3 & [->| ->]); rewrite E3 in E.
    2:{ injection E as <- <-. eapply Held_weaken; [| |exact H3]; lia. }
    unfold bindM in E. destruct (prune_loop C _ s3) as [r4 s4] eqn:E4. pose proof (IH _ _ _ Os H3 E4) as H4.
    destruct r4; injection E as <- <-; exact H4.
Qed.

(** Insertion, cut anywhere: an entry with this digest stays, or is inserted. *)
Lemma held_InsertEntry xs st e r st' hi k : Rep xs st -> stored_ok C U e ->
  (forall y, In y xs -> e_subspace y = e_subspace e -> e_path y = e_path e -> False) ->
  hi + 1 < 2 ^ 64 -> c_hash C (e_subspace e) <> d -> 1 <= k \/ e_digest e = d ->
  Held (cnt d (filter (prunesb e) xs) + k) hi st ->
  InsertEntry C e (e_subspace e) st = (r, st') ->
  Held 0 (hi + 1) st' /\ forall l, r = Ok l -> Held 1 (hi + 1) st'.
Proof.
  intros R Oe HN L T1 K1 H E. unfold InsertEntry in E. unfold bindM at 1 in E.
  assert (Done : forall s lo hi', hi' <= hi + 1 -> Held lo hi' s -> Held 0 (hi + 1) s).
  { intros s lo hi' B. apply Held_weaken; [lia|exact B]. }
  destruct (payload_Set C (e_subspace e) st) as [r1 s1] eqn:E1.
  destruct (held_PSet (e_subspace e) st r1 s1 _ _ (stored_sub C U e Oe) ltac:(intros Q; contradiction) H E1) as [H1 Hr].
  destruct (PSet_any C (e_subspace e) st) as (r1' & s1' & E1' & Q1 & _). rewrite E1' in E1. injection E1 as <- <-.
  pose proof (Rep_quiet C U _ _ _ Q1 R) as R1.
  destruct Hr as [->| ->]. 2:{ injection E as <- <-. split; [|discriminate]. eapply Done; [|exact H1]; lia. }
  cbn [fst] in E. unfold bindM at 1 in E.
  assert (Ee : Entry (c_ns C) (e_subspace e) (e_digest e) (e_path e) (e_time e) (e_length e) = e).
  { destruct Oe as [_ Oe]. destruct e; cbn in *; subst; auto. }
  rewrite Ee in E.
  destruct (driver_Insert C (e, c_hash C (e_subspace e)) s1') as [r2 s2] eqn:E2. pose proof (held_Insert _ _ _ _ _ _ H1 E2) as H2.
  destruct (Insert_any C U PP e xs s1' R1 Oe HN) as [D|(s2' & D & R2 & T2)]; rewrite D in E2; injection E2 as <- <-.
  { injection E as <- <-. split; [|discriminate]. eapply Done; [|exact H2]; lia. }
  unfold bindM at 1 in E. destruct (ref_Increment (e_digest e) s2') as [r3 s3] eqn:E3.
  destruct (held_Increment _ _ _ _ _ _ L H2 E3) as [H3 H3'].
  destruct (Increment_any (e_digest e) s2') as (r3' & s3' & E3' & Q3). rewrite E3' in E3. injection E3 as <- <-.
  pose proof (Rep_quiet C U _ _ _ Q3 R2) as R3.
  destruct r3' as [c| | | |]; try (injection E as <- <-; split; [|discriminate]; eapply Done; [|exact H3]; lia).
  specialize (H3' c eq_refl).
  unfold bindM in E.
  assert (T3 : tree s3' = Node (e_subspace e) (e_path e) (e_time e) [] false :: tree s1').
  { destruct Q3 as [_ Q3]. rewrite Q3. auto. }
  destruct (PrunableEntries_spec C U PP HU (e :: xs) s3' e _ _ R3 (proj1 (proj1 Oe)) T3 eq_refl) as (ys & E4 & HY).
  rewrite E4 in E.
  assert (NS : prunesb e e = false).
  { destruct (prunesb_spec e e) as [[_ X]|]; auto; [apply Oe|lia]. }
  cbn [filter] in HY. rewrite NS in HY.
  assert (X : Held 1 (hi + 1) st').
  { apply (held_prune ys s3' r st' (hi + 1)); auto.
    - apply Forall_forall. intros y Hy. apply (Permutation_in _ HY) in Hy. apply filter_In in Hy as [Hy _].
      pose proof (rep_ok _ _ _ _ R) as O. rewrite Forall_forall in O. auto.
    - rewrite (cnt_perm d _ _ HY). eapply Held_weaken; [| |exact H3']; [|lia].
      destruct (beqb_spec (e_digest e) d) as [Q|Q]; destruct K1 as [K1|K1]; try lia; contradiction. }
  split; [eapply Done; [|exact X]; lia|auto].
Qed.

(** Replacement, cut anywhere. *)
Lemma held_replace x st e r st' lo hi : stored_ok C U x -> same_place x e -> e_time x < e_time e ->
  hi < 2 ^ 64 -> c_hash C (e_subspace x) <> d -> (e_digest x = d -> e_digest e <> d -> 2 <= lo) -> Held lo hi st ->
  replace_other C e (x, c_hash C (e_subspace x)) st = (r, st') ->
  Held (if beqb (e_digest x) d then lo - 1 else lo) hi st'.
Proof.
  intros Ox [E1 E2] Ht L T1 K H E. unfold replace_other in E. rewrite E2, (order_refl _ _ OrderPath_total) in E. cbn [Z.eqb] in E.
  destruct (N.leb_spec (e_time e) (e_time x)); [lia|]. 
  set (lo' := if beqb (e_digest x) d then lo - 1 else lo) in *.
  assert (L1 : lo' <= lo) by (unfold lo'; destruct (beqb (e_digest x) d); lia).
  assert (Done : forall s, Held lo hi s -> Held lo' hi s) by (intros s; apply Held_weaken; lia).
  unfold bindM at 1 in E. destruct (driver_Delete C x st) as [r1 s1] eqn:D1. destruct (held_Delete _ _ _ _ _ _ H D1) as [H1 [->| ->]].
  2:{ injection E as <- <-. auto. }
  unfold bindM at 1 in E. destruct (payload_Erase C (c_hash C (e_subspace x)) s1) as [r2 s2] eqn:D2.
  destruct (held_Erase _ _ _ _ _ _ (ex_intro _ _ (conj (stored_sub C U x Ox) eq_refl)) T1 H1 D2) as [H2 [->| ->]].
  2:{ injection E as <- <-. auto. }
  destruct (beqb_spec (e_digest x) (e_digest e)) as [Ed|Ed]; cbn [negb] in E.
  { unfold bindM, ret in E. injection E as <- <-. auto. }
  assert (K' : e_digest x = d -> 2 <= lo) by (intros Q; apply K; congruence).
  unfold bindM at 1 in E. unfold bindM at 1 in E. destruct (ref_Decrement (e_digest x) s2) as [r3 s3] eqn:D3.
  assert (P2 : e_digest x = d -> 1 <= lo) by (intros Q; specialize (K' Q); lia).
  destruct (held_Decrement _ _ _ _ _ _ L H2 P2 D3) as [H3 Z].
  fold lo' in H3.
  destruct r3 as [c| | | |]; try (injection E as <- <-; exact H3).
  assert (X : exists r4 s4, (if c =? 0 then payload_Erase C (e_digest x) else ret tt) s3 = (r4, s4) /\ Held lo' hi s4 /\ (r4 = Ok tt \/ r4 = Fatal)).
  { destruct (N.eqb_spec c 0) as [Ec|Ec]; [|exists (Ok tt), s3; auto].
    destruct (payload_Erase C (e_digest x) s3) as [r4 s4] eqn:E4. exists r4, s4. split; auto.
    apply (held_Erase (e_digest x) s3 r4 s4); auto; [apply stored_digest; exact Ox|].
    intros Q. specialize (Z c eq_refl Q). specialize (K' Q). lia. }
  destruct X as (r4 & s4 & E4 & H4 & [->| ->]); rewrite E4 in E; unfold ret in E; injection E as <- <-; exact H4.
Qed.

Lemma cnt_filter (f : entry -> bool) xs : cnt d xs = cnt d (filter f xs) + cnt d (filter (fun x => negb (f x)) xs).
Proof. induction xs as [|x xs IH]; cbn [filter cnt]; auto. destruct (f x); cbn [negb cnt]; lia. Qed.
Lemma cnt_In xs x : In x xs -> e_digest x = d -> 1 <= cnt d xs.
Proof. induction xs as [|y xs IH]; [intros []|]; intros [->|H] E; cbn [cnt]; [rewrite E, beqb_refl; lia|specialize (IH H E); lia]. Qed.

(** When an operation offering [e] does not take the payload away: it is refused, or some entry
    with this digest stays, or the entry itself has this digest. *)
Definition spared (xs : list entry) (e : entry) (token : bytes) : Prop :=
  acceptable C (fun x => In x xs) e token ->
  e_digest e = d \/ exists x, In x xs /\ e_digest x = d /\ ~ same_place x e /\ ~ prunes e x.

Lemma held_Ingest xs st e token r st' hi : Rep xs st -> entry_ok C U e -> hi + 1 < 2 ^ 64 ->
  c_hash C (e_subspace e) <> d -> spared xs e token -> Held (cnt d xs) hi st ->
  IngestEntry C e token st = (r, st') -> Held 0 (hi + 1) st' /\ forall l, r = Ok l -> Held 1 (hi + 1) st'.
Proof.
  intros R Oe L T1 SP H E. assert (HS : strict_path pp (e_path e)) by apply Oe.
  assert (Same : forall s, refs s = refs st -> files s = files st -> Held 0 (hi + 1) s).
  { intros s F1 F2. eapply Held_same; eauto. eapply Held_weaken; [| |exact H]; lia. }
  unfold IngestEntry in E. unfold bindM at 1, lock in E. destruct (locked st).
  { injection E as <- <-. split; [apply Same; auto|discriminate]. }
  set (s1 := set_locked true st) in *.
  assert (R1 : Rep xs s1) by (eapply Rep_quiet; [|exact R]; split; reflexivity).
  assert (H1 : Held (cnt d xs) hi s1) by (eapply Held_same; [| |exact H]; reflexivity).
  assert (Stop : (Err, set_locked false s1) = (r, st') -> Held 0 (hi + 1) st' /\ forall l, r = Ok l -> Held 1 (hi + 1) st').
  { intros E0. injection E0 as <- <-. split; [apply Same; reflexivity|discriminate]. }
  unfold ns_equal in E. destruct (beqb_spec (c_ns C) (e_namespace e)) as [En|En]; cbn [negb] in E; [|apply Stop; exact E].
  unfold IsAuthoriseWrite in E. destruct (beqb_spec (e_subspace e) token) as [Et|Et]; cbn [negb] in E; [|apply Stop; exact E].
  destruct (DriverPrefixesOf_spec C U PP xs s1 e R1 HS) as (ns & E1 & Hns).
  unfold bindM at 1 in E. rewrite E1 in E.
  destruct (existsb _ ns); [apply Stop; exact E|].
  assert (HA : forall x, In x xs -> above x e -> e_time x < e_time e).
  { intros x Hx Ha. destruct (N.lt_ge_cases (e_time x) (e_time e)); auto.
    destruct Hns as [_ Hns]. discriminate Hns. eauto. }
  clear Hns. unfold bindM at 1 in E.
  assert (Se : stored_ok C U e) by (split; auto).
  assert (Cnt : acceptable C (fun x => In x xs) e token ->
    exists k, (1 <= k \/ e_digest e = d) /\ cnt d (others e xs) = cnt d (filter (prunesb e) (others e xs)) + k).
  { intros AC. exists (cnt d (kept e (others e xs))). split; [|apply cnt_filter].
    destruct (SP AC) as [D|(x & Hx & D & N1 & N2)]; [right; exact D|left]. apply (cnt_In _ x); auto. unfold kept. apply filter_In.
    split; [apply others_In; auto|]. destruct (prunesb_spec e x); [apply HS|contradiction|reflexivity]. }
  assert (Out : forall r3 s3 hi', hi' = hi + 1 -> (Held 0 hi' s3 /\ forall l, r3 = Ok l -> Held 1 hi' s3) ->
     (match r3 with Ok pr => let* _ := unlock in ret pr | Err => fun s => (Err, s) | Panic => fun s => (Panic, s) | Fatal => fun s => (Fatal, s) | Hang => fun s => (Hang, s) end) s3 = (r, st') ->
     Held 0 (hi + 1) st' /\ forall l, r = Ok l -> Held 1 (hi + 1) st').
  { intros r3 s3 hi' -> [A B] E0. destruct r3; unfold bindM, unlock, ret in E0; injection E0 as <- <-; split; auto; try discriminate. }
  destruct (driver_Get_spec C U PP HU xs s1 (e_subspace e) (e_path e) R1 HS) as [[G HN]|(x & G & Hx & X1 & X2)];
    rewrite G in E; clear G.
  - unfold bindM at 1, ret at 1 in E. cbn [negb] in E. rewrite <- Et in E. unfold bindM at 1 in E.
    destruct (InsertEntry C e (e_subspace e) s1) as [r2 s2] eqn:E2.
    assert (AC : acceptable C (fun x => In x xs) e token).
    { repeat split; auto. intros y Hy [Y1 Y2]. exfalso; eauto. }
    destruct (Cnt AC) as (k & K1 & K2). rewrite others_none in K2 by auto. rewrite K2 in H1.
    apply (Out r2 s2 _ eq_refl); [|destruct r2; exact E].
    eapply held_InsertEntry; eauto.
  - assert (SPx : same_place x e) by (split; auto).
    destruct (N.lt_ge_cases (e_time x) (e_time e)) as [Ht|Ht].
    + pose proof (others_one e xs x (rep_place _ _ _ _ R) Hx SPx) as HPo.
      assert (AC : acceptable C (fun x => In x xs) e token).
      { repeat split; auto. intros y Hy [Y1 Y2].
        assert (y = x) by (eapply place_inj; [apply (rep_place _ _ _ _ R)| | | |]; eauto; congruence).
        subst y; auto. }
      destruct (Cnt AC) as (k & K1 & K2).
      rewrite (cnt_perm d _ _ HPo) in H1. cbn [cnt] in H1.
      unfold bindM at 1 in E.
      destruct (replace_other C e (x, c_hash C (e_subspace x)) s1) as [r2 s2] eqn:E2.
      assert (H2 : Held (if beqb (e_digest x) d then (if beqb (e_digest x) d then 1 else 0) + cnt d (others e xs) - 1
                         else (if beqb (e_digest x) d then 1 else 0) + cnt d (others e xs)) hi s2).
      { apply (held_replace x s1 e r2 s2 ((if beqb (e_digest x) d then 1 else 0) + cnt d (others e xs)) hi (Rep_In_ok C U _ _ _ R Hx) SPx Ht ltac:(lia)); auto.
        - rewrite X1. exact T1.
        - intros Q1 Q2. rewrite Q1, beqb_refl. destruct K1 as [K1|K1]; [lia|contradiction]. }
      assert (H2' : Held (cnt d (others e xs)) hi s2).
      { eapply Held_weaken; [| |exact H2]; [|lia]. destruct (beqb (e_digest x) d); lia. }
      clear H2.
      destruct (replace_any C U x (others e xs) s1 e r2 s2 (Rep_perm _ _ _ _ _ HPo R1) SPx Ht E2)
        as (ys & R2 & C2 & O2 & N2 & RF2).
      assert (H20 : Held 0 (hi + 1) s2) by (eapply Held_weaken; [| |exact H2']; lia).
      destruct r2 as [go| | | |]; try (injection E as <- <-; split; [exact H20|discriminate]).
      destruct go; [|congruence]. rewrite (O2 eq_refl) in *. clear O2 N2 C2 RF2.
      cbn [negb] in E. rewrite <- Et in E. unfold bindM at 1 in E.
      destruct (InsertEntry C e (e_subspace e) s2) as [r3 s3] eqn:E3.
      apply (Out r3 s3 _ eq_refl); [|destruct r3; exact E].
      rewrite K2 in H2'. eapply held_InsertEntry; eauto.
      intros y Hy Y1 Y2. apply others_In in Hy as [_ Hy]. apply Hy. split; auto.
    + unfold replace_other in E. rewrite X2, (order_refl _ _ OrderPath_total) in E. cbn [Z.eqb] in E.
      destruct (N.leb_spec (e_time e) (e_time x)); [|lia].
      unfold bindM, unlock, ret, fail in E. cbn [negb] in E. apply Stop; exact E.
Qed.

Lemma held_Set xs st i auth now r st' hi : Rep xs st -> op_ok C U (OpSet i auth now) -> hi + 1 < 2 ^ 64 ->
  c_hash C (i_sub i) <> d -> (c_hash C (i_payload i) = d -> i_payload i = b) ->
  spared xs (set_entry C i now) auth -> Held (cnt d xs) hi st ->
  Set_ C i auth now st = (r, st') -> Held 0 (hi + 1) st'.
Proof.
  intros R [Ub Oe] L T1 T2 SP H E. unfold Set_ in E. unfold bindM at 1 in E.
  destruct (payload_Set C (i_payload i) st) as [r1 s1] eqn:E1.
  destruct (held_PSet _ _ _ _ _ _ Ub T2 H E1) as [H1 Hr].
  destruct (PSet_any C (i_payload i) st) as (r1' & s1' & E1' & Q1 & _). rewrite E1' in E1. injection E1 as <- <-.
  pose proof (Rep_quiet C U _ _ _ Q1 R) as R1.
  assert (H10 : Held 0 (hi + 1) s1') by (eapply Held_weaken; [| |exact H1]; lia).
  destruct Hr as [->| ->]; [|injection E as <- <-; exact H10].
  cbn [fst snd] in E. fold (set_entry C i now) in E. set (e := set_entry C i now) in *.
  unfold bindM at 1, lift at 1 in E. unfold Authorise in E.
  destruct (beqb_spec (e_subspace e) auth) as [Ea|Ea]; [|injection E as <- <-; exact H10].
  unfold bindM at 1 in E. destruct (IngestEntry C e (e_subspace e) s1') as [r2 s2] eqn:E2.
  rewrite Ea in E2. destruct (held_Ingest xs s1' e auth r2 s2 hi R1 Oe L T1 SP H1 E2) as [H2 H2'].
  destruct r2 as [pr| | | |]; try (injection E as <- <-; exact H2). specialize (H2' pr eq_refl).
  unfold bindM at 1 in E. unfold ref_Count, gets, bindM at 1 in E.
  destruct (mget (refs s2) (c_hash C (i_payload i))) as [c|] eqn:G; [|injection E as <- <-; exact H2].
  unfold ret at 1 in E. unfold bindM in E. destruct (N.eqb_spec c 0) as [Ec|Ec].
  - destruct (payload_Erase C (c_hash C (i_payload i)) s2) as [r3 s3] eqn:E3.
    destruct (held_Erase (c_hash C (i_payload i)) s2 r3 s3 0 (hi + 1)) as [H3 H3']; auto.
    { exists (i_payload i). auto. }
    { intros Q. destruct H2' as (_ & X & _). unfold getd in X. rewrite <- Q, G in X. lia. }
    destruct H3' as [->| ->]; unfold ret in E; injection E as <- <-; exact H3.
  - unfold ret in E. injection E as <- <-. exact H2.
Qed.
End Held.

Lemma held_step d b xs st o e token r st' hi : digest_ok C U d -> Rep xs st -> op_ok C U o -> offer C o = Some (e, token) ->
  hi + 1 < 2 ^ 64 -> c_hash C (e_subspace e) <> d -> (forall x, U x -> c_hash C x = d -> x = b) ->
  spared d xs e token -> Held d b (cnt d xs) hi st -> step C o st = (r, st') -> file_of C st' d = Some b.
Proof.
  intros Dd R O Ho L T1 T2 SP H E. destruct o as [i auth now|e' token'|]; cbn [offer step op_ok] in *; [| |discriminate].
  - injection Ho as <- <-. assert (X : Held d b 0 (hi + 1) st'); [|apply X].
    eapply held_Set; eauto. apply T2, O.
  - injection Ho as -> ->. assert (X : Held d b 0 (hi + 1) st'); [|apply X].
    eapply held_Ingest; eauto.
Qed.

(** ** Entries *)

(** What is there at a moment. *)
Definition around (xs : list entry) (e : entry) (token : bytes) (ys : list entry) : Prop :=
  (forall y, In y ys -> In y xs \/ (y = e /\ acceptable C (fun x => In x xs) e token))
  /\ (forall x, In x xs -> (acceptable C (fun x => In x xs) e token -> ~ same_place x e /\ ~ prunes e x) -> In x ys).

Lemma moment_around xs st o e token n : Rep xs st -> op_ok C U o -> offer C o = Some (e, token) ->
  exists ys, Rep ys (moment C o st n) /\ around xs e token ys.
Proof.
  intros R O Ho. unfold moment. set (s0 := State _ _ _ _ _ _).
  assert (R0 : Rep xs s0) by (eapply Rep_quiet; [|exact R]; split; reflexivity).
  destruct (step C o s0) as [r s] eqn:E. cbn [snd].
  destruct (step_any C U PP HU xs s0 o r s R0 O E) as (ys & R1 & H). rewrite Ho in H. exists ys. split; auto.
  assert (OE : e_path e <> []).
  { destruct o as [i auth now|e' t'|]; cbn [offer op_ok] in *; [| |discriminate]; injection Ho as <- <-; [destruct O as [_ O]|]; apply O. }
  destruct H as [H|(A & [H|(zs & -> & I1 & I2)])].
  - split; [intros y Hy; left; eapply Permutation_in; eauto|intros x Hx _; eapply Permutation_in; [symmetry|]; eauto].
  - split; [intros y Hy; left; apply (Permutation_in _ H) in Hy; apply others_In in Hy; tauto|].
    intros x Hx N. specialize (N A). eapply Permutation_in; [symmetry; exact H|]. apply others_In. tauto.
  - split.
    + intros y [<-|Hy]; [right; auto|left]. apply I1 in Hy. apply others_In in Hy. tauto.
    + intros x Hx N. specialize (N A). right. apply I2. unfold kept. apply filter_In. split; [apply others_In; tauto|].
      destruct (prunesb_spec e x OE); [tauto|reflexivity].
Qed.

(** Two entries seen at one position are the same. *)
Lemma around_inj xs st e token ys zs y z : Rep xs st -> around xs e token ys -> around xs e token zs -> In y ys -> In z zs ->
  EntryPosition y = EntryPosition z -> y = z.
Proof.
  intros R [A1 _] [A2 _] Hy Hz E. unfold EntryPosition in E. injection E as E1 E2 E3.
  destruct (A1 y Hy) as [Y|[-> Y]], (A2 z Hz) as [Z|[-> Z]]; auto.
  - eapply place_inj; [apply (rep_place _ _ _ _ R)| | | |]; auto.
  - destruct Z as (_ & _ & _ & Z). assert (X : e_time y < e_time e) by (apply Z; [auto|split; auto]). lia.
  - destruct Y as (_ & _ & _ & Y). assert (X : e_time z < e_time e) by (apply Y; [auto|split; auto]). lia.
Qed.

Lemma watch_value_spec ys st s p n x : Rep ys st -> stored_ok C U x -> node_pos n = EntryPosition x -> e_subspace x = s -> e_path x = p ->
  (forall y, In y ys -> EntryPosition y = EntryPosition x -> y = x) ->
  (In x ys /\ watch_value C s p n st = Ok (x, c_hash C (e_subspace x))) \/ (~ In x ys /\ watch_value C s p n st = Err).
Proof.
  intros R Ox En Es Ep HI. unfold watch_value. rewrite En.
  assert (Hx : In x ys -> mget (kv st) (EncodeKey (EntryPosition x) pp) = Some (eval_ C x)) by (intros X; apply (Rep_kv_get C U ys st x R X)).
  destruct (mget (kv st) (EncodeKey (EntryPosition x) pp)) as [v|] eqn:G.
  - left. assert (Hin : In x ys).
    { apply mget_In in G. eapply Permutation_in in G; [|apply (rep_kv _ _ _ _ R)]. apply in_map_iff in G as (y & Ey & Hy).
      pose proof (f_equal fst Ey) as E1. cbn [fst] in E1.
      assert (y = x); [|subst; auto]. apply HI; auto. eapply (ekey_inj C U PP); eauto. eapply Rep_In_ok; eauto. }
    split; auto. specialize (Hx Hin). injection Hx as ->. rewrite (eval_decode C U HU) by auto. cbn [bind v_digest v_length v_auth].
    destruct Ox as [_ On]. destruct (pos_fields _ _ En) as (_ & _ & Et). rewrite Et. destruct x; cbn in *; subst; auto.
  - right. split; auto. intros X. specialize (Hx X). discriminate.
Qed.

Lemma watch_Get_spec xs st0 e token ys zs st st' s p : Rep xs st0 -> Rep ys st -> Rep zs st' -> around xs e token ys -> around xs e token zs ->
  strict_path pp p ->
  (watch_Get C s p st st' = Ok None /\ forall x, In x ys -> e_subspace x = s -> e_path x = p -> False)
  \/ (exists x, In x ys /\ e_subspace x = s /\ e_path x = p
      /\ ((In x zs /\ watch_Get C s p st st' = Ok (Some (x, c_hash C (e_subspace x)))) \/ (~ In x zs /\ watch_Get C s p st st' = Err))).
Proof.
  intros R0 R R' A A' HS. unfold watch_Get.
  destruct (storage_Get_spec C U PP ys st s p R HS) as [[-> H]|(x & n & -> & Hx & E1 & E2 & En & Hn)]; cbn [fst bind].
  - left. auto.
  - right. exists x. split; auto. split; auto. split; auto.
    destruct (watch_value_spec zs st' s p n x R') as [[H ->]|[H ->]]; auto.
    + exact (Rep_In_ok C U _ _ _ R Hx).
    + intros y Hy Ey. exact (around_inj xs st0 e token zs ys y x R0 A' A Hy Hx Ey).
Qed.

Lemma watch_values_spec xs st0 e token ys st ns k later : Rep xs st0 -> Rep ys st -> around xs e token ys ->
  (forall k, exists zs, Rep zs (later k) /\ around xs e token zs) -> (forall n, In n ns -> In n (tree st)) ->
  (exists l, watch_values C ns k later = Ok (map (fun x => (x, c_hash C (e_subspace x))) l) /\ map EntryPosition l = map node_pos ns /\ incl l ys)
  \/ (watch_values C ns k later = Err /\ exists n x zs, In n ns /\ node_pos n = EntryPosition x /\ In x ys /\ around xs e token zs /\ ~ In x zs).
Proof.
  intros R0 R A HL. revert k. induction ns as [|n ns IH]; intros k Hn; cbn [watch_values].
  - left. exists []. split; [reflexivity|]. split; [reflexivity|intros x []].
  - destruct (Rep_node _ _ _ _ n R (Hn n (or_introl eq_refl))) as (x & Hx & Ex).
    destruct (HL k) as (zs & Rz & Az). destruct (pos_fields _ _ Ex) as (P1 & P2 & P3).
    destruct (watch_value_spec zs (later k) (n_sub n) (n_path n) n x Rz) as [[H ->]|[H ->]]; auto.
    { exact (Rep_In_ok C U _ _ _ R Hx). }
    { intros y Hy Ey. exact (around_inj xs st0 e token zs ys y x R0 Az A Hy Hx Ey). }
    + cbn [bind]. destruct (IH (S k) (fun n' Hn' => Hn n' (or_intror Hn'))) as [(l & -> & E & I)|(-> & n' & x' & zs' & H1 & H2 & H3)].
      * left. exists (x :: l). cbn [bind map]. split; [reflexivity|]. rewrite E, Ex. split; [reflexivity|]. intros z [<-|Hz]; auto.
      * right. split; [reflexivity|]. exists n', x', zs'. split; [right; auto|auto].
    + right. split; [reflexivity|]. exists n, x, zs. split; [left; auto|auto].
Qed.
End Watch.
