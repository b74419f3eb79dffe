(** Histories of the store: every operation keeps the invariant. *)
From Coq Require Import Sorting.Permutation.
From Verif Require Import Base M_Order M_Encoding M_Paths M_Successor M_Ranges M_Keys M_Entry M_Map M_Store
  S_Order S_Store P_Order P_Encoding P_Paths P_Ranges P_Successor P_Areas P_Keys P_Map P_Store.
Local Open Scope N_scope.

(** ** The relation [supersedes] *)
Lemma proper_prefix_trans {A} (a b c : list A) :
  proper_prefix_of a b -> proper_prefix_of b c -> proper_prefix_of a c.
Proof.
  intros (x & s & ->) (y & t & ->). exists x, (s ++ y :: t). rewrite <- app_assoc. reflexivity.
Qed.

Lemma proper_prefix_irrefl {A} (a : list A) : ~ proper_prefix_of a a.
Proof.
  intros (x & s & E). apply (f_equal (@length A)) in E. rewrite app_length in E. cbn in E. lia.
Qed.

Lemma above_trans x y z : above x y -> above y z -> above x z.
Proof.
  intros (A1 & A2 & A3) (B1 & B2 & B3). repeat split; auto; [congruence|]. eapply proper_prefix_trans; eauto.
Qed.
Lemma above_place_l x y z : same_place x y -> above y z -> above x z.
Proof. intros [A1 A2] (B1 & B2 & B3). unfold above. rewrite A1, A2. auto. Qed.
Lemma above_place_r x y z : above x y -> same_place y z -> above x z.
Proof. intros (B1 & B2 & B3) [A1 A2]. unfold above. rewrite <- A1, <- A2. auto. Qed.
Lemma same_place_trans x y z : same_place x y -> same_place y z -> same_place x z.
Proof. intros [] []. split; congruence. Qed.

Lemma supersedes_trans x y z : supersedes x y -> supersedes y z -> supersedes x z.
Proof.
  intros [T1 R1] [T2 R2]. split; [lia|]. destruct R1 as [R1|R1], R2 as [R2|R2].
  - left; eapply same_place_trans; eauto.
  - right; eapply above_place_l; eauto.
  - right; eapply above_place_r; eauto.
  - right; eapply above_trans; eauto.
Qed.

Section History.
Variable C : cfg.
Notation pp := (c_pp C).
Variable U : bytes -> Prop.
Hypothesis PP : store_params pp.
Hypothesis HU : universe C U.

Notation Rep := (Rep C U).
Notation Inv := (Inv C U).
Notation others := P_Store.others.

(** ** Restart *)
Definition loaded (x : entry) : node :=
  Node (e_subspace x) (e_path x) (e_time x) (c_hash C (e_subspace x)) true.

Lemma load_nodes_spec ys : Forall (stored_ok C U) ys ->
  load_nodes C (map (fun x => (ekey C x, eval_ C x)) ys) = Ok (map loaded ys).
Proof.
  induction 1 as [|y ys H _ IH]; [reflexivity|]. cbn [map load_nodes]. unfold load_node. cbn [fst snd].
  rewrite (ekey_decode C U PP y H), (eval_decode C U HU y H). cbn [bind]. rewrite IH. reflexivity.
Qed.

Lemma reopen_spec n xs st : Inv n xs st ->
  exists st', reopen C st = Ok st' /\ Inv n xs st'
    /\ kv st' = kv st /\ refs st' = refs st /\ files st' = files st.
Proof.
  intros I. pose proof (inv_rep _ _ _ _ _ I) as R. pose proof (rep_kv _ _ _ _ R) as HK.
  apply Permutation_map_inv in HK as (ys & EK & HP).
  pose proof (Rep_perm _ _ _ _ _ HP R) as R'.
  unfold reopen. rewrite EK, load_nodes_spec by apply (rep_ok _ _ _ _ R'). cbn [bind].
  eexists; split; [reflexivity|]. cbn [kv refs files]. split; [|auto].
  destruct I as [_ I2 I3 I4 I5]. split; auto.
  apply (Rep_perm _ _ ys); [symmetry; auto|]. destruct R' as [A1 A2 A3 A4 A5]. split; cbn [kv tree]; auto.
  - rewrite <- EK. auto.
  - rewrite map_map. apply Permutation_refl.
Qed.

(** ** Set *)
Lemma Inv_files n xs st b : U b -> Inv n xs st ->
  Inv n xs (set_files (fun m => mset m (c_fname C (c_hash C b)) b) st).
Proof.
  intros Hb [I1 I2 I3 I4 I5]. split; auto.
  - apply (Rep_same _ _ _ st); auto.
  - apply Files_set; auto.
Qed.

(** Same store, up to payload files. *)
Definition same_but_files (st st' : state) : Prop :=
  kv st' = kv st /\ tree st' = tree st /\ refs st' = refs st /\ locked st' = locked st /\ budget st' = budget st.

Lemma acceptable_ext L L' e t : (forall x, L x <-> L' x) -> acceptable C L e t -> acceptable C L' e t.
Proof.
  intros H (A1 & A2 & A3 & A4). repeat split; auto; intros x Hx; [apply A3|apply A4]; apply H; auto.
Qed.

Definition keeps_files (xs : list entry) (st st' : state) : Prop :=
  forall z b, In z xs -> file_of C st (e_digest z) = Some b -> file_of C st' (e_digest z) = Some b.

Definition after (e : entry) (xs : list entry) : list entry := e :: kept e (others e xs).

Lemma Set_spec n xs st i auth now :
  n + 1 < 2 ^ 64 -> Inv n xs st -> U (i_payload i) -> entry_ok C U (set_entry C i now) ->
  let e := set_entry C i now in
  (acceptable C (fun x => In x xs) e auth
    /\ exists pruned st', Set_ C i auth now st = (Ok pruned, st')
       /\ Permutation pruned (filter (prunesb e) (others e xs))
       /\ Inv (n + 1) (after e xs) st'
       /\ keeps_files (after e xs) st st'
       /\ file_of C st' (e_digest e) = Some (i_payload i))
  \/ (~ acceptable C (fun x => In x xs) e auth
      /\ exists st', Set_ C i auth now st = (Err, st') /\ Inv n xs st' /\ same_but_files st st'
         /\ keeps_files xs st st').
Proof.
  intros Hn I Ub Oe e. remember (Set_ C i auth now st) as X eqn:EX.
  unfold Set_ in EX. unfold bindM at 1 in EX. unfold payload_Set in EX.
  unfold bindM at 1 in EX. unfold durable at 1 in EX. rewrite (inv_budget _ _ _ _ _ I) in EX.
  unfold ret at 1 in EX. cbn [fst snd] in EX.
  fold (set_entry C i now) in EX. change (set_entry C i now) with e in EX.
  set (s1 := set_files _ st) in *.
  assert (I1 : Inv n xs s1) by (apply Inv_files; auto).
  assert (K1 : forall ys, Forall (stored_ok C U) ys -> keeps_files ys st s1).
  { intros ys HY z b Hz Hf. rewrite Forall_forall in HY.
    apply (file_set_keeps C U HU); auto; [apply (inv_files _ _ _ _ _ I)|].
    apply stored_digest. auto. }
  unfold bindM at 1, lift at 1 in EX. unfold Authorise in EX.
  destruct (beqb_spec (e_subspace e) auth) as [Ea|Ea].
  2:{ right. split; [intros (_ & H & _); congruence|]. exists s1. split; auto. split; auto.
      split; [repeat split|]. apply K1. apply (rep_ok _ _ _ _ (inv_rep _ _ _ _ _ I)). }
  unfold bindM at 1 in EX.
  destruct (IngestEntry_spec C U PP HU n xs s1 e (e_subspace e) Hn I1 Oe)
    as [(A & pr & s2 & E2 & HP & I2 & K2 & D2)|(A & E2)]; rewrite E2 in EX.
  - left. split; [rewrite <- Ea; auto|].
    assert (O2 : Forall (stored_ok C U) (after e xs)) by apply (rep_ok _ _ _ _ (inv_rep _ _ _ _ _ I2)).
    assert (Ed : e_digest e = c_hash C (i_payload i)) by reflexivity.
    unfold bindM at 1 in EX. unfold ref_Count in EX. unfold bindM at 1, gets at 1 in EX.
    pose proof (inv_refs _ _ _ _ _ I2 (e_digest e)) as [H1 _].
    cbn [cnt] in H1. rewrite beqb_refl in H1. unfold getd in H1. rewrite <- Ed in EX.
    destruct (mget (refs s2) (e_digest e)) as [c|]; [|lia].
    unfold ret at 1 in EX. destruct (N.eqb_spec c 0); [lia|]. unfold bindM, ret in EX.
    exists pr, s2. split; [auto|]. split; [auto|]. split; [auto|]. split.
    + intros z b Hz Hf. apply (K2 z b Hz). apply (K1 _ O2 z b Hz Hf).
    + apply (K2 e); [left; auto|]. rewrite Ed. apply file_set.
  - right. split; [rewrite <- Ea; auto|]. exists s1. split; auto. split; auto.
    split; [repeat split|]. apply K1. apply (rep_ok _ _ _ _ (inv_rep _ _ _ _ _ I)).
Qed.

(** ** Any operation *)
Definition stepped (o : op) (n : N) (xs : list entry) (st : state) : Prop :=
  match offer C o with
  | None => exists st', step C o st = (Ok [], st') /\ Inv n xs st' /\ files st' = files st
                        /\ kv st' = kv st /\ refs st' = refs st
  | Some (e, token) =>
      (acceptable C (fun x => In x xs) e token
        /\ exists pruned st', step C o st = (Ok pruned, st')
           /\ Permutation pruned (filter (prunesb e) (others e xs))
           /\ Inv (n + 1) (after e xs) st' /\ keeps_files (after e xs) st st')
      \/ (~ acceptable C (fun x => In x xs) e token
          /\ exists st', step C o st = (Err, st') /\ Inv n xs st' /\ same_but_files st st'
             /\ keeps_files xs st st')
  end.

Lemma step_spec n xs st o : n + 1 < 2 ^ 64 -> Inv n xs st -> op_ok C U o -> stepped o n xs st.
Proof.
  intros Hn I O. unfold stepped. destruct o as [i auth now|e token|]; cbn [offer op_ok step] in *.
  - destruct O as [O1 O2]. destruct (Set_spec n xs st i auth now Hn I O1 O2)
      as [(A & pr & s' & E & HP & I' & K & _)|(A & s' & E & I' & S & K)].
    + left. split; auto. exists pr, s'. auto.
    + right. split; auto. exists s'. auto.
  - destruct (IngestEntry_spec C U PP HU n xs st e token Hn I O) as [(A & pr & s' & E & HP & I' & K & _)|(A & E)].
    + left. split; auto. exists pr, s'. auto.
    + right. split; auto. exists st. split; auto. split; auto. split; [repeat split|]. intros z b _ H; auto.
  - destruct (reopen_spec n xs st I) as (s' & E & I' & K1 & K2 & K3). rewrite E. exists s'. auto 6.
Qed.

Lemma after_In e xs x : e_path e <> [] ->
  In x (after e xs) <-> x = e \/ (In x xs /\ ~ same_place x e /\ ~ prunes e x).
Proof.
  intros HN. unfold after, kept. cbn [In]. rewrite filter_In, others_In, negb_true_iff.
  destruct (prunesb_spec e x HN); intuition congruence.
Qed.

Lemma ok_path e : entry_ok C U e -> e_path e <> [].
Proof. intros O. apply O. Qed.

Lemma op_ok_offer o e token : op_ok C U o -> offer C o = Some (e, token) -> entry_ok C U e.
Proof. destruct o; cbn; intros H E; inversion E; subst; tauto. Qed.

(** The states a history goes through, abstractly. *)
Inductive runs : list op -> N -> list entry -> state -> Prop :=
| runs_nil : runs [] 0 [] empty_store
| runs_accept ops o n xs st e token pruned st' :
    runs ops n xs st -> op_ok C U o -> offer C o = Some (e, token) ->
    acceptable C (fun x => In x xs) e token ->
    step C o st = (Ok pruned, st') ->
    Permutation pruned (filter (prunesb e) (others e xs)) ->
    Inv (n + 1) (after e xs) st' -> keeps_files (after e xs) st st' ->
    runs (ops ++ [o]) (n + 1) (after e xs) st'
| runs_refuse ops o n xs st e token st' :
    runs ops n xs st -> op_ok C U o -> offer C o = Some (e, token) ->
    ~ acceptable C (fun x => In x xs) e token ->
    step C o st = (Err, st') -> Inv n xs st' -> same_but_files st st' -> keeps_files xs st st' ->
    runs (ops ++ [o]) n xs st'
| runs_reopen ops o n xs st st' :
    runs ops n xs st -> op_ok C U o -> offer C o = None ->
    step C o st = (Ok [], st') -> Inv n xs st' -> kv st' = kv st -> refs st' = refs st -> files st' = files st ->
    runs (ops ++ [o]) n xs st'.

Lemma Inv_empty : Inv 0 [] empty_store.
Proof.
  split; auto.
  - split; cbn; auto; constructor.
  - intros d. cbn. lia.
  - intros f b H. discriminate.
Qed.

Lemma runs_Inv ops n xs st : runs ops n xs st -> Inv n xs st /\ n <= len ops /\ Forall (op_ok C U) ops.
Proof.
  induction 1 as [|ops o n xs st e token pr st' _ (I & L & F) O E A S P I' K
                  |ops o n xs st e token st' _ (I & L & F) O E A S I' B K
                  |ops o n xs st st' _ (I & L & F) O E S I' K1 K2 K3].
  - split; [apply Inv_empty|]. split; [cbn; lia|constructor].
  - rewrite len_app. change (len [o]) with 1. split; auto. split; [lia|]. apply Forall_app; auto.
  - rewrite len_app. change (len [o]) with 1. split; auto. split; [lia|]. apply Forall_app; auto.
  - rewrite len_app. change (len [o]) with 1. split; auto. split; [lia|]. apply Forall_app; auto.
Qed.

Lemma run_app a b st : run C (a ++ b) st = match run C a st with Some s => run C b s | None => None end.
Proof.
  revert st. induction a as [|o a IH]; intros st; cbn; auto.
  destruct (step C o st) as [[] s]; auto.
Qed.

Lemma runs_step ops n xs st o : runs ops n xs st -> op_ok C U o -> len ops + 2 < 2 ^ 64 ->
  exists n' xs' st', runs (ops ++ [o]) n' xs' st' /\ run C [o] st = Some st'.
Proof.
  intros R O L. pose proof (runs_Inv _ _ _ _ R) as (I & HL & _).
  assert (Hn : n + 1 < 2 ^ 64) by lia.
  pose proof (step_spec n xs st o Hn I O) as H. unfold stepped in H. cbn [run].
  destruct (offer C o) as [[e token]|] eqn:E.
  - destruct H as [(A & pr & s' & E' & HP & I' & K)|(A & s' & E' & I' & S & K)]; rewrite E'.
    + eexists _, _, _. split; [eapply runs_accept; eauto|auto].
    + eexists _, _, _. split; [eapply runs_refuse; eauto|auto].
  - destruct H as (s' & E' & I' & K1 & K2 & K3). rewrite E'.
    eexists _, _, _. split; [eapply runs_reopen; eauto|auto].
Qed.

Lemma runs_total ops : Forall (op_ok C U) ops -> len ops + 1 < 2 ^ 64 ->
  exists n xs st, runs ops n xs st /\ run C ops empty_store = Some st.
Proof.
  induction ops as [|o ops IH] using rev_ind; intros F L.
  - exists 0, [], empty_store. split; [constructor|reflexivity].
  - apply Forall_app in F as [F1 F2]. inversion F2; subst.
    rewrite len_app in L. change (len [o]) with 1 in L.
    destruct IH as (n & xs & st & R & E); auto; [lia|].
    destruct (runs_step ops n xs st o R) as (n' & xs' & st' & R' & E'); auto; [lia|].
    exists n', xs', st'. split; auto. rewrite run_app, E. auto.
Qed.

Lemma runs_run ops n xs st : runs ops n xs st -> run C ops empty_store = Some st.
Proof.
  induction 1 as [|ops o n xs st e token pr st' _ IH O E A S P I' K
                  |ops o n xs st e token st' _ IH O E A S I' B K
                  |ops o n xs st st' _ IH O E S I' K1 K2 K3]; [reflexivity| | |];
    rewrite run_app, IH; cbn [run]; rewrite S; auto.
Qed.

Lemma reached_runs ops st : reached C U ops st -> exists n xs, runs ops n xs st.
Proof.
  intros [(_ & _ & F & L) E]. destruct (runs_total ops F L) as (n & xs & st' & R & E').
  assert (st' = st) by congruence. subst. eauto.
Qed.

(** ** Consequences *)

(** No live entry is superseded by a live entry. *)
Lemma runs_clean ops n xs st : runs ops n xs st ->
  forall x y, In x xs -> In y xs -> ~ supersedes x y.
Proof.
  induction 1 as [|ops o n xs st e token pr st' R IH O E A S P I' K| |]; auto.
  pose proof (ok_path e (op_ok_offer _ _ _ O E)) as HN.
  intros x y Hx Hy. rewrite after_In in Hx, Hy by auto.
  destruct A as (_ & _ & A3 & A4).
  destruct Hx as [->|(Hx & Hx1 & Hx2)], Hy as [->|(Hy & Hy1 & Hy2)].
  - intros [T _]. lia.
  - intros [T [H|H]].
    + apply Hy1. destruct H; split; auto.
    + apply Hy2. split; auto.
  - intros [T [H|H]]; [apply Hx1; auto|]. specialize (A3 x Hx H). lia.
  - auto.
Qed.

(** Whatever was live stays live or is superseded by something live. *)
Definition covered (xs : list entry) (e : entry) : Prop := exists x, In x xs /\ supersedes x e.

Lemma after_covers e xs x token : e_path e <> [] -> acceptable C (fun x => In x xs) e token ->
  In x xs -> In x (after e xs) \/ supersedes e x.
Proof.
  intros HN (_ & _ & A3 & A4) Hx. rewrite after_In by auto.
  destruct (beqb_spec (e_subspace x) (e_subspace e)) as [E1|E1].
  - destruct (peqb_spec (e_path x) (e_path e)) as [E2|E2].
    + right. split; [apply A4; auto; split; auto|left; split; auto].
    + destruct (prunesb_spec e x HN) as [[H1 H2]|H]; [right; split; auto|].
      left. right. split; auto. split; auto. intros []; auto.
  - left. right. split; auto. split; [intros []; auto|intros [[H _] _]; congruence].
Qed.

Lemma runs_covered_step ops o n xs st n' xs' st' :
  runs ops n xs st -> runs (ops ++ [o]) n' xs' st' ->
  forall e, In e xs \/ covered xs e -> In e xs' \/ covered xs' e.
Proof.
  intros R R' e He. assert (D : forall xs0 n0 st0, runs ops n0 xs0 st0 -> forall x, In x xs0 <-> In x xs).
  { intros xs0 n0 st0 R0 x. pose proof (runs_run _ _ _ _ R). pose proof (runs_run _ _ _ _ R0).
    assert (st0 = st) by congruence. subst.
    destruct (runs_Inv _ _ _ _ R) as (I & _). destruct (runs_Inv _ _ _ _ R0) as (I0 & _).
    rewrite <- (Rep_live C U PP HU xs st x (inv_rep _ _ _ _ _ I)).
    apply iff_sym. apply (Rep_live C U PP HU xs0 st x (inv_rep _ _ _ _ _ I0)). }
  assert (T : In e xs' \/ covered xs' e \/ In e xs' \/ covered xs' e -> In e xs' \/ covered xs' e) by tauto.
  remember (ops ++ [o]) as l eqn:El. destruct R' as [|ops2 o2 n2 xs2 st2 e2 token pr st3 R2 O E A S P I' K
                  |ops2 o2 n2 xs2 st2 e2 token st3 R2 O E A S I' B K
                  |ops2 o2 n2 xs2 st2 st3 R2 O E S I' K1 K2 K3].
  - symmetry in El. apply app_eq_nil in El as [_ El]. discriminate.
  - apply app_inj_tail in El as [-> ->]. specialize (D _ _ _ R2).
    pose proof (ok_path e2 (op_ok_offer _ _ _ O E)) as HN.
    destruct He as [He|(x & Hx & Sx)].
    + apply D in He. destruct (after_covers _ _ _ _ HN A He) as [H|H]; auto.
      right. exists e2. split; auto. left; auto.
    + apply D in Hx. right. destruct (after_covers _ _ _ _ HN A Hx) as [H|H]; [exists x; auto|].
      exists e2. split; [left; auto|]. eapply supersedes_trans; eauto.
  - apply app_inj_tail in El as [-> ->]. specialize (D _ _ _ R2).
    destruct He as [He|(x & Hx & Sx)]; [left; apply D; auto|right; exists x; split; auto; apply D; auto].
  - apply app_inj_tail in El as [-> ->]. specialize (D _ _ _ R2).
    destruct He as [He|(x & Hx & Sx)]; [left; apply D; auto|right; exists x; split; auto; apply D; auto].
Qed.

Lemma runs_split ops1 ops2 n xs st : runs (ops1 ++ ops2) n xs st -> exists n1 xs1 st1, runs ops1 n1 xs1 st1.
Proof.
  remember (ops1 ++ ops2) as l eqn:El. intros H. revert ops2 El.
  induction H as [|ops o n xs st e token pr st' R IH O E A S P I' K
                  |ops o n xs st e token st' R IH O E A S I' B K
                  |ops o n xs st st' R IH O E S I' K1 K2 K3]; intros ops2 El.
  - symmetry in El. apply app_eq_nil in El as [-> ->]. eexists _, _, _. constructor.
  - destruct ops2 as [|o2 ops2] using rev_ind.
    + rewrite app_nil_r in El. subst. eexists _, _, _. eapply runs_accept; eauto.
    + rewrite app_assoc in El. apply app_inj_tail in El as [-> ->]. eauto.
  - destruct ops2 as [|o2 ops2] using rev_ind.
    + rewrite app_nil_r in El. subst. eexists _, _, _. eapply runs_refuse; eauto.
    + rewrite app_assoc in El. apply app_inj_tail in El as [-> ->]. eauto.
  - destruct ops2 as [|o2 ops2] using rev_ind.
    + rewrite app_nil_r in El. subst. eexists _, _, _. eapply runs_reopen; eauto.
    + rewrite app_assoc in El. apply app_inj_tail in El as [-> ->]. eauto.
Qed.

Lemma runs_det ops n xs st n' xs' st' : runs ops n xs st -> runs ops n' xs' st' ->
  st = st' /\ forall x, In x xs <-> In x xs'.
Proof.
  intros R R'. assert (st = st') by (apply runs_run in R, R'; congruence). split; auto. subst st'.
  intros x. destruct (runs_Inv _ _ _ _ R) as (I & _). destruct (runs_Inv _ _ _ _ R') as (I' & _).
  rewrite <- (Rep_live C U PP HU xs st x (inv_rep _ _ _ _ _ I)).
  apply (Rep_live C U PP HU xs' st x (inv_rep _ _ _ _ _ I')).
Qed.

Lemma runs_covered ops1 ops2 n1 xs1 st1 n xs st :
  runs ops1 n1 xs1 st1 -> runs (ops1 ++ ops2) n xs st ->
  forall e, In e xs1 \/ covered xs1 e -> In e xs \/ covered xs e.
Proof.
  revert n xs st. induction ops2 as [|o ops2 IH] using rev_ind; intros n xs st R1 R e He.
  - rewrite app_nil_r in R. destruct (runs_det _ _ _ _ _ _ _ R1 R) as [_ D].
    destruct He as [He|(x & Hx & S)]; [left; apply D; auto|right; exists x; split; auto; apply D; auto].
  - rewrite app_assoc in R. destruct (runs_split _ _ _ _ _ R) as (n2 & xs2 & st2 & R2).
    eapply runs_covered_step; eauto.
Qed.

(** Live now and live later means live in between, with its payload kept. *)
Lemma covered_not_live ops n xs st e : runs ops n xs st -> covered xs e -> ~ In e xs.
Proof. intros R (x & Hx & S) He. exact (runs_clean _ _ _ _ R x e Hx He S). Qed.

Lemma runs_payload ops1 ops2 n1 xs1 st1 n xs st e b :
  runs ops1 n1 xs1 st1 -> runs (ops1 ++ ops2) n xs st ->
  In e xs1 -> In e xs -> file_of C st1 (e_digest e) = Some b -> file_of C st (e_digest e) = Some b.
Proof.
  revert n xs st. induction ops2 as [|o ops2 IH] using rev_ind; intros n xs st R1 R H1 H F.
  - rewrite app_nil_r in R. destruct (runs_det _ _ _ _ _ _ _ R1 R) as [<- _]. auto.
  - rewrite app_assoc in R. destruct (runs_split _ _ _ _ _ R) as (n2 & xs2 & st2 & R2).
    assert (H2 : In e xs2).
    { destruct (runs_covered _ _ _ _ _ _ _ _ R1 R2 e (or_introl H1)) as [|Hc]; auto. exfalso.
      destruct Hc as (x & Hx & Sx).
      destruct (runs_covered_step _ _ _ _ _ _ _ _ R2 R x (or_introl Hx)) as [Hx'|(z & Hz & Sz)].
      - exact (runs_clean _ _ _ _ R x e Hx' H Sx).
      - exact (runs_clean _ _ _ _ R z e Hz H (supersedes_trans _ _ _ Sz Sx)). }
    specialize (IH _ _ _ R1 R2 H1 H2 F).
    remember ((ops1 ++ ops2) ++ [o]) as l eqn:El.
    destruct R as [|ops2' o2 n2' xs2' st2' e2 token pr st3 R3 O E A S P I' K
                  |ops2' o2 n2' xs2' st2' e2 token st3 R3 O E A S I' B K
                  |ops2' o2 n2' xs2' st2' st3 R3 O E S I' K1 K2 K3].
    + symmetry in El. apply app_eq_nil in El as [_ El]. discriminate.
    + apply app_inj_tail in El as [-> ->]. destruct (runs_det _ _ _ _ _ _ _ R2 R3) as [<- _].
      apply (K e b); auto.
    + apply app_inj_tail in El as [-> ->]. destruct (runs_det _ _ _ _ _ _ _ R2 R3) as [<- _].
      apply (K e b); auto.
    + apply app_inj_tail in El as [-> ->]. destruct (runs_det _ _ _ _ _ _ _ R2 R3) as [<- _].
      unfold file_of in *. rewrite K3. auto.
Qed.

(** Live entries were offered with a good token. *)
Lemma runs_offered ops n xs st : runs ops n xs st ->
  forall x, In x xs -> e_namespace x = c_ns C /\ exists o, In o ops /\ offer C o = Some (x, e_subspace x).
Proof.
  induction 1 as [|ops o n xs st e token pr st' R IH O E A S P I' K
                  |ops o n xs st e token st' R IH O E A S I' B K
                  |ops o n xs st st' R IH O E S I' K1 K2 K3]; intros x Hx.
  - destruct Hx.
  - pose proof (ok_path e (op_ok_offer _ _ _ O E)) as HN. rewrite after_In in Hx by auto.
    destruct Hx as [->|(Hx & _)].
    + destruct A as (A1 & A2 & _). subst token. split; auto. exists o. split; auto.
      apply in_or_app; right; left; auto.
    + destruct (IH x Hx) as (? & o' & ? & ?). split; auto. exists o'. split; auto. apply in_or_app; auto.
  - destruct (IH x Hx) as (? & o' & ? & ?). split; auto. exists o'. split; auto. apply in_or_app; auto.
  - destruct (IH x Hx) as (? & o' & ? & ?). split; auto. exists o'. split; auto. apply in_or_app; auto.
Qed.

(** Every well-formed offer is live or blocked. *)
Notation offered := (offered C).

Lemma offered_snoc ops o e : offered (ops ++ [o]) e <->
  offered ops e \/ (e_namespace e = c_ns C /\ offer C o = Some (e, e_subspace e)).
Proof.
  unfold offered. split.
  - intros (H & o' & H1 & H2). apply in_app_or in H1 as [H1|[->|[]]]; eauto.
  - intros [(H & o' & H1 & H2)|(H & H2)]; split; auto.
    + exists o'. split; auto. apply in_or_app; auto.
    + exists o. split; auto. apply in_or_app; right; left; auto.
Qed.

(** No two different offered entries at comparable places have equal timestamps. *)
Definition no_ties (L : entry -> Prop) : Prop :=
  forall x y, L x -> L y -> same_place x y \/ above x y -> e_time x = e_time y -> x = y.

Lemma runs_live_or_covered ops n xs st : runs ops n xs st -> no_ties (offered ops) ->
  forall e, offered ops e -> In e xs \/ covered xs e.
Proof.
  induction 1 as [|ops o n xs st e token pr st' R IH O E A S P I' K
                  |ops o n xs st e token st' R IH O E A S I' B K
                  |ops o n xs st st' R IH O E S I' K1 K2 K3]; intros NT x Hx.
  - destruct Hx as (_ & o & [] & _).
  - assert (RR : runs (ops ++ [o]) (n + 1) (after e xs) st') by (eapply runs_accept; eauto).
    apply offered_snoc in Hx as [Hx|[_ Hx]].
    + eapply runs_covered_step; [exact R|exact RR|]. apply IH; auto.
      intros a b Ha Hb. apply NT; apply offered_snoc; auto.
    + rewrite E in Hx. inversion Hx; subst. left. left. auto.
  - apply offered_snoc in Hx as [Hx|[Hns Hx]].
    + apply IH; auto. intros a b Ha Hb. apply NT; apply offered_snoc; auto.
    + rewrite E in Hx. inversion Hx; subst x token.
      assert (Lx : forall x, In x xs -> offered (ops ++ [o]) x).
      { intros x Hx'. apply offered_snoc. left. destruct (runs_offered _ _ _ _ R x Hx') as (? & ? & ? & ?).
        split; eauto. }
      assert (Le : offered (ops ++ [o]) e) by (apply offered_snoc; auto).
      destruct (existsb (fun x => (beqb (e_subspace x) (e_subspace e)
           && ((match e_path x with [] => false | _ => true end && ppfx (e_path x) (e_path e))
                || peqb (e_path x) (e_path e))) && (e_time e <=? e_time x)) xs) eqn:B0.
      * apply existsb_exists in B0 as (x & Hx' & B0). rewrite !andb_true_iff, orb_true_iff, andb_true_iff in B0.
        destruct B0 as [[B1 B2] B3]. apply N.leb_le in B3.
        destruct (beqb_spec (e_subspace x) (e_subspace e)) as [E1|]; [|discriminate].
        assert (PL : same_place x e \/ above x e).
        { destruct B2 as [[B2 B2']|B2].
          - right. split; auto. split; [destruct (e_path x); congruence|].
            destruct (ppfx_spec (e_path x) (e_path e)); auto; discriminate.
          - left. split; auto. destruct (peqb_spec (e_path x) (e_path e)); auto; discriminate. }
        destruct (N.eq_dec (e_time x) (e_time e)) as [Et|Et].
        -- left. rewrite <- (NT x e (Lx x Hx') Le PL Et). auto.
        -- right. exists x. split; auto. split; [lia|auto].
      * exfalso. apply A.
        assert (Q : forall x, In x xs -> same_place x e \/ above x e -> e_time x < e_time e).
        { intros x Hx' PL. destruct (N.lt_ge_cases (e_time x) (e_time e)) as [|Hge]; auto. exfalso.
          assert (T : existsb (fun x => (beqb (e_subspace x) (e_subspace e)
           && ((match e_path x with [] => false | _ => true end && ppfx (e_path x) (e_path e))
                || peqb (e_path x) (e_path e))) && (e_time e <=? e_time x)) xs = true); [|congruence].
          apply existsb_exists. exists x. split; auto. apply N.leb_le in Hge. rewrite Hge.
          destruct PL as [[P1 P2]|(P1 & P2 & P3)].
          - rewrite P1, P2, beqb_refl, peqb_refl, orb_true_r. auto.
          - rewrite P1, beqb_refl. destruct (ppfx_spec (e_path x) (e_path e)); [|tauto].
            destruct (e_path x); [congruence|]. auto. }
        repeat split; auto.
  - assert (Hx' : offered ops x).
    { apply offered_snoc in Hx as [Hx|[_ Hx]]; auto. rewrite E in Hx. discriminate. }
    apply IH; auto. intros a b Ha Hb. apply NT; apply offered_snoc; auto.
Qed.

Lemma runs_max ops n xs st : runs ops n xs st -> no_ties (offered ops) ->
  forall e, In e xs <-> offered ops e /\ (forall y, offered ops y -> ~ supersedes y e).
Proof.
  intros R NT e. split.
  - intros He. split; [destruct (runs_offered _ _ _ _ R e He) as (? & ? & ? & ?); split; eauto|].
    intros y Hy S. destruct (runs_live_or_covered _ _ _ _ R NT y Hy) as [Hl|(z & Hz & Sz)].
    + exact (runs_clean _ _ _ _ R y e Hl He S).
    + eapply runs_clean; [exact R|exact Hz|exact He|]. eapply supersedes_trans; eauto.
  - intros [He HS]. destruct (runs_live_or_covered _ _ _ _ R NT e He) as [|(z & Hz & Sz)]; auto.
    exfalso. apply (HS z); auto. destruct (runs_offered _ _ _ _ R z Hz) as (? & ? & ? & ?). split; eauto.
Qed.

End History.
