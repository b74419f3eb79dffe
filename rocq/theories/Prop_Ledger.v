(** C74: reference counts and payload files are an exact account of what the operations of a store did. *)
From Coq Require Import Sorting.Permutation.
From Verif Require Import Base M_Order M_Encoding M_Paths M_Keys M_Entry M_Map M_Store
  S_Order S_Store P_Order P_Encoding P_Paths P_Keys P_Map P_Store P_History P_Demo P_Ledger Prop_Store.
Local Open Scope N_scope.

(** The reference count of a digest; no record counts as zero. *)
Definition count (st : state) (d : bytes) : N := match mget (refs st) d with Some n => n | None => 0 end.
(** How many of the entries have the digest [d]. *)
Definition carriers (d : bytes) (xs : list entry) : N := len (filter (fun x => beqb (e_digest x) d) xs).
(** The live entries that an accepted [e] takes out of the count of their digest: the one it replaces, unless that has the
    digest of [e], and those it prunes. *)
Definition leaves (C : cfg) (st : state) (e x : entry) : Prop :=
  live C st x /\ ((same_place x e /\ e_digest x <> e_digest e) \/ prunes e x).

Lemma cnt_carriers d xs : cnt d xs = carriers d xs.
Proof.
  unfold carriers, len. induction xs as [|y l IH]; [reflexivity|]. cbn [cnt filter]. destruct (beqb (e_digest y) d); cbn [length]; lia.
Qed.

Lemma pruned_In C U e xs pr x : entry_ok C U e -> Permutation pr (filter (prunesb e) (P_Store.others e xs)) -> In x pr <-> In x xs /\ prunes e x.
Proof.
  intros O HP. assert (I : In x pr <-> In x (filter (prunesb e) (P_Store.others e xs))) by (split; apply Permutation_in; [|symmetry]; exact HP).
  rewrite I, filter_In, others_In. destruct (prunesb_spec e x (proj1 (proj1 O))) as [P|P]; [|intuition congruence].
  split; [tauto|]. intros [H _]. split; [|reflexivity]. split; [exact H|]. intros [S1 S2]. destruct P as [(_ & _ & (a & b & PP)) _].
  rewrite S2 in PP. apply (f_equal (@length _)) in PP. rewrite app_length in PP. cbn [length] in PP. lia.
Qed.

(** An accepted operation adds one to the count of its digest and takes one away for every entry that leaves. *)
Theorem C74_counts_partial C U ops st o e token pruned st' :
  reached C U ops st -> op_ok C U o -> len ops + 2 < 2 ^ 64 -> offer C o = Some (e, token) ->
  step C o st = (Ok pruned, st') ->
  exists gone, NoDup gone /\ (forall x, In x gone <-> leaves C st e x)
    /\ forall d, count st' d + carriers d gone = count st d + carriers d [e].
Proof.
  intros H O L E S. pose proof H as [(PP & HU & _) _].
  destruct (reached_runs C U PP HU ops st H) as (n & xs & R).
  destruct (runs_Inv _ _ _ _ _ _ R) as (I & Ln & _). pose proof (inv_rep _ _ _ _ _ I) as RP.
  assert (Hn : n + 1 < 2 ^ 64) by lia. pose proof (op_ok_offer C U o e token O E) as Oe.
  destruct (step_exact C U PP HU n xs st o e token Hn I O E) as [HA HR].
  pose proof (step_spec C U PP HU n xs st o Hn I O) as SS. unfold stepped in SS. rewrite E in SS.
  destruct SS as [(A & _)|(NA & s & E' & _)]; [|rewrite E' in S; discriminate].
  destruct (HA A) as (pr & s & E' & HP & LC & _). rewrite E' in S. injection S as -> ->.
  exists (dropped e xs ++ pruned). pose proof (rep_place _ _ _ _ RP) as NP. apply NoDup_map_inv in NP as ND.
  assert (NDP : NoDup pruned).
  { eapply Permutation_NoDup; [symmetry; exact HP|]. apply NoDup_filter. unfold P_Store.others. apply NoDup_filter. exact ND. }
  assert (PI := fun x => pruned_In C U e xs pruned x Oe HP). split; [|split].
  - assert (DI : forall x, In x (dropped e xs) -> ~ In x pruned).
    { intros x Hx Hp. eapply Permutation_in in Hp; [|exact HP]. apply filter_In in Hp as [Hp _]. apply others_In in Hp as [_ Hp].
      apply dropped_In in Hx. tauto. }
    assert (NDD : NoDup (dropped e xs)) by (apply NoDup_filter; exact ND).
    revert NDD DI. clear - NDP. generalize (dropped e xs). intros l. induction l as [|a l IH]; intros NDD DI; [exact NDP|]. inversion NDD; subst. cbn [app]. constructor.
    + intros HI. apply in_app_or in HI as [HI|HI]; [contradiction|]. apply (DI a); [left; reflexivity|exact HI].
    + apply IH; [assumption|]. intros x Hx. apply DI. right. exact Hx.
  - intros x. unfold leaves. rewrite in_app_iff, dropped_In, PI, (Rep_live C U PP HU xs st x RP). tauto.
  - intros d. specialize (LC d). rewrite <- !cnt_carriers, cnt_app. cbn [cnt]. rewrite N.add_0_r.
    change (count st' d) with (getd (refs st') d). change (count st d) with (getd (refs st) d). unfold one in LC. lia.
Qed.
Print Assumptions C74_counts_partial.

(** The files after an accepted operation: every pruned entry whose count ended at zero lost its payload; then the name of
    the subspace is stored; then a replaced entry whose count ended at zero lost its payload; anything else is as it was, the
    payload of a Set included. *)
Theorem C74_files_partial C U ops st o e token pruned st' b :
  reached C U ops st -> op_ok C U o -> len ops + 2 < 2 ^ 64 -> offer C o = Some (e, token) ->
  step C o st = (Ok pruned, st') -> U b ->
  let d := c_hash C b in
  let erased P := count st' d = 0 /\ exists x, live C st x /\ e_digest x = d /\ P x in
  (erased (prunes e) -> file_of C st' d = None)
  /\ (~ erased (prunes e) -> b = e_subspace e -> file_of C st' d = Some b)
  /\ (b <> e_subspace e -> erased (fun x => same_place x e /\ e_digest x <> e_digest e) -> file_of C st' d = None)
  /\ (b <> e_subspace e -> ~ erased (prunes e) -> ~ erased (fun x => same_place x e /\ e_digest x <> e_digest e) ->
      (forall i auth now, o = OpSet i auth now -> i_payload i = b -> file_of C st' d = Some b)
      /\ ((forall i auth now, o = OpSet i auth now -> i_payload i <> b) -> file_of C st' d = file_of C st d)).
Proof.
  intros H O L E S Ub d erased. pose proof H as [(PP & HU & _) _].
  destruct (reached_runs C U PP HU ops st H) as (n & xs & R).
  destruct (runs_Inv _ _ _ _ _ _ R) as (I & Ln & _). pose proof (inv_rep _ _ _ _ _ I) as RP.
  assert (Hn : n + 1 < 2 ^ 64) by lia. pose proof (op_ok_offer C U o e token O E) as Oe.
  destruct (step_exact C U PP HU n xs st o e token Hn I O E) as [HA HR].
  pose proof (step_spec C U PP HU n xs st o Hn I O) as SS. unfold stepped in SS. rewrite E in SS.
  destruct SS as [(A & _)|(NA & s & E' & _)]; [|rewrite E' in S; discriminate].
  destruct (HA A) as (pr & s & E' & HP & LC & LF). rewrite E' in S. injection S as -> ->.
  assert (PI := fun x => pruned_In C U e xs pruned x Oe HP).
  assert (Dx : forall x, In x xs -> c_fname C (e_digest x) = c_fname C d -> e_digest x = d).
  { intros x Hx. apply (fname_inj C U HU); [|exists b; auto]. apply stored_digest. eapply Rep_In_ok; eauto. }
  assert (EP : last_of C (refs st') pruned (c_fname C d) = true <-> erased (prunes e)).
  { rewrite last_of_spec. unfold erased. change (count st' d) with (getd (refs st') d). split.
    - intros (y & Hy & Ey & Z). apply PI in Hy as [Hy Py]. rewrite (Dx y Hy Ey) in Z. split; [exact Z|].
      exists y. rewrite (Rep_live C U PP HU xs st y RP). auto.
    - intros (Z & y & Hy & Ey & Py). exists y. rewrite (Rep_live C U PP HU xs st y RP) in Hy. rewrite PI, Ey. auto. }
  assert (ED : last_of C (refs st') (dropped e xs) (c_fname C d) = true <-> erased (fun x => same_place x e /\ e_digest x <> e_digest e)).
  { rewrite last_of_spec. unfold erased. change (count st' d) with (getd (refs st') d). split.
    - intros (y & Hy & Ey & Z). apply dropped_In in Hy as [Hy Py]. rewrite (Dx y Hy Ey) in Z. split; [exact Z|].
      exists y. rewrite (Rep_live C U PP HU xs st y RP). auto.
    - intros (Z & y & Hy & Ey & Py). exists y. rewrite (Rep_live C U PP HU xs st y RP) in Hy. split; [apply dropped_In; tauto|]. rewrite Ey. auto. }
  unfold file_of. rewrite LF. destruct HU as [HI _].
  assert (Us : U (e_subspace e)) by apply Oe.
  assert (EB : beqb (c_fname C d) (c_fname C (c_hash C (e_subspace e))) = true <-> b = e_subspace e).
  { destruct (beqb_spec (c_fname C d) (c_fname C (c_hash C (e_subspace e)))) as [Eb|Eb]; (split; intros X; [|try reflexivity]).
    - apply HI; auto.
    - discriminate.
    - exfalso. apply Eb. unfold d. rewrite X. reflexivity. }
  split; [intros X; apply EP in X; rewrite X; reflexivity|]. split.
  { intros X Y. destruct (last_of C (refs st') pruned (c_fname C d)); [exfalso; apply X; apply EP; reflexivity|].
    pose proof (proj2 EB Y) as EB'. rewrite EB'. congruence. }
  assert (NB : b <> e_subspace e -> beqb (c_fname C d) (c_fname C (c_hash C (e_subspace e))) = false).
  { intros N. destruct (beqb (c_fname C d) _); [exfalso; apply N; apply EB; reflexivity|reflexivity]. }
  split.
  { intros N X. apply ED in X. rewrite (NB N), X. destruct (last_of C (refs st') pruned _); reflexivity. }
  intros N X Y. destruct (last_of C (refs st') pruned (c_fname C d)); [exfalso; apply X; apply EP; reflexivity|]. rewrite (NB N).
  destruct (last_of C (refs st') (dropped e xs) (c_fname C d)); [exfalso; apply Y; apply ED; reflexivity|]. split.
  - intros i auth now -> <-. unfold written. fold d. rewrite beqb_refl. reflexivity.
  - intros HNB. destruct o as [i auth now|e' t'|]; [|reflexivity|reflexivity]. unfold written.
    destruct (beqb_spec (c_fname C d) (c_fname C (c_hash C (i_payload i)))) as [Eb|]; [|reflexivity]. exfalso.
    apply (HNB i auth now eq_refl). symmetry. apply HI; auto. apply O.
Qed.
Print Assumptions C74_files_partial.

(** A refused operation changes no count, and only a refused Set changes the files: its payload stays. *)
Theorem C74_refusal_partial C U ops st o e token st' :
  reached C U ops st -> op_ok C U o -> len ops + 2 < 2 ^ 64 -> offer C o = Some (e, token) ->
  step C o st = (Err, st') ->
  (forall d, count st' d = count st d)
  /\ (forall i auth now, o = OpSet i auth now -> file_of C st' (c_hash C (i_payload i)) = Some (i_payload i))
  /\ (forall b, U b -> (forall i auth now, o = OpSet i auth now -> i_payload i <> b) ->
        file_of C st' (c_hash C b) = file_of C st (c_hash C b)).
Proof.
  intros H O L E S. pose proof H as [(PP & HU & _) _].
  destruct (reached_runs C U PP HU ops st H) as (n & xs & R).
  destruct (runs_Inv _ _ _ _ _ _ R) as (I & Ln & _).
  assert (Hn : n + 1 < 2 ^ 64) by lia.
  destruct (step_exact C U PP HU n xs st o e token Hn I O E) as [HA HR].
  pose proof (step_spec C U PP HU n xs st o Hn I O) as SS. unfold stepped in SS. rewrite E in SS.
  destruct SS as [(A & pr & s & E' & _)|(NA & _)]; [rewrite E' in S; discriminate|].
  destruct (HR NA) as (s & E' & Er & Ef). rewrite E' in S. injection S as ->.
  split; [intros d; unfold count; rewrite Er; reflexivity|]. unfold file_of. split.
  - intros i auth now ->. rewrite Ef. unfold written. rewrite beqb_refl. reflexivity.
  - intros b Ub HNB. rewrite Ef. destruct o as [i auth now|e' t'|]; [|reflexivity|reflexivity]. unfold written.
    destruct (beqb_spec (c_fname C (c_hash C b)) (c_fname C (c_hash C (i_payload i)))) as [Eb|]; [|reflexivity]. exfalso.
    apply (HNB i auth now eq_refl). symmetry. destruct HU as [HI _]. apply HI; auto. apply O.
Qed.
Print Assumptions C74_refusal_partial.

(** No accepted operation replaces an entry by one with the same digest. *)
Definition no_repeats (C : cfg) (ops : list op) : Prop :=
  forall before o after st e token pruned st',
    ops = before ++ o :: after -> run C before empty_store = Some st -> offer C o = Some (e, token) ->
    step C o st = (Ok pruned, st') -> forall x, live C st x -> same_place x e -> e_digest x <> e_digest e.

(** No refused Set. *)
Definition no_refusals (C : cfg) (ops : list op) : Prop :=
  forall before o after st e token st',
    ops = before ++ o :: after -> run C before empty_store = Some st -> offer C o = Some (e, token) ->
    step C o st <> (Err, st').

Lemma no_repeats_app C ops o : no_repeats C (ops ++ [o]) -> no_repeats C ops.
Proof. intros H b o' a st e t pr st' -> . apply (H b o' (a ++ [o])). rewrite <- app_assoc. reflexivity. Qed.
Lemma no_refusals_app C ops o : no_refusals C (ops ++ [o]) -> no_refusals C ops.
Proof. intros H b o' a st e t st' -> . apply (H b o' (a ++ [o])). rewrite <- app_assoc. reflexivity. Qed.

Lemma runs_counts C U ops n xs st : store_params (c_pp C) -> universe C U -> len ops + 1 < 2 ^ 64 -> runs C U ops n xs st ->
  no_repeats C ops -> forall d, getd (refs st) d = cnt d xs.
Proof.
  intros PP HU L R. induction R as [|ops o n xs st e token pr st' R IH O E A S P I' K
                  |ops o n xs st e token st' R IH O E A S I' B K
                  |ops o n xs st st' R IH O E S I' K1 K2 K3]; intros NR d.
  - reflexivity.
  - rewrite len_app in L. change (len [o]) with 1 in L. specialize (IH ltac:(lia) (no_repeats_app _ _ _ NR) d).
    destruct (runs_Inv _ _ _ _ _ _ R) as (I & Ln & _). assert (Hn : n + 1 < 2 ^ 64) by lia.
    destruct (step_exact C U PP HU n xs st o e token Hn I O E) as [HA _].
    destruct (HA A) as (pr' & s & E' & HP & LC & _). rewrite E' in S. injection S as -> ->.
    specialize (LC d). rewrite IH in LC.
    assert (HS : forall x, In x xs -> same_place x e -> e_digest x <> e_digest e).
    { intros x Hx. apply (NR ops o [] st e token pr st' eq_refl (runs_run C U _ _ _ _ R) E E').
      apply (Rep_live C U PP HU xs st x (inv_rep _ _ _ _ _ I)). exact Hx. }
    rewrite (cnt_split e xs d HS), (cnt_perm d _ _ P) in LC. unfold after. cbn [cnt]. unfold one in LC. lia.
  - rewrite len_app in L. change (len [o]) with 1 in L. destruct B as (_ & _ & B & _). rewrite B. apply IH; [lia|]. eapply no_repeats_app; eauto.
  - rewrite len_app in L. change (len [o]) with 1 in L. rewrite K2. apply IH; [lia|]. eapply no_repeats_app; eauto.
Qed.

(** Without such a replacement the counts are the numbers of live entries. *)
Theorem C74_exact_counts_partial C U ops st :
  reached C U ops st -> no_repeats C ops ->
  exists xs, NoDup xs /\ (forall x, In x xs <-> live C st x) /\ forall d, count st d = carriers d xs.
Proof.
  intros H NR. pose proof H as [(PP & HU & _ & L) _].
  destruct (reached_runs C U PP HU ops st H) as (n & xs & R).
  destruct (runs_Inv _ _ _ _ _ _ R) as (I & Ln & _). pose proof (inv_rep _ _ _ _ _ I) as RP.
  exists xs. split; [eapply NoDup_map_inv; apply (rep_place _ _ _ _ RP)|]. split.
  - intros x. symmetry. apply (Rep_live C U PP HU xs st x RP).
  - intros d. rewrite <- cnt_carriers. exact (runs_counts C U ops n xs st PP HU L R NR d).
Qed.
Print Assumptions C74_exact_counts_partial.

(** No entry of the history has the digest of a subspace name of the history. *)
Definition names_apart (C : cfg) (ops : list op) : Prop :=
  forall o o' e t e' t', In o ops -> In o' ops -> offer C o = Some (e, t) -> offer C o' = Some (e', t') ->
    e_digest e <> c_hash C (e_subspace e').
Lemma names_apart_app C ops o : names_apart C (ops ++ [o]) -> names_apart C ops.
Proof. intros H o1 o2 e t e' t' H1 H2. apply H; apply in_or_app; auto. Qed.

Lemma runs_files C U ops n xs st : store_params (c_pp C) -> universe C U -> len ops + 1 < 2 ^ 64 -> runs C U ops n xs st ->
  no_repeats C ops -> no_refusals C ops -> names_apart C ops ->
  (forall e t, ~ In (OpIngest e t) ops) ->
  forall b, U b -> (file_of C st (c_hash C b) = Some b <-> exists x, In x xs /\ (e_digest x = c_hash C b \/ e_subspace x = b)).
Proof.
  intros PP HU L R. induction R as [|ops o n xs st e token pr st' R IH O E A S P I' K
                  |ops o n xs st e token st' R IH O E A S I' B K
                  |ops o n xs st st' R IH O E S I' K1 K2 K3]; intros NR NF NA NI b Ub.
  - split; [discriminate|]. intros (x & [] & _).
  - pose proof L as L0. rewrite len_app in L0. change (len [o]) with 1 in L0.
    specialize (IH ltac:(lia) (no_repeats_app _ _ _ NR) (no_refusals_app _ _ _ NF) (names_apart_app _ _ _ NA)
      (fun e t HI => NI e t (in_or_app _ _ _ (or_introl HI)))).
    destruct (runs_Inv _ _ _ _ _ _ R) as (I & Ln & _). assert (Hn : n + 1 < 2 ^ 64) by lia. pose proof (inv_rep _ _ _ _ _ I) as RP.
    assert (R' : runs C U (ops ++ [o]) (n + 1) (after e xs) st') by (eapply runs_accept; eauto).
    pose proof (runs_counts C U _ _ _ _ PP HU L R' NR) as CN.
    pose proof (op_ok_offer C U o e token O E) as Oe. pose proof (proj1 (proj1 Oe)) as HNil.
    assert (AI := fun x => after_In e xs x HNil).
    destruct (step_exact C U PP HU n xs st o e token Hn I O E) as [HA _].
    destruct (HA A) as (pr' & s & E' & HP & _ & LF). rewrite E' in S. injection S as -> ->.
    assert (PI := fun x => pruned_In C U e xs pr x Oe HP).
    assert (Io : In o (ops ++ [o])) by (apply in_or_app; right; left; reflexivity).
    assert (FR : forall x, In x (after e xs) -> exists o' t', In o' (ops ++ [o]) /\ offer C o' = Some (x, t')).
    { intros x Hx. destruct (runs_offered C U _ _ _ _ R' x Hx) as (_ & o' & H1 & H2). eauto. }
    assert (FR0 : forall x, In x xs -> exists o' t', In o' (ops ++ [o]) /\ offer C o' = Some (x, t')).
    { intros x Hx. destruct (runs_offered C U _ _ _ _ R x Hx) as (_ & o' & H1 & H2). exists o', (e_subspace x). split; [apply in_or_app; auto|exact H2]. }
    assert (Dx : forall x, In x xs -> c_fname C (e_digest x) = c_fname C (c_hash C b) -> e_digest x = c_hash C b).
    { intros x Hx. apply (fname_inj C U HU); [|exists b; auto]. apply stored_digest. eapply Rep_In_ok; eauto. }
    assert (Gone : forall y, In y xs -> c_fname C (e_digest y) = c_fname C (c_hash C b) -> getd (refs st') (e_digest y) = 0 ->
      ~ exists x, In x (after e xs) /\ (e_digest x = c_hash C b \/ e_subspace x = b)).
    { intros y Hy Ey Z (x & Hx & [Ex|Ex]).
      - rewrite (Dx y Hy Ey), CN in Z. assert (cnt (c_hash C b) (after e xs) <> 0) by (apply cnt_pos; exists x; auto). contradiction.
      - destruct (FR0 y Hy) as (o1 & t1 & H1 & H2). destruct (FR x Hx) as (o2 & t2 & H3 & H4).
        apply (NA o1 o2 y t1 x t2 H1 H3 H2 H4). rewrite Ex. exact (Dx y Hy Ey). }
    unfold file_of. rewrite LF. destruct (last_of C (refs st') pr (c_fname C (c_hash C b))) eqn:LP.
    { apply last_of_spec in LP as (y & Hy & Ey & Z). apply PI in Hy as [Hy _]. split; [discriminate|]. intros X. exfalso. exact (Gone y Hy Ey Z X). }
    pose proof (proj1 HU) as HI.
    destruct (beqb_spec (c_fname C (c_hash C b)) (c_fname C (c_hash C (e_subspace e)))) as [Eb|Eb].
    { apply HI in Eb; [|exact Ub|apply Oe]. rewrite <- Eb. split; [|reflexivity]. intros _. exists e. split; [left; reflexivity|right; auto]. }
    assert (NB : e_subspace e <> b) by congruence.
    destruct (last_of C (refs st') (dropped e xs) (c_fname C (c_hash C b))) eqn:LD.
    { apply last_of_spec in LD as (y & Hy & Ey & Z). apply dropped_In in Hy as [Hy _]. split; [discriminate|]. intros X. exfalso. exact (Gone y Hy Ey Z X). }
    destruct o as [i auth now|e0 t0|]; [|exfalso; exact (NI e0 t0 Io)|discriminate].
    cbn [offer] in E. injection E as Ee <-. unfold written.
    assert (Edg : e_digest e = c_hash C (i_payload i)) by (rewrite <- Ee; reflexivity).
    destruct (beqb_spec (c_fname C (c_hash C b)) (c_fname C (c_hash C (i_payload i)))) as [Ep|Ep].
    { apply HI in Ep; [|exact Ub|apply O]. rewrite <- Ep. split; [|reflexivity]. intros _. exists e. split; [left; reflexivity|left]. congruence. }
    assert (ND : e_digest e <> c_hash C b) by congruence. fold (file_of C st (c_hash C b)). rewrite (IH b Ub). split.
    + intros (x & Hx & [Ex|Ex]).
      * destruct (N.eq_dec (cnt (c_hash C b) (after e xs)) 0) as [Z|Z].
        -- exfalso. rewrite <- CN in Z. pose proof (last_of_zero C e xs pr st' (c_hash C b) _ LD LP eq_refl Z) as Z2.
           assert (HS : forall x, In x xs -> same_place x e -> e_digest x <> e_digest e).
           { intros z Hz. refine (NR ops _ [] st e auth pr st' eq_refl (runs_run C U _ _ _ _ R) _ E' z _); [cbn; rewrite Ee; reflexivity|].
             apply (Rep_live C U PP HU xs st z RP). exact Hz. }
           pose proof (cnt_split e xs (c_hash C b) HS) as CS. rewrite <- (cnt_perm _ _ _ HP) in CS.
           rewrite CN in Z. unfold after in Z. cbn [cnt] in Z.
           assert (cnt (c_hash C b) xs <> 0) by (apply cnt_pos; exists x; auto). lia.
        -- apply cnt_pos in Z as (y & Hy & Ey). exists y. auto.
      * exists x. split; [|right; exact Ex]. apply AI. right. split; [exact Hx|]. split; [intros [S1 _]; congruence|].
        intros [(S1 & _) _]. congruence.
    + intros (x & Hx & Ex). apply AI in Hx as [->|(Hx & _)]; [exfalso; tauto|]. exists x. auto.
  - exfalso. exact (NF ops o [] st e token st' eq_refl (runs_run C U _ _ _ _ R) E S).
  - rewrite len_app in L. change (len [o]) with 1 in L. unfold file_of. rewrite K3. apply IH; auto; [lia| | | |].
    + eapply no_repeats_app; eauto.
    + eapply no_refusals_app; eauto.
    + eapply names_apart_app; eauto.
    + intros e t HI. apply (NI e t). apply in_or_app. auto.
Qed.

(** After accepted Sets and restarts only, the payload directory holds the payloads of the live entries and the names of
    their subspaces, and nothing else. Missing: the histories excluded by the hypotheses, see the [_refuted] theorems. *)
Theorem C74_exact_files_partial C U ops st :
  reached C U ops st -> no_repeats C ops -> no_refusals C ops -> names_apart C ops ->
  (forall e t, ~ In (OpIngest e t) ops) ->
  forall f b, mget (files st) f = Some b <->
    f = c_fname C (c_hash C b) /\ U b /\ exists x, live C st x /\ (e_digest x = c_hash C b \/ e_subspace x = b).
Proof.
  intros H NR NF NA NI f b. pose proof H as [(PP & HU & _ & L) _].
  destruct (reached_runs C U PP HU ops st H) as (n & xs & R).
  destruct (runs_Inv _ _ _ _ _ _ R) as (I & Ln & _). pose proof (inv_rep _ _ _ _ _ I) as RP.
  pose proof (runs_files C U ops n xs st PP HU L R NR NF NA NI) as RF. unfold file_of in RF.
  assert (LX : (exists x, live C st x /\ (e_digest x = c_hash C b \/ e_subspace x = b)) <-> exists x, In x xs /\ (e_digest x = c_hash C b \/ e_subspace x = b)).
  { split; intros (x & Hx & Ex); exists x; split; auto; apply (Rep_live C U PP HU xs st x RP); exact Hx. }
  rewrite LX. split.
  - intros Hf. destruct (inv_files _ _ _ _ _ I f b Hf) as [Ub ->]. rewrite (RF b Ub) in Hf. auto.
  - intros (-> & Ub & X). apply (RF b Ub). exact X.
Qed.
Print Assumptions C74_exact_files_partial.

(** Whatever is offered, by Set or by ingestion, accepted or not: as long as no payload digest is the digest of a subspace
    name, the token of every live entry is stored. *)
Theorem C74_tokens_partial C U ops st x :
  reached C U ops st -> names_apart C ops -> live C st x ->
  payload_Get C (c_hash C (e_subspace x)) st = (Ok (e_subspace x), st).
Proof.
  intros H NA HL. pose proof H as [(PP & HU & _ & L) _].
  destruct (reached_runs C U PP HU ops st H) as (n & xs & R).
  destruct (runs_Inv _ _ _ _ _ _ R) as (I & Ln & _).
  apply (Rep_live C U PP HU xs st x (inv_rep _ _ _ _ _ I)) in HL.
  enough (G : forall x, In x xs -> file_of C st (c_hash C (e_subspace x)) = Some (e_subspace x)).
  { unfold payload_Get, bindM, gets. unfold file_of in G. rewrite (G x HL). reflexivity. }
  clear x HL I Ln H. induction R as [|ops o n xs st e token pr st' R IH O E A S P I' K
                  |ops o n xs st e token st' R IH O E A S I' B K
                  |ops o n xs st st' R IH O E S I' K1 K2 K3]; intros x Hx.
  - destruct Hx.
  - pose proof L as L0. rewrite len_app in L0. change (len [o]) with 1 in L0.
    specialize (IH (names_apart_app _ _ _ NA) ltac:(lia)).
    destruct (runs_Inv _ _ _ _ _ _ R) as (I & Ln & _). assert (Hn : n + 1 < 2 ^ 64) by lia. pose proof (inv_rep _ _ _ _ _ I) as RP.
    pose proof (op_ok_offer C U o e token O E) as Oe. pose proof (proj1 (proj1 Oe)) as HNil.
    destruct (step_exact C U PP HU n xs st o e token Hn I O E) as [HA _].
    destruct (HA A) as (pr' & s & E' & HP & _ & LF). rewrite E' in S. injection S as -> ->.
    assert (Io : In o (ops ++ [o])) by (apply in_or_app; right; left; reflexivity).
    assert (FX : exists o' t', In o' (ops ++ [o]) /\ offer C o' = Some (x, t')).
    { apply after_In in Hx as [->|(Hx & _)]; [eauto| |exact HNil]. destruct (runs_offered C U _ _ _ _ R x Hx) as (_ & o' & H1 & H2).
      exists o', (e_subspace x). split; [apply in_or_app; auto|exact H2]. }
    assert (Ux : U (e_subspace x)).
    { apply (stored_sub C). apply (Rep_In_ok C U (after e xs) st' x (inv_rep _ _ _ _ _ I') Hx). }
    assert (NL : forall ys, (forall y, In y ys -> In y xs) -> last_of C (refs st') ys (c_fname C (c_hash C (e_subspace x))) = false).
    { intros ys HY. destruct (last_of C (refs st') ys _) eqn:LO; [|reflexivity]. exfalso. apply last_of_spec in LO as (y & Hy & Ey & _).
      apply HY in Hy. apply (fname_inj C U HU) in Ey; [|apply stored_digest; eapply Rep_In_ok; eauto|exists (e_subspace x); auto].
      destruct (runs_offered C U _ _ _ _ R y Hy) as (_ & o1 & H1 & H2). destruct FX as (o2 & t2 & H3 & H4).
      apply (NA o1 o2 y (e_subspace y) x t2); auto. apply in_or_app; auto. }
    unfold file_of. rewrite LF, NL, NL.
    2:{ intros y Hy. apply dropped_In in Hy. tauto. }
    2:{ intros y Hy. apply (pruned_In C U e xs pr y Oe HP) in Hy. tauto. }
    destruct (beqb_spec (c_fname C (c_hash C (e_subspace x))) (c_fname C (c_hash C (e_subspace e)))) as [Eb|Eb].
    { destruct HU as [HI _]. apply HI in Eb; [congruence|exact Ux|apply Oe]. }
    apply after_In in Hx as [->|(Hx & _)]; [contradiction| |exact HNil]. specialize (IH x Hx). unfold file_of in IH.
    unfold written. destruct o as [i auth now|e0 t0|]; auto.
    destruct (beqb_spec (c_fname C (c_hash C (e_subspace x))) (c_fname C (c_hash C (i_payload i)))) as [Ep|Ep]; [|exact IH].
    destruct HU as [HI _]. apply HI in Ep; [congruence|exact Ux|apply O].
  - pose proof L as L0. rewrite len_app in L0. change (len [o]) with 1 in L0.
    specialize (IH (names_apart_app _ _ _ NA) ltac:(lia) x Hx).
    destruct (runs_Inv _ _ _ _ _ _ R) as (I & Ln & _). assert (Hn : n + 1 < 2 ^ 64) by lia. pose proof (inv_rep _ _ _ _ _ I) as RP.
    destruct (step_exact C U PP HU n xs st o e token Hn I O E) as [_ HR].
    destruct (HR A) as (s & E' & _ & Ef). rewrite E' in S. injection S as ->. unfold file_of in *. rewrite Ef.
    unfold written. destruct o as [i auth now|e0 t0|]; auto.
    destruct (beqb_spec (c_fname C (c_hash C (e_subspace x))) (c_fname C (c_hash C (i_payload i)))) as [Ep|Ep]; [|exact IH].
    destruct HU as [HI _]. apply HI in Ep; [congruence| |apply O]. apply (stored_sub C). eapply Rep_In_ok; eauto.
  - rewrite len_app in L. change (len [o]) with 1 in L. unfold file_of in *. rewrite K3. apply IH; auto; [|lia]. eapply names_apart_app; eauto.
Qed.
Print Assumptions C74_tokens_partial.

(** ** Instances and counterexamples *)
Fixpoint acceptsb (ops : list op) (st : state) : bool :=
  match ops with
  | [] => true
  | o :: r => match step demo o st with (Ok _, s) => acceptsb r s | _ => false end
  end.
Lemma acceptsb_spec ops : acceptsb ops empty_store = true -> no_refusals demo ops.
Proof.
  intros H before o rest st e token st' -> R _. revert H R. generalize empty_store. induction before as [|a before IH]; intros s H R; cbn [app acceptsb run] in *.
  - injection R as ->. intros X. rewrite X in H. discriminate.
  - destruct (step demo a s) as [[] s1]; try discriminate. apply (IH s1); assumption.
Qed.

Definition differs (o : op) (st : state) : bool :=
  match offer demo o with
  | Some (e, _) => match fst (driver_Get demo (e_subspace e) (e_path e) st) with Ok (Some (x, _)) => negb (beqb (e_digest x) (e_digest e)) | _ => true end
  | None => true
  end.
Fixpoint differsb (ops : list op) (st : state) : bool :=
  match ops with
  | [] => true
  | o :: r => differs o st && match run demo [o] st with Some s => differsb r s | None => true end
  end.
Lemma differsb_spec ops : history_ok demo small ops -> differsb ops empty_store = true -> no_repeats demo ops.
Proof.
  intros (PP & HU & F & L) H before o rest st e token pr st' -> R E _ x Hx SP.
  assert (D : differs o st = true).
  { clear F L. revert H R. generalize empty_store. induction before as [|a before IH]; intros s H R; cbn [app differsb] in H.
    - cbn [run] in R. injection R as ->. apply andb_true_iff in H. tauto.
    - apply andb_true_iff in H as [_ H]. cbn [run] in H, R.
      destruct (step demo a s) as [[] s1]; try discriminate; apply (IH s1); assumption. }
  apply Forall_app in F as [F1 F2]. pose proof (Forall_inv F2) as O. pose proof (op_ok_offer demo small o e token O E) as Oe.
  assert (RB : reached demo small before st).
  { split; [|exact R]. split; [exact PP|]. split; [exact HU|]. split; [exact F1|]. rewrite len_app in L. unfold len in *. lia. }
  unfold differs in D. rewrite E in D.
  destruct (C24_get_partial demo small before st (e_subspace e) (e_path e) RB (proj1 Oe)) as [(y & a & G & Ly & Y1 & Y2)|(G & N)].
  - rewrite G in D. cbn [fst] in D. destruct SP as [S1 S2]. rewrite (C24_one_live_entry_partial demo small before st x y RB Hx Ly) by congruence.
    intros X. rewrite X, beqb_refl in D. discriminate.
  - exfalso. exact (N x Hx SP).
Qed.

Definition apartb (ops : list op) : bool :=
  forallb (fun o => forallb (fun o' => match offer demo o, offer demo o' with
    | Some (e, _), Some (e', _) => negb (beqb (e_digest e) (c_hash demo (e_subspace e'))) | _, _ => true end) ops) ops.
Lemma apartb_spec ops : apartb ops = true -> names_apart demo ops.
Proof.
  unfold apartb. intros H o o' e t e' t' H1 H2 E E' X. rewrite forallb_forall in H. specialize (H o H1). rewrite forallb_forall in H.
  specialize (H o' H2). rewrite E, E', X, beqb_refl in H. discriminate.
Qed.

(** Two files below a directory, an overwrite, a restart and an entry above them: the payload of the pruned file goes, and
    so does the overwritten one. *)
Definition tidy_ops : list op :=
  [ demo_set [[97]; [98]] [1; 2; 3] 5; demo_set [[97]; [99]] [1; 2; 3] 6; demo_set [[97]; [98]] [9] 9; OpReopen;
    demo_set [[97]] [5; 5] 7 ].
Example C74_instance :
  reached demo small tidy_ops (after_ops tidy_ops) /\ no_repeats demo tidy_ops /\ no_refusals demo tidy_ops /\ names_apart demo tidy_ops
  /\ (forall e t, ~ In (OpIngest e t) tidy_ops)
  /\ length (files (after_ops tidy_ops)) = 3%nat
  /\ count (after_ops (firstn 2 tidy_ops)) (hex_encode [1; 2; 3]) = 2 /\ count (after_ops (firstn 4 tidy_ops)) (hex_encode [1; 2; 3]) = 1
  /\ count (after_ops tidy_ops) (hex_encode [1; 2; 3]) = 0 /\ count (after_ops tidy_ops) (hex_encode [9]) = 1
  /\ file_of demo (after_ops (firstn 4 tidy_ops)) (hex_encode [1; 2; 3]) = Some [1; 2; 3]
  /\ file_of demo (after_ops tidy_ops) (hex_encode [1; 2; 3]) = None
  /\ file_of demo (after_ops tidy_ops) (hex_encode [115]) = Some [115].
Proof.
  assert (HK : history_ok demo small tidy_ops) by (apply demo_history; vm_compute; reflexivity).
  split; [split; [exact HK|vm_compute; reflexivity]|]. split; [apply differsb_spec; [exact HK|vm_compute; reflexivity]|].
  split; [apply acceptsb_spec; vm_compute; reflexivity|]. split; [apply apartb_spec; vm_compute; reflexivity|].
  split; [intros e t HI; cbn in HI; repeat (destruct HI as [HI|HI]; [discriminate|]); exact HI|]. vm_compute. repeat split.
Qed.

(** A file is overwritten twice, the first time by the payload it has: its count stays one too high, and the payload stays
    although no live entry has it. *)
Theorem C74_leak_refuted :
  exists ops st, reached demo small ops st /\ no_refusals demo ops /\ names_apart demo ops /\ (forall e t, ~ In (OpIngest e t) ops)
    /\ (forall x, live demo st x -> e_digest x <> hex_encode [1] /\ e_subspace x <> [1])
    /\ count st (hex_encode [1]) = 1 /\ file_of demo st (hex_encode [1]) = Some [1].
Proof.
  set (ops := [demo_set [[97]] [1] 5; demo_set [[97]] [1] 6; demo_set [[97]] [2] 7]). exists ops, (after_ops ops).
  split; [split; [apply demo_history; vm_compute; reflexivity|vm_compute; reflexivity]|].
  split; [apply acceptsb_spec; vm_compute; reflexivity|]. split; [apply apartb_spec; vm_compute; reflexivity|].
  split; [intros e t HI; cbn in HI; repeat (destruct HI as [HI|HI]; [discriminate|]); exact HI|].
  split; [|vm_compute; auto]. intros x (_ & k & v & w & Hin & Hk & Hv & Hd & _). vm_compute in Hin.
  destruct Hin as [Hin|[]]; injection Hin as <- <-; vm_compute in Hk, Hv; injection Hk as Hs _ _; injection Hv as <-; cbn [v_digest] in Hd; destruct x; cbn in *; subst; split; vm_compute; discriminate.
Qed.
Print Assumptions C74_leak_refuted.

(** A Set refused because a newer entry is there leaves its payload behind. *)
Theorem C74_refusal_refuted :
  exists ops st, reached demo small ops st /\ no_repeats demo ops /\ names_apart demo ops /\ (forall e t, ~ In (OpIngest e t) ops)
    /\ (forall x, live demo st x -> e_digest x <> hex_encode [2] /\ e_subspace x <> [2])
    /\ count st (hex_encode [2]) = 0 /\ file_of demo st (hex_encode [2]) = Some [2].
Proof.
  set (ops := [demo_set [[97]] [1] 5; demo_set [[97]] [2] 4]). exists ops, (after_ops ops).
  assert (HK : history_ok demo small ops) by (apply demo_history; vm_compute; reflexivity).
  split; [split; [exact HK|vm_compute; reflexivity]|].
  split; [apply differsb_spec; [exact HK|vm_compute; reflexivity]|]. split; [apply apartb_spec; vm_compute; reflexivity|].
  split; [intros e t HI; cbn in HI; repeat (destruct HI as [HI|HI]; [discriminate|]); exact HI|].
  split; [|vm_compute; auto]. intros x (_ & k & v & w & Hin & Hk & Hv & Hd & _). vm_compute in Hin.
  destruct Hin as [Hin|[]]; injection Hin as <- <-; vm_compute in Hk, Hv; injection Hk as Hs _ _; injection Hv as <-; cbn [v_digest] in Hd; destruct x; cbn in *; subst; split; vm_compute; discriminate.
Qed.
Print Assumptions C74_refusal_refuted.

(** A pruned file whose payload was the name of the subspace takes the stored token of the live entry with it. *)
Theorem C74_tokens_refuted :
  exists ops st x, reached demo small ops st /\ no_repeats demo ops /\ no_refusals demo ops /\ (forall e t, ~ In (OpIngest e t) ops)
    /\ live demo st x /\ payload_Get demo (c_hash demo (e_subspace x)) st = (Err, st).
Proof.
  set (ops := [demo_set [[97]; [98]] [115] 5; demo_set [[97]] [2] 6]). exists ops, (after_ops ops), (demo_e [[97]] [2] 6).
  assert (HK : history_ok demo small ops) by (apply demo_history; vm_compute; reflexivity).
  split; [split; [exact HK|vm_compute; reflexivity]|].
  split; [apply differsb_spec; [exact HK|vm_compute; reflexivity]|]. split; [apply acceptsb_spec; vm_compute; reflexivity|].
  split; [intros e t HI; cbn in HI; repeat (destruct HI as [HI|HI]; [discriminate|]); exact HI|].
  split; [rewrite <- liveb_spec; vm_compute; reflexivity|vm_compute; reflexivity].
Qed.
Print Assumptions C74_tokens_refuted.
