(** C66, C67: the interactive program. *)
From Coq Require Import Permutation Sorted.
From Verif Require Import Base M_Order M_Encoding M_Paths M_Keys M_Entry M_Map M_Store M_Query M_Payload M_Cli M_Shell
  S_Order S_Store S_Shell P_Order P_Encoding P_Paths P_Map P_Store P_History P_Demo P_Shell Prop_Store Prop_Cli.
Local Open Scope N_scope.

Section Shell.
Context (pp : path_params) (hash : bytes -> bytes) (fname : bytes -> bytes) (sort : list node -> list node).
Notation cfg_of := (cfg_of pp hash fname).
Notation shell_run := (shell_run pp hash fname sort).
Notation shell_step := (shell_step pp hash fname sort).
Notation typed := (typed pp hash fname sort).
Notation holds := (holds pp hash fname).
Context (U : bytes -> Prop).
Notation stores := (stores pp hash fname U).

Lemma snoc_cases {A} (l : list A) x a y b : l ++ [x] = a ++ y :: b ->
  (b = [] /\ l = a /\ x = y) \/ exists b', b = b' ++ [x] /\ l = a ++ y :: b'.
Proof.
  destruct b as [|z b] using rev_ind.
  - intros E. change (a ++ [y]) with (a ++ [y]) in E. apply app_inj_tail in E as [-> ->]. auto.
  - clear IHb. intros E. rewrite app_comm_cons, app_assoc in E. apply app_inj_tail in E as [-> ->]. eauto.
Qed.

Lemma typed_snoc ns items it e : typed ns (items ++ [it]) e <->
  typed ns items e \/ exists l now fs i, it = Line l now fs /\ w_mode (shell_run items new_world) = Inside ns
    /\ asks l fs i /\ e = set_entry (cfg_of ns) i now.
Proof.
  split.
  - intros (a & l & now & fs & b & i & E & M & A & ->). apply snoc_cases in E as [(-> & -> & ->)|(b' & -> & ->)].
    + right. exists l, now, fs, i. auto.
    + left. exists a, l, now, fs, b', i. auto.
  - intros [(a & l & now & fs & b & i & -> & M & A & ->)|(l & now & fs & i & -> & M & A & ->)].
    + exists a, l, now, fs, (b ++ [it]), i. rewrite <- app_assoc. auto.
    + exists items, l, now, fs, [], i. auto.
Qed.

Lemma asks_dec l fs : (exists i, asks l fs i) \/ forall i, ~ asks l fs i.
Proof.
  destruct (split_on 32 (TrimSpace l)) as [|o [|s [|p [|f [|t [|x r]]]]]] eqn:EW;
    try (right; intros i [s' p' f' b' W F|s' p' f' t' b' W F T]; apply words_spec in W; rewrite W in EW; discriminate).
  - destruct (beqb_spec o w_set) as [->|N].
    + destruct (fs f) as [| |b] eqn:EF.
      1,2: right; intros i [s' p' f' b' W F|s' p' f' t' b' W F T]; apply words_spec in W; rewrite W in EW; try discriminate; injection EW as <- <- <-; congruence.
      left. eexists. eapply asks_now; [apply words_spec; exact EW|exact EF].
    + right; intros i [s' p' f' b' W F|s' p' f' t' b' W F T]; apply words_spec in W; rewrite W in EW; try discriminate; injection EW as <- <- <- <-; congruence.
  - destruct (beqb_spec o w_set) as [->|N].
    + destruct (fs f) as [| |b] eqn:EF.
      1,2: right; intros i [s' p' f' b' W F|s' p' f' t' b' W F T]; apply words_spec in W; rewrite W in EW; try discriminate; injection EW as <- <- <- <-; congruence.
      destruct (N.eq_dec (parseTimeStampToMicroSeconds t) 0) as [ET|ET].
      * right; intros i [s' p' f' b' W F|s' p' f' t' b' W F T]; apply words_spec in W; rewrite W in EW; try discriminate; injection EW as <- <- <- <-; congruence.
      * left. eexists. eapply asks_at; [apply words_spec; exact EW|exact EF|exact ET].
    + right; intros i [s' p' f' b' W F|s' p' f' t' b' W F T]; apply words_spec in W; rewrite W in EW; try discriminate; injection EW as <- <- <- <- <-; congruence.
Qed.

Lemma shell_inv items : items_ok pp hash fname U items ->
  stores (fun ns => typed ns items) (len items) (shell_run items new_world)
  /\ inside_ok (shell_run items new_world).
Proof.
  intros (PP & HU & F & L). revert F L. induction items as [|it items IH] using rev_ind; intros F L.
  - cbn. split; [split|].
    + intros ns sp E. discriminate E.
    + intros ns _ e (a & l & now & fs & b & i & E & _). destruct a; discriminate E.
    + intros ns E. discriminate E.
  - apply Forall_app in F as [F FI]. apply Forall_inv in FI. rewrite len_app in *. change (len [it]) with 1 in *.
    destruct IH as [S IO]; [auto|lia|]. rewrite shell_run_snoc.
    set (w := shell_run items new_world) in *.
    (* steps that set nothing *)
    assert (QUIET : forall w', (forall ns l now fs i, it = Line l now fs -> w_mode w = Inside ns -> ~ asks l fs i) ->
              stores (fun ns => typed ns items) (len items + 1) w' ->
              stores (fun ns => typed ns (items ++ [it])) (len items + 1) w').
    { intros w' NA S'. eapply stores_ext; [|apply N.le_refl|reflexivity|exact S'].
      intros ns e. rewrite typed_snoc. split; [auto|]. intros [H|(l & now & fs & i & E1 & E2 & E3 & _)]; auto.
      exfalso. eapply NA; eauto. }
    assert (KEEP : forall w', w_spaces w' = w_spaces w -> stores (fun ns => typed ns items) (len items + 1) w').
    { intros w' E. eapply stores_ext; [intros; apply iff_refl| |exact E|exact S]. lia. }
    assert (ENTER : forall ns v, w_spaces v = w_spaces w ->
       stores (fun ns => typed ns items) (len items + 1) (fst (enter pp hash fname ns v)) /\ inside_ok (fst (enter pp hash fname ns v))).
    { intros ns v E. destruct (enter_spec pp hash fname U PP HU (fun ns => typed ns items) (len items) v ns) as (A & B & _); auto; [|lia].
      eapply stores_ext; [intros; apply iff_refl|apply N.le_refl|exact E|exact S]. }
    destruct it as [l now fs| |]; unfold M_Shell.shell_step.
    + destruct (w_mode w) as [|cns|ns| |] eqn:EM.
      * assert (HN : forall ns l0 now0 fs0 i, Line l now fs = Line l0 now0 fs0 -> Top = Inside ns -> ~ asks l0 fs0 i) by discriminate.
        destruct (top_cases pp hash fname l w EM) as [E|[(m & Hm & E)|(ns & _ & E)]]; rewrite E.
        -- split; [apply QUIET; [exact HN|apply KEEP; reflexivity]|exact IO].
        -- split; [apply QUIET; [exact HN|apply KEEP; reflexivity]|].
           intros ns E'. cbn in E'. subst m. destruct Hm as [H|[H|(x & H)]]; discriminate H.
        -- destruct (ENTER ns w eq_refl). split; [apply QUIET; [exact HN|]|]; assumption.
      * assert (HN : forall ns l0 now0 fs0 i, Line l now fs = Line l0 now0 fs0 -> Confirm cns = Inside ns -> ~ asks l0 fs0 i) by discriminate.
        unfold confirm_line. destruct (beqb l [121]).
        -- destruct (ENTER cns (set_mode Top w) eq_refl). split; [apply QUIET; [exact HN|]|]; assumption.
        -- split; [apply QUIET; [exact HN|apply KEEP; reflexivity]|]. intros ns E'. discriminate E'.
      * destruct (asks_dec l fs) as [(i & A)|NA].
        -- destruct (asks_inside pp hash fname sort ns l now fs i w A) as (s & p & b & t & -> & ->).
           destruct (IO ns EM) as (_ & sp & EG & _). rewrite EG.
           destruct (do_set_spec pp hash fname U PP HU (fun ns => typed ns items) (len items) w ns sp s p b t now) as (S' & IO' & _); auto;
             [lia|].
           split; [|exact IO']. eapply stores_ext; [|apply N.le_refl|reflexivity|exact S'].
           intros m e. rewrite typed_snoc. fold w. split.
           ++ intros [H|[-> ->]]; [auto|]. right. exists l, now, fs. eexists. split; [reflexivity|]. split; [exact EM|]. split; [exact A|reflexivity].
           ++ intros [H|(l' & now' & fs' & i' & E1 & E2 & E3 & ->)]; [auto|]. right. injection E1 as <- <- <-.
              rewrite EM in E2. injection E2 as <-. rewrite (asks_unique _ _ _ _ A E3). auto.
        -- destruct (others_inside pp hash fname sort ns l now fs w NA) as (E1 & E2 & E3 & E4).
           set (w' := fst (inside_line pp hash fname sort ns l now fs w)) in *. clearbody w'.
           split.
           ++ apply QUIET; [|apply KEEP; auto]. intros ns' l' now' fs' i' E _ A. injection E as <- <- <-. eapply NA; eauto.
           ++ destruct E4 as [->|[(H & _)|(H & _)]]; [exact IO| |]; intros m E'; rewrite H in E'; discriminate E'.
      * split; [apply QUIET; [discriminate|apply KEEP; reflexivity]|]. exact IO.
      * split; [apply QUIET; [discriminate|apply KEEP; reflexivity]|]. exact IO.
    + assert (HN : forall ns l0 now0 fs0 i, EndOfInput = Line l0 now0 fs0 -> w_mode w = Inside ns -> ~ asks l0 fs0 i) by discriminate.
      destruct (w_mode w) as [|cns|ns| |] eqn:EM; (split; [apply QUIET; [exact HN|apply KEEP; reflexivity]|]); try exact IO;
        intros m E'; discriminate E'.
    + split; [apply QUIET; [discriminate|apply KEEP; reflexivity]|]. intros m E'. discriminate E'.
Qed.

(** The store of a namespace, read as the list of its live entries. *)
Lemma store_entries ns ops st : reached (cfg_of ns) U ops st ->
  exists es, NoDup es /\ (forall e, In e es <-> live (cfg_of ns) st e)
    /\ Permutation (map node_pos (tree st)) (map EntryPosition es).
Proof.
  intros H. pose proof H as [(PP & HU & _) _].
  destruct (reached_runs _ U PP HU ops st H) as (n & xs & R).
  destruct (runs_Inv _ _ _ _ _ _ R) as (I & _). pose proof (inv_rep _ _ _ _ _ I) as RP.
  exists xs. split; [eapply NoDup_map_inv; apply (rep_place _ _ _ _ RP)|].
  split; [intros e; symmetry; apply (Rep_live _ U PP HU xs st e RP)|]. apply (rep_tree _ _ _ _ RP).
Qed.

Lemma sets_payloads ns ops n xs st : runs (cfg_of ns) U ops n xs st ->
  store_params pp -> universe (cfg_of ns) U -> only_sets ops -> len ops + 1 < 2 ^ 64 ->
  forall e, In e xs -> exists b, U b /\ e_digest e = hash b /\ e_length e = len b
    /\ mget (files st) (fname (hash b)) = Some b.
Proof.
  intros R PP HU. induction R as [|ops o n xs st e token pr st' R IH O E A S P I' K
                  |ops o n xs st e token st' R IH O E A S I' B K
                  |ops o n xs st st' R IH O E S I' K1 K2 K3]; intros HO HL z Hz.
  - destruct Hz.
  - apply Forall_app in HO as [HO HO']. rewrite len_app in HL. change (len [o]) with 1 in HL.
    pose proof (ok_path _ _ e (op_ok_offer _ _ _ _ _ O E)) as HN. pose proof Hz as HzA. rewrite after_In in Hz by auto.
    destruct Hz as [->|(Hz & _)].
    + apply Forall_inv in HO'. destruct o as [i auth now|e' t|]; [|destruct HO'|discriminate E].
      cbn [offer] in E. injection E as <- <-. exists (i_payload i). split; [apply O|]. split; [reflexivity|]. split; [reflexivity|].
      refine (Set_file (cfg_of ns) U ops st i auth now pr st' _ O S).
      pose proof (runs_Inv _ _ _ _ _ _ R) as (_ & _ & F). split; [|apply (runs_run _ _ _ _ _ _ R)].
      split; [exact PP|]. split; [exact HU|]. split; [auto|lia].
    + destruct IH with (e := z) as (b & B1 & B2 & B3 & B4); auto; [lia|]. exists b. split; [auto|]. split; [auto|]. split; [auto|].
      specialize (K z b HzA). unfold file_of in K. rewrite B2 in K. cbn in K. auto.
  - apply Forall_app in HO as [HO HO']. rewrite len_app in HL. change (len [o]) with 1 in HL.
    destruct IH with (e := z) as (b & B1 & B2 & B3 & B4); auto; [lia|]. exists b. split; [auto|]. split; [auto|]. split; [auto|].
    specialize (K z b Hz). unfold file_of in K. rewrite B2 in K. cbn in K. auto.
  - apply Forall_app in HO as [HO HO']. rewrite len_app in HL. change (len [o]) with 1 in HL.
    destruct IH with (e := z) as (b & B1 & B2 & B3 & B4); auto; [lia|]. exists b. rewrite K3. auto.
Qed.

Lemma map_res_spec {A B} (f : A -> res B) l : (forall x, In x l -> exists y, f x = Ok y) ->
  exists rows, map_res f l = Ok rows /\ Forall2 (fun x y => f x = Ok y) l rows.
Proof.
  induction l as [|x l IH]; intros H; [exists []; split; [reflexivity|constructor]|].
  destruct (H x (or_introl eq_refl)) as (y & Ey). destruct IH as (rows & E & F); [intros z Hz; apply H; right; auto|].
  exists (y :: rows). split; [|constructor; auto]. cbn [map_res]. rewrite Ey. cbn [bind]. fold (map_res f l). rewrite E. reflexivity.
Qed.

Lemma map_res_cons {A B} (f : A -> res B) x l : map_res f (x :: l) = (do y <- f x; do r <- map_res f l; Ok (y :: r)).
Proof. reflexivity. Qed.

(** Typed paths are printed as they were typed. *)
Lemma typed_path ns items e : typed ns items e -> exists t, makePath (e_path e) = Ok t /\ parse_path t = e_path e.
Proof.
  intros (a & l & now & fs & b & i & _ & _ & A & ->).
  assert (X : exists t, i_path i = parse_path t) by (destruct A; eexists; reflexivity).
  destruct X as (t & E). exists t. cbn [set_entry e_path]. rewrite E. split; [apply C53_path|reflexivity].
Qed.

(** * C66 *)

(** After any lines, ends of input and restarts of the program, a namespace
    holds exactly the entries typed into it that no other typed entry supersedes
    (entries at comparable places have different times). *)
Theorem C66_sessions_partial items : items_ok pp hash fname U items ->
  forall ns, (forall x y, typed ns items x -> typed ns items y -> same_place x y \/ above x y ->
                e_time x = e_time y -> x = y) ->
  forall e, holds (shell_run items new_world) ns e
    <-> typed ns items e /\ ~ exists y, typed ns items y /\ supersedes y e.
Proof.
  intros HI ns NT e. destruct (shell_inv items HI) as [[A B] _]. unfold S_Shell.holds.
  destruct (mget (w_spaces (shell_run items new_world)) ns) as [sp|] eqn:EG.
  - destruct (A ns sp EG) as (ops & H1 & _ & _ & H4 & _).
    assert (X : live (cfg_of ns) (s_store sp) e <-> offered (cfg_of ns) ops e /\ ~ exists y, offered (cfg_of ns) ops y /\ supersedes y e).
    { apply (C31_live_is_maximal_partial _ U ops _ H1). intros x y Hx Hy. apply NT; apply H4; auto. }
    split.
    + intros (sp' & E & HL). injection E as <-. apply X in HL as [Y1 Y2]. split; [apply H4; auto|].
      intros (y & Hy & Hs). apply Y2. exists y. rewrite H4. auto.
    + intros [Y1 Y2]. exists sp. split; auto. apply X. split; [apply H4; auto|]. intros (y & Hy & Hs). apply Y2. exists y. rewrite <- H4. auto.
  - split; [intros (sp & E & _); discriminate|]. intros [H _]. exfalso. eapply B; eauto.
Qed.

(** A "set" line: either the entry is acceptable, then it is held instead of what
    it replaces and prunes, and exactly the pruned entries are printed; or an
    error is printed and the same entries are held. Other namespaces are left
    alone, and the program waits for the next line. *)
Theorem C66_set_partial items l now fs i ns : items_ok pp hash fname U (items ++ [Line l now fs]) ->
  let w := shell_run items new_world in
  w_mode w = Inside ns -> asks l fs i ->
  let e := set_entry (cfg_of ns) i now in
  exists w' out, shell_step (Line l now fs) w = (w', out) /\ w_mode w' = Inside ns
    /\ (forall m x, m <> ns -> (holds w' m x <-> holds w m x))
    /\ ((acceptable (cfg_of ns) (holds w ns) e (e_subspace e)
         /\ (forall x, holds w' ns x <-> x = e \/ (holds w ns x /\ ~ same_place x e /\ ~ prunes e x))
         /\ exists ps, NoDup ps /\ (forall x, In x ps <-> holds w ns x /\ prunes e x)
            /\ ((ps = [] /\ out = [ONonePruned])
                \/ exists rows, ps <> [] /\ out = [OPruned rows]
                     /\ Forall2 (fun x '(s, t, u) => e_subspace x = s /\ parse_path t = e_path x /\ e_time x = u) ps rows))
       \/ (~ acceptable (cfg_of ns) (holds w ns) e (e_subspace e) /\ out = [OFail]
           /\ forall x, holds w' ns x <-> holds w ns x)).
Proof.
  intros (PP & HU & F & L) w HM A e. apply Forall_app in F as [F FI]. apply Forall_inv in FI.
  rewrite len_app in L. change (len [Line l now fs]) with 1 in L.
  assert (HI : items_ok pp hash fname U items) by (split; [exact PP|split; [exact HU|split; [exact F|lia]]]).
  destruct (shell_inv items HI) as [S IO]. fold w in S, IO.
  destruct (IO ns HM) as (_ & sp & EG & _). destruct (proj1 S ns sp EG) as (ops & H1 & H2 & H3 & H4 & H5).
  pose proof (FI i ns A) as O.
  destruct (asks_inside pp hash fname sort ns l now fs i w A) as (s & p & b & t & Ei & EL). rewrite EG in EL.
  unfold M_Shell.shell_step. rewrite HM, EL. clear EL. unfold do_set. rewrite <- Ei.
  replace s with (i_sub i) by (subst i; reflexivity).
  set (C := cfg_of ns) in *.
  assert (PPC : store_params (c_pp C)) by exact PP. assert (HUC : universe C U) by exact HU.
  destruct (reached_runs C U PPC HUC ops _ H1) as (n & xs & R). pose proof (runs_Inv _ _ _ _ _ _ R) as (I & HL & _).
  pose proof (inv_rep _ _ _ _ _ I) as RP.
  assert (HW : forall x, holds w ns x <-> In x xs).
  { intros x. unfold S_Shell.holds. rewrite EG. split.
    - intros (sp' & E & X). injection E as <-. apply (Rep_live C U PPC HUC xs _ x RP). auto.
    - intros X. exists sp. split; auto. apply (Rep_live C U PPC HUC xs _ x RP). auto. }
  assert (HA : acceptable C (holds w ns) e (e_subspace e) <-> acceptable C (fun x => In x xs) e (i_sub i)).
  { split; apply acceptable_ext; intros x; [|symmetry]; apply HW. }
  assert (OTH : forall st' j, forall m x, m <> ns -> (holds (World (w_known w) (mset (w_spaces w) ns (Space st' true)) (w_open w) j (w_mode w)) m x <-> holds w m x)).
  { intros st' j m x HN. unfold S_Shell.holds. cbn [w_spaces]. rewrite mget_mset, (beqb_neq m ns HN). reflexivity. }
  assert (OWN : forall st' j xs', Rep C U xs' st' -> forall x,
     holds (World (w_known w) (mset (w_spaces w) ns (Space st' true)) (w_open w) j (w_mode w)) ns x <-> In x xs').
  { intros st' j xs' RP' x. unfold S_Shell.holds. cbn [w_spaces]. rewrite mget_mset, beqb_refl. split.
    - intros (sp' & E & X). injection E as <-. apply (Rep_live C U PPC HUC xs' _ x RP') in X. auto.
    - intros X. eexists. split; [reflexivity|]. apply (Rep_live C U PPC HUC xs' _ x RP'). auto. }
  assert (HE : e_path e <> []) by exact (ok_path _ _ _ (proj2 O)).
  assert (Hn : n + 1 < 2 ^ 64) by lia.
  destruct (Set_spec C U PPC HUC n xs (s_store sp) i (i_sub i) now Hn I (proj1 O) (proj2 O))
    as [(AC & pr & st & E & HP & I' & K & _)|(AC & st & E & I' & SB & K)]; rewrite E.
  - fold e in AC, HP, I'.
    assert (PR : forall x, In x pr <-> holds w ns x /\ prunes e x).
    { intros x. rewrite HW. split.
      - intros Hx. eapply Permutation_in in Hx; [|exact HP]. apply filter_In in Hx as [Hx Hp].
        apply others_In in Hx as [Hx _]. split; auto. destruct (prunesb_spec e x HE); [auto|discriminate].
      - intros [Hx Hp]. eapply Permutation_in; [symmetry; exact HP|]. apply filter_In.
        split; [|destruct (prunesb_spec e x HE); auto]. apply others_In. split; auto.
        intros [_ EP]. destruct Hp as ((_ & _ & HPP) & _). rewrite EP in HPP. eapply proper_prefix_irrefl; eauto. }
    assert (ND : NoDup pr).
    { eapply Permutation_NoDup; [symmetry; exact HP|]. apply NoDup_filter. apply NoDup_filter.
      eapply NoDup_map_inv; apply (rep_place _ _ _ _ RP). }
    assert (TX : forall x, In x pr -> exists u, makePath (e_path x) = Ok u /\ parse_path u = e_path x).
    { intros x Hx. apply PR in Hx as [Hx _]. rewrite HW in Hx.
      destruct (runs_offered C U _ _ _ _ R x Hx) as (X1 & X2). apply (typed_path ns items x). apply H4. split; auto. }
    destruct (map_res_spec (fun e0 => do p0 <- makePath (e_path e0); Ok (e_subspace e0, p0, e_time e0)) pr) as (rows & ER & FR).
    { intros x Hx. destruct (TX x Hx) as (u & Eu & _). rewrite Eu. eexists; reflexivity. }
    rewrite ER.
    assert (HF2 : Forall2 (fun x '(s0, t0, u) => e_subspace x = s0 /\ parse_path t0 = e_path x /\ e_time x = u) pr rows).
    { clear -FR TX. induction FR as [|x y l l' Hy _ IH]; constructor; [|apply IH; intros z Hz; apply TX; right; auto].
      destruct (TX x (or_introl eq_refl)) as (u & Eu & Pu). rewrite Eu in Hy. cbn [bind] in Hy. injection Hy as <-. auto. }
    assert (W' : exists out, (match rows with
        | [] => (put_json (List_ st) (put_space ns (Space st true) w), [ONonePruned])
        | _ => (put_json (List_ st) (put_space ns (Space st true) w), [OPruned rows]) end)
        = (put_json (List_ st) (put_space ns (Space st true) w), out)
        /\ (pr = [] /\ out = [ONonePruned] \/ exists rows0, pr <> [] /\ out = [OPruned rows0]
             /\ Forall2 (fun x '(s0, t0, u) => e_subspace x = s0 /\ parse_path t0 = e_path x /\ e_time x = u) pr rows0)).
    { destruct rows as [|r rows]; eexists; (split; [reflexivity|]).
      - left. inversion HF2; auto.
      - right. exists (r :: rows). split; [|auto]. intros ->. inversion HF2. }
    destruct W' as (out & EW & HOut). rewrite EW. eexists _, out. split; [reflexivity|]. split; [exact HM|].
    split; [apply OTH|]. left. split; [apply HA; exact AC|]. split.
    + intros x. unfold put_json, put_space. cbn [w_known w_spaces w_open w_mode]. rewrite (OWN st _ _ (inv_rep _ _ _ _ _ I') x), (after_In e xs x HE), HW. reflexivity.
    + exists pr. auto.
  - eexists _, _. split; [reflexivity|]. split; [exact HM|]. split; [apply OTH|]. right.
    split; [rewrite HA; exact AC|]. split; [reflexivity|].
    intros x. unfold put_space. rewrite (OWN st _ _ (inv_rep _ _ _ _ _ I') x), HW. reflexivity.
Qed.

(** The state of things inside a namespace. *)
Lemma inside_state items ns : items_ok pp hash fname U items ->
  let w := shell_run items new_world in
  w_mode w = Inside ns ->
  exists sp ops es, mget (w_spaces w) ns = Some sp /\ reached (cfg_of ns) U ops (s_store sp) /\ only_sets ops
    /\ (forall e, offered (cfg_of ns) ops e <-> typed ns items e) /\ (s_dir sp = true <-> exists e, typed ns items e)
    /\ w_json w = Some (tree (s_store sp))
    /\ NoDup es /\ (forall e, In e es <-> holds w ns e) /\ (forall e, In e es -> typed ns items e)
    /\ Permutation (map node_pos (tree (s_store sp))) (map EntryPosition es).
Proof.
  intros HI w HM. destruct (shell_inv items HI) as [S IO]. fold w in S, IO.
  destruct (IO ns HM) as (_ & sp & EG & EJ). destruct (proj1 S ns sp EG) as (ops & H1 & H2 & H3 & H4 & H5).
  destruct HI as (PP & HU & _).
  destruct (reached_runs (cfg_of ns) U PP HU ops _ H1) as (n & xs & R).
  destruct (runs_Inv _ _ _ _ _ _ R) as (I & _). pose proof (inv_rep _ _ _ _ _ I) as RP.
  exists sp, ops, xs. split; [auto|]. split; [auto|]. split; [auto|]. split; [auto|]. split; [auto|]. split; [auto|].
  split; [eapply NoDup_map_inv; apply (rep_place _ _ _ _ RP)|]. split; [|split; [|apply (rep_tree _ _ _ _ RP)]].
  - intros e. rewrite <- (Rep_live (cfg_of ns) U PP HU xs _ e RP). unfold S_Shell.holds. rewrite EG. split; [eauto|].
    intros (sp' & E & X). injection E as <-. exact X.
  - intros e He. destruct (runs_offered (cfg_of ns) U _ _ _ _ R e He) as (X1 & X2). apply H4. split; auto.
Qed.

(** entries.json lists exactly the entries held, each once. *)
Theorem C66_json_partial items ns : items_ok pp hash fname U items ->
  let w := shell_run items new_world in
  w_mode w = Inside ns ->
  exists l es, w_json w = Some l /\ NoDup es /\ (forall e, In e es <-> holds w ns e)
    /\ Forall2 (fun n e => n_sub n = e_subspace e /\ n_path n = e_path e /\ n_time n = e_time e) l es.
Proof.
  intros HI w HM. destruct (inside_state items ns HI HM) as (sp & ops & es & _ & _ & _ & _ & _ & EJ & ND & HH & _ & P).
  apply Permutation_map_inv in P as (es' & E & P). exists (tree (s_store sp)), es'. split; [exact EJ|].
  split; [eapply Permutation_NoDup; eauto|]. split.
  - intros e. fold w in HH. rewrite <- HH. split; apply Permutation_in; [symmetry|]; auto.
  - clear -E. revert es' E. induction (tree (s_store sp)) as [|n l IH]; intros [|e es] E; try discriminate; constructor; cbn [map] in E.
    + apply (f_equal (hd (node_pos n))) in E. cbn [hd] in E. unfold node_pos, EntryPosition in E. injection E as -> -> ->. auto.
    + apply IH. apply (f_equal (@tl _)) in E. exact E.
Qed.

(** "list" prints one row for each entry held, in order of the subspaces, and
    changes nothing. *)
Theorem C66_list_partial items ns l now fs r : items_ok pp hash fname U items -> sorts sort ->
  let w := shell_run items new_world in
  w_mode w = Inside ns -> words l (w_list :: r) ->
  exists rows es,
    shell_step (Line l now fs) w = (w, (match r with [] => [] | _ => [OText] end) ++ [OTable rows])
    /\ NoDup es /\ (forall e, In e es <-> holds w ns e)
    /\ Forall2 (fun e '(s, t, p) => s = e_subspace e /\ t = e_time e /\ parse_path p = e_path e) es rows
    /\ StronglySorted (fun a b => bytes_le (e_subspace a) (e_subspace b)) es.
Proof.
  intros HI HS w HM HW. destruct (inside_state items ns HI HM) as (sp & ops & es & EG & _ & _ & _ & _ & _ & ND & HH & HT & P).
  fold w in EG, HH. destruct (HS (tree (s_store sp))) as [P1 SO].
  assert (P2 : Permutation (map node_pos (sort (tree (s_store sp)))) (map EntryPosition es)).
  { etransitivity; [apply Permutation_map; exact P1|exact P]. }
  apply Permutation_map_inv in P2 as (es' & E & P2).
  assert (HT' : forall e, In e es' -> typed ns items e) by (intros e He; apply HT; eapply Permutation_in; [symmetry; exact P2|exact He]).
  set (ns' := sort (tree (s_store sp))) in *.
  assert (FN : Forall2 (fun n e => n_sub n = e_subspace e /\ n_path n = e_path e /\ n_time n = e_time e) ns' es').
  { clear -E. revert es' E. induction ns' as [|n l IH]; intros [|e es'] E; try discriminate; constructor; cbn [map] in E.
    + apply (f_equal (hd (node_pos n))) in E. cbn [hd] in E. unfold node_pos, EntryPosition in E. injection E as -> -> ->. auto.
    + apply IH. apply (f_equal (@tl _)) in E. exact E. }
  assert (ROWS : exists rows, list_rows sort (s_store sp) = Ok rows
     /\ Forall2 (fun e '(s, t, p) => s = e_subspace e /\ t = e_time e /\ parse_path p = e_path e) es' rows).
  { unfold list_rows, M_Query.List_. fold ns'. clearbody ns'. clear -FN HT'.
    induction FN as [|n e l es' (E1 & E2 & E3) _ IH]; [exists []; split; [reflexivity|constructor]|].
    destruct IH as (rows & E & F); [intros; apply HT'; right; auto|].
    destruct (typed_path ns items e (HT' e (or_introl eq_refl))) as (t & Et & Pt).
    exists ((n_sub n, n_time n, t) :: rows). split; [|constructor; auto].
    rewrite map_res_cons, E2, Et. cbn [bind]. rewrite E. reflexivity. }
  destruct ROWS as (rows & ER & FR). exists rows, es'. split; [|split; [|split; [|split]]].
  - unfold M_Shell.shell_step. rewrite HM. unfold inside_line. rewrite EG.
    destruct (beqb_spec (to_lower l) w_exit) as [X|_]; [exfalso; eapply words_list_not_exit; eauto|].
    apply words_spec in HW. rewrite HW. cbn [hd]. change (beqb w_list w_back) with false. change (beqb w_list w_help) with false.
    change (beqb w_list w_set) with false. change (beqb w_list w_get) with false. rewrite beqb_refl. rewrite ER.
    destruct r; reflexivity.
  - eapply Permutation_NoDup; eauto.
  - intros e. rewrite <- HH. split; apply Permutation_in; [symmetry|]; auto.
  - exact FR.
  - apply Sorted_StronglySorted.
    { intros a b c [H1|H1] [H2|H2]; unfold bytes_le in *; try rewrite H1; try rewrite <- H2; auto.
      left. eapply (sto_trans _ bytes_sto); eauto. }
    clear -SO FN. induction FN as [|n e l es' (E1 & E2 & E3) F IH]; [constructor|].
    inversion SO as [|? ? SO' HR]; subst. constructor; [auto|].
    destruct F as [|n' e' l es' (E1' & _) F]; constructor. inversion HR as [|? ? HR']; subst.
    rewrite E1, E1' in HR'. destruct (OrderBytes_decides (e_subspace e) (e_subspace e')) as [[_ X]|[[_ X]|[X _]]]; [left|right|]; auto.
    rewrite X in HR'. lia.
Qed.

(** "get" of a place that holds an entry prints the contents of the file that
    was set there, and changes nothing. *)
Theorem C66_get_partial items ns l now fs s p e : items_ok pp hash fname U items ->
  let w := shell_run items new_world in
  w_mode w = Inside ns -> words l [w_get; s; p] ->
  holds w ns e -> e_subspace e = s -> e_path e = parse_path p -> fname (e_digest e) <> [] ->
  exists before l' now' fs' after i,
    items = before ++ Line l' now' fs' :: after /\ w_mode (shell_run before new_world) = Inside ns
    /\ asks l' fs' i /\ e = set_entry (cfg_of ns) i now'
    /\ shell_step (Line l now fs) w = (w, [OPayload (i_payload i)]).
Proof.
  intros HI w HM HW HE ES EP HN.
  destruct (shell_inv items HI) as [S IO]. fold w in S, IO.
  destruct (IO ns HM) as (_ & sp & EG & EJ). destruct (proj1 S ns sp EG) as (ops & H1 & H2 & H3 & H4 & H5).
  pose proof HI as (PP & HU & HF & HL).
  destruct (reached_runs (cfg_of ns) U PP HU ops _ H1) as (n & xs & R).
  destruct (runs_Inv _ _ _ _ _ _ R) as (I & _). pose proof (inv_rep _ _ _ _ _ I) as RP.
  assert (Hx : In e xs).
  { destruct HE as (sp' & E & X). rewrite EG in E. injection E as <-. apply (Rep_live (cfg_of ns) U PP HU xs _ e RP) in X. exact X. }
  assert (HT : typed ns items e).
  { destruct (runs_offered (cfg_of ns) U _ _ _ _ R e Hx) as (X1 & X2). apply H4. split; auto. }
  destruct HT as (before & l' & now' & fs' & after & i & EI & EM & A & EE).
  exists before, l', now', fs', after, i. split; [auto|]. split; [auto|]. split; [auto|]. split; [auto|].
  assert (SD : s_dir sp = true) by (apply H5; exists e, before, l', now', fs', after, i; auto).
  destruct (sets_payloads ns ops n xs (s_store sp) R PP HU H3 ltac:(lia) e Hx) as (b & B1 & B2 & B3 & B4).
  assert (O : op_ok (cfg_of ns) U (OpSet i (i_sub i) now')).
  { rewrite Forall_forall in HF. specialize (HF (Line l' now' fs')). apply HF; auto. rewrite EI. apply in_or_app. right. left. auto. }
  assert (EB : b = i_payload i).
  { apply (proj1 HU); [exact B1|apply O|]. change (fname (hash b) = fname (hash (i_payload i))). rewrite <- B2. rewrite EE. reflexivity. }
  unfold M_Shell.shell_step. rewrite HM. unfold inside_line. rewrite EG.
  destruct (beqb_spec (to_lower l) w_exit) as [X|_]; [exfalso; eapply words_not_exit; eauto|].
  apply words_spec in HW. rewrite HW. cbn [hd]. change (beqb w_get w_back) with false. change (beqb w_get w_help) with false.
  change (beqb w_get w_set) with false. rewrite beqb_refl.
  assert (SP : strict_path (c_pp (cfg_of ns)) (parse_path p)).
  { rewrite <- EP. rewrite EE. apply (proj2 O). }
  assert (X : cli_get (cfg_of ns) (s_dir sp) s p (s_store sp) = Ok (i_payload i)).
  { unfold cli_get. destruct (driver_Get_spec (cfg_of ns) U PP HU xs (s_store sp) s (parse_path p) RP SP) as [[_ G]|(x & G & Gx & G1 & G2)].
    - exfalso. eapply G; eauto.
    - rewrite G. assert (x = e) by (eapply place_inj; [apply (rep_place _ _ _ _ RP)| | | |]; auto; congruence). subst x.
      rewrite SD. unfold pd_Get, pl_Bytes. cbn [p_files c_fname]. unfold M_Shell.cfg_of. cbn [c_fname]. rewrite B2, B4.
      destruct (fname (hash b)) eqn:EF; [rewrite B2 in HN; congruence|]. rewrite B4, EB. reflexivity. }
  rewrite X. reflexivity.
Qed.

(** Nothing else than a "set" line inside a namespace changes what any namespace
    holds: in whatever state, whatever is typed. *)
Theorem C66_only_set w it m e :
  (forall ns l now fs i, w_mode w = Inside ns -> it = Line l now fs -> ~ asks l fs i) ->
  (holds (fst (shell_step it w)) m e <-> holds w m e).
Proof.
  intros NA.
  assert (SAME : forall w', w_spaces w' = w_spaces w -> (holds w' m e <-> holds w m e)).
  { intros w' E. unfold S_Shell.holds. rewrite E. reflexivity. }
  assert (ENTER : forall ns v, w_spaces v = w_spaces w -> (holds (fst (enter pp hash fname ns v)) m e <-> holds w m e)).
  { intros ns v E. unfold enter. destruct (existsb _ _); [apply SAME; exact E|]. rewrite E.
    set (sp := match mget (w_spaces w) ns with Some s => s | None => _ end).
    assert (X : forall st, kv st = kv (s_store sp) ->
      ((exists sp0, mget (mset (w_spaces w) ns (Space st (s_dir sp))) m = Some sp0 /\ live (cfg_of m) (s_store sp0) e) <-> holds w m e)).
    { intros st EK. unfold S_Shell.holds. rewrite mget_mset. destruct (beqb_spec m ns) as [->|_]; [|reflexivity].
      assert (LV : live (cfg_of ns) st e <-> live (cfg_of ns) (s_store sp) e) by (unfold live; rewrite EK; reflexivity).
      split.
      - intros (sp0 & H & HL). injection H as <-. cbn [s_store] in HL. apply LV in HL. subst sp.
        destruct (mget (w_spaces w) ns) as [s|] eqn:EG; [exists s; auto|]. destruct HL as (_ & k & v' & x & [] & _).
      - intros (sp0 & H & HL). eexists. split; [reflexivity|]. apply LV. subst sp. rewrite H. auto. }
    unfold reopen. destruct (load_nodes _ _) as [t| | | |]; cbn [bind fst]; unfold S_Shell.holds at 1; cbn [w_spaces];
      [apply X; reflexivity|..];
      destruct sp as [st dr] eqn:ESP; apply (X st); reflexivity. }
  destruct it as [l now fs| |]; unfold M_Shell.shell_step.
  - destruct (w_mode w) as [|cns|ns| |] eqn:EM.
    + destruct (top_cases pp hash fname l w EM) as [E|[(mm & Hm & E)|(ns & _ & E)]]; rewrite E; [reflexivity|apply SAME; reflexivity|apply ENTER; reflexivity].
    + unfold confirm_line. destruct (beqb l [121]); [apply ENTER; reflexivity|apply SAME; reflexivity].
    + apply SAME. apply (others_inside pp hash fname sort ns l now fs w). intros i A. eapply NA; eauto.
    + reflexivity.
    + reflexivity.
  - destruct (w_mode w); apply SAME; reflexivity.
  - apply SAME; reflexivity.
Qed.

(** * C67 *)

(** Typing inside one namespace leaves every other namespace as it is: entries,
    reference counts and payload files. *)
Theorem C67_isolation w it ns m : w_mode w = Inside ns -> m <> ns ->
  mget (w_spaces (fst (shell_step it w))) m = mget (w_spaces w) m.
Proof.
  intros HM HN.
  assert (PUT : forall sp v, mget (w_spaces (put_space ns sp v)) m = mget (w_spaces v) m).
  { intros sp v. cbn [put_space w_spaces]. rewrite mget_mset, (beqb_neq m ns HN). reflexivity. }
  destruct it as [l now fs| |]; unfold M_Shell.shell_step; [|rewrite HM; reflexivity|reflexivity].
  rewrite HM. destruct (asks_dec l fs) as [(i & A)|NA].
  - destruct (asks_inside pp hash fname sort ns l now fs i w A) as (s & p & b & t & -> & ->). unfold do_set.
    destruct (Set_ _ _ _ _ _) as [[pr| | | |] st]; cbn [fst].
    + destruct (map_res _ _) as [[|r rows]| | | |]; cbn [fst]; apply (PUT (Space st true) w).
    + apply (PUT (Space st true) w).
    + apply (PUT (Space st true) w).
    + apply (PUT (Space st true) w).
    + apply (PUT (Space st true) w).
  - f_equal. apply (others_inside pp hash fname sort ns l now fs w NA).
Qed.

(** The databases that are open, when no line gives up. *)
Lemma tidy_open items : items_ok pp hash fname U items -> Forall tidy items ->
  let w := shell_run items new_world in
  match w_mode w with Top | Confirm _ => w_open w = [] | Inside ns => w_open w = [ns] | _ => True end.
Proof.
  intros (PP & HU & F & L) HT. revert F L HT. induction items as [|it items IH] using rev_ind; intros F L HT.
  - exact I.
  - apply Forall_app in F as [F FI]. apply Forall_inv in FI. apply Forall_app in HT as [HT HTI]. apply Forall_inv in HTI.
    rewrite len_app in *. change (len [it]) with 1 in *.
    assert (L' : len items + 2 < 2 ^ 64) by lia. specialize (IH F L' HT).
    assert (HI : items_ok pp hash fname U items) by (split; [exact PP|split; [exact HU|split; [exact F|lia]]]).
    destruct (shell_inv items HI) as [S IO]. rewrite shell_run_snoc.
    set (w := shell_run items new_world) in *. cbv zeta in *.
    assert (ENTER : forall ns v, w_spaces v = w_spaces w -> w_open v = [] ->
       match w_mode (fst (enter pp hash fname ns v)) with Top | Confirm _ => w_open (fst (enter pp hash fname ns v)) = []
          | Inside ns' => w_open (fst (enter pp hash fname ns v)) = [ns'] | _ => True end).
    { intros ns v E EO. destruct (enter_spec pp hash fname U PP HU (fun ns => typed ns items) (len items) v ns) as (_ & _ & [(X & _)|(X & Y & _)]); auto.
      - eapply stores_ext; [intros; apply iff_refl|apply N.le_refl|exact E|exact S].
      - rewrite X. exact I.
      - rewrite X, Y, EO. reflexivity. }
    destruct it as [l now fs| |]; unfold M_Shell.shell_step.
    + destruct (w_mode w) as [|cns|ns| |] eqn:EM.
      * destruct (top_cases pp hash fname l w EM) as [E|[(m & Hm & E)|(ns & _ & E)]]; rewrite E.
        -- rewrite EM. exact IH.
        -- cbn [set_mode w_mode w_open]. destruct Hm as [->|[->|(x & ->)]]; auto.
        -- apply ENTER; auto.
      * unfold confirm_line. destruct (beqb l [121]); [apply ENTER; auto|exact IH].
      * destruct (asks_dec l fs) as [(i & A)|NA].
        -- destruct (asks_inside pp hash fname sort ns l now fs i w A) as (s & p & b & t & -> & ->).
           destruct (IO ns EM) as (_ & sp & EG & _). rewrite EG.
           destruct (do_set_spec pp hash fname U PP HU (fun ns => typed ns items) (len items) w ns sp s p b t now) as (_ & _ & X & Y & _); auto.
           rewrite X, Y. exact IH.
        -- destruct (others_inside pp hash fname sort ns l now fs w NA) as (_ & _ & _ & [E|[(X & [(_ & Y)|Y])|(X & _)]]).
           ++ rewrite E, EM. exact IH.
           ++ contradiction.
           ++ rewrite X, Y, IH. cbn [filter]. rewrite beqb_refl. reflexivity.
           ++ rewrite X. exact I.
      * cbn [fst]. rewrite EM. exact I.
      * cbn [fst]. rewrite EM. exact I.
    + destruct (w_mode w) eqn:EM; cbn [fst set_mode w_mode]; auto; rewrite EM; exact I.
    + reflexivity.
Qed.

(** What the program knows are the namespaces that existed when it started. *)
Lemma known_step it w : it <> Start -> w_known (fst (shell_step it w)) = w_known w.
Proof.
  intros HN.
  assert (ENTER : forall ns v, w_known (fst (enter pp hash fname ns v)) = w_known v).
  { intros ns v. unfold enter. destruct (existsb _ _); [reflexivity|]. cbv zeta. destruct (reopen _ _); reflexivity. }
  destruct it as [l now fs| |]; [| |congruence]; unfold M_Shell.shell_step.
  - destruct (w_mode w) as [|cns|ns| |] eqn:EM; try reflexivity.
    + destruct (top_cases pp hash fname l w EM) as [E|[(mm & Hm & E)|(ns & _ & E)]]; rewrite E; [reflexivity|reflexivity|apply ENTER].
    + unfold confirm_line. destruct (beqb l [121]); [rewrite ENTER|]; reflexivity.
    + destruct (asks_dec l fs) as [(i & A)|NA].
      * destruct (asks_inside pp hash fname sort ns l now fs i w A) as (s & p & b & t & -> & ->). unfold do_set.
        destruct (Set_ _ _ _ _ _) as [[pr| | | |] st]; try reflexivity.
        destruct (map_res _ _) as [[|r rows]| | | |]; reflexivity.
      * apply (others_inside pp hash fname sort ns l now fs w NA).
  - destruct (w_mode w); reflexivity.
Qed.

Lemma mget_keys {V} (m : bmap V) k : In k (map fst m) <-> exists v, mget m k = Some v.
Proof.
  induction m as [|[k' v'] m IH]; cbn [map fst In mget].
  - split; [intros []|intros (v & E); discriminate].
  - destruct (beqb_spec k k') as [->|N]; [split; eauto|]. rewrite IH. split; [intros [E|H]; [congruence|auto]|auto].
Qed.

Theorem C67_known before after ns : Forall (fun it => it <> Start) after ->
  (In ns (w_known (shell_run (before ++ Start :: after) new_world))
   <-> exists sp, mget (w_spaces (shell_run before new_world)) ns = Some sp).
Proof.
  intros HF. unfold M_Shell.shell_run. rewrite fold_left_app. cbn [fold_left]. fold (shell_run before new_world).
  set (w := shell_run before new_world). rewrite <- mget_keys.
  assert (X : forall l w0, Forall (fun it => it <> Start) l ->
     w_known (fold_left (fun w i => fst (shell_step i w)) l w0) = w_known w0).
  { induction l as [|it l IH]; intros w0 F; [reflexivity|]. inversion F; subst. cbn [fold_left]. rewrite IH by auto. apply known_step; auto. }
  rewrite X by auto. reflexivity.
Qed.

(** "enter" takes the user into a namespace that existed when the program
    started, and does nothing else; after lines that do not give up it never
    ends the program. *)
Theorem C67_enter_partial items ns now fs : items_ok pp hash fname U items -> Forall tidy items -> ~ In 32 ns ->
  let w := shell_run items new_world in
  w_mode w = Top ->
  let w' := fst (shell_step (Line (w_enter ++ 32 :: ns) now fs) w) in
  (In ns (w_known w) -> w_mode w' = Inside ns) /\ (~ In ns (w_known w) -> w' = w)
  /\ forall m e, holds w' m e <-> holds w m e.
Proof.
  intros HI HT HN w HM w'.
  assert (SPL : split_on 32 (w_enter ++ 32 :: ns) = [w_enter; ns]).
  { change (w_enter ++ 32 :: ns) with (join 32 [w_enter; ns]). apply split_join; [discriminate|].
    intros x [<-|[<-|[]]]; [vm_compute; intuition congruence|exact HN]. }
  assert (EX : existsb (beqb ns) (w_known w) = true <-> In ns (w_known w)).
  { rewrite existsb_exists. split; [intros (x & Hx & E); destruct (beqb_spec ns x) as [->|]; [exact Hx|discriminate E]|].
    intros H. exists ns. split; auto. apply beqb_refl. }
  assert (EW : w' = if existsb (beqb ns) (w_known w) then fst (enter pp hash fname ns w) else w).
  { subst w'. unfold M_Shell.shell_step. rewrite HM. unfold top_line. cbv zeta. rewrite SPL. cbn [hd].
    change (beqb w_enter w_help) with false. change (beqb w_enter w_new) with false. change (beqb w_enter w_list) with false.
    change (beqb w_enter w_exit) with false. change (beqb w_enter w_enter) with true. cbv iota.
    destruct (existsb _ _); reflexivity. }
  split; [|split].
  - intros H. apply EX in H. rewrite H in EW. subst w'. rewrite EW.
    pose proof (tidy_open items HI HT) as TO. fold w in TO. cbv zeta in TO. rewrite HM in TO.
    destruct (shell_inv items HI) as [S _]. destruct HI as (PP & HU & _ & L).
    destruct (enter_spec pp hash fname U PP HU (fun ns => typed ns items) (len items) w ns S L) as (_ & _ & [(_ & X)|(X & _)]); auto.
    rewrite TO in X. destruct X.
  - intros H. rewrite <- EX in H. apply not_true_is_false in H. rewrite H in EW. exact EW.
  - intros m e. subst w'. apply C66_only_set. intros ns' l now' fs' i E. congruence.
Qed.

(** A namespace left by a line that gives up cannot be entered again before the
    program is started anew. *)
Theorem C67_left_open w ns l now fs after : w_mode w = Inside ns -> In ns (w_open w) -> gives_up l fs ->
  Forall (fun it => it <> Start) after ->
  w_mode (shell_run (Line l now fs :: after) w) <> Inside ns.
Proof.
  intros HM HO HG HF.
  assert (NOASK : forall i, ~ asks l fs i).
  { intros i A. destruct A as [s p f b W E|s p f t b W E T]; destruct HG as [s' p' f' r' W' L' E'|s' p' f' t' b' W' E' T'];
      apply words_spec in W; apply words_spec in W'; rewrite W in W'; try discriminate W';
      injection W' as <- <- <- ; try (injection W' as <-); subst; try congruence. }
  assert (GU : w_mode (fst (shell_step (Line l now fs) w)) = Top /\ w_open (fst (shell_step (Line l now fs) w)) = w_open w).
  { unfold M_Shell.shell_step. rewrite HM. unfold inside_line.
    destruct HG as [s p f r W L E|s p f t b W E T]; pose proof (words_not_exit _ _ _ _ W) as NE;
      destruct (beqb_spec (to_lower l) w_exit) as [X|_]; try contradiction; clear NE;
      apply words_spec in W; rewrite W; cbn [hd]; change (beqb w_set w_back) with false; change (beqb w_set w_help) with false;
      rewrite beqb_refl; cbn [set_line_step]; rewrite ?E.
    - destruct r as [|t [|x r]]; [auto|auto|cbn in L; lia].
    - cbv zeta. rewrite T. auto. }
  assert (STEP : forall it v, it <> Start -> In ns (w_open v) -> w_mode v <> Inside ns ->
     In ns (w_open (fst (shell_step it v))) /\ w_mode (fst (shell_step it v)) <> Inside ns).
  { intros it v HS HI HV.
    assert (ENTER : forall m u, w_open u = w_open v ->
      In ns (w_open (fst (enter pp hash fname m u))) /\ w_mode (fst (enter pp hash fname m u)) <> Inside ns).
    { intros m u EU. unfold enter. destruct (existsb (beqb m) (w_open u)) eqn:EX; [rewrite <- EU in HI; split; [exact HI|discriminate]|].
      rewrite EU in *. assert (m <> ns).
      { intros ->. apply not_true_iff_false in EX. apply EX. apply existsb_exists. exists ns. split; auto. apply beqb_refl. }
      cbv zeta. destruct (reopen _ _); cbn; (split; [right; auto|congruence]). }
    destruct it as [l' now' fs'| |]; [| |congruence]; unfold M_Shell.shell_step.
    - destruct (w_mode v) as [|cns|m| |] eqn:EM; try (cbn [fst]; rewrite EM; auto; fail).
      + destruct (top_cases pp hash fname l' v EM) as [E|[(mm & Hm & E)|(m & _ & E)]]; rewrite E.
        * rewrite EM. auto.
        * cbn. split; auto. destruct Hm as [->|[->|(x & ->)]]; discriminate.
        * apply ENTER; auto.
      + unfold confirm_line. destruct (beqb l' [121]); [apply ENTER; reflexivity|cbn; split; [auto|discriminate]].
      + assert (KEEP : forall u, w_open u = w_open v -> (w_mode u = w_mode v \/ w_mode u = Died) -> In ns (w_open u) /\ w_mode u <> Inside ns).
        { intros u E1 E2. rewrite E1. split; auto. destruct E2 as [->| ->]; [rewrite EM; auto|discriminate]. }
        destruct (asks_dec l' fs') as [(i & A)|NA].
        * destruct (asks_inside pp hash fname sort m l' now' fs' i v A) as (s & p & b & t & -> & ->). unfold do_set.
          destruct (Set_ _ _ _ _ _) as [[pr| | | |] st]; try (apply KEEP; auto; fail).
          destruct (map_res _ _) as [[|r rows]| | | |]; apply KEEP; auto.
        * destruct (others_inside pp hash fname sort m l' now' fs' v NA) as (_ & _ & _ & [E|[(X & [(Y & _)|Y])|(X & Y)]]).
          -- rewrite E, EM. auto.
          -- rewrite X, Y. split; [auto|discriminate].
          -- rewrite X, Y. split; [|discriminate]. apply filter_In. split; auto. rewrite beqb_neq; [reflexivity|]. congruence.
          -- rewrite X, Y. split; [auto|discriminate].
    - destruct (w_mode v) as [|cns|m| |] eqn:EM; cbn [fst]; rewrite ?EM; try (split; [exact HI|discriminate]).
      cbn. split; [|discriminate]. apply filter_In. split; auto. rewrite beqb_neq; [reflexivity|congruence]. }
  unfold M_Shell.shell_run. cbn [fold_left]. destruct GU as [G1 G2].
  set (w1 := fst (shell_step (Line l now fs) w)) in *.
  assert (A1 : In ns (w_open w1)) by (rewrite G2; auto). assert (A2 : w_mode w1 <> Inside ns) by (rewrite G1; discriminate).
  clearbody w1. clear -STEP HF A1 A2. revert w1 A1 A2. induction HF as [|it after Hit _ IH]; intros w1 A1 A2; [exact A2|].
  cbn [fold_left]. destruct (STEP it w1 Hit A1 A2). apply IH; auto.
Qed.

(** When the program dies: by "new" without a name, and by "get" in a namespace
    in which nothing was ever set; not otherwise. *)
Theorem C67_dies_partial items it : items_ok pp hash fname U (items ++ [it]) -> sorts sort -> Forall tidy items ->
  gets_ok pp it -> fname [] = [] ->
  let w := shell_run items new_world in
  w_mode w <> Died ->
  (w_mode (fst (shell_step it w)) = Died
   <-> exists l now fs, it = Line l now fs
       /\ ((w_mode w = Top /\ l = w_new /\ ~ In w_new (w_known w))
           \/ exists ns s p, w_mode w = Inside ns /\ words l [w_get; s; p] /\ forall e, ~ typed ns items e)).
Proof.
  intros HI2 HS HT HG HF0 w HM.
  pose proof HI2 as (PP & HU & F & L). apply Forall_app in F as [F FI]. apply Forall_inv in FI.
  rewrite len_app in L. change (len [it]) with 1 in L.
  assert (HI : items_ok pp hash fname U items) by (split; [exact PP|split; [exact HU|split; [exact F|lia]]]).
  destruct (shell_inv items HI) as [S IO]. fold w in S, IO.
  pose proof (tidy_open items HI HT) as TO. fold w in TO. cbv zeta in TO.
  assert (ENTER : forall ns v, w_spaces v = w_spaces w -> w_open v = [] -> w_mode (fst (enter pp hash fname ns v)) <> Died).
  { intros ns v E EO. destruct (enter_spec pp hash fname U PP HU (fun ns => typed ns items) (len items) v ns) as (_ & _ & [(_ & X)|(X & _)]).
    - eapply stores_ext; [intros; apply iff_refl|apply N.le_refl|exact E|exact S].
    - lia.
    - rewrite EO in X. destruct X.
    - rewrite X. discriminate. }
  destruct it as [l now fs| |].
  2:{ unfold M_Shell.shell_step. split.
      - intros X. exfalso. destruct (w_mode w) eqn:EM; cbn in X; congruence.
      - intros (l & now & fs & E & _). discriminate E. }
  2:{ split; [intros X; discriminate X|intros (l & now & fs & E & _); discriminate E]. }
  unfold M_Shell.shell_step. destruct (w_mode w) as [|cns|ns| |] eqn:EM; [| | | |congruence].
  - split.
    + intros X. exists l, now, fs. split; auto. left. split; auto. unfold top_line in X.
      destruct (beqb _ w_help); [cbn in X; congruence|].
      destruct (beqb_spec (hd [] (split_on 32 l)) w_new) as [EN|_].
      * destruct (existsb (beqb l) (w_known w)) eqn:EX; [exfalso; eapply ENTER; [reflexivity|exact TO|exact X]|].
        destruct (split_on 32 l) as [|o [|n r]] eqn:ES; [destruct (split_nonempty 32 l); auto| |cbn in X; discriminate X].
        cbn in EN. subst o. assert (l = w_new) by (rewrite <- (join_split 32 l), ES; reflexivity). subst l. split; auto.
        intros HIn. apply not_true_iff_false in EX. apply EX. apply existsb_exists. exists w_new. split; auto. 
      * exfalso. destruct (beqb _ w_list); [destruct (w_known w); cbn in X; congruence|].
        destruct (beqb _ w_exit); [discriminate X|]. destruct (beqb _ w_enter); [|cbn in X; congruence].
        destruct (split_on 32 l) as [|o [|n [|y r]]]; try (cbn in X; congruence).
        destruct (existsb _ _); [|cbn in X; congruence]. eapply ENTER; [reflexivity|exact TO|exact X].
    + intros (l' & now' & fs' & E & [(_ & -> & HK)|(n & s & p & E' & _)]); [|discriminate E']. injection E as -> <- <-.
      unfold top_line. cbn [w_new]. change (split_on 32 w_new) with [w_new]. cbv zeta. cbn [hd].
      change (beqb w_new w_help) with false. change (beqb w_new w_new) with true. cbv iota.
      destruct (existsb (beqb w_new) (w_known w)) eqn:EX; [|reflexivity].
      exfalso. apply existsb_exists in EX as (x & Hx & E). destruct (beqb_spec w_new x); [subst; auto|discriminate].
  - split.
    + intros X. exfalso. unfold confirm_line in X. destruct (beqb l [121]); [|discriminate X].
      eapply ENTER; [| |exact X]; [reflexivity|exact TO].
    + intros (l' & now' & fs' & E & [(E' & _)|(n & s & p & E' & _)]); discriminate E'.
  - destruct (asks_dec l fs) as [(i & A)|NA].
    + destruct (asks_inside pp hash fname sort ns l now fs i w A) as (s & p & b & t & Ei & EL). rewrite EL. rewrite Ei in A.
      destruct (IO ns EM) as (_ & sp & EG & _). rewrite EG.
      destruct (do_set_spec pp hash fname U PP HU (fun ns => typed ns items) (len items) w ns sp s p b t now) as (_ & _ & X & _ & _); auto; [lia|].
      rewrite X. split; [discriminate|].
      intros (l' & now' & fs' & E & [(E' & _)|(n & s' & p' & _ & W' & _)]); [discriminate E'|]. injection E as <- <- <-.
      exfalso. destruct A as [s0 p0 f0 b0 W E|s0 p0 f0 t0 b0 W E T]; apply words_spec in W; apply words_spec in W'; rewrite W in W'; discriminate W'.
    + destruct (shell_inv items HI) as [_ _].
      destruct (IO ns EM) as (_ & sp & EG & _). destruct (proj1 S ns sp EG) as (ops & H1 & H2 & H3 & H4 & H5).
      destruct (reached_runs (cfg_of ns) U PP HU ops _ H1) as (n & xs & R).
      destruct (runs_Inv _ _ _ _ _ _ R) as (IV & _). pose proof (inv_rep _ _ _ _ _ IV) as RP.
      split.
      * intros X. exists l, now, fs. split; auto. right. exists ns.
        destruct (beqb_spec (to_lower l) w_exit) as [XE|NE]; [unfold inside_line in X; rewrite XE, beqb_refl in X; discriminate X|].
        destruct (beqb_spec (hd [] (split_on 32 (TrimSpace l))) w_list) as [EH|NL].
        { exfalso. destruct (split_on 32 (TrimSpace l)) as [|o r] eqn:ES; [discriminate EH|]. cbn in EH. subst o.
          apply words_spec in ES. destruct (C66_list_partial items ns l now fs r HI HS EM ES) as (rows & es & E & _).
          unfold M_Shell.shell_step in E. fold w in E. rewrite EM in E. rewrite E in X. cbn [fst] in X. congruence. }
        unfold inside_line in X. rewrite EG in X. destruct (beqb_spec (to_lower l) w_exit) as [|_]; [contradiction|].
        destruct (beqb _ w_back); [discriminate X|]. destruct (beqb _ w_help); [cbn in X; congruence|].
        destruct (beqb_spec (hd [] (split_on 32 (TrimSpace l))) w_set) as [ES|_].
        { exfalso. assert (X' : w_mode (fst (inside_line pp hash fname sort ns l now fs w)) = Died).
          { unfold inside_line. rewrite EG. destruct (beqb_spec (to_lower l) w_exit) as [|_]; [contradiction|].
            rewrite ES. change (beqb w_set w_back) with false. change (beqb w_set w_help) with false. rewrite beqb_refl. exact X. }
          clear X'. unfold set_line_step in X.
          destruct (split_on 32 (TrimSpace l)) as [|o [|s [|p [|f [|t [|y r]]]]]] eqn:EW; try (cbn in X; congruence).
          - cbn in ES. subst o. apply words_spec in EW. destruct (fs f) as [| |b] eqn:EF; try (cbn in X; congruence).
            eapply NA. eapply asks_now; eauto.
          - cbn in ES. subst o. apply words_spec in EW. destruct (fs f) as [| |b] eqn:EF; try (cbn in X; congruence).
            destruct (N.eqb_spec (parseTimeStampToMicroSeconds t) 0) as [ET|ET]; [cbn in X; congruence|].
            eapply NA. eapply asks_at; eauto. }
        destruct (beqb_spec (hd [] (split_on 32 (TrimSpace l))) w_get) as [EGt|_].
        -- destruct (split_on 32 (TrimSpace l)) as [|o [|s [|p [|y r]]]] eqn:EW; try (cbn in X; congruence).
           cbn in EGt. subst o. apply words_spec in EW. exists s, p. split; auto. split; auto.
           intros e He. assert (SD : s_dir sp = true) by (apply H5; eauto).
           unfold cli_get in X. rewrite SD in X.
           destruct (driver_Get_spec (cfg_of ns) U PP HU xs (s_store sp) s (parse_path p) RP (HG s p EW)) as [[G _]|(x & G & Gx & G1 & G2)]; rewrite G in X.
           ++ unfold pd_Get in X. cbn [M_Shell.cfg_of c_fname] in X. rewrite HF0 in X. cbn in X. congruence.
           ++ destruct (sets_payloads ns ops n xs (s_store sp) R PP HU H3 ltac:(lia) x Gx) as (b & B1 & B2 & B3 & B4).
              unfold pd_Get in X. cbn [M_Shell.cfg_of c_fname p_files] in X. rewrite B2, B4 in X.
              destruct (fname (hash b)); cbn in X; congruence.
        -- destruct (beqb_spec (hd [] (split_on 32 (TrimSpace l))) w_list) as [|_]; [contradiction|].
           destruct (beqb _ w_clear); cbn in X; congruence.
      * intros (l' & now' & fs' & E & [(E' & _)|(m & s & p & E' & W & NT)]); [discriminate E'|]. injection E as <- <- <-. injection E' as <-.
        unfold inside_line. rewrite EG.
        destruct (beqb_spec (to_lower l) w_exit) as [Y|_]; [exfalso; eapply words_not_exit; eauto|].
        pose proof (HG s p W) as SP.
        apply words_spec in W. rewrite W. cbn [hd]. change (beqb w_get w_back) with false. change (beqb w_get w_help) with false.
        change (beqb w_get w_set) with false. rewrite beqb_refl.
        assert (SD : s_dir sp = false).
        { destruct (s_dir sp) eqn:D; auto. exfalso. destruct (proj1 H5 eq_refl) as (e & He). eapply NT; eauto. }
        unfold cli_get. rewrite SD.
        destruct (driver_Get_spec (cfg_of ns) U PP HU xs (s_store sp) s (parse_path p) RP SP) as [[G _]|(x & G & _)]; rewrite G; reflexivity.
  - split; [intros X; cbn in X; congruence|].
    intros (l' & now' & fs' & E & [(E' & _)|(n & s & p & E' & _)]); discriminate E'.
Qed.
End Shell.

Print Assumptions C66_sessions_partial.
Print Assumptions C66_set_partial.
Print Assumptions C66_json_partial.
Print Assumptions C66_list_partial.
Print Assumptions C66_get_partial.
Print Assumptions C66_only_set.
Print Assumptions C67_isolation.
Print Assumptions C67_known.
Print Assumptions C67_enter_partial.
Print Assumptions C67_left_open.
Print Assumptions C67_dies_partial.

(** * A session *)

(** A sort with the comparison of main.go:286-288. *)
Fixpoint insert_node (n : node) (l : list node) : list node :=
  match l with
  | [] => [n]
  | m :: l' => if (OrderBytes (n_sub n) (n_sub m) <=? 0)%Z then n :: l else m :: insert_node n l'
  end.
Definition sort_nodes (l : list node) : list node := fold_right insert_node [] l.

Lemma sort_nodes_sorts : sorts sort_nodes.
Proof.
  intros l. induction l as [|n l [P S]]; [split; [reflexivity|constructor]|]. cbn [sort_nodes fold_right]. fold (sort_nodes l).
  assert (X : forall s, Sorted (fun a b => (OrderBytes (n_sub a) (n_sub b) <= 0)%Z) s ->
     Permutation (insert_node n s) (n :: s) /\ Sorted (fun a b => (OrderBytes (n_sub a) (n_sub b) <= 0)%Z) (insert_node n s)
     /\ (forall m, HdRel (fun a b => (OrderBytes (n_sub a) (n_sub b) <= 0)%Z) m s -> (OrderBytes (n_sub m) (n_sub n) <= 0)%Z ->
           HdRel (fun a b => (OrderBytes (n_sub a) (n_sub b) <= 0)%Z) m (insert_node n s))).
  { induction s as [|m s IH]; intros SS.
    - split; [reflexivity|]. split; [repeat constructor|]. intros m _ H. constructor. exact H.
    - inversion SS as [|? ? SS' HR]; subst. destruct (IH SS') as (P1 & S1 & H1). cbn [insert_node].
      destruct (Z.leb_spec (OrderBytes (n_sub n) (n_sub m)) 0) as [LE|GT].
      + split; [reflexivity|]. split; [constructor; [exact SS|constructor; exact LE]|]. intros k _ HK. constructor. exact HK.
      + split; [rewrite P1; apply perm_swap|]. split.
        * constructor; [exact S1|]. apply H1; [exact HR|].
          destruct (OrderBytes_decides (n_sub n) (n_sub m)) as [[E L]|[[E L]|[E L]]]; rewrite E in GT; try lia.
          destruct (OrderBytes_decides (n_sub m) (n_sub n)) as [[E' L']|[[E' L']|[E' L']]]; rewrite E'; try lia.
          exfalso. eapply (sto_irrefl _ bytes_sto). eapply (sto_trans _ bytes_sto); eauto.
        * intros k HK _. inversion HK; subst. constructor. auto. }
  destruct (X _ S) as (P1 & S1 & _). split; [rewrite P1; constructor; exact P|exact S1].
Qed.

(** The input a line asks for, computed. *)
Definition asked (l : bytes) (fs : bytes -> file) : option input :=
  match split_on 32 (TrimSpace l) with
  | [_; s; p; f] => match fs f with Contents b => Some (Input s (parse_path p) b 0) | _ => None end
  | [_; s; p; f; t] => match fs f with Contents b => Some (Input s (parse_path p) b (parseTimeStampToMicroSeconds t)) | _ => None end
  | _ => None
  end.
Lemma asked_spec l fs i : asks l fs i -> asked l fs = Some i.
Proof.
  intros [s p f b W F|s p f t b W F T]; apply words_spec in W; unfold asked; rewrite W, F; reflexivity.
Qed.

Definition demo_item_okb (it : item) : bool :=
  match it with
  | Line l now fs => match asked l fs with Some i => smallb (i_payload i) && demo_entry_okb (set_entry demo i now) | None => true end
  | _ => true
  end.
Lemma demo_items_ok items : forallb demo_item_okb items = true -> len items + 2 < 2 ^ 64 ->
  items_ok shipped_params (c_hash demo) (c_fname demo) small items.
Proof.
  intros H L. split; [apply shipped_store_params|]. split; [apply demo_universe|]. split; [|exact L].
  apply Forall_forall. rewrite forallb_forall in H. intros it Hit. specialize (H it Hit). destruct it as [l now fs| |]; cbn; auto.
  intros i ns A. cbn in H. rewrite (asked_spec _ _ _ A) in H. apply andb_true_iff in H as [H1 H2].
  split; [apply smallb_spec; auto|]. apply demo_entry_okb_spec in H2. exact H2.
Qed.

Notation demo_run := (shell_run shipped_params (c_hash demo) (c_fname demo) sort_nodes).
Notation demo_step := (shell_step shipped_params (c_hash demo) (c_fname demo) sort_nodes).
Notation demo_typed := (typed shipped_params (c_hash demo) (c_fname demo) sort_nodes).
Notation demo_holds := (holds shipped_params (c_hash demo) (c_fname demo)).

From Coq Require Import Ascii String.
Definition txt (s : string) : bytes := map N_of_ascii (list_ascii_of_string s).
Definition demo_fs (f : bytes) : file :=
  if beqb f (txt "one") then Contents [1; 2] else if beqb f (txt "two") then Contents [9]
  else if beqb f (txt "dir") then Unreadable else NoFile.
Definition say (s : string) : item := Line (txt s) 77 demo_fs.

Definition demo_session : list item :=
  [Start; say "new n"; say "y"; say "set s a/b one"; say "set r a two 1:30"; say " set s a/c two 0:30 "; say "back";
   EndOfInput; Start; say "enter n"].

Definition demo_typed_e (s p : string) (b : bytes) (t : N) : entry :=
  Entry (txt "n") (txt s) (c_hash demo b) (parse_path (txt p)) t (len b).

Lemma demo_session_ok more : forallb demo_item_okb more = true -> len more < 2 ^ 32 ->
  items_ok shipped_params (c_hash demo) (c_fname demo) small (demo_session ++ more).
Proof.
  intros H L. apply demo_items_ok; [rewrite forallb_app, H; vm_compute; reflexivity|].
  rewrite len_app. change (len demo_session) with 10. lia.
Qed.

(** Everything typed into a namespace. *)
Fixpoint collect (ns : bytes) (items : list item) (w : world) : list entry :=
  match items with
  | [] => []
  | it :: r =>
      (match it, w_mode w with
       | Line l now fs, Inside m =>
           if beqb m ns then match asked l fs with Some i => [set_entry (cfg_of shipped_params (c_hash demo) (c_fname demo) ns) i now] | None => [] end
           else []
       | _, _ => []
       end) ++ collect ns r (fst (demo_step it w))
  end.
Lemma collect_typed ns items e : demo_typed ns items e -> In e (collect ns items new_world).
Proof.
  intros (before & l & now & fs & after & i & -> & M & A & ->). revert M. generalize new_world.
  induction before as [|it before IH]; intros w M; cbn [app collect].
  - cbn in M. rewrite M, beqb_refl, (asked_spec _ _ _ A). left. reflexivity.
  - apply in_or_app. right. apply IH. exact M.
Qed.

Definition holdsb (w : world) (ns : bytes) (e : entry) : bool :=
  match mget (w_spaces w) ns with Some sp => liveb (cfg_of shipped_params (c_hash demo) (c_fname demo) ns) (s_store sp) e | None => false end.
Lemma holdsb_spec w ns e : holdsb w ns e = true <-> demo_holds w ns e.
Proof.
  unfold holdsb, holds. destruct (mget (w_spaces w) ns) as [sp|].
  - rewrite liveb_spec. split; [eauto|intros (sp' & E & H); injection E as <-; exact H].
  - split; [discriminate|intros (sp & E & _); discriminate].
Qed.

Example C66_instance :
  items_ok shipped_params (c_hash demo) (c_fname demo) small demo_session
  /\ (forall x y, demo_typed (txt "n") demo_session x -> demo_typed (txt "n") demo_session y -> same_place x y \/ above x y ->
        e_time x = e_time y -> x = y)
  /\ demo_holds (demo_run demo_session new_world) (txt "n") (demo_typed_e "s" "a/b" [1; 2] 77)
  /\ demo_holds (demo_run demo_session new_world) (txt "n") (demo_typed_e "s" "a/c" [9] 1800000000)
  /\ w_mode (demo_run demo_session new_world) = Inside (txt "n").
Proof.
  split; [apply (demo_session_ok []); vm_compute; reflexivity|]. split; [|rewrite <- !holdsb_spec; vm_compute; auto].
  intros x y Hx Hy _ HT. apply collect_typed in Hx. apply collect_typed in Hy.
  set (c := collect _ _ _) in *. vm_compute in c. subst c. cbn [In] in Hx, Hy.
  repeat destruct Hx as [<-|Hx]; try contradiction; repeat destruct Hy as [<-|Hy]; try contradiction; try reflexivity; discriminate HT.
Qed.

(** Lines after that session. *)
Definition after_session (it : item) : list output := snd (demo_step it (demo_run demo_session new_world)).

Example C66_instance_lines :
  after_session (say "list") = [OTable [(txt "r", 5400000000, txt "a"); (txt "s", 77, txt "a/b"); (txt "s", 1800000000, txt "a/c")]]
  /\ after_session (say "get s a/c") = [OPayload [9]]
  /\ after_session (say "set s a two 0:31") = [OPruned [(txt "s", txt "a/b", 77); (txt "s", txt "a/c", 1800000000)]]
  /\ after_session (say "set s a/b/c one 0:1") = [ONonePruned]
  /\ after_session (say "set s a/c one 0:29") = [OFail]
  /\ words (txt "  get s a/c ") [w_get; txt "s"; txt "a/c"]
  /\ asks (txt "set s a two 0:31") demo_fs (Input (txt "s") [txt "a"] [9] 1860000000)
  /\ w_mode (demo_run demo_session new_world) = Inside (txt "n") /\ c_fname demo (c_hash demo [9]) <> [].
Proof.
  repeat (split; [vm_compute; reflexivity|]).
  split; [apply words_spec; vm_compute; reflexivity|].
  split; [|split; [vm_compute; reflexivity|discriminate]].
  apply (asks_at (txt "set s a two 0:31") demo_fs (txt "s") (txt "a") (txt "two") (txt "0:31") [9]);
    [apply words_spec; vm_compute; reflexivity|reflexivity|discriminate].
Qed.

Example C66_instance_sort : sorts sort_nodes.
Proof. exact sort_nodes_sorts. Qed.

(** The hypotheses of C67 on that session. *)
Definition gives_upb (l : bytes) (fs : bytes -> file) : bool :=
  match split_on 32 (TrimSpace l) with
  | [_; _; _; f] => match fs f with Unreadable => true | _ => false end
  | [_; _; _; f; t] => match fs f with Unreadable => true | Contents _ => parseTimeStampToMicroSeconds t =? 0 | NoFile => false end
  | _ => false
  end.
Lemma gives_upb_spec l fs : gives_up l fs -> gives_upb l fs = true.
Proof.
  intros [s p f r W L E|s p f t b W E T]; apply words_spec in W; unfold gives_upb; rewrite W.
  - destruct r as [|t [|x r]]; [rewrite E; auto|rewrite E; auto|cbn in L; lia].
  - rewrite E, T. reflexivity.
Qed.

Example C67_instance :
  Forall tidy demo_session
  /\ In (txt "n") (w_known (demo_run demo_session new_world)) /\ In (txt "n") (w_open (demo_run demo_session new_world))
  /\ w_mode (demo_run [Start; say "new n"; say "y"; say "get s a"] new_world) = Died
  /\ w_mode (demo_run [Start; say "new"] new_world) = Died
  /\ c_fname demo [] = [] /\ gets_ok shipped_params (say "get s a/b").
Proof.
  split; [repeat constructor; intros H; apply gives_upb_spec in H; vm_compute in H; discriminate H|].
  split; [vm_compute; left; reflexivity|]. split; [vm_compute; left; reflexivity|]. do 3 (split; [vm_compute; reflexivity|]).
  intros s p W. apply words_spec in W. set (x := split_on _ _) in W. vm_compute in x. subst x. injection W as <- <-.
  apply strict_pathb_spec. vm_compute. reflexivity.
Qed.

(** A wrong time ends the visit, and entering the namespace again ends the program. *)
Theorem C67_wrong_time_refuted :
  let items := demo_session ++ [say "set s a one 0:0"] in
  items_ok shipped_params (c_hash demo) (c_fname demo) small items
  /\ w_mode (demo_run items new_world) = Top /\ In (txt "n") (w_known (demo_run items new_world))
  /\ w_mode (demo_run (items ++ [say "enter n"]) new_world) = Died
  /\ gives_up (txt "set s a one 0:0") demo_fs.
Proof.
  cbv zeta. split; [apply demo_session_ok; vm_compute; reflexivity|].
  split; [vm_compute; reflexivity|]. split; [vm_compute; left; reflexivity|]. split; [vm_compute; reflexivity|].
  apply (gives_up_time (txt "set s a one 0:0") demo_fs (txt "s") (txt "a") (txt "one") (txt "0:0") [1; 2]);
    [apply words_spec; vm_compute; reflexivity|reflexivity|reflexivity].
Qed.
Print Assumptions C67_wrong_time_refuted.

(** A namespace made by the running program can be entered by "new" but is
    neither listed nor entered by "enter". *)
Theorem C67_new_unknown_refuted :
  let items := [Start; say "new n"; say "y"; say "set s a one"; say "back"] in
  let w := demo_run items new_world in
  items_ok shipped_params (c_hash demo) (c_fname demo) small items
  /\ w_mode w = Top /\ demo_holds w (txt "n") (demo_typed_e "s" "a" [1; 2] 77)
  /\ demo_step (say "enter n") w = (w, [OText]) /\ demo_step (say "list") w = (w, [OText])
  /\ w_mode (demo_run (items ++ [say "new n"; say "y"]) new_world) = Inside (txt "n").
Proof.
  cbv zeta. split; [apply demo_items_ok; vm_compute; reflexivity|]. split; [vm_compute; reflexivity|].
  rewrite <- holdsb_spec. vm_compute. auto.
Qed.
Print Assumptions C67_new_unknown_refuted.

(** The words of the program, at either prompt: what they do, and that no others do anything. *)
Definition begins (l w : bytes) : Prop := l = w \/ exists r, l = w ++ 32 :: r.
Lemma split_begins w l : ~ In 32 w -> (hd [] (split_on 32 l) = w <-> begins l w).
Proof.
  revert w; induction l as [|c l IH]; intros w NW; cbn [split_on].
  - cbn [hd]. split; [intros <-; left; reflexivity|]. intros [->|(r & E)]; [reflexivity|destruct w; discriminate E].
  - destruct (split_on 32 l) as [|v vs] eqn:ES; [exfalso; eapply split_nonempty; exact ES|]. destruct (N.eqb_spec c 32) as [->|NC]; cbn [hd].
    + split; [intros <-; right; exists l; reflexivity|]. intros [<-|(r & E)]; [exfalso; apply NW; left; reflexivity|].
      destruct w as [|d w]; [reflexivity|]. injection E as <- _. exfalso; apply NW; left; reflexivity.
    + cbn [hd] in IH. split.
      * intros <-. assert (NV : ~ In 32 v) by (intros I; apply NW; right; exact I). destruct (proj1 (IH v NV) eq_refl) as [->|(r & ->)]; [left; reflexivity|].
        right. exists r. reflexivity.
      * intros H. assert (W : exists w', w = c :: w' /\ begins l w').
        { destruct H as [<-|(r & E)]; [exists l; split; [reflexivity|left; reflexivity]|]. destruct w as [|d w]; [injection E as -> _; congruence|].
          injection E as <- ->. exists w. split; [reflexivity|right; eauto]. }
        destruct W as (w' & -> & B). f_equal. apply (IH w'); [intros I; apply NW; right; exact I|exact B].
Qed.
Ltac plain := let I := fresh in intros I; vm_compute in I; intuition discriminate.
Theorem C67_prompt pp hash fname sort w l now fs : w_mode w = Top ->
  let after := shell_step pp hash fname sort (Line l now fs) w in
  (begins l (txt "help") -> after = (w, [OText]))
  /\ (begins l (txt "list") -> after = (w, match w_known w with [] => [OText] | ks => [ONames ks] end))
  /\ (begins l (txt "exit") -> after = (set_mode Ended w, [OText]))
  /\ (forall ns, ~ In 32 ns -> l = txt "new " ++ ns -> ~ In l (w_known w) -> after = (set_mode (Confirm ns) w, [OText]))
  /\ (begins l (txt "enter") -> (forall ns, ~ In 32 ns -> l = txt "enter " ++ ns -> ~ In ns (w_known w)) -> after = (w, [OText]))
  /\ ((forall v, In v ["help"; "new"; "list"; "exit"; "enter"]%string -> ~ begins l (txt v)) -> after = (w, [OText])).
Proof.
  intros HM after. subst after. unfold shell_step. rewrite HM. unfold top_line. cbv zeta.
  assert (K : forall v, ~ In 32 (txt v) -> begins l (txt v) -> hd [] (split_on 32 l) = txt v) by (intros v NV B; apply split_begins; assumption).
  split; [|split; [|split; [|split; [|split]]]].
  - intros B. rewrite (K "help"%string) by (exact B || plain). reflexivity.
  - intros B. rewrite (K "list"%string) by (exact B || plain). destruct (w_known w); reflexivity.
  - intros B. rewrite (K "exit"%string) by (exact B || plain). reflexivity.
  - intros ns NN E NK. assert (ES : split_on 32 l = [txt "new"; ns]).
    { subst l. change (txt "new " ++ ns) with (join 32 [txt "new"; ns]). apply split_join; [discriminate|]. intros x [<-|[<-|[]]]; [plain|exact NN]. }
    rewrite ES. cbn [hd]. change (beqb (txt "new") w_help) with false. change (beqb (txt "new") w_new) with true. cbv iota.
    replace (existsb (beqb l) (w_known w)) with false; [reflexivity|]. symmetry. apply not_true_is_false. intros X. apply existsb_exists in X as (y & I & Y).
    destruct (beqb_spec l y) as [->|]; [contradiction|discriminate].
  - intros B HN. pose proof (K "enter"%string ltac:(plain) B) as H. destruct (split_on 32 l) as [|o [|ns [|x r]]] eqn:ES; [exfalso; eapply split_nonempty; exact ES| | |];
      cbn [hd] in H |- *; subst o; try reflexivity.
    change (beqb (txt "enter") w_help) with false. change (beqb (txt "enter") w_new) with false. change (beqb (txt "enter") w_list) with false. change (beqb (txt "enter") w_exit) with false.
    change (beqb (txt "enter") w_enter) with true. cbv iota.
    assert (NN : ~ In 32 ns) by (apply (split_no_seps 32 l); rewrite ES; right; left; reflexivity).
    assert (EL : l = txt "enter " ++ ns) by (rewrite <- (join_split 32 l), ES; reflexivity).
    replace (existsb (beqb ns) (w_known w)) with false; [reflexivity|]. symmetry. apply not_true_is_false. intros X. apply existsb_exists in X as (y & I & Y).
    destruct (beqb_spec ns y) as [->|]; [apply (HN y); assumption|discriminate].
  - intros NB. assert (D : forall v, ~ In 32 (txt v) -> In v ["help"; "new"; "list"; "exit"; "enter"]%string -> beqb (hd [] (split_on 32 l)) (txt v) = false).
    { intros v NV IV. apply beqb_neq. intros X. apply split_begins in X; [|exact NV]. exact (NB v IV X). }
    change w_help with (txt "help"). change w_new with (txt "new"). change w_list with (txt "list"). change w_exit with (txt "exit"). change w_enter with (txt "enter").
    rewrite (D "help"%string), (D "new"%string), (D "list"%string), (D "exit"%string), (D "enter"%string) by (plain || (cbn [In]; auto 6)). reflexivity.
Qed.
Print Assumptions C67_prompt.

(** The letters of "exit", small or capital; the third may be a dotted capital I (U+0130). *)
Definition like_exit (l : bytes) : Prop :=
  exists e x i t, l = e :: x :: i ++ [t] /\ In e [101; 69] /\ In x [120; 88] /\ In i [[105]; [73]; [196; 176]] /\ In t [116; 84].
Lemma lower_step l d r : 97 <= d <= 122 -> to_lower l = d :: r ->
  (exists c l', l = c :: l' /\ (c = d \/ c + 32 = d) /\ to_lower l' = r) \/ (d = 105 /\ exists l', l = 196 :: 176 :: l' /\ to_lower l' = r).
Proof.
  intros D E. destruct l as [|c [|y l]]; [discriminate E| |]; cbn [to_lower] in E.
  - left. exists c, []. injection E as E1 E2. split; [reflexivity|]. split; [|exact E2]. destruct (N.leb_spec 65 c), (N.leb_spec c 90); cbn [andb] in E1; lia.
  - destruct ((c =? 196) && (y =? 176)) eqn:X.
    + apply andb_true_iff in X. rewrite !N.eqb_eq in X. destruct X as [-> ->]. right. injection E as E1 E2. split; [congruence|]. exists l. split; [reflexivity|exact E2].
    + left. exists c, (y :: l). injection E as E1 E2. split; [reflexivity|]. split; [|exact E2]. destruct (N.leb_spec 65 c), (N.leb_spec c 90); cbn [andb] in E1; lia.
Qed.
Lemma lower_exit l : to_lower l = txt "exit" <-> like_exit l.
Proof.
  split.
  - intros E. destruct (lower_step l 101 _ ltac:(lia) E) as [(e & l1 & -> & HE & E1)|(X & _)]; [|discriminate X].
    destruct (lower_step l1 120 _ ltac:(lia) E1) as [(x & l2 & -> & HX & E2)|(X & _)]; [|discriminate X].
    assert (T : forall l3, to_lower l3 = [116] -> exists t, l3 = [t] /\ In t [116; 84]).
    { intros l3 E3. destruct (lower_step l3 116 _ ltac:(lia) E3) as [(t & l4 & -> & HT & E4)|(X & _)]; [|discriminate X].
      exists t. assert (l4 = []) as -> by (destruct l4 as [|? [|? ?]]; [reflexivity|discriminate E4|cbn [to_lower] in E4; destruct (_ && _) in E4; discriminate E4]).
      split; [reflexivity|cbn [In]; lia]. }
    destruct (lower_step l2 105 _ ltac:(lia) E2) as [(i & l3 & -> & HI & E3)|(_ & l3 & -> & E3)]; destruct (T l3 E3) as (t & -> & HT).
    + exists e, x, [i], t. split; [reflexivity|]. repeat split; try exact HT; cbn [In]; try lia. destruct HI as [->|HI]; [left; reflexivity|]. right; left. f_equal. lia.
    + exists e, x, [196; 176], t. split; [reflexivity|]. repeat split; try exact HT; cbn [In]; try lia. auto.
  - intros (e & x & i & t & -> & [<-|[<-|[]]] & [<-|[<-|[]]] & [<-|[<-|[<-|[]]]] & [<-|[<-|[]]]); reflexivity.
Qed.
Lemma words_letter l k o more : k <> 196 -> k <> 176 -> ~ (65 <= k <= 90) -> ~ In k (txt "exit") -> In k o -> words l (o :: more) -> to_lower l <> txt "exit".
Proof.
  intros K1 K2 K3 K4 HK (_ & _ & (a & b & E & _)) H. assert (HI : In k l).
  { rewrite E. apply in_or_app; right. apply in_or_app; left. destruct more; cbn [spaced]; [|apply in_or_app; left]; exact HK. }
  apply to_lower_keeps in HI; auto. rewrite H in HI. contradiction.
Qed.
Theorem C67_inside pp hash fname sort w ns l now fs : w_mode w = Inside ns ->
  let after := shell_step pp hash fname sort (Line l now fs) w in
  let left := (World (w_known w) (w_spaces w) (filter (fun x => negb (beqb ns x)) (w_open w)) (w_json w) Top, [OText]) in
  (like_exit l -> after = left)
  /\ (forall more, words l (txt "back" :: more) -> after = left)
  /\ (forall v more, In v ["help"; "clear"]%string -> words l (txt v :: more) -> after = (w, [OText]))
  /\ (forall o more, ~ In o (map txt ["back"; "help"; "set"; "get"; "list"; "clear"]%string) -> ~ like_exit l -> words l (o :: more) -> after = (w, [OText]))
  /\ (forall more : list bytes, List.length more <> 2%nat -> words l (txt "get" :: more) -> after = (w, [OText]))
  /\ (forall more : list bytes, (List.length more < 3 \/ 4 < List.length more)%nat -> words l (txt "set" :: more) -> after = (w, [OText])).
Proof.
  intros HM after left. subst after. unfold shell_step. rewrite HM. unfold inside_line. cbv zeta.
  change w_exit with (txt "exit"). change w_back with (txt "back"). change w_help with (txt "help"). change w_set with (txt "set"). change w_get with (txt "get").
  change w_list with (txt "list"). change w_clear with (txt "clear").
  split; [|split; [|split; [|split; [|split]]]].
  - intros E. rewrite (proj2 (lower_exit l) E). reflexivity.
  - intros more W. destruct (beqb (to_lower l) _); [reflexivity|]. apply words_spec in W. rewrite W. reflexivity.
  - intros v more [<-|[<-|[]]] W.
    + rewrite (beqb_neq (to_lower l) (txt "exit")) by (refine (words_letter l 104 _ more _ _ _ _ _ W); [lia|lia|lia|plain|left; reflexivity]).
      apply words_spec in W. rewrite W. reflexivity.
    + rewrite (beqb_neq (to_lower l) (txt "exit")) by (refine (words_letter l 99 _ more _ _ _ _ _ W); [lia|lia|lia|plain|left; reflexivity]).
      apply words_spec in W. rewrite W. reflexivity.
  - intros o more NO NE W. rewrite (beqb_neq (to_lower l) (txt "exit")) by (intros X; apply NE, lower_exit, X).
    apply words_spec in W. rewrite W. cbn [hd].
    assert (D : forall v, In v ["back"; "help"; "set"; "get"; "list"; "clear"]%string -> beqb o (txt v) = false).
    { intros v IV. apply beqb_neq. intros ->. apply NO. apply in_map. exact IV. }
    rewrite (D "back"%string), (D "help"%string), (D "set"%string), (D "get"%string), (D "list"%string), (D "clear"%string) by (cbn [In]; auto 7). reflexivity.
  - intros more HL W. rewrite (beqb_neq (to_lower l) (txt "exit")) by (refine (words_letter l 103 _ more _ _ _ _ _ W); [lia|lia|lia|plain|left; reflexivity]).
    apply words_spec in W. rewrite W. cbn [hd]. change (beqb (txt "get") (txt "back")) with false. change (beqb (txt "get") (txt "help")) with false.
    change (beqb (txt "get") (txt "set")) with false. change (beqb (txt "get") (txt "get")) with true. cbv iota.
    destruct more as [|a [|b [|c r]]]; try reflexivity. exfalso. apply HL. reflexivity.
  - intros more HL W. rewrite (beqb_neq (to_lower l) (txt "exit")) by (refine (words_letter l 115 _ more _ _ _ _ _ W); [lia|lia|lia|plain|left; reflexivity]).
    apply words_spec in W. rewrite W. cbn [hd]. change (beqb (txt "set") (txt "back")) with false. change (beqb (txt "set") (txt "help")) with false.
    change (beqb (txt "set") (txt "set")) with true. cbv iota. unfold set_line_step.
    destruct more as [|a [|b [|c [|d [|e r]]]]]; cbn [List.length] in HL; try reflexivity; exfalso; lia.
Qed.
Print Assumptions C67_inside.
Example C67_instance_words :
  begins (txt "help me") (txt "help") /\ ~ begins (txt "helpme") (txt "help") /\ like_exit (txt "eXIt") /\ like_exit [69; 120; 196; 176; 116]
  /\ words (txt "  back to the top ") (map txt ["back"; "to"; "the"; "top"]%string) /\ ~ like_exit (txt "exit now").
Proof.
  split; [right; exists (txt "me"); reflexivity|]. split; [intros X; apply split_begins in X; [discriminate X|plain]|].
  split; [apply lower_exit; reflexivity|]. split; [apply lower_exit; reflexivity|]. split; [apply words_spec; reflexivity|].
  intros X. apply lower_exit in X. discriminate X.
Qed.
