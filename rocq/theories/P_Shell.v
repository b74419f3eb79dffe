(** Lemmas about the interactive program. *)
From Coq Require Import Permutation Sorted.
From Verif Require Import Base M_Order M_Encoding M_Paths M_Keys M_Entry M_Map M_Store M_Query M_Payload M_Cli M_Shell
  S_Order S_Store S_Shell P_Order P_Encoding P_Paths P_Map P_Store P_History Prop_Store Prop_Cli.
Local Open Scope N_scope.

(** ** Words *)

Lemma white_spec c : white c = true <-> blank c.
Proof.
  unfold white, blank. rewrite orb_true_iff, andb_true_iff, N.eqb_eq, !N.leb_le. lia.
Qed.

Lemma trim_left_spec s : exists a, s = a ++ trim_left s /\ Forall blank a
  /\ forall c r, trim_left s = c :: r -> ~ blank c.
Proof.
  induction s as [|c s (a & E & F & G)]; cbn [trim_left].
  - exists []. split; [auto|]. split; [constructor|discriminate].
  - destruct (white c) eqn:W.
    + exists (c :: a). cbn [app]. split; [congruence|]. split; [constructor; auto; apply white_spec; auto|auto].
    + exists []. split; [auto|]. split; [constructor|]. intros d r E'. injection E' as <- <-.
      rewrite <- white_spec. congruence.
Qed.

Lemma trim_left_id s : (forall c r, s = c :: r -> ~ blank c) -> trim_left s = s.
Proof.
  destruct s as [|c s]; auto. intros H. cbn [trim_left]. destruct (white c) eqn:W; auto.
  exfalso. apply (H c s); auto. apply white_spec; auto.
Qed.

Lemma trim_left_app a s : Forall blank a -> trim_left (a ++ s) = trim_left s.
Proof.
  induction 1 as [|c a H _ IH]; auto. cbn [app trim_left]. apply white_spec in H. rewrite H. auto.
Qed.

Lemma Forall_rev_ {A} (P : A -> Prop) l : Forall P l -> Forall P (rev l).
Proof. rewrite !Forall_forall. intros H x Hx. apply H. apply in_rev. auto. Qed.

Lemma TrimSpace_trimmed l : trimmed l (TrimSpace l).
Proof.
  unfold TrimSpace. destruct (trim_left_spec l) as (a & E & F & G).
  destruct (trim_left_spec (rev (trim_left l))) as (b & E' & F' & G').
  set (y := trim_left (rev (trim_left l))) in *. set (x := trim_left l) in *.
  exists a, (rev b). assert (EX : x = rev y ++ rev b).
  { rewrite <- (rev_involutive x), E', rev_app_distr. auto. }
  split; [congruence|]. split; [auto|]. split; [apply Forall_rev_; auto|]. split.
  - intros c r EY. apply (G c (r ++ rev b)). rewrite EX, EY. auto.
  - intros r c EY. apply (G' c (rev r)). rewrite <- (rev_involutive y), EY, rev_app_distr. auto.
Qed.

Lemma trimmed_TrimSpace l x : trimmed l x -> TrimSpace l = x.
Proof.
  intros (a & b & -> & Fa & Fb & G1 & G2). unfold TrimSpace. rewrite trim_left_app by auto.
  destruct x as [|c x].
  - cbn [app]. rewrite <- (app_nil_r b), trim_left_app by auto. reflexivity.
  - rewrite (trim_left_id ((c :: x) ++ b)).
    2:{ intros d r E. cbn [app] in E. injection E as <- <-. eapply G1; eauto. }
    rewrite rev_app_distr, trim_left_app by (apply Forall_rev_; auto).
    rewrite trim_left_id, rev_involutive; auto.
    intros d r E. apply (G2 (rev r) d). rewrite <- (rev_involutive (c :: x)), E. auto.
Qed.

Lemma spaced_join ws : spaced ws = join 32 ws.
Proof.
  induction ws as [|w ws IH]; [reflexivity|]. destruct ws as [|v ws]; [reflexivity|].
  rewrite join_more, <- IH. reflexivity.
Qed.

Lemma words_spec l ws : words l ws <-> split_on 32 (TrimSpace l) = ws.
Proof.
  split.
  - intros (HN & F & T). apply trimmed_TrimSpace in T. rewrite T, spaced_join.
    apply split_join; auto. rewrite Forall_forall in F. auto.
  - intros <-. split; [apply split_nonempty|]. split; [apply Forall_forall; intros w; apply split_no_seps|].
    rewrite spaced_join, join_split. apply TrimSpace_trimmed.
Qed.

Lemma to_lower_keeps k s : k <> 196 -> k <> 176 -> ~ (65 <= k <= 90) -> In k s -> In k (to_lower s).
Proof.
  intros N1 N2 N3.
  assert (LK : (if (65 <=? k) && (k <=? 90) then k + 32 else k) = k).
  { destruct (N.leb_spec 65 k), (N.leb_spec k 90); cbn [andb]; auto; lia. }
  assert (H : forall n s, (length s <= n)%nat -> In k s -> In k (to_lower s)).
  { induction n as [|n IH]; intros s0 HL HI.
    - destruct s0; [destruct HI|cbn in HL; lia].
    - destruct s0 as [|c [|d s0]]; [destruct HI| |].
      + destruct HI as [->|[]]. left. exact LK.
      + cbn [to_lower]. destruct ((c =? 196) && (d =? 176)) eqn:E.
        * apply andb_true_iff in E. rewrite !N.eqb_eq in E. destruct E as [-> ->].
          destruct HI as [H|[H|HI]]; try congruence. right. apply IH; auto. cbn in HL. lia.
        * destruct HI as [->|HI]; [left; exact LK|]. right. apply (IH (d :: s0)); auto. cbn in HL. cbn. lia. }
  eapply H; eauto.
Qed.

Lemma to_lower_space s : In 32 s -> In 32 (to_lower s).
Proof. apply to_lower_keeps; lia. Qed.

Lemma words_list_not_exit l ws : words l (w_list :: ws) -> to_lower l <> w_exit.
Proof.
  intros (_ & _ & (a & b & E & _)) H. assert (HI : In 108 l).
  { rewrite E. apply in_or_app; right. apply in_or_app; left. destruct ws; left; reflexivity. }
  apply to_lower_keeps in HI; try lia. rewrite H in HI. cbn in HI. lia.
Qed.

(** A line of several words is not "exit". *)
Lemma words_not_exit l w v ws : words l (w :: v :: ws) -> to_lower l <> w_exit.
Proof.
  intros (_ & _ & (a & b & E & _)) H. assert (HI : In 32 l).
  { rewrite E. apply in_or_app; right. apply in_or_app; left. cbn [spaced]. apply in_or_app; right. left. auto. }
  apply to_lower_space in HI. rewrite H in HI. cbn in HI. lia.
Qed.

Lemma shell_run_snoc pp hash fname sort items i w :
  shell_run pp hash fname sort (items ++ [i]) w
  = fst (shell_step pp hash fname sort i (shell_run pp hash fname sort items w)).
Proof. unfold shell_run. rewrite fold_left_app. reflexivity. Qed.

Section Shell.
Context (pp : path_params) (hash : bytes -> bytes) (fname : bytes -> bytes) (sort : list node -> list node).
Notation cfg_of := (cfg_of pp hash fname).
Notation shell_run := (shell_run pp hash fname sort).
Notation shell_step := (shell_step pp hash fname sort).
Notation typed := (typed pp hash fname sort).
Context (U : bytes -> Prop) (PP : store_params pp) (HU : universe (cfg_of []) U).

Lemma HU_ns ns : universe (cfg_of ns) U.
Proof. exact HU. Qed.

(** ** One operation more *)
Lemma reached_empty ns : reached (cfg_of ns) U [] empty_store.
Proof. split; [|reflexivity]. split; [exact PP|]. split; [apply HU_ns|]. split; [constructor|]. cbn. lia. Qed.

Lemma reached_reopen ns ops st : reached (cfg_of ns) U ops st -> len ops + 2 < 2 ^ 64 ->
  exists st', reopen (cfg_of ns) st = Ok st' /\ reached (cfg_of ns) U (ops ++ [OpReopen]) st'
    /\ (forall e, offered (cfg_of ns) (ops ++ [OpReopen]) e <-> offered (cfg_of ns) ops e).
Proof.
  intros H L. destruct (C26_restart_partial _ _ _ _ H) as (st' & E & _). exists st'. split; auto.
  pose proof H as [(_ & _ & F & _) R]. split; [split|].
  - split; [exact PP|]. split; [apply HU_ns|]. split; [apply Forall_app; repeat constructor; auto|].
    rewrite len_app. change (len [OpReopen]) with 1. lia.
  - rewrite run_app, R. cbn [run step]. rewrite E. reflexivity.
  - intros e. rewrite offered_snoc. cbn [offer]. intuition discriminate.
Qed.

Lemma reached_Set ns ops st i now : reached (cfg_of ns) U ops st -> len ops + 2 < 2 ^ 64 ->
  op_ok (cfg_of ns) U (OpSet i (i_sub i) now) ->
  exists r st', Set_ (cfg_of ns) i (i_sub i) now st = (r, st')
    /\ (r = Err /\ tree st' = tree st \/ exists pruned, r = Ok pruned /\ Forall (fun e => e_path e <> []) pruned)
    /\ reached (cfg_of ns) U (ops ++ [OpSet i (i_sub i) now]) st'
    /\ (forall e, offered (cfg_of ns) (ops ++ [OpSet i (i_sub i) now]) e
          <-> offered (cfg_of ns) ops e \/ e = set_entry (cfg_of ns) i now).
Proof.
  intros H L O. pose proof H as [(_ & _ & F & _) R].
  destruct (reached_runs (cfg_of ns) U PP (HU_ns ns) _ _ H) as (n & xs & RR).
  pose proof (runs_Inv _ _ _ _ _ _ RR) as (I & HL & _). assert (Hn : n + 1 < 2 ^ 64) by lia.
  assert (HO : history_ok (cfg_of ns) U (ops ++ [OpSet i (i_sub i) now])).
  { split; [exact PP|]. split; [apply HU_ns|]. split; [apply Forall_app; split; auto|].
    rewrite len_app. change (len [OpSet i (i_sub i) now]) with 1. lia. }
  assert (HOff : forall e, offered (cfg_of ns) (ops ++ [OpSet i (i_sub i) now]) e
          <-> offered (cfg_of ns) ops e \/ e = set_entry (cfg_of ns) i now).
  { intros e. rewrite offered_snoc. cbn [offer]. split; (intros [A|A]; [left; auto|right]).
    - destruct A as [_ A]. congruence.
    - subst e. split; reflexivity. }
  destruct (Set_spec (cfg_of ns) U PP (HU_ns ns) n xs st i (i_sub i) now Hn I (proj1 O) (proj2 O))
    as [(A & pr & s' & E & HP & I' & K & _)|(A & s' & E & I' & S & K)].
  - exists (Ok pr), s'. split; auto. split.
    { right. exists pr. split; auto. apply Forall_forall. intros e He.
      eapply Permutation_in in He; [|exact HP]. apply filter_In in He as [_ He]. intros EP.
      destruct (prunesb_spec (set_entry (cfg_of ns) i now) e (ok_path _ _ _ (proj2 O)))
        as [((_ & _ & (c & r & Hq)) & _)|]; [|discriminate].
      rewrite EP in Hq. destruct (e_path (set_entry (cfg_of ns) i now)); discriminate Hq. }
    split; [split|]; auto. rewrite run_app, R. cbn [run step]. rewrite E. reflexivity.
  - exists Err, s'. split; auto. split; [left; split; auto; apply S|]. split; [split|]; auto.
    rewrite run_app, R. cbn [run step]. rewrite E. reflexivity.
Qed.

(** ** The invariant *)

Definition only_sets (ops : list op) : Prop :=
  Forall (fun o => match o with OpIngest _ _ => False | _ => True end) ops.

(** Every namespace holds a store reached by the "set" lines [T] typed in it. *)
Definition stores (T : bytes -> entry -> Prop) (n : N) (w : world) : Prop :=
  (forall ns sp, mget (w_spaces w) ns = Some sp ->
     exists ops, reached (cfg_of ns) U ops (s_store sp) /\ len ops <= n /\ only_sets ops
       /\ (forall e, offered (cfg_of ns) ops e <-> T ns e)
       /\ (s_dir sp = true <-> exists e, T ns e))
  /\ (forall ns, mget (w_spaces w) ns = None -> forall e, ~ T ns e).

Definition inside_ok (w : world) : Prop :=
  forall ns, w_mode w = Inside ns ->
    In ns (w_open w) /\ exists sp, mget (w_spaces w) ns = Some sp /\ w_json w = Some (tree (s_store sp)).

Lemma stores_ext T T' n n' w w' : (forall ns e, T ns e <-> T' ns e) -> n <= n' -> w_spaces w' = w_spaces w ->
  stores T n w -> stores T' n' w'.
Proof.
  intros HT Hn E [A B]. split; rewrite E.
  - intros ns sp H. destruct (A ns sp H) as (ops & H1 & H2 & H3 & H4 & H5). exists ops. split; [auto|].
    split; [lia|]. split; [auto|]. split; [intros e; rewrite H4; apply HT|]. rewrite H5. split; intros (e & X); exists e; apply HT; exact X.
  - intros ns H e X. apply HT in X. eapply B; eauto.
Qed.

Lemma stores_get T n w ns : stores T n w ->
  let sp := match mget (w_spaces w) ns with Some s => s | None => Space empty_store false end in
  exists ops, reached (cfg_of ns) U ops (s_store sp) /\ len ops <= n /\ only_sets ops
       /\ (forall e, offered (cfg_of ns) ops e <-> T ns e)
       /\ (s_dir sp = true <-> exists e, T ns e).
Proof.
  intros [A B]. destruct (mget (w_spaces w) ns) as [sp|] eqn:E; cbn; [auto|].
  exists []. cbn. split; [apply reached_empty|]. split; [lia|]. split; [constructor|].
  split; [|split; [discriminate|intros (e & X); exfalso; eapply B; eauto]].
  intros e. split; [intros (_ & o & [] & _)|intros X; exfalso; eapply B; eauto].
Qed.

Lemma stores_put T T' n n' w ns sp ops :
  stores T n w -> n <= n' -> (forall m e, m <> ns -> (T m e <-> T' m e)) ->
  reached (cfg_of ns) U ops (s_store sp) -> len ops <= n' -> only_sets ops ->
  (forall e, offered (cfg_of ns) ops e <-> T' ns e) -> (s_dir sp = true <-> exists e, T' ns e) ->
  stores T' n' (put_space ns sp w).
Proof.
  intros [A B] Hn HT H1 H2 H3 H4 H5. split; cbn [put_space w_spaces]; intros m; rewrite mget_mset;
    destruct (beqb_spec m ns) as [->|HM].
  - intros s E. injection E as <-. exists ops. auto.
  - intros s E. destruct (A m s E) as (o & K1 & K2 & K3 & K4 & K5). exists o. split; [auto|]. split; [lia|].
    split; [auto|]. split; [intros e; rewrite K4; apply HT; auto|]. rewrite K5. split; intros (e & X); exists e; apply (HT m e HM); exact X.
  - discriminate.
  - intros E e X. apply HT in X; auto. eapply B; eauto.
Qed.

Lemma enter_spec T n w ns : stores T n w -> n + 2 < 2 ^ 64 ->
  stores T (n + 1) (fst (enter pp hash fname ns w)) /\ inside_ok (fst (enter pp hash fname ns w))
  /\ (w_mode (fst (enter pp hash fname ns w)) = Died /\ In ns (w_open w)
       \/ w_mode (fst (enter pp hash fname ns w)) = Inside ns /\ w_open (fst (enter pp hash fname ns w)) = ns :: w_open w /\ ~ In ns (w_open w)).
Proof.
  intros S L. unfold enter. destruct (existsb (beqb ns) (w_open w)) eqn:EO.
  - cbn [fst]. split; [eapply stores_ext; [..|exact S]; [tauto|lia|reflexivity]|]. split; [intros m E; discriminate E|].
    left. split; [reflexivity|]. apply existsb_exists in EO as (x & Hx & E). destruct (beqb_spec ns x); congruence.
  - assert (NI : ~ In ns (w_open w)).
    { intros H. rewrite <- not_true_iff_false in EO. apply EO. apply existsb_exists. exists ns. split; auto. apply beqb_refl. }
    pose proof (stores_get T n w ns S) as G. cbv zeta in G. set (sp := match mget (w_spaces w) ns with Some s => s | None => _ end) in *.
    clearbody sp. destruct G as (ops & H1 & H2 & H3 & H4 & H5).
    destruct (reached_reopen ns ops (s_store sp) H1) as (st & E & R & O); [lia|]. rewrite E. cbn [fst].
    split; [|split; [|right; auto]].
    + eapply (stores_ext T T (n + 1) (n + 1) (put_space ns (Space st (s_dir sp)) w)); [tauto|lia| |].
      * reflexivity.
      * eapply stores_put; [exact S|lia|tauto|exact R| | | |].
        -- rewrite len_app. change (len [OpReopen]) with 1. lia.
        -- apply Forall_app. repeat constructor; auto.
        -- intros e. rewrite O. auto.
        -- auto.
    + intros m E'. cbn in E'. injection E' as <-. split; [left; auto|]. eexists. cbn. rewrite mget_mset, beqb_refl. split; reflexivity.
Qed.

Lemma do_set_spec T n w ns sp s p b t now :
  let i := Input s (parse_path p) b t in
  stores T n w -> n + 2 < 2 ^ 64 -> w_mode w = Inside ns -> inside_ok w -> mget (w_spaces w) ns = Some sp ->
  op_ok (cfg_of ns) U (OpSet i (i_sub i) now) ->
  let w' := fst (do_set pp hash fname ns sp s p b t now w) in
  stores (fun m e => T m e \/ m = ns /\ e = set_entry (cfg_of ns) i now) (n + 1) w'
  /\ inside_ok w' /\ w_mode w' = Inside ns /\ w_open w' = w_open w /\ w_known w' = w_known w.
Proof.
  intros i S L HM IO EG O w'. subst w'.
  destruct (proj1 S ns sp EG) as (ops & H1 & H2 & H3 & H4 & H5).
  assert (L' : len ops + 2 < 2 ^ 64) by lia.
  destruct (reached_Set ns ops (s_store sp) i now H1 L' O) as (r & st & E & HR & R & OO).
  assert (SP : forall w1, w_spaces w1 = w_spaces (put_space ns (Space st true) w) ->
    stores (fun m e => T m e \/ m = ns /\ e = set_entry (cfg_of ns) i now) (n + 1) w1).
  { intros w1 E1. eapply stores_ext; [intros; apply iff_refl|apply N.le_refl|exact E1|].
    eapply (stores_put T _ n (n + 1) w ns (Space st true) (ops ++ [OpSet i (i_sub i) now])); [exact S|lia| |exact R| | | |].
    - intros m e HN. tauto.
    - rewrite len_app. change (len [OpSet i (i_sub i) now]) with 1. lia.
    - apply Forall_app. repeat constructor; auto.
    - intros e. rewrite OO, H4. tauto.
    - cbn. split; eauto. }
  assert (IO' : forall l, l = tree st -> inside_ok (World (w_known w) (mset (w_spaces w) ns (Space st true)) (w_open w) (Some l) (w_mode w))).
  { intros l El m Em. cbn in Em. rewrite HM in Em. injection Em as <-. cbn. split; [apply (IO ns HM)|].
    exists (Space st true). rewrite mget_mset, beqb_refl. subst. auto. }
  unfold do_set. change (Input s (parse_path p) b t) with i. change s with (i_sub i). rewrite E.
  destruct HR as [[-> HT]|(pr & -> & HF)].
  - cbn [fst]. split; [apply SP; reflexivity|]. split; [|auto].
    destruct (IO ns HM) as (_ & sp' & EG' & EJ). rewrite EG in EG'. injection EG' as <-.
    intros m Em. specialize (IO' (tree (s_store sp)) (eq_sym HT) m Em). cbn in *. rewrite EJ. exact IO'.
  - assert (HM' : exists rows, map_res (fun e => do p0 <- makePath (e_path e); Ok (e_subspace e, p0, e_time e)) pr = Ok rows).
    { clear -HF. induction HF as [|e l H _ (rows & IH)]; [eexists; reflexivity|]. cbn [map_res] in *.
      destruct (e_path e) as [|c q]; [congruence|]. cbn [makePath bind]. rewrite IH. cbn [bind]. eexists; reflexivity. }
    destruct HM' as (rows & ER). rewrite ER. destruct rows; cbn [fst];
      (split; [apply SP; reflexivity|]; split; [|auto]); apply IO'; reflexivity.
Qed.

(** ** Lines inside a namespace *)

Lemma asks_inside ns l now fs i w : asks l fs i ->
  exists s p b t, i = Input s (parse_path p) b t
    /\ inside_line pp hash fname sort ns l now fs w
       = do_set pp hash fname ns (match mget (w_spaces w) ns with Some s => s | None => Space empty_store false end) s p b t now w.
Proof.
  intros H. unfold inside_line. destruct H as [s p f b W F|s p f t b W F T].
  - exists s, p, b, 0. split; auto. destruct (beqb_spec (to_lower l) w_exit) as [X|_]; [exfalso; eapply words_not_exit; eauto|].
    apply words_spec in W. rewrite W. cbn [hd]. change (beqb w_set w_back) with false. change (beqb w_set w_help) with false.
    rewrite beqb_refl. cbn [set_line_step]. rewrite F. reflexivity.
  - exists s, p, b, (parseTimeStampToMicroSeconds t). split; auto.
    destruct (beqb_spec (to_lower l) w_exit) as [X|_]; [exfalso; eapply words_not_exit; eauto|].
    apply words_spec in W. rewrite W. cbn [hd]. change (beqb w_set w_back) with false. change (beqb w_set w_help) with false.
    rewrite beqb_refl. cbn [set_line_step]. rewrite F. cbv zeta. destruct (N.eqb_spec (parseTimeStampToMicroSeconds t) 0); [congruence|reflexivity].
Qed.

Lemma asks_unique l fs i i' : asks l fs i -> asks l fs i' -> i = i'.
Proof.
  intros H H'. destruct H as [s p f b W F|s p f t b W F T]; destruct H' as [s' p' f' b' W' F'|s' p' f' t' b' W' F' T'];
    apply words_spec in W; apply words_spec in W'; rewrite W in W'; try discriminate W';
    injection W' as <- <- <- ; try (injection W' as <-); subst; congruence.
Qed.

(** Any other line changes no store. *)
Lemma others_inside ns l now fs w : (forall i, ~ asks l fs i) ->
  let w' := fst (inside_line pp hash fname sort ns l now fs w) in
  w_spaces w' = w_spaces w /\ w_json w' = w_json w /\ w_known w' = w_known w
  /\ (w' = w \/ w_mode w' = Top /\ (w_open w' = w_open w /\ gives_up l fs \/ w_open w' = filter (fun x => negb (beqb ns x)) (w_open w))
      \/ w_mode w' = Died /\ w_open w' = w_open w).
Proof.
  intros NA. cbv zeta. unfold inside_line.
  destruct (beqb (to_lower l) w_exit); [cbn; auto 10|].
  destruct (beqb _ w_back); [cbn; auto 10|]. destruct (beqb _ w_help); [cbn; auto 10|].
  destruct (beqb_spec (hd [] (split_on 32 (TrimSpace l))) w_set) as [ES|_].
  - unfold set_line_step. destruct (split_on 32 (TrimSpace l)) as [|o [|s [|p [|f [|t [|x r]]]]]] eqn:EW; try (cbn; auto 10).
    + cbn in ES. subst o. apply words_spec in EW. destruct (fs f) as [| |b] eqn:EF; cbn; auto 10.
      * assert (gives_up l fs) by (eapply gives_up_file; eauto; cbn; lia). auto 10.
      * exfalso. eapply NA. eapply asks_now; eauto.
    + cbn in ES. subst o. apply words_spec in EW. destruct (fs f) as [| |b] eqn:EF; cbn; auto 10.
      * assert (gives_up l fs) by (eapply gives_up_file; eauto; cbn; lia). auto 10.
      * destruct (N.eqb_spec (parseTimeStampToMicroSeconds t) 0) as [ET|ET]; cbn; auto 10.
        -- assert (gives_up l fs) by (eapply gives_up_time; eauto). auto 10.
        -- exfalso. eapply NA. eapply asks_at; eauto.
  - destruct (beqb _ w_get).
    + destruct (split_on 32 (TrimSpace l)) as [|o [|s [|p [|x r]]]]; try (cbn; auto 10).
      destruct (cli_get _ _ _ _ _); cbn; auto 10.
    + destruct (beqb _ w_list); [destruct (list_rows sort _); cbn; auto 10|].
      destruct (beqb _ w_clear); cbn; auto 10.
Qed.

(** ** Lines at the first prompt *)
Lemma top_cases l w : w_mode w = Top ->
  let w' := fst (top_line pp hash fname l w) in
  w' = w \/ (exists m, (m = Died \/ m = Ended \/ exists ns, m = Confirm ns) /\ w' = set_mode m w)
  \/ (exists ns, In ns (w_known w) /\ w' = fst (enter pp hash fname ns w)).
Proof.
  intros HM. cbv zeta. unfold top_line.
  assert (HK : forall ns, existsb (beqb ns) (w_known w) = true -> In ns (w_known w)).
  { intros ns H. apply existsb_exists in H as (x & Hx & E). destruct (beqb_spec ns x); congruence. }
  destruct (beqb _ w_help); [auto|]. destruct (beqb _ w_new).
  - destruct (existsb (beqb l) (w_known w)) eqn:E; [right; right; exists l; auto|].
    destruct (nth_error _ 1) as [ns|]; right; left; eexists; (split; [|reflexivity]); eauto.
  - destruct (beqb _ w_list); [destruct (w_known w); auto|].
    destruct (beqb _ w_exit); [right; left; eexists; (split; [|reflexivity]); auto|].
    destruct (beqb _ w_enter); [|auto].
    destruct (split_on 32 l) as [|o [|ns [|x r]]]; auto.
    destruct (existsb (beqb ns) (w_known w)) eqn:E; auto. right; right; exists ns; auto.
Qed.
End Shell.
