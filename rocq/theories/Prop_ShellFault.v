(** C90: the interactive program when calls of pebble and of the file system fail. *)
From Coq Require Import Ascii String.
From Verif Require Import Base M_Order M_Encoding M_Paths M_Successor M_Ranges M_Keys M_Entry M_Map M_Store M_Query M_Payload M_Cli M_Shell M_Fault M_ShellFault
  S_Order S_Store S_Shell P_Order P_Encoding P_Paths P_Successor P_Keys P_Map P_Store P_Demo P_Fault P_Shell Prop_Store Prop_Fault Prop_Start Prop_Shell.
Local Open Scope N_scope.

Section ShellFault.
Context (pp : path_params) (hash : bytes -> bytes) (fname : bytes -> bytes) (sort : list node -> list node).
Notation cfg_of := (cfg_of pp hash fname).
Notation f_run := (f_shell_run pp hash fname sort).
Notation f_step := (f_shell_step pp hash fname sort).

(** A line asking for [i] was typed inside the namespace at time [now]. *)
Definition told (ns : bytes) (items : list fitem) (i : input) (now : N) : Prop :=
  exists before l fs os after,
    items = before ++ (Line l now fs, os) :: after /\ w_mode (f_run before new_world) = Inside ns /\ asks l fs i.

(** The store of a namespace that was never entered is empty. *)
Definition space_at (w : world) (ns : bytes) : space :=
  match mget (w_spaces w) ns with Some s => s | None => Space empty_store false end.

(** ** Lines *)

Lemma f_asks_inside ns l now fs i os w : asks l fs i ->
  exists s p b t, i = Input s (parse_path p) b t
    /\ f_inside_line pp hash fname sort ns l now fs os w
       = match next os with Fine => f_do_set pp hash fname ns (space_at w ns) s p b t now (tl os) w | _ => (set_mode Died w, []) end.
Proof.
  intros H. unfold f_inside_line. fold (space_at w ns). destruct H as [s p f b W F|s p f t b W F T].
  - exists s, p, b, 0. split; auto. destruct (beqb_spec (to_lower l) w_exit) as [X|_]; [exfalso; eapply words_not_exit; eauto|].
    apply words_spec in W. rewrite W. cbn [hd]. change (beqb w_set w_back) with false. change (beqb w_set w_help) with false.
    rewrite beqb_refl. cbn [f_set_line_step]. rewrite F. reflexivity.
  - exists s, p, b, (parseTimeStampToMicroSeconds t). split; auto.
    destruct (beqb_spec (to_lower l) w_exit) as [X|_]; [exfalso; eapply words_not_exit; eauto|].
    apply words_spec in W. rewrite W. cbn [hd]. change (beqb w_set w_back) with false. change (beqb w_set w_help) with false.
    rewrite beqb_refl. cbn [f_set_line_step]. rewrite F. cbv zeta. destruct (N.eqb_spec (parseTimeStampToMicroSeconds t) 0); [congruence|reflexivity].
Qed.

Lemma f_others_inside ns l now fs os w : (forall i, ~ asks l fs i) ->
  let w' := fst (f_inside_line pp hash fname sort ns l now fs os w) in
  w_spaces w' = w_spaces w /\ w_json w' = w_json w /\ (w_mode w' = w_mode w \/ w_mode w' = Top \/ w_mode w' = Died).
Proof.
  intros NA. cbv zeta. unfold f_inside_line.
  destruct (beqb (to_lower l) w_exit); [cbn; auto 10|].
  destruct (beqb _ w_back); [cbn; auto 10|]. destruct (beqb _ w_help); [cbn; auto 10|].
  destruct (beqb_spec (hd [] (split_on 32 (TrimSpace l))) w_set) as [ES|_].
  - unfold f_set_line_step. destruct (split_on 32 (TrimSpace l)) as [|o [|s [|p [|f [|t [|x r]]]]]] eqn:EW; try (cbn; auto 10).
    + cbn in ES. subst o. apply words_spec in EW. destruct (fs f) as [| |b] eqn:EF; [cbn; auto 10|destruct (next os); cbn; auto 10|].
      destruct (next os); [|cbn; auto 10..]. exfalso. eapply NA. eapply asks_now; eauto.
    + cbn in ES. subst o. apply words_spec in EW. destruct (fs f) as [| |b] eqn:EF; [cbn; auto 10|destruct (next os); cbn; auto 10|].
      destruct (next os); [|cbn; auto 10..]. cbv zeta.
      destruct (N.eqb_spec (parseTimeStampToMicroSeconds t) 0) as [ET|ET]; [cbn; auto 10|].
      exfalso. eapply NA. eapply asks_at; eauto.
  - destruct (beqb _ w_get).
    + destruct (split_on 32 (TrimSpace l)) as [|o [|s [|p [|x r]]]]; try (cbn; auto 10).
      destruct (f_cli_get _ _ _ _ _ _); cbn; auto 10.
    + destruct (beqb _ w_list); [destruct (list_rows sort _); cbn; auto 10|].
      destruct (beqb _ w_clear); cbn; auto 10.
Qed.

Lemma f_top_cases l os w : w_mode w = Top ->
  let w' := fst (f_top_line pp hash fname l os w) in
  (w_spaces w' = w_spaces w /\ forall ns, w_mode w' <> Inside ns) \/ exists ns, f_top_line pp hash fname l os w = f_enter pp hash fname ns os w.
Proof.
  intros HM. cbv zeta. unfold f_top_line.
  destruct (beqb _ w_help); [cbn; rewrite HM; left; split; [reflexivity|discriminate]|]. destruct (beqb _ w_new).
  - destruct (existsb (beqb l) (w_known w)) eqn:E; [eauto|]. destruct (nth_error _ 1) as [ns|]; cbn; left; split; auto; discriminate.
  - destruct (beqb _ w_list); [destruct (w_known w); cbn; rewrite HM; left; split; auto; discriminate|].
    destruct (beqb _ w_exit); [cbn; left; split; auto; discriminate|].
    destruct (beqb _ w_enter); [|cbn; rewrite HM; left; split; auto; discriminate].
    destruct (split_on 32 l) as [|o [|ns [|x r]]]; try (cbn; rewrite HM; left; split; auto; discriminate).
    destruct (existsb (beqb ns) (w_known w)) eqn:E; [eauto|cbn; rewrite HM; left; split; auto; discriminate].
Qed.

Lemma json_spaces l os w : w_spaces (fst (f_writeEntriesToFile l os w)) = w_spaces w /\ w_mode (fst (f_writeEntriesToFile l os w)) = w_mode w.
Proof. unfold f_writeEntriesToFile. destruct (next os); cbn; auto. Qed.

Lemma f_enter_spaces ns os w :
  w_spaces (fst (f_enter pp hash fname ns os w)) = w_spaces w
  \/ exists r st os', f_reopen (cfg_of ns) (s_store (space_at w ns), os) = (r, (st, os'))
       /\ w_spaces (fst (f_enter pp hash fname ns os w)) = mset (w_spaces w) ns (Space st (s_dir (space_at w ns))).
Proof.
  unfold f_enter. fold (space_at w ns). destruct (existsb _ _); [left; reflexivity|]. right. cbv zeta.
  destruct (f_reopen (cfg_of ns) (s_store (space_at w ns), os)) as [r [st os']] eqn:E. exists r, st, os'. split; [reflexivity|].
  destruct r; try reflexivity. rewrite (proj1 (json_spaces _ _ _)). reflexivity.
Qed.

Lemma f_do_set_spaces ns sp s p b t now os w :
  exists r st os', f_Set (cfg_of ns) (Input s (parse_path p) b t) s now (s_store sp, os) = (r, (st, os'))
    /\ w_spaces (fst (f_do_set pp hash fname ns sp s p b t now os w)) = mset (w_spaces w) ns (Space st true).
Proof.
  unfold f_do_set. destruct (f_Set _ _ _ _ _) as [r [st os']]. exists r, st, os'. split; [reflexivity|].
  destruct r as [pr| | | |]; try reflexivity.
  destruct (f_writeEntriesToFile (List_ st) os' (put_space ns (Space st true) w)) as [w1 out] eqn:EJ.
  pose proof (json_spaces (List_ st) os' (put_space ns (Space st true) w)) as [J _]. rewrite EJ in J. cbn [fst] in J.
  destruct (map_res _ pr) as [[|x rows]| | | |]; cbn [fst]; rewrite ?J; try reflexivity; cbn [set_mode w_spaces]; exact J.
Qed.

(** What one input does to the stores: nothing, or it opens one, or it sets an entry in one. *)
Lemma f_step_spaces it os w :
  let w' := fst (f_step (it, os) w) in
  (w_spaces w' = w_spaces w)
  \/ (exists ns r st os', f_reopen (cfg_of ns) (s_store (space_at w ns), os) = (r, (st, os'))
        /\ w_spaces w' = mset (w_spaces w) ns (Space st (s_dir (space_at w ns))))
  \/ (exists ns l now fs i r st os', w_mode w = Inside ns /\ it = Line l now fs /\ asks l fs i
        /\ f_Set (cfg_of ns) i (i_sub i) now (s_store (space_at w ns), tl os) = (r, (st, os'))
        /\ w_spaces w' = mset (w_spaces w) ns (Space st true)).
Proof.
  cbv zeta. destruct it as [l now fs| |]; cbn [f_shell_step].
  - destruct (w_mode w) as [|cns|ns| |] eqn:EM; try (left; reflexivity).
    + destruct (f_top_cases l os w EM) as [[E _]|(ns & E)]; [auto|]. rewrite E.
      destruct (f_enter_spaces ns os w) as [H|(r & st & os' & H1 & H2)]; [auto|]. right. left. exists ns, r, st, os'. auto.
    + unfold f_confirm_line. destruct (beqb l [121]); [|left; reflexivity].
      destruct (f_enter_spaces cns os (set_mode Top w)) as [H|(r & st & os' & H1 & H2)]; [auto|]. right. left. exists cns, r, st, os'. auto.
    + destruct (asks_dec l fs) as [(i & A)|NA].
      * destruct (f_asks_inside ns l now fs i os w A) as (s & p & b & t & -> & ->). destruct (next os); [|left; reflexivity..].
        destruct (f_do_set_spaces ns (space_at w ns) s p b t now (tl os) w) as (r & st & os' & H1 & H2).
        right. right. exists ns, l, now, fs. do 4 eexists. split; [reflexivity|]. split; [reflexivity|]. split; [exact A|]. split; [exact H1|exact H2].
      * left. apply (f_others_inside ns l now fs os w NA).
  - left. destruct (w_mode w); reflexivity.
  - left. unfold f_start. destruct (next os), (w_spaces w) as [|x m] eqn:E, (next (tl os)); cbn; congruence.
Qed.

Lemma f_run_snoc items x w : f_run (items ++ [x]) w = fst (f_step x (f_run items w)).
Proof. unfold f_shell_run. rewrite fold_left_app. reflexivity. Qed.

Lemma told_more ns items x i now : told ns items i now -> told ns (items ++ [x]) i now.
Proof. intros (a & l & fs & os & b & -> & M & A). exists a, l, fs, os, (b ++ [x]). rewrite <- app_assoc. auto. Qed.
Lemma told_last ns items l now fs os i : w_mode (f_run items new_world) = Inside ns -> asks l fs i -> told ns (items ++ [(Line l now fs, os)]) i now.
Proof. intros M A. exists items, l, fs, os, []. auto. Qed.

(** A property of stores that no operation destroys. *)
Lemma f_run_inv (P : bytes -> list fitem -> state -> Prop) items :
  (forall ns, P ns [] empty_store) ->
  (forall ns items x st, P ns items st -> P ns (items ++ [x]) st) ->
  (forall ns items st os r st' os', P ns items st -> f_reopen (cfg_of ns) (st, os) = (r, (st', os')) -> P ns items st') ->
  (forall ns items i now st os r st' os', P ns items st -> told ns items i now ->
     f_Set (cfg_of ns) i (i_sub i) now (st, os) = (r, (st', os')) -> P ns items st') ->
  forall ns, P ns items (s_store (space_at (f_run items new_world) ns)).
Proof.
  intros H0 HX HR HS. assert (HE : forall ns items, P ns items empty_store).
  { intros ns items0. induction items0 as [|x l IH] using rev_ind; auto. }
  induction items as [|[it os] items IH] using rev_ind; intros ns; [apply H0|]. rewrite f_run_snoc.
  destruct (f_step_spaces it os (f_run items new_world)) as [E|[(m & r & st & os' & E1 & E2)|(m & l & now & fs & i & r & st & os' & M & -> & A & E1 & E2)]].
  - unfold space_at. rewrite E. apply HX, IH.
  - unfold space_at at 1. rewrite E2, mget_mset. destruct (beqb_spec ns m) as [->|_]; [|apply HX, IH].
    cbn [s_store]. apply HX. eapply HR; [apply IH|exact E1].
  - unfold space_at at 1. rewrite E2, mget_mset. destruct (beqb_spec ns m) as [->|_]; [|apply HX, IH].
    cbn [s_store]. eapply HS; [apply HX, IH|apply told_last; eauto|exact E1].
Qed.

(** Lines whose paths are within the limits, with numbers of a 64-bit machine. *)
Definition line_ok (x : fitem) : Prop :=
  match fst x with
  | Line l now fs => forall i ns, asks l fs i -> op_bounded (cfg_of ns) (OpSet i (i_sub i) now)
  | _ => True
  end.
Lemma told_ok ns items i now : Forall line_ok items -> told ns items i now -> op_bounded (cfg_of ns) (OpSet i (i_sub i) now).
Proof.
  intros F (a & l & fs & os & b & -> & _ & A). apply Forall_app in F as [_ F]. inversion F as [|x y H _]; subst. apply (H i ns A).
Qed.

(** ** Whatever fails *)

(** The database of a namespace records nothing but entries typed inside the namespace. *)
Definition recorded (ns : bytes) (items : list fitem) (m : bmap bytes) : Prop :=
  forall k v, In (k, v) m -> exists i now, told ns items i now
    /\ k = EncodeKey (EntryPosition (set_entry (cfg_of ns) i now)) pp
    /\ v = EncodeValues (Values (len (i_payload i)) (hash (i_payload i)) (hash (i_sub i))).
Lemma recorded_more ns items x m : recorded ns items m -> recorded ns (items ++ [x]) m.
Proof. intros H k v I. destruct (H k v I) as (i & now & T & E). exists i, now. split; [apply told_more, T|exact E]. Qed.

Theorem C90_recorded items ns : recorded ns items (kv (s_store (space_at (f_run items new_world) ns))).
Proof.
  apply (f_run_inv (fun ns items st => recorded ns items (kv st))).
  - intros m k v [].
  - intros m l x st H. apply recorded_more, H.
  - intros m l st os r st' os' H E. rewrite (reopen_kv _ _ _ _ _ _ E). exact H.
  - intros m l i now st os r st' os' H T E.
    apply (step_kv (recorded m l) (cfg_of m) (OpSet i (i_sub i) now) st os r st' os'); [exact H| | |exact E].
    + intros k x Hx k' v' I. apply Hx. unfold mdel in I. apply filter_In in I as [I _]. exact I.
    + intros e x O _ Hx k v I. apply mset_In in I as [I|I]; [|apply Hx, I]. cbn [offer] in O. inversion O; subst e. inversion I; subst.
      exists i, now. split; [exact T|]. split; reflexivity.
Qed.

Lemma f_run_sorted items ns : msorted (kv (s_store (space_at (f_run items new_world) ns))).
Proof.
  apply (f_run_inv (fun ns items st => msorted (kv st))).
  - constructor.
  - auto.
  - intros m l st os r st' os' H E. rewrite (reopen_kv _ _ _ _ _ _ E). exact H.
  - intros m l i now st os r st' os' H T E.
    apply (step_kv msorted (cfg_of m) (OpSet i (i_sub i) now) st os r st' os'); auto using mdel_sorted, mset_sorted.
Qed.

(** So it holds nothing but entries typed inside it. *)
Theorem C90_holds items ns e : store_params pp -> Forall line_ok items ->
  holds pp hash fname (f_run items new_world) ns e -> exists i now, told ns items i now /\ e = set_entry (cfg_of ns) i now.
Proof.
  intros PP F (sp & EG & En & k & v & x & I & Dk & Dv & Ed & El).
  pose proof (C90_recorded items ns) as R. unfold space_at in R. rewrite EG in R. destruct (R k v I) as (i & now & T & -> & ->).
  exists i, now. split; [exact T|]. pose proof (told_ok _ _ _ _ F T) as (_ & B). change (codec_entry (cfg_of ns) (set_entry (cfg_of ns) i now)) in B.
  change (DecodeKey (EncodeKey (EntryPosition (set_entry (cfg_of ns) i now)) (c_pp (cfg_of ns))) (c_pp (cfg_of ns)) = Ok (Position (e_subspace e) (e_path e) (e_time e))) in Dk.
  rewrite (codec_key (cfg_of ns) _ PP B) in Dk. pose proof (codec_value (cfg_of ns) _ B) as V. cbn in V. unfold M_Shell.cfg_of in *. cbn in Dv. rewrite V in Dv.
  inversion Dv; subst x. cbn in Ed, El. inversion Dk. destruct e. cbn in *. subst. reflexivity.
Qed.

(** A payload file holds the first bytes of a file named on a line typed inside the namespace, or of its subspace, under
    the name of its digest. *)
Definition filed (ns : bytes) (items : list fitem) (m : bmap bytes) : Prop :=
  forall k c, In (k, c) m -> exists i now b n, told ns items i now /\ (b = i_payload i \/ b = i_sub i) /\ k = fname (hash b) /\ c = firstn n b.
Theorem C90_files items ns : filed ns items (files (s_store (space_at (f_run items new_world) ns))).
Proof.
  apply (f_run_inv (fun ns items st => filed ns items (files st))).
  - intros m k v [].
  - intros m l x st H k c I. destruct (H k c I) as (i & now & b & n & T & E). exists i, now, b, n. split; [apply told_more, T|exact E].
  - intros m l st os r st' os' H E. assert (K : keeps (fun s => filed m l (files s)) (f_reopen (cfg_of m))) by (apply k_reopen; auto).
    specialize (K st os H). rewrite E in K. destruct r; exact K.
  - intros m l i now st os r st' os' H T E.
    assert (K : keeps (fun s => filed m l (files s)) (f_Set (cfg_of m) i (i_sub i) now)).
    { apply k_Set with (W := fun b => b = i_payload i \/ b = i_sub i); auto.
      - intros b n s Hb Hs k c I. cbn [set_files files] in I. apply mset_In in I as [I|I]; [|apply Hs, I]. inversion I; subst. exists i, now, b, n. auto.
      - intros k s Hs k' c' I. apply Hs. cbn [set_files files] in I. unfold mdel in I. apply filter_In in I as [I _]. exact I. }
    specialize (K st os H). rewrite E in K. destruct r; exact K.
Qed.

(** Lines that ask for no entry change what no namespace holds, from every state. *)
Theorem C90_only_set it os w m e :
  (forall ns l now fs i, w_mode w = Inside ns -> it = Line l now fs -> ~ asks l fs i) ->
  (holds pp hash fname (fst (f_step (it, os) w)) m e <-> holds pp hash fname w m e).
Proof.
  intros NA. assert (HS : forall v, holds pp hash fname v m e <-> live (cfg_of m) (s_store (space_at v m)) e).
  { intros v. unfold holds, space_at. destruct (mget (w_spaces v) m) as [sp|]; [split; [intros (x & E & H); inversion E; subst; exact H|eauto]|].
    split; [intros (x & E & _); discriminate|]. intros (_ & k & v' & x & [] & _). }
  rewrite !HS. destruct (f_step_spaces it os w) as [E|[(n & r & st & os' & E1 & E2)|(n & l & now & fs & i & r & st & os' & M & -> & A & _)]].
  - unfold space_at. rewrite E. reflexivity.
  - unfold space_at at 1. rewrite E2, mget_mset. destruct (beqb_spec m n) as [->|_]; [|reflexivity]. cbn [s_store].
    unfold live. rewrite (reopen_kv _ _ _ _ _ _ E1). reflexivity.
  - exfalso. eapply NA; eauto.
Qed.

(** ** Set *)

(** A set line that reports success has recorded the entry and written entries.json, or says that it has not, and then it
    is as before or was spoilt; the store takes further entries, other namespaces are left alone. From every state. *)
Theorem C90_accepted l now fs os i ns w w' out :
  store_params pp -> line_ok (Line l now fs, os) -> w_mode w = Inside ns -> asks l fs i ->
  f_step (Line l now fs, os) w = (w', out) -> (In ONonePruned out \/ exists rows, In (OPruned rows) out) ->
  holds pp hash fname w' ns (set_entry (cfg_of ns) i now) /\ w_mode w' = Inside ns /\ locked (s_store (space_at w' ns)) = false
  /\ (w_json w' = Some (tree (s_store (space_at w' ns))) \/ In OText out /\ (w_json w' = w_json w \/ w_json w' = None))
  /\ forall m, m <> ns -> space_at w' m = space_at w m.
Proof.
  intros PP LO HM A E HO. cbn [f_shell_step] in E. rewrite HM in E.
  destruct (f_asks_inside ns l now fs i os w A) as (s & p & b & t & Ei & EI). rewrite EI in E. clear EI.
  destruct (next os); try (inversion E; subst; destruct HO as [[]|(rows & [])]).
  unfold f_do_set in E. rewrite <- Ei in E. replace s with (i_sub i) in E by (rewrite Ei; reflexivity).
  destruct (f_Set (cfg_of ns) i (i_sub i) now (s_store (space_at w ns), tl os)) as [[pr| | | |] [st os']] eqn:ES;
    try (inversion E; subst; destruct HO as [[H|[]]|(rows & [H|[]])]; discriminate H);
    try (inversion E; subst; destruct HO as [[]|(rows & [])]).
  destruct (C79_success (cfg_of ns) (OpSet i (i_sub i) now) (set_entry (cfg_of ns) i now) (i_sub i) (s_store (space_at w ns)) (tl os) pr st os')
    as (_ & HL & HK & _); [exact PP|apply LO; exact A|reflexivity|exact ES|].
  pose proof (json_spaces (List_ st) os' (put_space ns (Space st true) w)) as [J1 J2].
  destruct (f_writeEntriesToFile (List_ st) os' (put_space ns (Space st true) w)) as [w1 o1] eqn:EJ. cbn [fst] in J1, J2.
  assert (JJ : w_json w1 = Some (tree st) \/ In OText o1 /\ (w_json w1 = w_json w \/ w_json w1 = None)).
  { unfold f_writeEntriesToFile in EJ. destruct (next os'); inversion EJ; subst; cbn; auto. }
  assert (X : w_spaces w' = mset (w_spaces w) ns (Space st true) /\ w_mode w' = Inside ns /\ (w_json w' = Some (tree st) \/ In OText out /\ (w_json w' = w_json w \/ w_json w' = None))).
  { assert (NO : ~ (In ONonePruned o1 \/ exists rows, In (OPruned rows) o1)).
    { unfold f_writeEntriesToFile in EJ. destruct (next os'); inversion EJ; subst; intros [H|(rows & H)]; repeat destruct H as [H|H]; try discriminate H; destruct H. }
    destruct (map_res _ pr) as [[|x rows]| | | |]; inversion E; subst;
      try (split; [exact J1|split; [rewrite J2; exact HM|destruct JJ as [JJ|[JJ JK]]; [auto|right; split; [apply in_or_app; auto|exact JK]]]]); exfalso; apply NO, HO. }
  destruct X as (X1 & X2 & X3). split; [|split; [exact X2|split; [|split]]].
  - exists (Space st true). rewrite X1, mget_mset, beqb_refl. auto.
  - unfold space_at. rewrite X1, mget_mset, beqb_refl. exact HK.
  - unfold space_at. rewrite X1, mget_mset, beqb_refl. exact X3.
  - intros m N. unfold space_at. rewrite X1, mget_mset. destruct (beqb_spec m ns); [contradiction|reflexivity].
Qed.

(** A set line that reports an error has changed no namespace's databases, or has left the store locked, or has recorded
    the entry all the same. *)
Theorem C90_error l now fs os i ns w w' :
  store_params pp -> line_ok (Line l now fs, os) -> w_mode w = Inside ns -> asks l fs i ->
  locked (s_store (space_at w ns)) = false -> f_step (Line l now fs, os) w = (w', [OFail]) ->
  let st := s_store (space_at w ns) in let st' := s_store (space_at w' ns) in
  w_mode w' = Inside ns /\ w_json w' = w_json w /\ (forall m, m <> ns -> space_at w' m = space_at w m)
  /\ ((kv st' = kv st /\ tree st' = tree st /\ refs st' = refs st /\ locked st' = false)
      \/ locked st' = true
      \/ holds pp hash fname w' ns (set_entry (cfg_of ns) i now) /\ locked st' = false).
Proof.
  intros PP LO HM A HL E. cbv zeta. cbn [f_shell_step] in E. rewrite HM in E.
  destruct (f_asks_inside ns l now fs i os w A) as (s & p & b & t & Ei & EI). rewrite EI in E. clear EI.
  destruct (next os); try discriminate E. unfold f_do_set in E. rewrite <- Ei in E. replace s with (i_sub i) in E by (rewrite Ei; reflexivity).
  destruct (f_Set (cfg_of ns) i (i_sub i) now (s_store (space_at w ns), tl os)) as [[pr| | | |] [st os']] eqn:ES; try discriminate E.
  { exfalso. unfold f_writeEntriesToFile in E. destruct (next os'); destruct (map_res _ pr) as [[|x rows]| | | |]; discriminate E. }
  inversion E; subst w'. split; [exact HM|]. split; [reflexivity|].
  assert (X : forall m, space_at (put_space ns (Space st true) w) m = if beqb m ns then Space st true else space_at w m).
  { intros m. unfold space_at. cbn [put_space w_spaces]. rewrite mget_mset. destruct (beqb m ns); reflexivity. }
  split; [intros m N; rewrite X; destruct (beqb_spec m ns); [contradiction|reflexivity]|].
  rewrite X, beqb_refl. cbn [s_store].
  destruct (C79_set_error (cfg_of ns) i (i_sub i) now (s_store (space_at w ns)) (tl os) st os' PP (LO i ns A) HL ES) as [H|[H|[H K]]]; auto.
  right. right. split; [|exact K]. exists (Space st true). cbn [put_space w_spaces]. rewrite mget_mset, beqb_refl. auto.
Qed.

(** With the store locked, the next set line never returns; what is recorded stays. *)
Theorem C90_stuck l now fs os i ns w :
  w_mode w = Inside ns -> asks l fs i -> locked (s_store (space_at w ns)) = true ->
  let w' := fst (f_step (Line l now fs, os) w) in
  w_mode w' = Died /\ snd (f_step (Line l now fs, os) w) = []
  /\ forall m, kv (s_store (space_at w' m)) = kv (s_store (space_at w m)) /\ refs (s_store (space_at w' m)) = refs (s_store (space_at w m)).
Proof.
  intros HM A HL. cbv zeta. cbn [f_shell_step]. rewrite HM.
  destruct (f_asks_inside ns l now fs i os w A) as (s & p & b & t & Ei & ->).
  destruct (next os); [|cbn; auto..].
  unfold f_do_set. rewrite <- Ei. replace s with (i_sub i) by (rewrite Ei; reflexivity).
  destruct (f_Set (cfg_of ns) i (i_sub i) now (s_store (space_at w ns), tl os)) as [r [st os']] eqn:ES.
  assert (AU : Authorise (set_entry (cfg_of ns) i now) (i_sub i) = Ok (i_sub i)).
  { unfold Authorise, set_entry. cbn [e_subspace]. rewrite beqb_refl. reflexivity. }
  assert (r = Hang).
  { revert ES. unfold f_Set. cbv zeta. unfold bindF at 1.
    pose proof (payload_Set_result (cfg_of ns) (i_payload i) (s_store (space_at w ns)) (tl os)) as R.
    pose proof (k_payload_Set (cfg_of ns) (fun s => locked s = true) (fun _ => True) ltac:(auto) (i_payload i) I (s_store (space_at w ns)) (tl os) HL) as K.
    destruct (f_payload_Set (cfg_of ns) (i_payload i) (s_store (space_at w ns), tl os)) as [r1 [s1 os1]]. cbn [fst] in R. subst r1. cbn [fst snd].
    unfold bindF at 1. unfold mem, lift. cbn [fst snd].
    change (Entry (c_ns (cfg_of ns)) (i_sub i) (c_hash (cfg_of ns) (i_payload i)) (i_path i) (if i_time i =? 0 then now else i_time i) (len (i_payload i))) with (set_entry (cfg_of ns) i now).
    rewrite AU. unfold bindF at 1. rewrite (hang_IngestEntry (cfg_of ns) _ (i_sub i) s1 os1 K). intros ES. inversion ES. reflexivity. }
  subst r. cbn [fst snd set_mode w_mode]. split; [reflexivity|]. split; [reflexivity|]. intros m.
  assert (X : space_at (set_mode Died (put_space ns (Space st true) w)) m = if beqb m ns then Space st true else space_at w m).
  { unfold space_at. cbn [put_space set_mode w_spaces]. rewrite mget_mset. destruct (beqb m ns); reflexivity. }
  rewrite X. clear X. destruct (beqb_spec m ns) as [EQ|_]; [rewrite EQ|auto]. cbn [s_store].
  assert (NR : OpSet i (i_sub i) now <> OpReopen) by discriminate.
  destruct (C79_stuck (cfg_of ns) (OpSet i (i_sub i) now) _ _ _ _ _ HL NR ES) as (_ & _ & H1 & _ & H2 & _). auto.
Qed.

(** A start leaves the stores and entries.json alone and lists the namespaces that have a directory; the program goes on
    exactly if the directory "willow", unless there is none, could be opened and read. *)
Theorem C90_start os w :
  let w' := fst (f_step (Start, os) w) in
  w_spaces w' = w_spaces w /\ w_json w' = w_json w /\ w_open w' = [] /\ w_known w' = map fst (w_spaces w)
  /\ (w_mode w' = Top \/ w_mode w' = Ended)
  /\ (w_mode w' = Top <-> nth 0 os Fine = Fine /\ (w_spaces w = [] \/ nth 1 os Fine = Fine)).
Proof.
  cbv zeta. cbn [f_shell_step]. unfold f_start, next.
  assert (H0 : hd Fine os = nth 0 os Fine) by (destruct os; reflexivity).
  assert (H1 : hd Fine (tl os) = nth 1 os Fine) by (destruct os as [|a [|b os]]; reflexivity).
  rewrite H0, H1. unfold start, set_mode.
  destruct (nth 0 os Fine), (w_spaces w) as [|s l] eqn:EW, (nth 1 os Fine); cbn [fst w_spaces w_json w_open w_known w_mode]; rewrite ?EW;
    repeat (split; [reflexivity|]); (split; [auto|]); split; intros X; try discriminate X; auto;
    destruct X as [X [Y|Y]]; try discriminate X; discriminate Y.
Qed.

(** A namespace that was entered is not locked. *)
Theorem C90_entered it os w ns :
  (forall m, w_mode w <> Inside m) -> w_mode (fst (f_step (it, os) w)) = Inside ns ->
  locked (s_store (space_at (fst (f_step (it, os) w)) ns)) = false.
Proof.
  intros NI HM.
  assert (EN : forall m v, w_mode (fst (f_enter pp hash fname m os v)) = Inside ns -> (forall n, w_mode v <> Inside n) ->
     locked (s_store (space_at (fst (f_enter pp hash fname m os v)) ns)) = false).
  { intros m v H NV. unfold f_enter in *. fold (space_at v m) in *. destruct (existsb _ _); [discriminate H|]. cbv zeta in *.
    destruct (f_reopen (cfg_of m) (s_store (space_at v m), os)) as [r [st os']] eqn:E. destruct r as [[]| | | |]; try discriminate H.
    rewrite (proj2 (json_spaces _ _ _)) in H. cbn [w_mode] in H. inversion H; subst m.
    unfold space_at at 1. rewrite (proj1 (json_spaces _ _ _)). cbn [w_spaces]. rewrite mget_mset, beqb_refl. cbn [s_store].
    assert (K : forall s, match f_reopen (cfg_of ns) s with (Ok _, (s', _)) => locked s' = false | _ => True end).
    { intros s. unfold f_reopen, bindF. destruct (io s) as [[[]| | | |] s1]; try (destruct (mem (lift Fatal) _) as [[[]| | | |] [? ?]] eqn:EM; inversion EM; fail); try exact I.
      destruct (io s1) as [[[]| | | |] s2]; try exact I.
      destruct (f_ListAllValues s2) as [[y| | | |] [s3 os3]]; try exact I; [destruct (load_nodes _ y); try exact I; reflexivity|reflexivity]. }
    specialize (K (s_store (space_at v ns), os)). rewrite E in K. exact K. }
  destruct it as [l now fs| |]; cbn [f_shell_step] in *.
  - destruct (w_mode w) as [|cns|n| |] eqn:EM.
    + destruct (f_top_cases l os w EM) as [[_ H]|(m & E)]; [exfalso; apply (H ns HM)|]. rewrite E in *. apply EN; auto. rewrite EM. discriminate.
    + unfold f_confirm_line in *. destruct (beqb l [121]); [apply EN; auto; discriminate|discriminate HM].
    + exfalso. apply (NI n). reflexivity.
    + exfalso. cbn in HM. congruence.
    + exfalso. cbn in HM. congruence.
  - exfalso. destruct (w_mode w) eqn:EM; cbn in HM; congruence.
  - exfalso. unfold f_start in HM. destruct (next os), (w_spaces w), (next (tl os)); discriminate HM.
Qed.

(** ** Get *)

(** Keys with the same bytes are of one place, whatever their times. *)
Lemma key_place a b t : codec_params pp -> codec_path pp (pos_path a) -> codec_path pp (pos_path b) -> pos_time a < 2 ^ 64 ->
  EncodeKey a pp = EncodeKey b pp -> t = pos_time a -> pos_subspace a = pos_subspace b /\ pos_path a = pos_path b.
Proof.
  intros CP CA CB TA E ->. assert (X : EncodeKey a pp = EncodeKey (Position (pos_subspace b) (pos_path b) (pos_time a)) pp).
  { unfold EncodeKey in *. cbn [pos_time pos_path pos_subspace]. f_equal.
    assert (L : length (BigIntToBytes (pos_time a)) = length (BigIntToBytes (pos_time b))).
    { pose proof (BigIntToBytes_len (pos_time a)). pose proof (BigIntToBytes_len (pos_time b)). unfold len in *. lia. }
    revert E L. generalize (BigIntToBytes (pos_time a)), (BigIntToBytes (pos_time b)). clear.
    induction b0 as [|x l IH]; intros [|y m] E L; try discriminate L; [exact E|]. inversion E. inversion L. eapply IH; eauto. }
  pose proof (DecodeKey_EncodeKey pp a CP CA TA) as D1. rewrite X in D1.
  rewrite (DecodeKey_EncodeKey pp (Position (pos_subspace b) (pos_path b) (pos_time a)) CP CB TA) in D1.
  inversion D1 as [D]. cbn. auto.
Qed.

(** What a get line prints is empty or the first bytes of a file that was set at that place, however the calls go. *)
Theorem C90_get U items l now fs os ns s p b :
  store_params pp -> universe (cfg_of []) U -> fname [] = [] -> Forall line_ok items ->
  (forall i at_, told ns items i at_ -> U (i_payload i) /\ U (i_sub i)) ->
  let w := f_run items new_world in
  w_mode w = Inside ns -> words l [w_get; s; p] -> strict_path pp (parse_path p) ->
  snd (f_step (Line l now fs, os) w) = [OPayload b] ->
  b = [] \/ exists i at_ n, told ns items i at_ /\ i_sub i = s /\ i_path i = parse_path p /\ b = firstn n (i_payload i).
Proof.
  intros PP [UI _] FN LO HU w HM HW HS E. cbn [f_shell_step] in E. rewrite HM in E. unfold f_inside_line in E. fold (space_at w ns) in E.
  destruct (beqb_spec (to_lower l) w_exit) as [X|_]; [exfalso; eapply words_not_exit; eauto|].
  apply words_spec in HW. rewrite HW in E. cbn [hd] in E. change (beqb w_get w_back) with false in E. change (beqb w_get w_help) with false in E.
  change (beqb w_get w_set) with false in E. rewrite beqb_refl in E. cbv zeta iota in E.
  destruct (f_cli_get (cfg_of ns) (s_dir (space_at w ns)) s p (s_store (space_at w ns)) os) as [b0| | | |] eqn:EG; try discriminate E.
  inversion E; subst b0. clear E. unfold f_cli_get in EG. set (st := s_store (space_at w ns)) in *.
  (* what is shown for a digest *)
  assert (SHOW : forall d os', f_show (cfg_of ns) (s_dir (space_at w ns)) d st os' = Ok b ->
     b = [] \/ exists c n, In (fname d, c) (files st) /\ b = firstn n c).
  { intros d os' H. unfold f_show in H. destruct (next os'); try discriminate H. destruct (s_dir (space_at w ns)); try discriminate H.
    unfold pd_Get, pl_Bytes in H. cbn [p_files] in H. unfold M_Shell.cfg_of in H. cbn [c_fname] in H.
    destruct (fname d) as [|k0 k] eqn:Ek.
    - inversion H. left. destruct (next (tl os')) as [| |[|?]]; reflexivity.
    - destruct (mget (files st) (k0 :: k)) as [c|] eqn:Em; try discriminate H. rewrite Em in H. inversion H. right. exists c.
      apply mget_In in Em. destruct (next (tl os')) as [| |j]; [exists (length c); rewrite firstn_all; auto|exists 0%nat; auto|exists j; auto]. }
  assert (EMPTY : forall os', f_show (cfg_of ns) (s_dir (space_at w ns)) [] st os' = Ok b -> b = []).
  { intros os' H. unfold f_show, pd_Get, pl_Bytes, M_Shell.cfg_of in H. cbn [c_fname] in H. rewrite FN in H. destruct (next os'); try discriminate H.
    destruct (s_dir _); try discriminate H. inversion H. destruct (next (tl os')) as [| |[|?]]; reflexivity. }
  destruct (f_driver_Get_at (cfg_of ns) s (SuccessorSubspaceId s) (parse_path p) (st, os)) as [[o| | | |] [st' os']] eqn:ED; try discriminate EG.
  2:{ left. eapply EMPTY, EG. }
  destruct o as [[e au]|].
  2:{ left. eapply EMPTY, EG. }
  (* an entry was found *)
  destruct (SHOW _ _ EG) as [H|(c & n & I & ->)]; [auto|]. right.
  unfold f_driver_Get_at, storage_Get in ED. unfold bindF at 1 in ED. unfold mem in ED. cbn [fst snd] in ED. unfold bindM, lift, gets, ret in ED.
  rewrite (strict_SuccessorPath (cfg_of ns) PP) in ED by exact HS.
  destruct (query (tree st) (path_window s (SuccessorSubspaceId s) (parse_path p) (Some (parse_path p ++ [[]])))) as [|nd [|? ?]] eqn:EQ; try discriminate ED.
  assert (NP : n_sub nd = s /\ n_path nd = parse_path p).
  { assert (Hn : In nd (query (tree st) (path_window s (SuccessorSubspaceId s) (parse_path p) (Some (parse_path p ++ [[]]))))) by (rewrite EQ; left; reflexivity).
    unfold query in Hn. apply filter_In in Hn as [_ Hn]. rewrite window_single in Hn. apply andb_true_iff in Hn as [H1 H2].
    destruct (beqb_spec (n_sub nd) s); [|discriminate]. destruct (peqb_spec (n_path nd) (parse_path p)); [auto|discriminate]. }
  unfold bindF at 1 in ED. unfold db_get in ED. unfold bindF at 1 in ED. rewrite io_at in ED. destruct (nth 0 os Fine); try discriminate ED.
  unfold mem, gets in ED. cbn [fst snd] in ED. destruct (mget (kv st) _) as [v|] eqn:EV; [|discriminate ED].
  apply mget_In in EV. destruct (C90_recorded items ns _ _ EV) as (i & at_ & T & Ek & ->).
  pose proof (told_ok _ _ _ _ LO T) as (_ & B). change (codec_entry (cfg_of ns) (set_entry (cfg_of ns) i at_)) in B.
  unfold bindF, lift in ED. pose proof (codec_value (cfg_of ns) _ B) as V. cbn in V. unfold M_Shell.cfg_of in ED, V. cbn in ED. rewrite V in ED.
  inversion ED; subst. cbn [e_digest v_digest] in I.
  destruct NP as [N1 N2].
  destruct (key_place (EntryPosition (set_entry (cfg_of ns) i at_)) (node_pos nd) (e_time (set_entry (cfg_of ns) i at_))) as [P1 P2].
  { apply (store_codec (cfg_of ns)), PP. }
  { apply within_codec. exact (proj1 B). }
  { cbn [node_pos pos_path]. rewrite N2. apply (strict_codec (cfg_of ns)). exact HS. }
  { exact (proj1 (proj2 B)). }
  { symmetry. exact Ek. }
  { reflexivity. }
  destruct (C90_files items ns _ _ I) as (i2 & at2 & b2 & n2 & T2 & Hb2 & Ef & ->).
  assert (b2 = i_payload i).
  { apply UI; [destruct (HU _ _ T2) as [? ?], Hb2; subst; auto|apply (HU _ _ T)|]. symmetry. exact Ef. }
  subst b2. exists i, at_, (Nat.min n n2). split; [exact T|]. cbn in P1, P2. split; [congruence|]. split; [congruence|]. apply firstn_firstn.
Qed.

(** ** When nothing fails *)

Lemma fine_next os : Forall (eq Fine) os -> next os = Fine /\ Forall (eq Fine) (tl os).
Proof. intros H. destruct os; [auto|]. inversion H; subst. auto. Qed.

Lemma f_step_fine it os w : Forall (eq Fine) os ->
  (forall ns, msorted (kv (s_store (space_at w ns))) /\ budget (s_store (space_at w ns)) = None) ->
  f_step (it, os) w = shell_step pp hash fname sort it w.
Proof.
  intros HF HI. destruct (fine_next os HF) as [N1 HF1]. destruct (fine_next _ HF1) as [N2 HF2].
  assert (JS : forall l o v, Forall (eq Fine) o -> f_writeEntriesToFile l o v = (put_json l v, [])).
  { intros l o v H. unfold f_writeEntriesToFile. rewrite (proj1 (fine_next o H)). reflexivity. }
  assert (EN : forall ns v, w_spaces v = w_spaces w -> f_enter pp hash fname ns os v = enter pp hash fname ns v).
  { intros ns v EV. assert (SA : space_at v ns = space_at w ns) by (unfold space_at; rewrite EV; reflexivity).
    unfold f_enter, enter. fold (space_at v ns). destruct (existsb _ _); [reflexivity|]. rewrite SA. cbv zeta. destruct (HI ns) as [H1 H2].
    destruct (a_reopen (cfg_of ns) (s_store (space_at w ns)) os H1 H2 HF) as (os' & F' & E & _).
    destruct (reopen (cfg_of ns) (s_store (space_at w ns))) as [st| | | |]; rewrite E; cbn [fst snd]; try (destruct (space_at w ns); reflexivity).
    rewrite JS by exact F'. reflexivity. }
  assert (DS : forall ns s p b t now o, Forall (eq Fine) o ->
     f_do_set pp hash fname ns (space_at w ns) s p b t now o w = do_set pp hash fname ns (space_at w ns) s p b t now w).
  { intros ns s p b t now o Ho. unfold f_do_set, do_set. destruct (HI ns) as [H1 H2].
    destruct (a_Set (cfg_of ns) (Input s (parse_path p) b t) s now (s_store (space_at w ns)) o H1 H2 Ho) as (os' & F' & E & _).
    rewrite E. destruct (Set_ (cfg_of ns) (Input s (parse_path p) b t) s now (s_store (space_at w ns))) as [[pr| | | |] st]; cbn [fst snd]; try reflexivity.
    rewrite JS by exact F'. cbn [app]. destruct (map_res _ pr) as [[|x rows]| | | |]; reflexivity. }
  destruct it as [l now fs| |]; cbn [f_shell_step shell_step].
  - destruct (w_mode w) as [|cns|ns| |] eqn:EM; try reflexivity.
    + unfold f_top_line, top_line. rewrite !EN by reflexivity. destruct (split_on 32 l) as [|o [|ns [|x r]]]; try reflexivity. rewrite EN by reflexivity. reflexivity.
    + unfold f_confirm_line, confirm_line. rewrite EN by reflexivity. reflexivity.
    + unfold f_inside_line, inside_line. fold (space_at w ns).
      assert (G : forall s p, f_cli_get (cfg_of ns) (s_dir (space_at w ns)) s p (s_store (space_at w ns)) os = cli_get (cfg_of ns) (s_dir (space_at w ns)) s p (s_store (space_at w ns))).
      { intros s p. destruct (HI ns) as [H1 H2]. unfold f_cli_get, cli_get, driver_Get.
        destruct (a_driver_Get (cfg_of ns) s (SuccessorSubspaceId s) (parse_path p) (s_store (space_at w ns)) os H1 H2 HF) as (os' & F' & E & _).
        rewrite E. assert (SH : forall d, f_show (cfg_of ns) (s_dir (space_at w ns)) d (s_store (space_at w ns)) os'
            = match (if s_dir (space_at w ns) then pd_Get (c_fname (cfg_of ns)) d (PDir (files (s_store (space_at w ns))) [] []) else Err) with
              | Ok k => Ok (pl_Bytes k (PDir (files (s_store (space_at w ns))) [] [])) | _ => Panic end).
        { intros d. unfold f_show. destruct (fine_next _ F') as [M1 M2]. destruct (fine_next _ M2) as [M3 _]. rewrite M1, M3. reflexivity. }
        destruct (driver_Get_at _ _ _ _ _) as [[o| | | |] st']; cbn [fst snd]; try reflexivity; rewrite SH; reflexivity. }
      assert (SL : forall objects, f_set_line_step pp hash fname ns (space_at w ns) objects now fs os w = set_line_step pp hash fname ns (space_at w ns) objects now fs w).
      { intros objects. unfold f_set_line_step, set_line_step. destruct objects as [|o [|s [|p [|f [|t [|x r]]]]]]; try reflexivity;
          rewrite N1; destruct (fs f); try reflexivity; cbv zeta; rewrite DS by exact HF1; reflexivity. }
      rewrite SL. destruct (split_on 32 (TrimSpace l)) as [|o [|s [|p [|x r]]]]; try reflexivity. rewrite G. reflexivity.
  - reflexivity.
  - unfold f_start. rewrite N1, N2. destruct (w_spaces w); reflexivity.
Qed.

(** The program is then that of C66 and C67. *)
Theorem C90_no_failure items : Forall (fun x => Forall (eq Fine) (snd x)) items ->
  f_run items new_world = shell_run pp hash fname sort (map fst items) new_world
  /\ forall it os, Forall (eq Fine) os ->
       f_step (it, os) (f_run items new_world) = shell_step pp hash fname sort it (shell_run pp hash fname sort (map fst items) new_world).
Proof.
  intros F. assert (HI : forall l ns, budget (s_store (space_at (f_run l new_world) ns)) = None).
  { intros l. apply (f_run_inv (fun ns items st => budget st = None)); auto.
    - intros m l' st os r st' os' H E. assert (K : keeps (fun s => budget s = None) (f_reopen (cfg_of m))) by (apply k_reopen; auto).
      specialize (K st os H). rewrite E in K. destruct r; exact K.
    - intros m l' i now st os r st' os' H _ E.
      assert (K : keeps (fun s => budget s = None) (f_Set (cfg_of m) i (i_sub i) now)) by (apply k_Set with (W := fun _ => True); auto).
      specialize (K st os H). rewrite E in K. destruct r; exact K. }
  assert (X : f_run items new_world = shell_run pp hash fname sort (map fst items) new_world).
  { revert F. induction items as [|[it os] items IH] using rev_ind; intros F; [reflexivity|].
    apply Forall_app in F as [F FI]. inversion FI as [|y z Hos _]; subst. cbn [snd] in Hos.
    rewrite map_app. cbn [map fst]. rewrite shell_run_snoc, f_run_snoc, f_step_fine; [rewrite IH by exact F; reflexivity|exact Hos|].
    intros ns. split; [apply f_run_sorted|apply HI]. }
  split; [exact X|]. intros it os Hos. rewrite <- X. apply f_step_fine; [exact Hos|]. intros ns. split; [apply f_run_sorted|apply HI].
Qed.
End ShellFault.
Print Assumptions C90_recorded.
Print Assumptions C90_holds.
Print Assumptions C90_files.
Print Assumptions C90_only_set.
Print Assumptions C90_accepted.
Print Assumptions C90_error.
Print Assumptions C90_stuck.
Print Assumptions C90_start.
Print Assumptions C90_entered.
Print Assumptions C90_get.
Print Assumptions C90_no_failure.

(** ** Cases *)
Notation demo_frun := (f_shell_run shipped_params (c_hash demo) (c_fname demo) sort_nodes).
Notation demo_fstep := (f_shell_step shipped_params (c_hash demo) (c_fname demo) sort_nodes).
Notation demo_holds := (holds shipped_params (c_hash demo) (c_fname demo)).
Notation demo_told := (told shipped_params (c_hash demo) (c_fname demo) sort_nodes).
Notation demo_line_ok := (line_ok shipped_params (c_hash demo) (c_fname demo)).

Definition line_okb (x : fitem) : bool :=
  match fst x with
  | Line l now fs => match asked l fs with Some i => op_boundedb demo (OpSet i (i_sub i) now) | None => true end
  | _ => true
  end.
Lemma line_okb_spec items : forallb line_okb items = true -> Forall demo_line_ok items.
Proof.
  rewrite forallb_forall, Forall_forall. intros H x Hx. specialize (H x Hx). unfold line_okb, line_ok in *. destruct (fst x) as [l now fs| |]; auto.
  intros i ns A. rewrite (asked_spec _ _ _ A) in H.
  assert (B : Forall (op_bounded demo) [OpSet i (i_sub i) now]) by (apply op_boundedb_spec; cbn [forallb]; rewrite H; reflexivity).
  inversion B as [|y z B1 _]; subst. exact B1.
Qed.

(** A line all of whose calls go well, and the same with the call after [n] others failing. *)
Definition well (s : string) : fitem := (say s, []).
Definition fails_at (s : string) (n : nat) : fitem := (say s, repeat Fine n ++ [Fails]).
Definition enters : list fitem := [(Start, []); well "new n"; well "y"].
Lemma asks_one p : words (txt ("set s " ++ p ++ " one 0:1")) [w_set; txt "s"; txt p; txt "one"; txt "0:1"] ->
  asks (txt ("set s " ++ p ++ " one 0:1")) demo_fs (Input (txt "s") (parse_path (txt p)) [1; 2] 60000000).
Proof. intros W. apply (asks_at _ demo_fs (txt "s") (txt p) (txt "one") (txt "0:1") [1; 2] W); [reflexivity|discriminate]. Qed.

(** The file is written in part; what is printed is its first byte. *)
Example C90_instance :
  let items := enters ++ [(say "set s a/b one 0:1", [Fine; Torn 1])] in
  let w := demo_frun items new_world in
  Forall demo_line_ok items /\ store_params shipped_params /\ universe (M_Shell.cfg_of shipped_params (c_hash demo) (c_fname demo) []) small
  /\ c_fname demo [] = [] /\ w_mode w = Inside (txt "n")
  /\ demo_holds w (txt "n") (demo_typed_e "s" "a/b" [1; 2] 60000000)
  /\ demo_told (txt "n") items (Input (txt "s") [txt "a"; txt "b"] [1; 2] 60000000) 77
  /\ words (txt "get s a/b") [w_get; txt "s"; txt "a/b"] /\ strict_path shipped_params (parse_path (txt "a/b"))
  /\ snd (demo_fstep (well "get s a/b") w) = [OPayload [1]]
  /\ (forall i at_, demo_told (txt "n") items i at_ -> small (i_payload i) /\ small (i_sub i)).
Proof.
  cbv zeta. split; [apply line_okb_spec; vm_compute; reflexivity|]. split; [apply shipped_store_params|]. split; [apply demo_universe|].
  split; [reflexivity|]. split; [vm_compute; reflexivity|]. split; [apply holdsb_spec; vm_compute; reflexivity|].
  split. { apply told_last; [vm_compute; reflexivity|]. apply (asks_one "a/b"), words_spec. vm_compute. reflexivity. }
  split; [apply words_spec; vm_compute; reflexivity|]. split; [apply strict_pathb_spec; vm_compute; reflexivity|].
  split; [vm_compute; reflexivity|].
  intros i at_ (a & l & fs & os & b & E & _ & A). unfold enters, well, say in E.
  apply asked_spec in A. assert (I : In (Line l at_ fs, os) (a ++ (Line l at_ fs, os) :: b)) by (apply in_or_app; right; left; reflexivity).
  rewrite <- E in I. clear E. cbn [app In] in I.
  repeat destruct I as [I|I]; try contradiction; inversion I; subst; vm_compute in A; try discriminate A.
  inversion A; subst. split; apply smallb_spec; vm_compute; reflexivity.
Qed.

(** Starts at which the directory could not be read, and at which all went well. *)
Example C90_instance_start :
  let w := demo_frun (enters ++ [well "set s a one 0:1"]) new_world in
  w_spaces w <> [] /\ w_mode (fst (demo_fstep (Start, [Fine; Fails]) w)) = Ended /\ w_mode (fst (demo_fstep (Start, []) w)) = Top
  /\ w_known (fst (demo_fstep (Start, []) w)) = [txt "n"].
Proof. vm_compute. split; [discriminate|auto]. Qed.

Example C90_instance_no_failure :
  let items := map (fun i => (i, [Fine; Fine])) demo_session in
  Forall (fun x => Forall (eq Fine) (snd x)) items /\ demo_holds (demo_frun items new_world) (txt "n") (demo_typed_e "s" "a/b" [1; 2] 77)
  /\ (forall ns l now fs i, w_mode (demo_frun items new_world) = Inside ns -> say "back" = Line l now fs -> ~ asks l fs i).
Proof.
  cbv zeta. split; [repeat constructor|]. split; [apply holdsb_spec; vm_compute; reflexivity|].
  intros ns l now fs i _ E A. unfold say in E. inversion E; subst. apply asked_spec in A. vm_compute in A. discriminate A.
Qed.

(** An entry that was accepted; entries.json could not be written, or only in part. *)
Example C90_instance_accepted :
  let w := demo_frun enters new_world in
  let x := demo_fstep (fails_at "set s a one 0:1" 7) w in
  demo_line_ok (fails_at "set s a one 0:1" 7) /\ w_mode w = Inside (txt "n")
  /\ asks (txt "set s a one 0:1") demo_fs (Input (txt "s") [txt "a"] [1; 2] 60000000)
  /\ snd x = [OText; ONonePruned] /\ w_json (fst x) = Some []
  /\ (let y := demo_fstep (say "set s a one 0:1", repeat Fine 7 ++ [Torn 3]) w in snd y = [OText; ONonePruned] /\ w_json (fst y) = None).
Proof.
  cbv zeta. split. { assert (F : Forall demo_line_ok [fails_at "set s a one 0:1" 7]) by (apply line_okb_spec; vm_compute; reflexivity). inversion F; assumption. }
  split; [vm_compute; reflexivity|]. split; [apply (asks_one "a"), words_spec; vm_compute; reflexivity|]. vm_compute. auto.
Qed.

(** A set line that reports an error although the entry is there, and can be got. *)
Theorem C90_error_refuted : exists w x e,
  w = demo_frun enters new_world /\ Forall demo_line_ok [x] /\ snd (demo_fstep x w) = [OFail]
  /\ demo_holds (fst (demo_fstep x w)) (txt "n") e /\ snd (demo_fstep (well "get s a") (fst (demo_fstep x w))) = [OPayload [1; 2]].
Proof.
  exists (demo_frun enters new_world), (fails_at "set s a one 0:1" 6), (demo_typed_e "s" "a" [1; 2] 60000000).
  split; [reflexivity|]. split; [apply line_okb_spec; vm_compute; reflexivity|]. split; [vm_compute; reflexivity|].
  split; [apply holdsb_spec; vm_compute; reflexivity|vm_compute; reflexivity].
Qed.
Print Assumptions C90_error_refuted.

(** One that reports an error and loses the entry that was to be replaced; the next one never returns. After the program
    was started again all is well. *)
Theorem C90_lost_refuted : exists items x e e',
  Forall demo_line_ok (items ++ [x]) /\ demo_holds (demo_frun items new_world) (txt "n") e
  /\ snd (demo_fstep x (demo_frun items new_world)) = [OFail]
  /\ (let w := demo_frun (items ++ [x]) new_world in
      ~ demo_holds w (txt "n") e /\ ~ demo_holds w (txt "n") e' /\ w_mode w = Inside (txt "n")
      /\ locked (s_store (space_at w (txt "n"))) = true
      /\ demo_told (txt "n") (items ++ [x]) (Input (txt "s") [txt "a"] [9] 120000000) 77
      /\ w_mode (fst (demo_fstep (well "set s b one 0:1") w)) = Died
      /\ w_mode (demo_frun (items ++ [x; (Start, []); well "enter n"; well "set s b one 0:1"]) new_world) = Inside (txt "n")).
Proof.
  exists (enters ++ [well "set s a one 0:1"]), (fails_at "set s a two 0:2" 9), (demo_typed_e "s" "a" [1; 2] 60000000), (demo_typed_e "s" "a" [9] 120000000).
  split; [apply line_okb_spec; vm_compute; reflexivity|]. split; [apply holdsb_spec; vm_compute; reflexivity|]. split; [vm_compute; reflexivity|].
  cbv zeta. rewrite <- !holdsb_spec. split; [vm_compute; discriminate|]. split; [vm_compute; discriminate|]. split; [vm_compute; reflexivity|].
  split; [vm_compute; reflexivity|].
  split. { apply told_last; [vm_compute; reflexivity|]. apply (asks_at (txt "set s a two 0:2") demo_fs (txt "s") (txt "a") (txt "two") (txt "0:2") [9]);
    [apply words_spec; vm_compute; reflexivity|reflexivity|discriminate]. }
  split; vm_compute; reflexivity.
Qed.
Print Assumptions C90_lost_refuted.

(** One that reports success though the file was not stored: getting it ends the program. *)
Theorem C90_done_refuted : exists x e,
  let w := demo_frun enters new_world in
  snd (demo_fstep x w) = [ONonePruned] /\ demo_holds (fst (demo_fstep x w)) (txt "n") e /\ e_length e = 2
  /\ w_mode (fst (demo_fstep (well "get s a") (fst (demo_fstep x w)))) = Died.
Proof.
  exists (fails_at "set s a one 0:1" 1), (demo_typed_e "s" "a" [1; 2] 60000000). cbv zeta. rewrite <- holdsb_spec. vm_compute. auto.
Qed.
Print Assumptions C90_done_refuted.

(** A get line that prints an empty line for an entry that is there with its file, and one that ends the program. *)
Theorem C90_get_refuted : exists items e,
  let w := demo_frun items new_world in
  demo_holds w (txt "n") e /\ snd (demo_fstep (well "get s a") w) = [OPayload [1; 2]]
  /\ snd (demo_fstep (fails_at "get s a" 0) w) = [OPayload []] /\ w_mode (fst (demo_fstep (fails_at "get s a" 1) w)) = Died
  /\ snd (demo_fstep (fails_at "get s a" 2) w) = [OPayload []].
Proof.
  exists (enters ++ [well "set s a one 0:1"]), (demo_typed_e "s" "a" [1; 2] 60000000). cbv zeta. rewrite <- holdsb_spec. vm_compute. auto 10.
Qed.
Print Assumptions C90_get_refuted.

(** A namespace that shows none of its entries, and overwrites entries.json, after a start at which a read failed: an
    older entry is then accepted, and the namespace holds both. *)
Theorem C90_list_refuted : exists items e e',
  let w := demo_frun items new_world in
  let x := demo_fstep (well "set s a two 0:1") w in
  demo_holds w (txt "n") e /\ w_json w = Some [] /\ snd (demo_fstep (well "list") w) = [OTable []]
  /\ snd x = [ONonePruned] /\ e_time e' < e_time e /\ demo_holds (fst x) (txt "n") e /\ demo_holds (fst x) (txt "n") e'.
Proof.
  exists (enters ++ [well "set s a one 0:2"; (Start, []); fails_at "enter n" 2]), (demo_typed_e "s" "a" [1; 2] 120000000), (demo_typed_e "s" "a" [9] 60000000).
  cbv zeta. rewrite <- !holdsb_spec. vm_compute. auto 10.
Qed.
Print Assumptions C90_list_refuted.
