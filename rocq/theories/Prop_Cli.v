(** C53, C65: the command line. *)
From Verif Require Import Base M_Order M_Encoding M_Paths M_Keys M_Entry M_Map M_Store M_Payload M_Cli S_Order S_Store
  P_Order P_Encoding P_Paths P_Map P_Store P_History P_Demo Prop_Store.
Local Open Scope N_scope.

(** * C53 *)

(** Decimal numerals and their values. *)
Inductive numeral : bytes -> N -> Prop :=
| numeral_digit c : 48 <= c <= 57 -> numeral [c] (c - 48)
| numeral_more s v c : numeral s v -> 48 <= c <= 57 -> numeral (s ++ [c]) (v * 10 + (c - 48)).

Lemma digit_spec c : match digit c with Some d => 48 <= c <= 57 /\ d = c - 48 | None => ~ (48 <= c <= 57) end.
Proof.
  unfold digit. destruct (N.leb_spec 48 c), (N.leb_spec c 57); cbn [andb]; try (split; [split; auto|auto]; fail); lia.
Qed.

Lemma parse_digits_sound s : forall pre acc v, numeral pre acc -> parse_digits s acc = Some v -> numeral (pre ++ s) v /\ (acc < two64 -> v < two64).
Proof.
  induction s as [|c s IH]; cbn [parse_digits]; intros pre acc v HN H.
  - injection H as <-. rewrite app_nil_r. auto.
  - pose proof (digit_spec c) as D. destruct (digit c) as [d|]; [|discriminate]. destruct D as [D ->].
    destruct (N.leb_spec two64 (acc * 10 + (c - 48))); [discriminate|].
    replace (pre ++ c :: s) with ((pre ++ [c]) ++ s) by (rewrite <- app_assoc; auto).
    destruct (IH (pre ++ [c]) _ v (numeral_more _ _ _ HN D) H) as [H1 H2]. auto.
Qed.

Lemma parse_app s c : forall acc, parse_digits (s ++ [c]) acc =
  match parse_digits s acc with
  | Some v => match digit c with Some d => if two64 <=? v * 10 + d then None else Some (v * 10 + d) | None => None end
  | None => None
  end.
Proof.
  induction s as [|x s IH]; cbn [app parse_digits]; intros acc; auto.
  destruct (digit x); auto. destruct (two64 <=? _); auto.
Qed.

Lemma digit_in c : 48 <= c <= 57 -> digit c = Some (c - 48).
Proof. intros H. pose proof (digit_spec c). destruct (digit c); [destruct H0; congruence|tauto]. Qed.

Lemma numeral_parse s v : numeral s v -> s <> [] /\ (v < two64 -> parse_digits s 0 = Some v).
Proof.
  induction 1 as [c H|s v c HN [IH1 IH2] H].
  - split; [discriminate|]. cbn [parse_digits]. rewrite digit_in by auto. intros HV.
    destruct (N.leb_spec two64 (0 * 10 + (c - 48))); [lia|reflexivity].
  - split; [destruct s; discriminate|]. intros HV. rewrite parse_app, IH2, digit_in by lia.
    destruct (N.leb_spec two64 (v * 10 + (c - 48))); [lia|auto].
Qed.

Lemma ParseUint_spec s v : ParseUint s = Some v <-> numeral s v /\ v < 2 ^ 64.
Proof.
  change (2 ^ 64) with two64. split.
  - unfold ParseUint. destruct s as [|c s]; [discriminate|]. cbn [parse_digits].
    pose proof (digit_spec c) as D. destruct (digit c) as [d|]; [|discriminate]. destruct D as [D ->].
    destruct (N.leb_spec two64 (0 * 10 + (c - 48))); [discriminate|]. intros HP.
    replace (0 * 10 + (c - 48)) with (c - 48) in * by lia.
    destruct (parse_digits_sound s [c] (c - 48) v) as [H1 H2]; auto. constructor; auto.
  - intros [HN HV]. destruct (numeral_parse s v HN) as [H1 H2]. unfold ParseUint. destruct s; [congruence|auto].
Qed.

Lemma split_nonempty sep s : split_on sep s <> [].
Proof. destruct s; cbn; [discriminate|]. destruct (split_on sep s); [discriminate|]. destruct (_ =? _); discriminate. Qed.

(** Joining with the separator. *)
Definition join (sep : N) (ws : list bytes) : bytes :=
  match ws with [] => [] | w :: ws' => fold_left (fun acc d => acc ++ sep :: d) ws' w end.

Lemma join_cons sep c w ws : join sep ((c :: w) :: ws) = c :: join sep (w :: ws).
Proof.
  unfold join. revert w. induction ws as [|x ws IH]; cbn [fold_left]; intros w; auto.
  change ((c :: w) ++ sep :: x) with (c :: (w ++ sep :: x)). apply IH.
Qed.
Lemma join_more sep ws : forall v w, join sep (v :: w :: ws) = v ++ sep :: join sep (w :: ws).
Proof.
  unfold join. induction ws as [|x ws IH]; cbn [fold_left]; intros v w; auto.
  cbn [fold_left] in IH. rewrite <- IH. f_equal. rewrite <- app_assoc. auto.
Qed.

Lemma join_split sep s : join sep (split_on sep s) = s.
Proof.
  induction s as [|c s IH]; cbn [split_on]; auto. pose proof (split_nonempty sep s) as HN.
  destruct (split_on sep s) as [|w ws]; [congruence|]. destruct (N.eqb_spec c sep) as [->|].
  - etransitivity; [apply join_more|]. cbn [app]. f_equal. exact IH.
  - etransitivity; [apply join_cons|]. f_equal. exact IH.
Qed.

Lemma split_no_sep sep w : ~ In sep w -> split_on sep w = [w].
Proof.
  induction w as [|c w IH]; cbn [split_on In]; auto. intros H. rewrite IH by tauto.
  destruct (N.eqb_spec c sep); [subst; tauto|auto].
Qed.
Lemma split_app sep w s : ~ In sep w -> split_on sep (w ++ sep :: s) = w :: split_on sep s.
Proof.
  induction w as [|c w IH]; cbn [app split_on In]; intros H.
  - pose proof (split_nonempty sep s). destruct (split_on sep s); [congruence|]. rewrite N.eqb_refl. auto.
  - rewrite IH by tauto. destruct (N.eqb_spec c sep); [subst; tauto|auto].
Qed.

Lemma split_join sep ws : ws <> [] -> (forall w, In w ws -> ~ In sep w) -> split_on sep (join sep ws) = ws.
Proof.
  induction ws as [|w ws IH]; [congruence|]. intros _ H. destruct ws as [|x ws].
  - cbn. apply split_no_sep. apply H. left; auto.
  - rewrite join_more, split_app by (apply H; left; auto). f_equal. apply IH; [discriminate|].
    intros y Hy. apply H. right; auto.
Qed.

Lemma split_no_seps sep s w : In w (split_on sep s) -> ~ In sep w.
Proof.
  revert w. induction s as [|c s IH]; cbn [split_on]; intros w H.
  - destruct H as [<-|[]]. auto.
  - pose proof (split_nonempty sep s). destruct (split_on sep s) as [|v vs]; [congruence|].
    destruct (N.eqb_spec c sep) as [->|].
    + destruct H as [<-|H]; auto.
    + destruct H as [<-|H]; [|apply IH; right; auto]. intros [E|E]; [congruence|]. apply (IH v); [left; auto|auto].
Qed.

(** What a time argument gives, for every string: minutes and hours as numbers, in
    64-bit arithmetic, or 0. *)
Theorem C53_time s :
  (exists hs ms h m, s = hs ++ 58 :: ms /\ numeral hs h /\ h < 2 ^ 64 /\ numeral ms m /\ m < 2 ^ 64
     /\ parseTimeStampToMicroSeconds s = ((60 * h + m) * 60 * 10 ^ 6) mod 2 ^ 64)
  \/ ((forall hs ms h m, s = hs ++ 58 :: ms -> numeral hs h -> h < 2 ^ 64 -> numeral ms m -> m < 2 ^ 64 -> False)
      /\ parseTimeStampToMicroSeconds s = 0).
Proof.
  assert (NS : forall x v, numeral x v -> ~ In 58 x).
  { induction 1 as [c H|x v c _ IH H]; cbn; [intros [E|[]]; lia|].
    intros E. apply in_app_or in E as [E|[E|[]]]; [auto|lia]. }
  assert (SP : forall hs ms h m, numeral hs h -> numeral ms m -> split_on 58 (hs ++ 58 :: ms) = [hs; ms]).
  { intros hs ms h m H1 H2. rewrite split_app, split_no_sep; eauto. }
  unfold parseTimeStampToMicroSeconds.
  destruct (split_on 58 s) as [|hs [|ms [|x l]]] eqn:E;
    try (right; split; [intros hs' ms' h m -> H1 _ H2 _; rewrite (SP hs' ms' h m) in E by auto; discriminate|reflexivity]).
  destruct (ParseUint hs) as [h|] eqn:EH; [destruct (ParseUint ms) as [m|] eqn:EM|].
  - left. exists hs, ms, h, m. apply ParseUint_spec in EH, EM. destruct EH, EM.
    pose proof (join_split 58 s) as J. rewrite E in J. cbn in J. split; [auto|]. repeat (split; [auto|]).
    unfold add64, u64. rewrite <- N.add_mod by (vm_compute; discriminate). f_equal. lia.
  - right. split; auto. intros hs' ms' h' m' -> H1 H2 H3 H4. rewrite (SP hs' ms' h' m') in E by auto.
    injection E as <- <-. assert (ParseUint ms' = Some m') by (apply ParseUint_spec; auto). congruence.
  - right. split; auto. intros hs' ms' h' m' -> H1 H2 H3 H4. rewrite (SP hs' ms' h' m') in E by auto.
    injection E as <- <-. assert (ParseUint hs' = Some h') by (apply ParseUint_spec; auto). congruence.
Qed.
Print Assumptions C53_time.

(** Times of day are converted exactly. *)
Theorem C53_time_of_day hs ms h m : numeral hs h -> numeral ms m -> h < 24 -> m < 60 ->
  parseTimeStampToMicroSeconds (hs ++ 58 :: ms) = (60 * h + m) * 60 * 10 ^ 6.
Proof.
  intros H1 H2 H3 H4. destruct (C53_time (hs ++ 58 :: ms)) as [(hs' & ms' & h' & m' & E & A & B & D & F & G)|[H _]].
  - assert (NS : forall x v, numeral x v -> ~ In 58 x).
    { induction 1 as [c H|x v c _ IH H]; cbn; [intros [E'|[]]; lia|].
      intros E'. apply in_app_or in E' as [E'|[E'|[]]]; [auto|lia]. }
    pose proof (f_equal (split_on 58) E) as S. rewrite !split_app, !split_no_sep in S by eauto.
    injection S as <- <-.
    assert (Q : forall x v, numeral x v -> v < 2 ^ 64 -> ParseUint x = Some v) by (intros; apply ParseUint_spec; auto).
    assert (h < 2 ^ 64) by lia. assert (m < 2 ^ 64) by lia.
    assert (h' = h) by (pose proof (Q hs h H1); pose proof (Q hs h' A); intuition congruence).
    assert (m' = m) by (pose proof (Q ms m H2); pose proof (Q ms m' D); intuition congruence).
    subst. rewrite G. apply N.mod_small. change (10 ^ 6) with 1000000. lia.
  - exfalso. eapply H; eauto; lia.
Qed.
Print Assumptions C53_time_of_day.

(** "12:34" *)
Example C53_instance_time :
  numeral [49; 50] 12 /\ numeral [51; 52] 34
  /\ parseTimeStampToMicroSeconds [49; 50; 58; 51; 52] = (60 * 12 + 34) * 60 * 10 ^ 6.
Proof.
  split; [|split; [|reflexivity]].
  - apply (numeral_more [49] 1 50); [apply (numeral_digit 49)|]; lia.
  - apply (numeral_more [51] 3 52); [apply (numeral_digit 51)|]; lia.
Qed.

(** Larger numbers wrap around instead of being refused: 5124095577:00 is a time
    of about 25 minutes; and midnight is refused, being 0. *)
Theorem C53_time_refuted :
  (exists s hs ms h m, s = hs ++ 58 :: ms /\ numeral hs h /\ numeral ms m
     /\ parseTimeStampToMicroSeconds s <> (60 * h + m) * 60 * 10 ^ 6 /\ parseTimeStampToMicroSeconds s <> 0)
  /\ parseTimeStampToMicroSeconds [48; 48; 58; 48; 48] = 0.
Proof.
  split; [|reflexivity].
  exists ([53; 49; 50; 52; 48; 57; 53; 53; 55; 55] ++ 58 :: [48; 48]), [53; 49; 50; 52; 48; 57; 53; 53; 55; 55], [48; 48].
  exists 5124095577, 0. split; [reflexivity|]. split; [|split; [|split; [vm_compute; discriminate|vm_compute; discriminate]]].
  - apply ParseUint_spec. vm_compute. reflexivity.
  - apply ParseUint_spec. vm_compute. reflexivity.
Qed.
Print Assumptions C53_time_refuted.

(** Printing the parsed path gives the argument back, for every string; its
    components contain no '/'. *)
Theorem C53_path s : makePath (parse_path s) = Ok s /\ forall c, In c (parse_path s) -> ~ In 47 c.
Proof.
  unfold parse_path. split.
  - pose proof (join_split 47 s) as J. pose proof (split_nonempty 47 s). unfold makePath.
    destruct (split_on 47 s); [congruence|]. f_equal. exact J.
  - apply split_no_seps.
Qed.
Print Assumptions C53_path.

(** Parsing a printed path gives the path back, when it has components and none of
    them contains '/'. *)
Theorem C53_path_back_partial p : p <> [] -> (forall c, In c p -> ~ In 47 c) ->
  exists s, makePath p = Ok s /\ parse_path s = p.
Proof.
  intros HN H. destruct p as [|c p]; [congruence|]. eexists. split; [reflexivity|].
  unfold parse_path. exact (split_join 47 (c :: p) HN H).
Qed.
Print Assumptions C53_path_back_partial.

(** Otherwise two paths are printed alike, and the empty path cannot be printed. *)
Theorem C53_path_back_refuted :
  (exists p q, p <> q /\ makePath p = makePath q /\ exists s, makePath p = Ok s) /\ makePath [] = Panic.
Proof. split; [|reflexivity]. exists [[97; 47; 98]], [[97]; [98]]. split; [discriminate|]. split; [reflexivity|]. eexists; reflexivity. Qed.
Print Assumptions C53_path_back_refuted.

(** "blog/idea/" *)
Example C53_instance_path : parse_path [98; 108; 47; 105; 47] = [[98; 108]; [105]; []] /\ makePath [[98; 108]; [105]; []] = Ok [98; 108; 47; 105; 47].
Proof. split; reflexivity. Qed.

(** * C65 *)

Lemma Set_file C U ops st i auth now pruned st' :
  reached C U ops st -> op_ok C U (OpSet i auth now) -> Set_ C i auth now st = (Ok pruned, st') ->
  mget (files st') (c_fname C (c_hash C (i_payload i))) = Some (i_payload i).
Proof.
  intros H [O1 O2] E. pose proof H as [(PP & HU & _ & L) _].
  destruct (reached_runs C U PP HU ops st H) as (n & xs & R).
  destruct (runs_Inv _ _ _ _ _ _ R) as (I & HL & _).
  assert (Hn : n + 1 < 2 ^ 64) by lia.
  destruct (Set_spec C U PP HU n xs st i auth now Hn I O1 O2)
    as [(A & pr & s' & E' & HP & I' & K & F)|(A & s' & E' & _)]; rewrite E' in E; [|discriminate].
  inversion E; subst pr s'. unfold file_of in F. exact F.
Qed.

(** After a Set at a path typed by the user, "get" with the same argument prints
    the payload. *)
Theorem C65_get_after_set_partial C U ops st i auth now pruned st' arg :
  reached C U ops st -> i_path i = parse_path arg ->
  op_ok C U (OpSet i auth now) -> Set_ C i auth now st = (Ok pruned, st') ->
  c_fname C (c_hash C (i_payload i)) <> [] ->
  cli_get C true (i_sub i) arg st' = Ok (i_payload i).
Proof.
  intros HR HP HO HS HN.
  destruct (C29_read_your_writes_partial C U ops st i auth now pruned st' HR HO HS) as [(a & HG) HB].
  unfold cli_get. rewrite <- HP, HG. cbn [e_digest].
  pose proof (Set_file C U ops st i auth now pruned st' HR HO HS) as HF.
  unfold pd_Get, pl_Bytes. cbn [p_files]. rewrite HF.
  destruct (c_fname C (c_hash C (i_payload i))) eqn:E; [congruence|]. rewrite HF. auto.
Qed.
Print Assumptions C65_get_after_set_partial.

Example C65_instance :
  i_path (Input [115] [[97]; [100]] [6; 7] 9) = parse_path [97; 47; 100]
  /\ op_ok demo small (demo_set [[97]; [100]] [6; 7] 9)
  /\ fst (Set_ demo (Input [115] [[97]; [100]] [6; 7] 9) [115] 1 demo_after) = Ok []
  /\ cli_get demo true [115] [97; 47; 100] (snd (Set_ demo (Input [115] [[97]; [100]] [6; 7] 9) [115] 1 demo_after)) = Ok [6; 7].
Proof.
  split; [reflexivity|]. split; [|vm_compute; auto]. split; [apply smallb_spec; vm_compute; reflexivity|].
  apply demo_entry_okb_spec. vm_compute. reflexivity.
Qed.

(** What "get" does, for every reached store and every argument within the limits: the payload of
    the live entry there, a panic if that payload is absent, an empty line if there is no entry
    (the payload directory read as a file), a panic if the directory does not exist yet. *)
Theorem C65_get_partial C U ops st dir s arg :
  reached C U ops st -> strict_path (c_pp C) (parse_path arg) -> c_fname C [] = [] ->
  (forall e, live C st e -> e_subspace e = s -> e_path e = parse_path arg -> c_fname C (e_digest e) <> [] ->
     cli_get C dir s arg st = match mget (files st) (c_fname C (e_digest e)) with Some b => if dir then Ok b else Panic | None => Panic end)
  /\ ((forall e, live C st e -> ~ (e_subspace e = s /\ e_path e = parse_path arg)) ->
     cli_get C dir s arg st = if dir then Ok [] else Panic).
Proof.
  intros HR HS HF. destruct (C24_get_partial C U ops st s (parse_path arg) HR HS) as [(e & a & G & L & E1 & E2)|(G & N)].
  - split; [|intros N; exfalso; apply (N e L); auto]. intros e' L' E1' E2' HN.
    replace e' with e in * by (apply (C24_one_live_entry_partial C U ops st); congruence).
    unfold cli_get. rewrite G. cbn [e_digest]. unfold pd_Get, pl_Bytes. cbn [p_files].
    destruct (c_fname C (e_digest e)) as [|x f] eqn:EF; [congruence|]. destruct (mget (files st) (x :: f)) eqn:EM; destruct dir; auto. rewrite EM. auto.
  - split; [intros e L E1 E2; exfalso; apply (N e L); auto|]. intros _. unfold cli_get. rewrite G. unfold pd_Get, pl_Bytes. rewrite HF. destruct dir; auto.
Qed.
Print Assumptions C65_get_partial.

(** Without the payload directory nothing is ever printed, whatever the store holds. *)
Theorem C65_no_directory C s arg st b : cli_get C false s arg st <> Ok b.
Proof. unfold cli_get. destruct (driver_Get C s (parse_path arg) st) as [[o| | | |] st']; discriminate. Qed.
Print Assumptions C65_no_directory.

(** Where there is no entry, "get" prints an empty line as for an empty payload; in
    a new namespace it panics; and it panics for an entry whose payload is absent. *)
Theorem C65_absent_refuted :
  (exists st s arg, reached demo small demo_ops st
     /\ (forall e, live demo st e -> ~ (e_subspace e = s /\ e_path e = parse_path arg))
     /\ cli_get demo true s arg st = Ok [])
  /\ cli_get demo false [115] [97] empty_store = Panic
  /\ exists ops st e, reached demo small ops st /\ live demo st e
       /\ cli_get demo true (e_subspace e) [97] st = Panic /\ e_path e = parse_path [97].
Proof.
  split; [|split; [vm_compute; reflexivity|]].
  - exists demo_after, [115], [122]. split; [exact demo_reached|]. split; [|vm_compute; reflexivity].
    intros e He [E1 E2]. destruct He as (_ & k & v & w & Hin & Hk & _).
    assert (HF : forallb (fun kvp => match DecodeKey (fst kvp) (c_pp demo) with
       | Ok q => negb (Z.eqb (OrderPath (pos_path q) [[122]]) 0) | _ => true end) (kv demo_after) = true) by (vm_compute; reflexivity).
    rewrite forallb_forall in HF. specialize (HF _ Hin). cbn [fst] in HF. rewrite Hk in HF. cbn [pos_path] in HF.
    rewrite E2 in HF. vm_compute in HF. discriminate.
  - exists [OpIngest (demo_e [[97]] [1; 2] 5) [115]], (after_ops [OpIngest (demo_e [[97]] [1; 2] 5) [115]]), (demo_e [[97]] [1; 2] 5).
    split; [split; [apply demo_history; vm_compute; reflexivity|vm_compute; reflexivity]|].
    split; [apply liveb_spec; vm_compute; reflexivity|]. split; [vm_compute; reflexivity|reflexivity].
Qed.
Print Assumptions C65_absent_refuted.
