(** C68: private area intersection. *)
From Verif Require Import Base M_Order M_Paths M_Book M_Pai S_Order P_Order P_Paths P_Encoding P_Book.
Local Open Scope N_scope.

Lemma mget_mput {V} (m : list (N * V)) k v k' : mget N.eqb (mput N.eqb m k v) k' = if k' =? k then Some v else mget N.eqb m k'.
Proof.
  unfold mput. cbn [mget]. destruct (N.eqb_spec k' k) as [->|N1]; auto.
  unfold mdel. induction m as [|[a w] m IH]; auto. cbn [filter fst mget].
  destruct (N.eqb_spec k a) as [->|N2]; cbn [negb].
  - destruct (N.eqb_spec k' a); [congruence|exact IH].
  - cbn [mget]. destruct (k' =? a); auto.
Qed.

Lemma fold_stay {A B} (f : A -> B -> A) a l : (forall x, f a x = a) -> fold_left f l a = a.
Proof. intros H. induction l as [|x l IH]; cbn [fold_left]; [reflexivity|]. rewrite H. exact IH. Qed.

Section Pai.
Context {G S RC SC : Type} (zeroG : G) (zeroRC : RC) (zeroSC : SC).
Context (FragmentToGroup : fragment -> G) (ScalarMult : G -> S -> G) (IsGroupEqual : G -> G -> bool)
        (GetFragmentKit : RC -> kit).
Notation isec := (@isec G).
Notation auth_t := (@authorisation RC SC).
Notation finder := (@finder G S RC SC).
Notation run := (pai_run zeroG zeroRC zeroSC FragmentToGroup ScalarMult IsGroupEqual GetFragmentKit).
Notation step := (pai_step zeroG zeroRC zeroSC FragmentToGroup ScalarMult IsGroupEqual GetFragmentKit).
Notation Submit := (SubmitAuthorisation FragmentToGroup ScalarMult GetFragmentKit).
Notation info := (info_at zeroRC zeroSC).

(** The fragments of a capability: one for each prefix of its path. *)
Definition fragment_of (k : kit) (f : fragment) : Prop :=
  match k with
  | KSelective ns sub p => exists q, prefix_of q p /\ (f = FTriple ns sub q \/ f = FPair ns q)
  | KComplete ns p => exists q, prefix_of q p /\ f = FPair ns q
  end.
Definition kit_path (k : kit) : path := match k with KSelective _ _ p => p | KComplete _ p => p end.
Definition fragment_path (f : fragment) : path := match f with FTriple _ _ q => q | FPair _ q => q end.
Definition fragment_ns (f : fragment) : bytes := match f with FTriple ns _ _ => ns | FPair ns _ => ns end.

(** What a finder knows about its own fragment at a handle. *)
Record bound (auth : auth_t) (f : fragment) (h : N) (p : finder) : Prop := {
  b_group : hs_Get (p_ours p) h = Some (Isec (ScalarMult (FragmentToGroup f) (p_scalar p)) false false);
  b_id : f_id (info p h) = true;
  b_auth : f_auth (info p h) = auth;
  b_path : f_path (info p h) = fragment_path f;
  b_ns : f_ns (info p h) = fragment_ns f;
  b_sub : f_sub (info p h) = match f with FTriple _ sub _ => Subspace sub | FPair _ _ => AnySubspace end
}.

Lemma hs_Bind_spec (s : hstore isec) v : h_least s + 1 < 2 ^ 64 ->
  let '(h, s') := hs_Bind s v in
  h = h_least s /\ h_least s' = h_least s + 1 /\ hs_Get s' h = Some v
  /\ forall k, k <> h -> hs_Get s' k = hs_Get s k.
Proof.
  intros L. unfold hs_Bind, hs_Get. cbn [h_least h_map]. split; auto. split; [apply N.mod_small; exact L|].
  split; [rewrite mget_mput, N.eqb_refl; reflexivity|]. intros k Hk. rewrite mget_mput.
  destruct (N.eqb_spec k (h_least s)); [contradiction|reflexivity].
Qed.

Lemma submit_loop_spec auth fs : forall p : finder, h_least (p_ours p) + len fs < 2 ^ 64 ->
  let p' := submit_loop FragmentToGroup ScalarMult auth fs p in
  h_least (p_ours p') = h_least (p_ours p) + len fs
  /\ p_binds p' = p_binds p ++ map (fun f => (ScalarMult (FragmentToGroup f) (p_scalar p), false)) fs
  /\ p_theirs p' = p_theirs p /\ p_found p' = p_found p /\ p_replies p' = p_replies p /\ p_requests p' = p_requests p
  /\ p_cap_replies p' = p_cap_replies p /\ p_scalar p' = p_scalar p
  /\ (forall k f, nth_error fs k = Some f ->
        bound auth f (h_least (p_ours p) + N.of_nat k) p'
        /\ f_on (info p' (h_least (p_ours p) + N.of_nat k)) = if Nat.eqb (Datatypes.S k) (length fs) then BIND_READ_CAP else REPLY_READ_CAP)
  /\ (forall h, h < h_least (p_ours p) -> hs_Get (p_ours p') h = hs_Get (p_ours p) h /\ info p' h = info p h)
  /\ (forall h i, hs_Get (p_ours p') h = Some i -> i_complete i = true -> hs_Get (p_ours p) h = Some i).
Proof.
  induction fs as [|f fs IH]; intros p L; cbv zeta.
  - cbn [submit_loop]. change (len (@nil fragment)) with 0. rewrite N.add_0_r. cbn [map]. rewrite app_nil_r.
    repeat (split; [reflexivity|]). split; [intros [|k] f E; discriminate|]. split; auto.
  - cbn [submit_loop]. unfold SubmitFragment.
    rewrite (len_cons f fs) in *.
    pose proof (hs_Bind_spec (p_ours p) (Isec (ScalarMult (FragmentToGroup f) (p_scalar p)) false false) ltac:(lia)) as HB.
    destruct (hs_Bind _ _) as [h ours]. destruct HB as (-> & B1 & B2 & B3).
    set (p1 := put_info _ _ _). specialize (IH p1).
    assert (E1 : p_ours p1 = ours) by reflexivity. rewrite E1, B1 in IH.
    destruct IH as (I1 & I2 & I3 & I4 & I5 & I6 & I7 & I8 & I9 & I10 & I11); [lia|].
    set (p' := submit_loop _ _ _ _ _) in *.
    split; [rewrite I1; lia|].
    split; [rewrite I2; unfold p1; cbn [p_binds put_info map p_scalar]; rewrite <- app_assoc; reflexivity|].
    split; [exact I3|]. split; [exact I4|]. split; [exact I5|]. split; [exact I6|]. split; [exact I7|]. split; [exact I8|].
    assert (IN1 : forall h, info p1 h = if h =? h_least (p_ours p) then fragment_info auth (match fs with [] => true | _ => false end) f else info p h).
    { intros h. unfold info_at, p1. cbn [p_info put_info]. rewrite mget_mput. destruct (h =? h_least (p_ours p)); reflexivity. }
    split; [|split].
    + intros [|k] g E; cbn [nth_error] in E.
      * injection E as <-. change (N.of_nat 0) with 0. rewrite N.add_0_r.
        destruct (I10 (h_least (p_ours p)) ltac:(lia)) as (J1 & J2).
        assert (J3 : info p' (h_least (p_ours p)) = fragment_info auth (match fs with [] => true | _ => false end) f)
          by (rewrite J2, IN1, N.eqb_refl; reflexivity).
        split; [constructor|].
        -- rewrite J1, I8. exact B2.
        -- rewrite J3. destruct f; reflexivity.
        -- rewrite J3. destruct f; reflexivity.
        -- rewrite J3. destruct f; reflexivity.
        -- rewrite J3. destruct f; reflexivity.
        -- rewrite J3. destruct f; reflexivity.
        -- rewrite J3. destruct fs; destruct f; reflexivity.
      * replace (h_least (p_ours p) + N.of_nat (Datatypes.S k)) with (h_least (p_ours p) + 1 + N.of_nat k) by lia.
        destruct (I9 k g E) as (J1 & J2). split; [exact J1|]. rewrite J2. reflexivity.
    + intros h Hh. destruct (I10 h ltac:(lia)) as (J1 & J2). rewrite J1, J2, IN1.
      destruct (N.eqb_spec h (h_least (p_ours p))); [lia|]. split; [apply B3; lia|reflexivity].
    + intros h i Hi HC. apply I11 in Hi; auto. destruct (N.eq_dec h (h_least (p_ours p))) as [->|NE].
      * rewrite B2 in Hi. injection Hi as <-. discriminate HC.
      * rewrite <- (B3 h NE). exact Hi.
Qed.

Lemma CreateFragmentSet_spec k :
  let fs := fst (CreateFragmentSet k) ++ snd (CreateFragmentSet k) in
  NoDup fs /\ (forall f, In f fs <-> fragment_of k f)
  /\ (forall l, l = fst (CreateFragmentSet k) \/ l = snd (CreateFragmentSet k) ->
        forall i f, nth_error l i = Some f -> (Datatypes.S i = length l <-> fragment_path f = kit_path k)).
Proof.
  assert (ND : forall mk : path -> fragment, (forall q, fragment_path (mk q) = q) -> forall p, NoDup (map mk (PrefixesOf p))).
  { intros mk H p. apply FinFun.Injective_map_NoDup; [|apply PrefixesOf_NoDup]. intros a b E. rewrite <- (H a), E. apply H. }
  assert (IN : forall mk : path -> fragment, forall p f, In f (map mk (PrefixesOf p)) <-> exists q, prefix_of q p /\ f = mk q).
  { intros mk p f. rewrite in_map_iff. split; [intros (q & <- & Hq); exists q; rewrite <- PrefixesOf_In; auto|].
    intros (q & Hq & ->). exists q. rewrite PrefixesOf_In. auto. }
  assert (LS : forall mk : path -> fragment, (forall q, fragment_path (mk q) = q) -> forall p i f,
     nth_error (map mk (PrefixesOf p)) i = Some f -> (Datatypes.S i = length (map mk (PrefixesOf p)) <-> fragment_path f = p)).
  { intros mk H p i f E. rewrite map_length, PrefixesOf_length. rewrite nth_error_map in E.
    assert (Hi : (i <= length p)%nat).
    { destruct (Nat.le_gt_cases i (length p)); auto. exfalso.
      assert (nth_error (PrefixesOf p) i = None) by (apply nth_error_None; rewrite PrefixesOf_length; lia).
      rewrite H1 in E. discriminate E. }
    rewrite PrefixesOf_nth in E by auto. cbn in E. injection E as <-. rewrite H. split.
    - intros E'. injection E' as ->. apply firstn_all.
    - intros E'. apply (f_equal (@length _)) in E'. rewrite firstn_length in E'. lia. }
  destruct k as [ns p|ns sub p]; cbn [CreateFragmentSet fst snd app kit_path].
  - split; [apply ND; reflexivity|]. split; [intros f; apply IN|].
    intros l [->| ->] i f E; [destruct i; discriminate|]. apply LS; auto.
  - split; [|split].
    + apply NoDup_app_intro; [apply ND; reflexivity|apply ND; reflexivity|].
      intros f H1 H2. apply IN in H1 as (q & _ & ->). apply IN in H2 as (q' & _ & E). discriminate E.
    + intros f. rewrite in_app_iff, !IN. cbn [fragment_of]. split.
      * intros [(q & Hq & ->)|(q & Hq & ->)]; exists q; auto.
      * intros (q & Hq & [->| ->]); [left|right]; exists q; auto.
    + intros l [->| ->] i f E; apply LS; auto.
Qed.

(** * C68 *)

(** Submitting an authorisation binds a handle to each fragment of its
    capability, sends them in the order of the handles, and remembers for each
    the authorisation; the fragments of the whole granted path ask for the read
    capability to be bound. *)
Theorem C68_submit auth (p : finder) :
  let k := GetFragmentKit (a_cap auth) in
  h_least (p_ours p) + 2 * (len (kit_path k) + 1) < 2 ^ 64 ->
  let p' := Submit auth p in
  exists fs, NoDup fs /\ (forall f, In f fs <-> fragment_of k f)
    /\ p_binds p' = p_binds p ++ map (fun f => (ScalarMult (FragmentToGroup f) (p_scalar p), false)) fs
    /\ h_least (p_ours p') = h_least (p_ours p) + len fs
    /\ (forall i f, nth_error fs i = Some f ->
          bound auth f (h_least (p_ours p) + N.of_nat i) p'
          /\ (fragment_path f = kit_path k -> f_on (info p' (h_least (p_ours p) + N.of_nat i)) = BIND_READ_CAP)
          /\ (fragment_path f <> kit_path k -> f_on (info p' (h_least (p_ours p) + N.of_nat i)) = REPLY_READ_CAP))
    /\ (forall h, h < h_least (p_ours p) -> hs_Get (p_ours p') h = hs_Get (p_ours p) h /\ info p' h = info p h)
    /\ p_found p' = p_found p /\ p_replies p' = p_replies p /\ p_theirs p' = p_theirs p.
Proof.
  intros k L p'. destruct (CreateFragmentSet_spec k) as (ND & IN & LS).
  assert (LEN : len (fst (CreateFragmentSet k) ++ snd (CreateFragmentSet k)) <= 2 * (len (kit_path k) + 1)).
  { destruct k as [ns q|ns sub q]; cbn [CreateFragmentSet fst snd app kit_path]; unfold len;
      rewrite ?app_length, !map_length, PrefixesOf_length; lia. }
  exists (fst (CreateFragmentSet k) ++ snd (CreateFragmentSet k)). split; [exact ND|]. split; [exact IN|].
  subst p'. unfold SubmitAuthorisation. fold k. destruct (CreateFragmentSet k) as [f1 f2]. cbn [fst snd] in *.
  rewrite len_app in LEN.
  destruct (submit_loop_spec auth f1 p) as (A1 & A2 & A3 & A4 & A5 & A6 & A7 & A8 & A9 & A10 & _); [lia|].
  set (p1 := submit_loop _ _ auth f1 p) in *.
  destruct (submit_loop_spec auth f2 p1) as (B1 & B2 & B3 & B4 & B5 & B6 & B7 & B8 & B9 & B10 & _); [lia|].
  set (p2 := submit_loop _ _ auth f2 p1) in *.
  split; [rewrite B2, A2, A8, map_app, app_assoc; reflexivity|].
  split; [rewrite B1, A1, len_app; lia|].
  assert (ON : forall l, l = f1 \/ l = f2 -> forall i f o, nth_error l i = Some f ->
     o = (if Nat.eqb (Datatypes.S i) (length l) then BIND_READ_CAP else REPLY_READ_CAP) ->
     (fragment_path f = kit_path k -> o = BIND_READ_CAP) /\ (fragment_path f <> kit_path k -> o = REPLY_READ_CAP)).
  { intros l Hl i f o E ->. pose proof (LS l Hl i f E) as X.
    destruct (Nat.eqb_spec (Datatypes.S i) (length l)) as [Y|Y]; split; intros Z; auto; exfalso; tauto. }
  split; [|split; [|split; [congruence|split; congruence]]].
  - intros i f E. destruct (Nat.lt_ge_cases i (length f1)) as [Hi|Hi].
    + rewrite nth_error_app1 in E by auto. destruct (A9 i f E) as ([C1 C2 C3 C4 C5] & C6).
      assert (LI : h_least (p_ours p) + N.of_nat i < h_least (p_ours p1)) by (rewrite A1; unfold len; lia).
      destruct (B10 _ LI) as (D1 & D2). split.
      * constructor; rewrite ?D1, ?D2, ?B8; auto.
      * rewrite D2. apply (ON f1) with (i := i); auto.
    + rewrite nth_error_app2 in E by auto. destruct (B9 _ f E) as (C & C6).
      replace (h_least (p_ours p) + N.of_nat i) with (h_least (p_ours p1) + N.of_nat (i - length f1)) by (rewrite A1; unfold len; lia).
      split; [exact C|]. apply (ON f2) with (i := (i - length f1)%nat); auto.
  - intros h Hh. destruct (A10 h Hh) as (C1 & C2). destruct (B10 h ltac:(rewrite A1; lia)) as (D1 & D2). split; congruence.
Qed.

(** With the same scalar in every call, a bind is answered by the group member
    multiplied once more. With a group in which multiplication commutes and loses
    nothing, the answers of two finders to each other are equal exactly for equal
    fragments. *)
Theorem C68_answers_partial (p q : finder) f f' sec sec' order order' :
  (forall g a b, ScalarMult (ScalarMult g a) b = ScalarMult (ScalarMult g b) a) ->
  (forall g h a, ScalarMult g a = ScalarMult h a -> g = h) ->
  (forall a b, FragmentToGroup a = FragmentToGroup b -> a = b) ->
  p_theirs p = hs_new -> p_theirs q = hs_new ->
  let p' := step p (PBind (ScalarMult (FragmentToGroup f') (p_scalar q)) sec' (p_scalar p) order) in
  let q' := step q (PBind (ScalarMult (FragmentToGroup f) (p_scalar p)) sec (p_scalar q) order') in
  exists h h' g g', p_replies p' = p_replies p ++ [(h, g)] /\ p_replies q' = p_replies q ++ [(h', g')]
    /\ (g = g' <-> f = f').
Proof.
  intros HC HI HF TP TQ. cbv zeta. cbn [pai_step]. unfold ReceivedBind, CheckForIntersections. cbn [hs_Bind p_theirs p_ours].
  rewrite TP, TQ. cbn [isec_at hs_Get hs_new h_map mget option_map zero_isec i_complete negb p_replies].
  eexists _, _, _, _. split; [reflexivity|]. split; [reflexivity|]. split; [|intros ->; apply HC].
  intros E. rewrite HC in E. apply HI in E. apply HI in E. apply HF in E. auto.
Qed.

(** Group members a peer sends are not the zero value. *)
Definition nonzero (o : @pai_op G S RC SC) : Prop :=
  match o with
  | PBind g _ s _ => IsGroupEqual (ScalarMult g s) zeroG = false
  | PReply _ g _ => IsGroupEqual g zeroG = false
  | PVerified _ _ => False
  | _ => True
  end.

(** Whatever is submitted and received, a finder never announces an
    intersection, never asks for a subspace capability and never sends one; and
    it can tell no area that both would see. *)
Theorem C68_silent s ops : Forall nonzero ops ->
  (forall auth, In (PSubmit auth) ops -> len (kit_path (GetFragmentKit (a_cap auth))) < 2 ^ 31) -> len ops < 2 ^ 31 ->
  let p := run (NewPaiFinder hs_new hs_new s) ops in
  p_found p = [] /\ p_requests p = [] /\ p_cap_replies p = []
  /\ forall h ours order, (forall a b, IsGroupEqual a b = IsGroupEqual b a) ->
       GetIntersectionPrivy zeroG zeroRC zeroSC IsGroupEqual h ours order p = Ok ([], None).
Proof.
  intros HF HL HO. cbv zeta.
  assert (INV : p_theirs (run (NewPaiFinder hs_new hs_new s) ops) = hs_new
     /\ (forall h i, hs_Get (p_ours (run (NewPaiFinder hs_new hs_new s) ops)) h = Some i -> i_complete i = true -> IsGroupEqual (i_group i) zeroG = false)
     /\ h_least (p_ours (run (NewPaiFinder hs_new hs_new s) ops)) <= len ops * 2 ^ 32
     /\ p_found (run (NewPaiFinder hs_new hs_new s) ops) = [] /\ p_requests (run (NewPaiFinder hs_new hs_new s) ops) = []
     /\ p_cap_replies (run (NewPaiFinder hs_new hs_new s) ops) = []).
  2:{ destruct INV as (I1 & I2 & _ & I4 & I5 & I6). set (p := run _ ops) in *. clearbody p. split; auto. split; auto. split; auto.
      intros h ours order SY. unfold GetIntersectionPrivy. rewrite I1. destruct ours; induction order as [|x order IHo]; auto.
      change (isec_at zeroG hs_new h) with (zero_isec zeroG) in *. cbn [zero_isec i_secondary i_group andb] in *.
      destruct (hs_Get (p_ours p) x) as [i|] eqn:E.
      2:{ replace (isec_at zeroG (p_ours p) x) with (zero_isec zeroG) by (unfold isec_at; rewrite E; reflexivity). exact IHo. }
      replace (isec_at zeroG (p_ours p) x) with i by (unfold isec_at; rewrite E; reflexivity).
      destruct (i_complete i) eqn:C; cbn [negb]; [|exact IHo].
      rewrite (SY zeroG), (I2 x i E C). exact IHo. }
  revert HF HL HO. induction ops as [|o ops IH] using rev_ind; intros HF HL HO.
  - cbn. split; auto. split; [intros h i E; discriminate E|]. split; [lia|auto].
  - apply Forall_app in HF as [HF Ho]. apply Forall_inv in Ho. rewrite len_app in *. change (len [o]) with 1 in *.
    destruct IH as (I1 & I2 & I3 & I4 & I5 & I6); auto; [intros a Ha; apply HL; apply in_or_app; auto|lia|].
    unfold M_Pai.pai_run. rewrite fold_left_app. cbn [fold_left].
    change (fold_left (pai_step zeroG zeroRC zeroSC FragmentToGroup ScalarMult IsGroupEqual GetFragmentKit) ops (NewPaiFinder hs_new hs_new s))
      with (run (NewPaiFinder hs_new hs_new s) ops).
    set (p := run (NewPaiFinder hs_new hs_new s) ops) in *. clearbody p.
    assert (BIG : len ops * 2 ^ 32 + 2 ^ 32 < 2 ^ 64) by (change (2 ^ 64) with (2 ^ 32 * 2 ^ 32); change (2 ^ 31) with 2147483648 in *; nia).
    assert (GONE : forall h, isec_at zeroG (hs_new : hstore isec) h = zero_isec zeroG) by reflexivity.
    assert (CHECK : forall h ours order (v : finder), p_theirs v = hs_new ->
       CheckForIntersections zeroG zeroRC zeroSC IsGroupEqual h ours order v = v).
    { intros h ours order v TV. unfold CheckForIntersections. rewrite TV. destruct ours.
      - destruct (negb (i_complete _)); [reflexivity|]. apply fold_stay. reflexivity.
      - reflexivity. }
    destruct o as [auth|g sec sc order|h g order|h order|h ns|h order]; cbn [pai_step] in *.
    + assert (L2 : len (kit_path (GetFragmentKit (a_cap auth))) < 2 ^ 31) by (apply HL; apply in_or_app; right; left; reflexivity).
      change (2 ^ 31) with 2147483648 in *.
      unfold SubmitAuthorisation.
      assert (LF : len (fst (CreateFragmentSet (GetFragmentKit (a_cap auth)))) + len (snd (CreateFragmentSet (GetFragmentKit (a_cap auth)))) <= 2 ^ 32).
      { destruct (GetFragmentKit (a_cap auth)) as [ns q|ns sub q]; cbn [CreateFragmentSet fst snd kit_path] in *; unfold len in *;
          rewrite ?map_length, ?PrefixesOf_length; cbn [length]; lia. }
      destruct (CreateFragmentSet _) as [f1 f2]. cbn [fst snd] in LF.
      destruct (submit_loop_spec auth f1 p) as (A1 & _ & A3 & A4 & _ & A6 & A7 & _ & _ & _ & A11); [lia|].
      set (p1 := submit_loop _ _ auth f1 p) in *.
      destruct (submit_loop_spec auth f2 p1) as (B1 & _ & B3 & B4 & _ & B6 & B7 & _ & _ & _ & B11); [lia|].
      split; [congruence|]. split; [intros h i Hi HC; eapply I2; [apply A11; [apply B11; eauto|auto]|auto]|].
      split; [lia|]. split; [congruence|]. split; congruence.
    + unfold ReceivedBind. pose proof (hs_Bind_spec (p_ours p) (Isec (ScalarMult g sc) true sec) ltac:(lia)) as HB.
      destruct (hs_Bind _ _) as [h ours]. destruct HB as (-> & B1 & B2 & B3). rewrite CHECK by exact I1.
      cbn [p_theirs p_ours p_found p_requests p_cap_replies]. split; auto. split; [|split; [lia|auto]].
      intros k i Hi HC. destruct (N.eq_dec k (h_least (p_ours p))) as [->|NE]; [|rewrite B3 in Hi by auto; eauto].
      rewrite B2 in Hi. injection Hi as <-. exact Ho.
    + unfold ReceivedReply. rewrite CHECK by exact I1. cbn [p_theirs p_ours p_found p_requests p_cap_replies].
      split; auto. unfold hs_Update. destruct (mget N.eqb (h_map (p_ours p)) h) as [t|] eqn:E.
      * split; [|split; [cbn; lia|auto]]. intros k i Hi HC. unfold hs_Get in Hi. cbn [h_map] in Hi. rewrite mget_mput in Hi.
        destruct (N.eqb_spec k h) as [->|NE]; [cbn in Hi; injection Hi as <-; exact Ho|]. eapply I2; eauto.
      * split; [exact I2|]. split; [lia|auto].
    + assert (X : ReceivedSubspaceCapRequest zeroG zeroRC zeroSC IsGroupEqual h order p = p).
      { unfold ReceivedSubspaceCapRequest. rewrite I1, GONE. cbn [zero_isec i_group]. apply fold_stay. intros x.
        unfold isec_at. destruct (hs_Get (p_ours p) x) as [i|] eqn:E; [|reflexivity].
        destruct (i_complete i) eqn:C; cbn [negb]; [|reflexivity]. rewrite (I2 x i E C). reflexivity. }
      rewrite X. split; auto. split; auto. split; [lia|auto].
    + destruct Ho.
    + assert (X : ReceivedReadCapForIntersection zeroG zeroRC zeroSC IsGroupEqual h order p = p).
      { unfold ReceivedReadCapForIntersection. rewrite I1, GONE. cbn [zero_isec i_group i_secondary]. apply fold_stay. intros x.
        unfold isec_at. destruct (hs_Get (p_ours p) x) as [i|] eqn:E; [|reflexivity].
        destruct (i_complete i) eqn:C; cbn [negb]; [|reflexivity]. rewrite andb_false_r, (I2 x i E C). reflexivity. }
      rewrite X. split; auto. split; auto. split; [lia|auto].
Qed.

(** The first bind received is answered with a handle that is not the peer's
    (its first handle is 0): it is the next handle of the finder's own store. *)
Theorem C68_reply_handle_refuted auth s g sec s' order :
  len (kit_path (GetFragmentKit (a_cap auth))) < 2 ^ 62 ->
  exists h, p_replies (run (NewPaiFinder hs_new hs_new s) [PSubmit auth; PBind g sec s' order]) = [(h, ScalarMult g s')] /\ h <> 0.
Proof.
  intros L. unfold M_Pai.pai_run. cbn [fold_left pai_step].
  change (2 ^ 62) with 4611686018427387904 in L.
  destruct (C68_submit auth (NewPaiFinder hs_new hs_new s)) as (fs & _ & IN & _ & B1 & _ & _ & _ & B2 & B3).
  { change (h_least (p_ours (NewPaiFinder hs_new hs_new s))) with 0. change (2 ^ 64) with 18446744073709551616. lia. }
  set (p := Submit auth _) in *. exists (len fs). cbn in B1. unfold ReceivedBind, CheckForIntersections, hs_Bind.
  cbn [p_theirs p_ours]. rewrite B3, B1, B2. split; [reflexivity|].
  assert (X : exists f, fragment_of (GetFragmentKit (a_cap auth)) f).
  { destruct (GetFragmentKit (a_cap auth)) as [ns q|ns sub q]; eexists; exists q; (split; [exists []; rewrite app_nil_r; reflexivity|]); eauto. }
  destruct X as (f & Hf). apply IN in Hf. destruct fs; [destruct Hf|]. unfold len. cbn [length]. lia.
Qed.

(** The outer area of a handle bound to a fragment with a subspace is the set of
    positions in that subspace below the path; for any other handle there is no
    outer area but a panic. *)
Theorem C68_outer_area auth f h (p : finder) : bound auth f h p ->
  match f with
  | FTriple ns sub q => exists a, GetHandleOuterArea zeroRC zeroSC h p = Ok a
      /\ forall x, in_area a x <-> pos_subspace x = sub /\ prefix_of q (pos_path x)
  | FPair _ _ => GetHandleOuterArea zeroRC zeroSC h p = Panic
  end.
Proof.
  intros [_ _ _ BP _ BS]. unfold GetHandleOuterArea. rewrite BS. destruct f as [ns sub q|ns q]; [|reflexivity].
  eexists. split; [reflexivity|]. intros x. unfold in_area, in_range. cbn [area_any area_subspace area_times area_path r_start r_open r_end].
  rewrite BP. cbn [fragment_path]. split.
  - intros ([D|D] & _ & P); [discriminate D|auto].
  - intros [-> P]. split; auto. split; auto. split; [lia|auto].
Qed.

(** ** What each call does *)
(** A handle of the other store that agrees with a fragment: answered, not secondary on both sides, and of the same group member. *)
Definition agrees (i o : isec) : bool := i_complete o && negb (i_secondary i && i_secondary o) && IsGroupEqual (i_group i) (i_group o).
Definition value (s : hstore isec) (h : N) : isec := match hs_Get s h with Some i => i | None => Isec zeroG false false end.
Definition wants (o : on_intersection) (p : finder) (our : N) : bool :=
  match f_on (info p our), o with
  | BIND_READ_CAP, BIND_READ_CAP | REQUEST_SUBSPACE_CAP, REQUEST_SUBSPACE_CAP | REPLY_READ_CAP, REPLY_READ_CAP => true | _, _ => false end.
Definition announced (p : finder) (our : N) : bytes * auth_t * N := (f_ns (info p our), f_auth (info p our), our).
(** Everything but what is announced and requested. *)
Definition rest_kept (p p' : finder) : Prop :=
  p_ours p' = p_ours p /\ p_theirs p' = p_theirs p /\ p_binds p' = p_binds p /\ p_replies p' = p_replies p /\ p_info p' = p_info p /\ p_scalar p' = p_scalar p.

(** Looking for intersections of a handle: each of our fragments that agrees is announced or its subspace capability requested, as noted when it was submitted. *)
Theorem C68_check h (ours : bool) order (p : finder) :
  let from := if ours then p_ours p else p_theirs p in
  let against := if ours then p_theirs p else p_ours p in
  let hits := if i_complete (value from h) then map (fun other => if ours then h else other) (filter (fun other => agrees (value from h) (value against other)) order) else [] in
  let p' := CheckForIntersections zeroG zeroRC zeroSC IsGroupEqual h ours order p in
  p_found p' = p_found p ++ map (announced p) (filter (wants BIND_READ_CAP p) hits)
  /\ p_requests p' = p_requests p ++ map (fun _ => h) (filter (wants REQUEST_SUBSPACE_CAP p) hits)
  /\ p_requested p' = rev (filter (wants REQUEST_SUBSPACE_CAP p) hits) ++ p_requested p
  /\ p_cap_replies p' = p_cap_replies p /\ rest_kept p p'.
Proof.
  cbv zeta. unfold CheckForIntersections. change (isec_at zeroG (if ours then p_ours p else p_theirs p) h) with (value (if ours then p_ours p else p_theirs p) h).
  destruct (i_complete (value _ h)) eqn:EC; cbn [negb]; [|cbn [filter map rev app]; rewrite !app_nil_r; unfold rest_kept; auto 10].
  assert (H : forall order (q : finder), p_info q = p_info p ->
    let p' := fold_left (fun (p0 : finder) (other : N) => if negb (i_complete (isec_at zeroG (if ours then p_theirs p else p_ours p) other)) then p0
       else if i_secondary (value (if ours then p_ours p else p_theirs p) h) && i_secondary (isec_at zeroG (if ours then p_theirs p else p_ours p) other) then p0
       else if negb (IsGroupEqual (i_group (value (if ours then p_ours p else p_theirs p) h)) (i_group (isec_at zeroG (if ours then p_theirs p else p_ours p) other))) then p0
       else match f_on (info p0 (if ours then h else other)) with
            | BIND_READ_CAP => announce zeroRC zeroSC (if ours then h else other) p0
            | REQUEST_SUBSPACE_CAP => Finder (p_ours p0) (p_theirs p0) (p_found p0) (p_binds p0) (p_replies p0) (p_requests p0 ++ [h]) (p_cap_replies p0) (p_info p0)
                ((if ours then h else other) :: p_requested p0) (p_scalar p0)
            | REPLY_READ_CAP => p0 end) order q in
    let hits := map (fun other => if ours then h else other) (filter (fun other => agrees (value (if ours then p_ours p else p_theirs p) h) (value (if ours then p_theirs p else p_ours p) other)) order) in
    p_found p' = p_found q ++ map (announced p) (filter (wants BIND_READ_CAP p) hits)
    /\ p_requests p' = p_requests q ++ map (fun _ => h) (filter (wants REQUEST_SUBSPACE_CAP p) hits)
    /\ p_requested p' = rev (filter (wants REQUEST_SUBSPACE_CAP p) hits) ++ p_requested q
    /\ p_cap_replies p' = p_cap_replies q /\ rest_kept q p').
  { clear order EC. induction order as [|other order IH]; intros q Q; cbv zeta.
    { cbn [fold_left filter map rev app]. rewrite !app_nil_r. unfold rest_kept. auto 10. }
    cbn [fold_left filter].
    change (isec_at zeroG (if ours then p_theirs p else p_ours p) other) with (value (if ours then p_theirs p else p_ours p) other).
    set (o := value (if ours then p_theirs p else p_ours p) other). set (i := value (if ours then p_ours p else p_theirs p) h) in *.
    assert (INF : forall x, info q x = info p x) by (intros x; unfold info_at; rewrite Q; reflexivity).
    assert (AG : agrees i o = negb (negb (i_complete o)) && negb (i_secondary i && i_secondary o) && negb (negb (IsGroupEqual (i_group i) (i_group o))))
      by (unfold agrees; rewrite !negb_involutive; reflexivity).
    rewrite AG. destruct (negb (i_complete o)); cbn [negb andb]; [apply IH; exact Q|].
    destruct (i_secondary i && i_secondary o); cbn [negb andb]; [apply IH; exact Q|].
    destruct (negb (IsGroupEqual (i_group i) (i_group o))); cbn [negb andb]; [apply IH; exact Q|].
    cbn [map filter]. rewrite INF. set (our := if ours then h else other).
    assert (W : forall x, wants x p our = match f_on (info p our), x with
      | BIND_READ_CAP, BIND_READ_CAP | REQUEST_SUBSPACE_CAP, REQUEST_SUBSPACE_CAP | REPLY_READ_CAP, REPLY_READ_CAP => true | _, _ => false end) by reflexivity.
    rewrite !W. destruct (f_on (info p our)) eqn:EO.
    - destruct (IH (announce zeroRC zeroSC our q) Q) as (I1 & I2 & I3 & I4 & I5). unfold rest_kept in *.
      cbn [p_found p_requests p_requested p_cap_replies p_ours p_theirs p_binds p_replies p_info p_scalar announce] in I1, I2, I3, I4, I5.
      rewrite I1, I2, I3, I4. cbn [map]. unfold announced at 2. rewrite !INF, <- app_assoc. auto 10.
    - match goal with |- context [fold_left _ order ?q2] => destruct (IH q2 Q) as (I1 & I2 & I3 & I4 & I5) end. unfold rest_kept in *.
      cbn [p_found p_requests p_requested p_cap_replies p_ours p_theirs p_binds p_replies p_info p_scalar] in I1, I2, I3, I4, I5.
      rewrite I1, I2, I3, I4. cbn [map rev]. rewrite <- !app_assoc. auto 10.
    - apply IH; exact Q. }
  exact (H order p eq_refl).
Qed.

(** A bind is answered with the member multiplied once more and looked for; a reply completes the fragment that is bound to the handle, if there is one, and is looked for. *)
Theorem C68_received (p : finder) :
  (forall g sec s order, h_least (p_ours p) + 1 < 2 ^ 64 ->
     exists p1, step p (PBind g sec s order) = CheckForIntersections zeroG zeroRC zeroSC IsGroupEqual (h_least (p_ours p)) false order p1
       /\ p_replies p1 = p_replies p ++ [(h_least (p_ours p), ScalarMult g s)]
       /\ (forall k, hs_Get (p_ours p1) k = if k =? h_least (p_ours p) then Some (Isec (ScalarMult g s) true sec) else hs_Get (p_ours p) k)
       /\ h_least (p_ours p1) = h_least (p_ours p) + 1
       /\ p_theirs p1 = p_theirs p /\ p_found p1 = p_found p /\ p_binds p1 = p_binds p /\ p_requests p1 = p_requests p
       /\ p_cap_replies p1 = p_cap_replies p /\ p_info p1 = p_info p /\ p_requested p1 = p_requested p /\ p_scalar p1 = p_scalar p)
  /\ (forall h g order,
     exists p1, step p (PReply h g order) = CheckForIntersections zeroG zeroRC zeroSC IsGroupEqual h true order p1
       /\ (forall k, hs_Get (p_ours p1) k = if (k =? h) && (match hs_Get (p_ours p) h with Some _ => true | None => false end) then Some (Isec g true false) else hs_Get (p_ours p) k)
       /\ p_theirs p1 = p_theirs p /\ p_found p1 = p_found p /\ p_binds p1 = p_binds p /\ p_replies p1 = p_replies p /\ p_requests p1 = p_requests p
       /\ p_cap_replies p1 = p_cap_replies p /\ p_info p1 = p_info p /\ p_requested p1 = p_requested p /\ p_scalar p1 = p_scalar p).
Proof.
  split.
  - intros g sec s order L. cbn [pai_step]. unfold ReceivedBind. pose proof (hs_Bind_spec (p_ours p) (Isec (ScalarMult g s) true sec) L) as B.
    destruct (hs_Bind (p_ours p) _) as [h ours]. destruct B as (-> & B1 & B2 & B3). eexists. split; [reflexivity|]. cbn. split; [reflexivity|]. split; [|auto 12].
    intros k. destruct (N.eqb_spec k (h_least (p_ours p))) as [->|NE]; auto.
  - intros h g order. cbn [pai_step]. unfold ReceivedReply. eexists. split; [reflexivity|]. cbn. split; [|auto 12].
    intros k. unfold hs_Update, hs_Get. destruct (mget N.eqb (h_map (p_ours p)) h) as [v|] eqn:E.
    + cbn [h_map option_map]. rewrite mget_mput, andb_true_r. destruct (k =? h); reflexivity.
    + cbn [option_map]. rewrite andb_false_r. reflexivity.
Qed.

(** A request for a subspace capability is answered with that of each of our authorisations whose fragment agrees and that has one. *)
Theorem C68_requested h order (p : finder) :
  let p' := step p (PRequest h order) in
  p_cap_replies p' = p_cap_replies p
    ++ map (fun our => (h, a_sub_cap (f_auth (info p our))))
         (filter (fun our => i_complete (value (p_ours p) our) && IsGroupEqual (i_group (value (p_ours p) our)) (i_group (value (p_theirs p) h)) && a_has_sub (f_auth (info p our))) order)
  /\ p_found p' = p_found p /\ p_requests p' = p_requests p /\ p_requested p' = p_requested p /\ rest_kept p p'.
Proof.
  cbv zeta. cbn [pai_step]. unfold ReceivedSubspaceCapRequest, rest_kept. change (isec_at zeroG (p_theirs p) h) with (value (p_theirs p) h).
  set (r := value (p_theirs p) h).
  match goal with |- context [fold_left ?f order p] => set (go := f) end.
  assert (H : forall order (q : finder), p_info q = p_info p -> p_ours q = p_ours p ->
    let p' := fold_left go order q in
    p_cap_replies p' = p_cap_replies q ++ map (fun our => (h, a_sub_cap (f_auth (info p our))))
         (filter (fun our => i_complete (value (p_ours p) our) && IsGroupEqual (i_group (value (p_ours p) our)) (i_group r) && a_has_sub (f_auth (info p our))) order)
    /\ p_found p' = p_found q /\ p_requests p' = p_requests q /\ p_requested p' = p_requested q
    /\ p_ours p' = p_ours q /\ p_theirs p' = p_theirs q /\ p_binds p' = p_binds q /\ p_replies p' = p_replies q /\ p_info p' = p_info q /\ p_scalar p' = p_scalar q);
    [|exact (H order p eq_refl eq_refl)].
  clear order. induction order as [|our order IH]; intros q Q1 Q2; cbv zeta; [cbn [fold_left filter map]; rewrite app_nil_r; auto 12|].
  cbn [fold_left filter]. assert (VAL : isec_at zeroG (p_ours q) our = value (p_ours p) our) by (rewrite Q2; reflexivity).
  assert (INF : info q our = info p our) by (unfold info_at; rewrite Q1; reflexivity).
  assert (E1 : go q our = go q our) by reflexivity. unfold go in E1 at 2. rewrite !VAL, !INF in E1. rewrite E1. clear E1.
  destruct (i_complete (value (p_ours p) our)); cbn [negb andb]; [|apply IH; auto].
  destruct (IsGroupEqual (i_group (value (p_ours p) our)) (i_group r)); cbn [negb andb]; [|apply IH; auto].
  destruct (a_has_sub (f_auth (info p our))) eqn:EA; cbn [negb]; [|apply IH; auto].
  match goal with |- context [fold_left go order ?q2] => destruct (IH q2 Q1 Q2) as (I1 & I2) end.
  cbn [p_found p_requests p_requested p_cap_replies p_ours p_theirs p_binds p_replies p_info p_scalar] in I1, I2. rewrite I1. cbn [map]. rewrite <- app_assoc. split; [reflexivity|exact I2].
Qed.

(** A verified subspace capability: the authorisation of the handle is announced in the namespace named, and the request is no longer open. *)
Theorem C68_verified h ns (p : finder) :
  let p' := step p (PVerified h ns) in
  p_found p' = p_found p ++ [(ns, f_auth (info p h), h)]
  /\ (forall k, In k (p_requested p') <-> In k (p_requested p) /\ k <> h)
  /\ p_requests p' = p_requests p /\ p_cap_replies p' = p_cap_replies p /\ rest_kept p p'.
Proof.
  cbv zeta. cbn [pai_step]. unfold ReceivedVerifiedSubspaceCapReply, rest_kept. cbn [p_found p_requests p_requested p_cap_replies p_ours p_theirs p_binds p_replies p_info p_scalar].
  split; [reflexivity|]. split; [|auto 10]. intros k. rewrite filter_In. destruct (N.eqb_spec h k) as [->|NE]; cbn [negb]; split; intros (A & B); split; auto; congruence.
Qed.

(** A read capability for a fragment of theirs: those of our fragments that agree and only wait for it are announced. *)
Theorem C68_read_cap h order (p : finder) :
  let p' := step p (PReadCap h order) in
  p_found p' = p_found p ++ map (announced p)
    (filter (fun our => i_complete (value (p_ours p) our) && negb (i_secondary (value (p_ours p) our) && i_secondary (value (p_theirs p) h))
                        && IsGroupEqual (i_group (value (p_ours p) our)) (i_group (value (p_theirs p) h)) && wants REPLY_READ_CAP p our) order)
  /\ p_requests p' = p_requests p /\ p_requested p' = p_requested p /\ p_cap_replies p' = p_cap_replies p /\ rest_kept p p'.
Proof.
  cbv zeta. cbn [pai_step]. unfold ReceivedReadCapForIntersection, rest_kept. change (isec_at zeroG (p_theirs p) h) with (value (p_theirs p) h).
  set (t := value (p_theirs p) h).
  match goal with |- context [fold_left ?f order p] => set (go := f) end.
  match goal with |- context [filter ?f order] => set (hit := f) end.
  assert (H : forall order (q : finder), p_info q = p_info p -> p_ours q = p_ours p ->
    let p' := fold_left go order q in
    p_found p' = p_found q ++ map (announced p) (filter hit order)
    /\ p_requests p' = p_requests q /\ p_requested p' = p_requested q /\ p_cap_replies p' = p_cap_replies q
    /\ p_ours p' = p_ours q /\ p_theirs p' = p_theirs q /\ p_binds p' = p_binds q /\ p_replies p' = p_replies q /\ p_info p' = p_info q /\ p_scalar p' = p_scalar q);
    [|exact (H order p eq_refl eq_refl)].
  clear order. induction order as [|our order IH]; intros q Q1 Q2; cbv zeta; [cbn [fold_left filter map]; rewrite app_nil_r; auto 12|].
  cbn [fold_left filter]. assert (VAL : isec_at zeroG (p_ours q) our = value (p_ours p) our) by (rewrite Q2; reflexivity).
  assert (INF : info q our = info p our) by (unfold info_at; rewrite Q1; reflexivity).
  assert (E1 : go q our = go q our) by reflexivity. unfold go in E1 at 2. rewrite !VAL, !INF in E1. rewrite E1. clear E1.
  assert (E2 : hit our = hit our) by reflexivity. unfold hit in E2 at 2. unfold wants in E2. rewrite E2. clear E2.
  destruct (i_complete (value (p_ours p) our)); cbn [negb andb]; [|apply IH; auto].
  destruct (i_secondary (value (p_ours p) our) && i_secondary t); cbn [negb andb]; [apply IH; auto|].
  destruct (IsGroupEqual (i_group (value (p_ours p) our)) (i_group t)); cbn [negb andb]; [|apply IH; auto].
  destruct (f_on (info p our)) eqn:EO; try (apply IH; auto).
  destruct (IH (announce zeroRC zeroSC our q) Q1 Q2) as (I1 & I2).
  cbn [p_found p_requests p_requested p_cap_replies p_ours p_theirs p_binds p_replies p_info p_scalar announce] in I1, I2. rewrite I1. cbn [map]. unfold announced at 2. rewrite INF, <- app_assoc. split; [reflexivity|exact I2].
Qed.

(** The privy of an intersection is the outer area of the first fragment that agrees; without one it is the zero value. *)
Theorem C68_privy h (ours : bool) order (p : finder) :
  let from := if ours then p_ours p else p_theirs p in
  let against := if ours then p_theirs p else p_ours p in
  GetIntersectionPrivy zeroG zeroRC zeroSC IsGroupEqual h ours order p
  = match filter (fun other => agrees (value from h) (value against other)) order with
    | [] => Ok ([], None)
    | other :: _ => let our := if ours then h else other in
        match f_sub (info p our) with
        | Subspace s => Ok (f_ns (info p our), Some (Area s (f_path (info p our)) (Range 0 0 true) false))
        | _ => Panic
        end
    end.
Proof.
  cbv zeta. unfold GetIntersectionPrivy.
  change (isec_at zeroG (if ours then p_ours p else p_theirs p) h) with (value (if ours then p_ours p else p_theirs p) h).
  induction order as [|other order IH]; [reflexivity|]. cbn [filter].
  change (isec_at zeroG (if ours then p_theirs p else p_ours p) other) with (value (if ours then p_theirs p else p_ours p) other).
  unfold agrees at 1. destruct (i_complete (value (if ours then p_theirs p else p_ours p) other)); cbn [negb andb]; [|exact IH].
  destruct (i_secondary _ && i_secondary _); cbn [negb andb]; [exact IH|]. destruct (IsGroupEqual _ _); cbn [negb]; [|exact IH].
  unfold GetHandleOuterArea. destruct (f_sub (info p (if ours then h else other))); reflexivity.
Qed.

(** At every moment of a session, what is noted at a handle is a fragment of an authorisation
    that was submitted, or nothing: then the note reads as undefined, with zero values, and asks
    for the read capability to be bound. *)
Theorem C68_known s ops h :
  let i := info (run (NewPaiFinder hs_new hs_new s) ops) h in
  (exists auth f, In (PSubmit auth) ops /\ fragment_of (GetFragmentKit (a_cap auth)) f
     /\ f_id i = true /\ f_on i <> REQUEST_SUBSPACE_CAP /\ f_auth i = auth /\ f_path i = fragment_path f /\ f_ns i = fragment_ns f
     /\ f_sub i = match f with FTriple _ sub _ => Subspace sub | FPair _ _ => AnySubspace end)
  \/ (f_id i = false /\ f_on i = BIND_READ_CAP /\ f_auth i = Authorisation zeroRC zeroSC false /\ f_path i = [] /\ f_ns i = [] /\ f_sub i = NilSubspace).
Proof.
  assert (L : forall auth fs (p : finder) h, let i := info (submit_loop FragmentToGroup ScalarMult auth fs p) h in
    i = info p h \/ exists f last, In f fs /\ i = fragment_info auth last f).
  { clear. intros auth. induction fs as [|f fs IH]; intros p h; cbn [submit_loop]; [left; reflexivity|].
    destruct (SubmitFragment _ _ f false p) as [k p1] eqn:ES.
    destruct (IH (put_info k (fragment_info auth (match fs with [] => true | _ => false end) f) p1) h) as [E|(g & l & Hg & E)].
    - cbv zeta in *. rewrite E. clear E. unfold info_at. cbn [put_info p_info]. rewrite mget_mput.
      destruct (h =? k); [right; exists f, (match fs with [] => true | _ => false end); split; [left|]; reflexivity|]. left.
      unfold SubmitFragment in ES. destruct (hs_Bind _ _). injection ES as _ <-. reflexivity.
    - right. exists g, l. split; [right; auto|exact E]. }
  assert (K : forall o (p : finder), (forall auth, o <> PSubmit auth) -> p_info (step p o) = p_info p).
  { clear. intros [auth|g sec s order|h g order|h order|h ns|h order] p NS; [destruct (NS auth); reflexivity| | | | |].
    - cbn [pai_step]. unfold ReceivedBind. destruct (hs_Bind _ _) as [k ours].
      match goal with |- p_info (CheckForIntersections _ _ _ _ ?a ?b ?c ?d) = _ => destruct (C68_check a b c d) as (_ & _ & _ & _ & H) end.
      destruct H as (_ & _ & _ & _ & -> & _). reflexivity.
    - cbn [pai_step]. unfold ReceivedReply.
      match goal with |- p_info (CheckForIntersections _ _ _ _ ?a ?b ?c ?d) = _ => destruct (C68_check a b c d) as (_ & _ & _ & _ & H) end.
      destruct H as (_ & _ & _ & _ & -> & _). reflexivity.
    - destruct (C68_requested h order p) as (_ & _ & _ & _ & _ & _ & _ & _ & H & _). exact H.
    - destruct (C68_verified h ns p) as (_ & _ & _ & _ & _ & _ & _ & _ & H & _). exact H.
    - destruct (C68_read_cap h order p) as (_ & _ & _ & _ & _ & _ & _ & _ & H & _). exact H. }
  cbv zeta. unfold M_Pai.pai_run. rewrite <- (rev_involutive ops). induction (rev ops) as [|o l IH]; clear ops.
  - right. cbn. auto 10.
  - cbn [rev]. rewrite fold_left_app. cbn [fold_left]. set (p := fold_left step (rev l) _) in *.
    assert (OLD : info (step p o) h = info p h ->
      (exists auth f, In (PSubmit auth) (rev l ++ [o]) /\ fragment_of (GetFragmentKit (a_cap auth)) f
        /\ f_id (info (step p o) h) = true /\ f_on (info (step p o) h) <> REQUEST_SUBSPACE_CAP /\ f_auth (info (step p o) h) = auth
        /\ f_path (info (step p o) h) = fragment_path f /\ f_ns (info (step p o) h) = fragment_ns f
        /\ f_sub (info (step p o) h) = match f with FTriple _ sub _ => Subspace sub | FPair _ _ => AnySubspace end)
      \/ (f_id (info (step p o) h) = false /\ f_on (info (step p o) h) = BIND_READ_CAP /\ f_auth (info (step p o) h) = Authorisation zeroRC zeroSC false
          /\ f_path (info (step p o) h) = [] /\ f_ns (info (step p o) h) = [] /\ f_sub (info (step p o) h) = NilSubspace)).
    { intros ->. destruct IH as [(auth & f & H & R)|R]; [left; exists auth, f|right; exact R].
      split; [apply in_or_app; left; exact H|exact R]. }
    destruct o as [auth|g sec s' order|k g order|k order|k ns|k order];
      try (apply OLD; unfold info_at; rewrite K; [reflexivity|discriminate]).
    cbn [pai_step] in *. unfold SubmitAuthorisation in *.
    destruct (CreateFragmentSet_spec (GetFragmentKit (a_cap auth))) as (_ & HF & _).
    destruct (CreateFragmentSet (GetFragmentKit (a_cap auth))) as [prim sec]. cbn [fst snd] in HF.
    assert (NEW : forall f last, In f (prim ++ sec) ->
      info (submit_loop FragmentToGroup ScalarMult auth sec (submit_loop FragmentToGroup ScalarMult auth prim p)) h = fragment_info auth last f ->
      exists auth0 f0, In (PSubmit auth0) (rev l ++ [PSubmit auth]) /\ fragment_of (GetFragmentKit (a_cap auth0)) f0
        /\ f_id (fragment_info auth last f) = true /\ f_on (fragment_info auth last f) <> REQUEST_SUBSPACE_CAP /\ f_auth (fragment_info auth last f) = auth0
        /\ f_path (fragment_info auth last f) = fragment_path f0 /\ f_ns (fragment_info auth last f) = fragment_ns f0
        /\ f_sub (fragment_info auth last f) = match f0 with FTriple _ sub _ => Subspace sub | FPair _ _ => AnySubspace end).
    { intros f last Hf _. exists auth, f. split; [apply in_or_app; right; left; reflexivity|]. split; [apply HF; exact Hf|].
      destruct f, last; cbn; repeat split; discriminate. }
    destruct (L auth sec (submit_loop FragmentToGroup ScalarMult auth prim p) h) as [E|(f & last & Hf & E)]; cbv zeta in E.
    + destruct (L auth prim p h) as [E'|(f & last & Hf & E')]; cbv zeta in E'; rewrite E' in E; [apply OLD; exact E|].
      left. rewrite E. apply (NEW f last); auto. apply in_or_app; auto.
    + left. rewrite E. apply (NEW f last); auto. apply in_or_app; auto.
Qed.
End Pai.

(** * Concrete cases: group members are multiples of fragments, the zero value is nil *)
Definition cG : Type := option (fragment * N).
Definition c_toG (f : fragment) : cG := Some (f, 0).
Definition c_mult (g : cG) (a : N) : cG := match g with Some (f, n) => Some (f, n + a) | None => None end.
Lemma fragment_dec (a b : fragment) : {a = b} + {a <> b}.
Proof. repeat (decide equality; try apply N.eq_dec). Defined.
Definition c_eq (a b : cG) : bool :=
  match a, b with
  | Some (f, n), Some (g, m) => if fragment_dec f g then n =? m else false
  | None, None => true
  | _, _ => false
  end.
Definition c_zero : kit := KComplete [] [].
Definition c_run := @pai_run cG N kit N None c_zero 0 c_toG c_mult c_eq (fun k => k).
Definition c_new (s : N) := @NewPaiFinder cG N kit N hs_new hs_new s.
Definition c_auth : @authorisation kit N := Authorisation (KSelective [1] [2] [[3]; [4]]) 0 false.

(** Two finders with the same capability and the scalars 5 and 7 send each other
    all their fragments, and answer them all with their own scalars; nobody finds
    an intersection, whether the answers are taken for the handles they carry or
    for the handles of the fragments they answer. *)
Definition c_order : list N := map N.of_nat (seq 0 12).
Definition c_binds (b : list (cG * bool)) (s : N) : list (@pai_op cG N kit N) := map (fun gb => PBind (fst gb) (snd gb) s c_order) b.
Definition c_replies (r : list (N * cG)) : list (@pai_op cG N kit N) := map (fun hg => PReply (fst hg) (snd hg) c_order) r.
Theorem C68_common_refuted : exists auth a b,
  let p := c_run (c_new a) [PSubmit auth] in
  let q := c_run (c_new b) [PSubmit auth] in
  let p1 := c_run p (c_binds (p_binds q) a) in
  let q1 := c_run q (c_binds (p_binds p) b) in
  let p2 := c_run p1 (c_replies (p_replies q1)) in
  let p2' := c_run p1 (c_replies (combine (map N.of_nat (seq 0 6)) (map snd (p_replies q1)))) in
  map snd (p_replies p1) = map snd (p_replies q1) /\ p_replies p1 <> []
  /\ p_found p2 = [] /\ p_found p2' = [].
Proof.
  exists c_auth, 5, 7. vm_compute. split; [reflexivity|]. split; [discriminate|]. split; reflexivity.
Qed.

(** Who sends no fragment at all, but answers with the zero value and names a
    handle that is not bound, is taken to know an authorisation. *)
Theorem C68_forged_refuted : exists auth,
  p_found (c_run (c_new 5) [PSubmit auth; PReply 0 None []; PReadCap 99 [0]]) = [([1], auth, 0)].
Proof. exists c_auth. vm_compute. reflexivity. Qed.

(** A verified subspace capability that was never requested is announced, with
    the authorisation of the zero value, in whatever namespace is named. *)
Theorem C68_unasked_refuted : exists h ns, 
  p_requested (c_new 5) = [] /\ p_found (c_run (c_new 5) [PVerified h ns]) = [(ns, Authorisation c_zero 0 false, h)].
Proof. exists 9, [8]. vm_compute. split; reflexivity. Qed.

(** The fragments with no subspace, which every capability has, have no outer area. *)
Theorem C68_outer_refuted : exists auth f h, fragment_of (a_cap auth) f
  /\ bound c_zero 0 c_toG c_mult auth f h (c_run (c_new 5) [PSubmit auth])
  /\ GetHandleOuterArea c_zero 0 h (c_run (c_new 5) [PSubmit auth]) = Panic.
Proof.
  exists c_auth, (FPair [1] [[3]]), 4. split; [exists [[3]]; split; [exists [[4]]; reflexivity|right; reflexivity]|].
  split; [constructor|]; vm_compute; reflexivity.
Qed.

Example C68_instance_submit : h_least (p_ours (c_new 5)) + 2 * (len (kit_path (a_cap c_auth)) + 1) < 2 ^ 64
  /\ map (fun h => f_on (info_at c_zero 0 (c_run (c_new 5) [PSubmit c_auth]) h)) [0; 1; 2; 3; 4; 5]
     = [REPLY_READ_CAP; REPLY_READ_CAP; BIND_READ_CAP; REPLY_READ_CAP; REPLY_READ_CAP; BIND_READ_CAP]
  /\ nth_error (p_binds (c_run (c_new 5) [PSubmit c_auth])) 1 = Some (Some (FTriple [1] [2] [[3]], 5), false).
Proof. vm_compute. auto. Qed.
Example C68_instance_answers :
  (forall g a b, c_mult (c_mult g a) b = c_mult (c_mult g b) a)
  /\ (forall g h a, c_mult g a = c_mult h a -> g = h)
  /\ (forall a b, c_toG a = c_toG b -> a = b)
  /\ p_theirs (c_run (c_new 5) [PSubmit c_auth]) = hs_new.
Proof.
  split; [|split; [|split; [|reflexivity]]].
  - intros [[f n]|] a b; cbn; [|reflexivity]. do 2 f_equal. lia.
  - intros [[f n]|] [[g m]|] a H; cbn in H; try discriminate H; [|reflexivity]. injection H as -> H. do 2 f_equal. lia.
  - intros a b H. injection H as ->. reflexivity.
Qed.
Example C68_instance_silent :
  Forall (nonzero (RC := kit) (SC := N) None c_mult c_eq)
    [PSubmit c_auth; PBind (Some (FPair [1] [], 7)) false 5 [0; 1]; PReply 3 (Some (FPair [1] [], 12)) [0; 6]; PReadCap 6 [3]]
  /\ len (kit_path (a_cap c_auth)) < 2 ^ 31
  /\ (forall a b, c_eq a b = c_eq b a).
Proof.
  split; [repeat constructor|]. split; [vm_compute; reflexivity|].
  intros [[f n]|] [[g m]|]; cbn [c_eq]; auto.
  destruct (fragment_dec f g), (fragment_dec g f); try congruence. apply N.eqb_sym.
Qed.
Example C68_instance_outer :
  bound c_zero 0 c_toG c_mult c_auth (FTriple [1] [2] [[3]]) 1 (c_run (c_new 5) [PSubmit c_auth]).
Proof. constructor; vm_compute; reflexivity. Qed.

Print Assumptions C68_submit.
Print Assumptions C68_answers_partial.
Print Assumptions C68_silent.
Print Assumptions C68_reply_handle_refuted.
Print Assumptions C68_outer_area.
Print Assumptions C68_common_refuted.
Print Assumptions C68_forged_refuted.
Print Assumptions C68_unasked_refuted.
Print Assumptions C68_outer_refuted.
Print Assumptions C68_check.
Print Assumptions C68_received.
Print Assumptions C68_requested.
Print Assumptions C68_verified.
Print Assumptions C68_read_cap.
Print Assumptions C68_privy.
Print Assumptions C68_known.

(** Both cases happen. *)
Example C68_instance_known : let p := c_run (c_new 5) [PSubmit c_auth; PReply 0 None []] in
  f_path (info_at c_zero 0 p 1) = [[3]] /\ f_id (info_at c_zero 0 p 1) = true /\ f_id (info_at c_zero 0 p 6) = false.
Proof. vm_compute. auto. Qed.

(** The forged session above, call by call; and a bind for which there is room. *)
Example C68_instance_calls :
  let p := c_run (c_new 5) [PSubmit c_auth; PReply 0 None []] in
  i_complete (value None (p_ours p) 0) = true /\ agrees c_eq (value None (p_ours p) 0) (value None (p_ours p) 0) = true
  /\ wants c_zero 0 REPLY_READ_CAP p 0 = true /\ wants c_zero 0 BIND_READ_CAP p 2 = true /\ h_least (p_ours p) + 1 < 2 ^ 64
  /\ hs_Get (p_ours p) 0 = Some (Isec None true false).
Proof. vm_compute. auto 10. Qed.
