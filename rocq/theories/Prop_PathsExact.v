(** C19, C59: by how much the announced length of a relative path is short, and
    which paths are at distance zero. *)
From Verif Require Import Base M_Order M_Encoding M_Paths S_Order P_Order P_Encoding P_Paths P_Mem.
Local Open Scope N_scope.

(** * C19: the announced length *)

(** EncodePathRelativeLength counts one width and one byte for each component
    after the common prefix. The encoding has a second width, a width for each
    of those components, and their bytes. *)
Theorem C19_length_exactly pp p ref enc n :
  EncodeRelativePath pp p ref = Ok enc ->
  EncodePathRelativeLength pp p ref = Ok n ->
  exists common suffix,
    CommonPrefix p ref = Ok common /\ p = common ++ suffix
    /\ n = GetWidthMax32Int (max_component_count pp) + len suffix
    /\ len enc = 2 * GetWidthMax32Int (max_component_count pp)
                 + len suffix * GetWidthMax32Int (max_component_length pp) + len (concat suffix).
Proof.
  unfold EncodeRelativePath, EncodePathRelativeLength.
  pose proof (CommonPrefix_spec p ref) as K.
  destruct (CommonPrefix p ref) as [common| | | |] eqn:E; try discriminate.
  intros H1 H2. inversion H1; subst enc; clear H1. inversion H2; subst n; clear H2.
  assert (Hp : prefix_of common p) by apply K.
  destruct Hp as [suffix Hs]. exists common, suffix. split; [reflexivity|]. split; [exact Hs|].
  rewrite Hs. unfold len. rewrite Nnat.Nat2N.id.
  rewrite !skipn_app, !skipn_all, !Nat.sub_diag. cbn [app skipn].
  split; [reflexivity|].
  fold (len (EncodeIntMax32 (toT pp (N.of_nat (length common))) (max_component_count pp)
             ++ EncodePath pp suffix)).
  rewrite len_app, EncodeIntMax32_len. unfold EncodePath. rewrite len_app, EncodeIntMax32_len.
  assert (Hf : len (flat_map (fun c => EncodeIntMax32 (toT pp (len c)) (max_component_length pp) ++ c) suffix)
               = len suffix * GetWidthMax32Int (max_component_length pp) + len (concat suffix)).
  { clear. induction suffix as [|c s IH]; [reflexivity|].
    cbn [flat_map concat]. rewrite !len_app, IH, EncodeIntMax32_len, len_cons. ring. }
  rewrite Hf. unfold len. ring.
Qed.
Print Assumptions C19_length_exactly.

(** So the announced length is too small for every pair of paths. *)
Theorem C19_length_never pp p ref enc n :
  EncodeRelativePath pp p ref = Ok enc ->
  EncodePathRelativeLength pp p ref = Ok n -> n < len enc.
Proof.
  intros H1 H2. destruct (C19_length_exactly pp p ref enc n H1 H2) as (c & s & _ & _ & -> & ->).
  pose proof (width_pos (max_component_count pp)). pose proof (width_pos (max_component_length pp)).
  nia.
Qed.
Print Assumptions C19_length_never.

(** Both functions end the process for exactly the paths that do not begin with
    the same component. *)
Theorem C19_ends_exactly pp p ref :
  (EncodeRelativePath pp p ref = Fatal <-> ~ exists c p' r', p = c :: p' /\ ref = c :: r')
  /\ (EncodePathRelativeLength pp p ref = Fatal <-> ~ exists c p' r', p = c :: p' /\ ref = c :: r').
Proof.
  unfold EncodeRelativePath, EncodePathRelativeLength.
  pose proof (CommonPrefix_spec p ref) as K.
  destruct (CommonPrefix p ref) as [common| | | |] eqn:E; try contradiction.
  - assert (Hex : exists c p' r', p = c :: p' /\ ref = c :: r').
    { destruct K as (K0 & [s1 K1] & [s2 K2] & _). destruct common as [|c common]; [congruence|].
      exists c, (common ++ s1), (common ++ s2). auto. }
    split; (split; [discriminate|intros H; contradiction]).
  - assert (Hno : ~ exists c p' r', p = c :: p' /\ ref = c :: r').
    { intros (c & p' & r' & -> & ->).
      assert (H : [c] = []) by (apply K; [exists p'|exists r']; reflexivity). discriminate H. }
    split; (split; auto).
Qed.
Print Assumptions C19_ends_exactly.

Example C19_instance_exactly :
  EncodeRelativePath (PathParams 8 3 6 8) [[97]; [99; 98]; [1]] [[97]; [98]] = Ok [1; 2; 2; 99; 98; 1; 1]
  /\ EncodePathRelativeLength (PathParams 8 3 6 8) [[97]; [99; 98]; [1]] [[97]; [98]] = Ok 3.
Proof. vm_compute. auto. Qed.

(** * C59: paths at distance zero *)

Lemma bytes_distance_nil_l b :
  (fix rest b := match b with [] => 0 | y :: b => Z.of_N y * Z.of_N y + rest b end)%Z b
  = bytes_distance [] b.
Proof. destruct b; reflexivity. Qed.

Lemma bytes_distance_zero a b :
  bytes_distance a b = 0%Z <-> forall j, nth j a 0 = nth j b 0.
Proof.
  revert b. induction a as [|x a IH]; intros b.
  - induction b as [|y b IHb]; [split; auto|].
    cbn [bytes_distance]. rewrite bytes_distance_nil_l.
    pose proof (bytes_distance_nonneg [] b) as Hn. pose proof (Z.square_nonneg (Z.of_N y)) as Hs.
    split.
    + intros H. assert (Hy : (Z.of_N y * Z.of_N y = 0)%Z) by lia.
      assert (Hb : bytes_distance [] b = 0%Z) by lia. rewrite IHb in Hb.
      intros [|j]; cbn [nth]; [apply Z.mul_eq_0 in Hy; lia|].
      specialize (Hb j). destruct j; exact Hb.
    + intros H. assert (H0 := H O). cbn [nth] in H0. subst y.
      assert (Hb : bytes_distance [] b = 0%Z).
      { apply IHb. intros j. specialize (H (S j)). cbn [nth] in H. destruct j; exact H. }
      rewrite Hb. reflexivity.
  - destruct b as [|y b]; cbn [bytes_distance].
    + pose proof (bytes_distance_nonneg a []) as Hn. pose proof (Z.square_nonneg (Z.of_N x)) as Hs.
      split.
      * intros H. assert (Hy : (Z.of_N x * Z.of_N x = 0)%Z) by lia.
        assert (Hb : bytes_distance a [] = 0%Z) by lia. rewrite IH in Hb.
        intros [|j]; cbn [nth]; [apply Z.mul_eq_0 in Hy; lia|].
        specialize (Hb j). destruct j; exact Hb.
      * intros H. assert (H0 := H O). cbn [nth] in H0. subst x.
        assert (Hb : bytes_distance a [] = 0%Z).
        { apply IH. intros j. specialize (H (S j)). cbn [nth] in H. destruct j; exact H. }
        rewrite Hb. reflexivity.
    + pose proof (bytes_distance_nonneg a b) as Hn.
      pose proof (Z.square_nonneg (Z.of_N x - Z.of_N y)) as Hs.
      split.
      * intros H. assert (Hy : ((Z.of_N x - Z.of_N y) * (Z.of_N x - Z.of_N y) = 0)%Z) by lia.
        assert (Hb : bytes_distance a b = 0%Z) by lia. rewrite IH in Hb.
        intros [|j]; cbn [nth]; [apply Z.mul_eq_0 in Hy; lia|exact (Hb j)].
      * intros H. assert (H0 := H O). cbn [nth] in H0. subst x.
        assert (Hb : bytes_distance a b = 0%Z) by (apply IH; intros j; exact (H (S j))).
        rewrite Hb. lia.
Qed.

Lemma path_distance_nil_l b :
  (fix rest b := match b with [] => 0 | y :: b => bytes_distance [] y + rest b end)%Z b
  = PathDistance [] b.
Proof. destruct b; reflexivity. Qed.

(** Two paths are at distance zero exactly when they agree byte by byte, a byte
    that is not there counting as zero and a component that is not there as
    empty. *)
Theorem C59_zero_exactly a b :
  PathDistance a b = 0%Z <-> forall i j, nth j (nth i a []) 0 = nth j (nth i b []) 0.
Proof.
  revert b. induction a as [|x a IH]; intros b.
  - induction b as [|y b IHb]; [split; auto|].
    cbn [PathDistance]. rewrite path_distance_nil_l.
    pose proof (PathDistance_nonneg [] b) as Hn. pose proof (bytes_distance_nonneg [] y) as Hs.
    split.
    + intros H. assert (Hy : bytes_distance [] y = 0%Z) by lia.
      assert (Hb : PathDistance [] b = 0%Z) by lia. rewrite IHb in Hb.
      intros [|i] j; cbn [nth]; [exact (proj1 (bytes_distance_zero [] y) Hy j)|].
      specialize (Hb i j). destruct i; exact Hb.
    + intros H.
      assert (Hy : bytes_distance [] y = 0%Z) by (apply bytes_distance_zero; exact (H O)).
      assert (Hb : PathDistance [] b = 0%Z).
      { apply IHb. intros i j. specialize (H (S i) j). cbn [nth] in H. destruct i; exact H. }
      lia.
  - destruct b as [|y b]; cbn [PathDistance].
    + pose proof (PathDistance_nonneg a []) as Hn. pose proof (bytes_distance_nonneg x []) as Hs.
      split.
      * intros H. assert (Hy : bytes_distance x [] = 0%Z) by lia.
        assert (Hb : PathDistance a [] = 0%Z) by lia. rewrite IH in Hb.
        intros [|i] j; cbn [nth]; [exact (proj1 (bytes_distance_zero x []) Hy j)|].
        specialize (Hb i j). destruct i; exact Hb.
      * intros H.
        assert (Hy : bytes_distance x [] = 0%Z) by (apply bytes_distance_zero; exact (H O)).
        assert (Hb : PathDistance a [] = 0%Z).
        { apply IH. intros i j. specialize (H (S i) j). cbn [nth] in H. destruct i; exact H. }
        lia.
    + pose proof (PathDistance_nonneg a b) as Hn. pose proof (bytes_distance_nonneg x y) as Hs.
      split.
      * intros H. assert (Hy : bytes_distance x y = 0%Z) by lia.
        assert (Hb : PathDistance a b = 0%Z) by lia. rewrite IH in Hb.
        intros [|i] j; cbn [nth]; [exact (proj1 (bytes_distance_zero x y) Hy j)|exact (Hb i j)].
      * intros H.
        assert (Hy : bytes_distance x y = 0%Z) by (apply bytes_distance_zero; exact (H O)).
        assert (Hb : PathDistance a b = 0%Z) by (apply IH; intros i j; exact (H (S i) j)).
        lia.
Qed.
Print Assumptions C59_zero_exactly.

Example C59_instance_exactly :
  PathDistance [[97]; [98; 0]] [[97; 0; 0]; [98]; []; [0]] = 0%Z
  /\ PathDistance [[0; 97]] [[97]] = (97 * 97 + 97 * 97)%Z.
Proof. split; reflexivity. Qed.
