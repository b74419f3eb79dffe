(** Proofs about M_Paths. *)
From Verif Require Import Base M_Order M_Encoding M_Paths S_Order P_Order P_Encoding.
Local Open Scope N_scope.

(** ** Prefixes *)

Lemma prefix_of_refl {A} (p : list A) : prefix_of p p.
Proof. exists []. rewrite app_nil_r. reflexivity. Qed.

Lemma prefix_of_nil {A} (p : list A) : prefix_of [] p.
Proof. exists p. reflexivity. Qed.

Lemma prefix_of_trans {A} (p q r : list A) : prefix_of p q -> prefix_of q r -> prefix_of p r.
Proof. intros [s ->] [t ->]. exists (s ++ t). rewrite app_assoc. reflexivity. Qed.

Lemma prefix_of_length {A} (p q : list A) : prefix_of p q -> (length p <= length q)%nat.
Proof. intros [s ->]. rewrite app_length. lia. Qed.

Lemma prefix_of_firstn {A} (p q : list A) : prefix_of p q <-> p = firstn (length p) q.
Proof.
  split.
  - intros [s ->]. rewrite firstn_app, firstn_all, Nat.sub_diag. cbn. rewrite app_nil_r. reflexivity.
  - intros H. exists (skipn (length p) q). rewrite H at 1. symmetry. apply firstn_skipn.
Qed.

Lemma firstn_prefix {A} n (q : list A) : prefix_of (firstn n q) q.
Proof. exists (skipn n q). symmetry. apply firstn_skipn. Qed.

Lemma prefix_of_same_length {A} (p q : list A) :
  prefix_of p q -> length p = length q -> p = q.
Proof.
  intros [s ->] H. rewrite app_length in H. destruct s; cbn in H; [|lia].
  rewrite app_nil_r. reflexivity.
Qed.

Lemma prefix_of_cons {A} (x y : A) p q : prefix_of (x :: p) (y :: q) <-> x = y /\ prefix_of p q.
Proof.
  split.
  - intros [s H]. inversion H. split; [auto|exists s; auto].
  - intros [-> [s ->]]. exists s. reflexivity.
Qed.

Lemma proper_prefix_spec {A} (p q : list A) :
  proper_prefix_of p q <-> prefix_of p q /\ p <> q.
Proof.
  split.
  - intros (x & s & ->). split; [exists (x :: s); auto|].
    intros H. apply (f_equal (@length A)) in H. rewrite app_length in H. cbn in H. lia.
  - intros [[s ->] H]. destruct s as [|x s]; [rewrite app_nil_r in H; congruence|].
    exists x, s. reflexivity.
Qed.

Lemma IsPathPrefixed_spec p q : IsPathPrefixed p q = true <-> prefix_of p q.
Proof.
  revert q. induction p as [|c p IH]; intros q; cbn [IsPathPrefixed].
  - split; [intros _; apply prefix_of_nil|auto].
  - destruct q as [|d q].
    + split; [discriminate|intros [s H]; discriminate].
    + rewrite prefix_of_cons, <- IH.
      destruct (OrderBytes c d =? 0)%Z eqn:E.
      * apply (order_eqb0 _ _ OrderBytes_total) in E. tauto.
      * split; [discriminate|]. intros [-> _].
        rewrite (order_refl _ _ OrderBytes_total) in E. discriminate.
Qed.

Lemma PrefixesOf_alt p : PrefixesOf p = map (fun i => firstn i p) (seq 0 (S (length p))).
Proof.
  unfold PrefixesOf. cbn [seq map]. rewrite <- seq_shift, map_map. reflexivity.
Qed.

Lemma PrefixesOf_In p q : In p (PrefixesOf q) <-> prefix_of p q.
Proof.
  rewrite PrefixesOf_alt, in_map_iff. split.
  - intros (i & <- & _). apply firstn_prefix.
  - intros H. exists (length p). split; [symmetry; apply prefix_of_firstn; auto|].
    apply in_seq. apply prefix_of_length in H. lia.
Qed.

Lemma PrefixesOf_length q : length (PrefixesOf q) = S (length q).
Proof. rewrite PrefixesOf_alt, map_length, seq_length. reflexivity. Qed.

Lemma PrefixesOf_nth q i : (i <= length q)%nat -> nth_error (PrefixesOf q) i = Some (firstn i q).
Proof.
  intros H. rewrite PrefixesOf_alt. rewrite nth_error_map.
  rewrite nth_error_nth' with (d := O) by (rewrite seq_length; lia).
  rewrite seq_nth by lia. reflexivity.
Qed.

Lemma PrefixesOf_NoDup q : NoDup (PrefixesOf q).
Proof.
  rewrite NoDup_nth_error. intros i j Hi H.
  rewrite PrefixesOf_length in Hi.
  destruct (Nat.lt_ge_cases j (S (length q))) as [Hj|Hj].
  - rewrite !PrefixesOf_nth in H by lia. inversion H as [E].
    apply (f_equal (@length _)) in E. rewrite !firstn_length in E. lia.
  - rewrite PrefixesOf_nth in H by lia. symmetry in H.
    assert (nth_error (PrefixesOf q) j <> None) by congruence.
    apply nth_error_Some in H0. rewrite PrefixesOf_length in H0. lia.
Qed.

Lemma common_count_prefix a b :
  prefix_of (firstn (common_count a b) a) b
  /\ forall d, prefix_of d a -> prefix_of d b -> (length d <= common_count a b)%nat.
Proof.
  revert b. induction a as [|c a IH]; intros [|e b]; cbn [common_count].
  - split; [apply prefix_of_nil|]. intros d H _. apply prefix_of_length in H. cbn in H. lia.
  - split; [apply prefix_of_nil|]. intros d H _. apply prefix_of_length in H. cbn in H. lia.
  - split; [apply prefix_of_nil|]. intros d _ H. apply prefix_of_length in H. cbn in H. lia.
  - destruct (OrderBytes c e =? 0)%Z eqn:E.
    + apply (order_eqb0 _ _ OrderBytes_total) in E. subst e.
      destruct (IH b) as [H1 H2]. cbn [firstn]. split.
      * apply prefix_of_cons; auto.
      * intros [|x d] Ha Hb; cbn [length]; [lia|].
        apply prefix_of_cons in Ha as [_ Ha]. apply prefix_of_cons in Hb as [_ Hb].
        specialize (H2 d Ha Hb). lia.
    + cbn [firstn]. split; [apply prefix_of_nil|].
      intros [|x d] Ha Hb; cbn [length]; [lia|].
      apply prefix_of_cons in Ha as [-> _]. apply prefix_of_cons in Hb as [-> _].
      rewrite (order_refl _ _ OrderBytes_total) in E. discriminate.
Qed.

Lemma common_count_le a b : (common_count a b <= length a)%nat.
Proof.
  revert b; induction a as [|c a IH]; intros [|d b]; cbn [common_count length]; try lia.
  destruct (OrderBytes c d =? 0)%Z; [specialize (IH b)|]; lia.
Qed.

Lemma prefix_of_both {A} (d c a : list A) :
  prefix_of d a -> prefix_of c a -> (length d <= length c)%nat -> prefix_of d c.
Proof.
  intros Hd Hc Hl. apply prefix_of_firstn in Hd. apply prefix_of_firstn in Hc.
  rewrite Hd, Hc. rewrite <- (Nat.min_l _ _ Hl) at 1. rewrite <- firstn_firstn. apply firstn_prefix.
Qed.

Lemma CommonPrefix_spec a b :
  match CommonPrefix a b with
  | Ok c => c <> [] /\ prefix_of c a /\ prefix_of c b
            /\ forall d, prefix_of d a -> prefix_of d b -> prefix_of d c
  | Err => forall d, prefix_of d a -> prefix_of d b -> d = []
  | _ => False
  end.
Proof.
  unfold CommonPrefix. destruct (common_count_prefix a b) as [H1 H2].
  pose proof (common_count_le a b) as H3.
  destruct (common_count a b) as [|n] eqn:E.
  - intros d Ha Hb. specialize (H2 d Ha Hb). destruct d; [auto|cbn in H2; lia].
  - split; [|split; [apply firstn_prefix|split; [exact H1|]]].
    + destruct a; cbn in *; [lia|discriminate].
    + intros d Ha Hb. eapply prefix_of_both; [exact Ha|apply firstn_prefix|].
      rewrite firstn_length_le by lia. auto.
Qed.

(** ** Validity *)

(** A decision procedure for the limits, used in examples. *)
Definition within_limitsb (p : path) (pp : path_params) : bool :=
  if max_component_count pp <? len p then false
  else if existsb (fun c => max_component_length pp <? len c) p then false
  else if max_path_length pp <? total_length p then false
  else true.

Lemma within_limitsb_spec p pp : within_limitsb p pp = true <-> within_limits pp p.
Proof.
  unfold within_limitsb, within_limits.
  destruct (N.ltb_spec (max_component_count pp) (len p)); [split; [discriminate|lia]|].
  destruct (existsb (fun c => max_component_length pp <? len c) p) eqn:E.
  - split; [discriminate|]. intros (_ & H1 & _). apply existsb_exists in E as (c & H2 & H3).
    rewrite Forall_forall in H1. specialize (H1 c H2). lia.
  - assert (Forall (fun c => len c <= max_component_length pp) p).
    { apply Forall_forall. intros c Hc. apply N.nlt_ge. intros Hl.
      apply not_true_iff_false in E. apply E. apply existsb_exists. exists c.
      split; auto. apply N.ltb_lt; auto. }
    destruct (N.ltb_spec (max_path_length pp) (total_length p)); split; intros; intuition; try discriminate; try lia.
Qed.

Lemma to_int_small n : n < 2 ^ 63 -> to_int n = Z.of_N n.
Proof. intros H. unfold to_int, int64. rewrite Z.mod_small; lia. Qed.

Lemma IsValidPath_spec p pp :
  max_component_count pp < 2 ^ 63 -> max_component_length pp < 2 ^ 63 -> max_path_length pp < 2 ^ 63 ->
  (IsValidPath p pp = true <-> within_limits pp p).
Proof.
  intros H1 H2 H3. rewrite <- within_limitsb_spec. unfold IsValidPath, within_limitsb. rewrite !to_int_small by auto.
  assert (HL : forall a b, (Z.of_N a <? Z.of_N b)%Z = (a <? b)).
  { intros a b. destruct (Z.ltb_spec (Z.of_N a) (Z.of_N b)), (N.ltb_spec a b); lia. }
  rewrite !HL.
  replace (existsb (fun c => (Z.of_N (max_component_length pp) <? Z.of_N (len c))%Z) p)
    with (existsb (fun c => max_component_length pp <? len c) p); [tauto|].
  clear. induction p as [|c p IH]; [reflexivity|]. cbn [existsb]. rewrite IH. f_equal.
  destruct (Z.ltb_spec (Z.of_N (max_component_length pp)) (Z.of_N (len c))), (N.ltb_spec (max_component_length pp) (len c)); lia.
Qed.

(** ** Codec *)

Lemma toT_small pp x : x < 2 ^ pp_bits pp -> toT pp x = x.
Proof. intros. unfold toT. apply N.mod_small; auto. Qed.

(** Parameters usable by the codec: they fit their type and 32 bits. *)
Definition codec_params (pp : path_params) : Prop :=
  params_ok pp /\ max_component_count pp < 2 ^ 32 /\ max_component_length pp < 2 ^ 32.

(** The limits the codec needs. *)
Definition codec_path (pp : path_params) (p : path) : Prop :=
  len p <= max_component_count pp /\ Forall (fun c => len c <= max_component_length pp) p.

Lemma within_codec pp p : within_limits pp p -> codec_path pp p.
Proof. intros (H1 & H2 & _). split; auto. Qed.

Definition encode_components (pp : path_params) (p : path) : bytes :=
  flat_map (fun c => EncodeIntMax32 (toT pp (len c)) (max_component_length pp) ++ c) p.

Lemma decode_components_spec pp p pre rest pos :
  codec_params pp ->
  Forall (fun c => len c <= max_component_length pp) p ->
  pos = len pre ->
  decode_components pp (pre ++ encode_components pp p ++ rest) pos (length p)
  = Ok (pos + len (encode_components pp p), p).
Proof.
  intros (PO & HC & HL). destruct PO as (PC & PL & PP).
  revert pre pos. induction p as [|c p IH]; intros pre pos HF Hpos.
  - cbn. f_equal. f_equal. lia.
  - inversion HF as [|? ? Hc HF']; subst.
    cbn [length decode_components encode_components flat_map].
    set (lb := EncodeIntMax32 (toT pp (len c)) (max_component_length pp)).
    assert (Hlb : len lb = GetWidthMax32Int (max_component_length pp)) by apply EncodeIntMax32_len.
    fold (encode_components pp p).
    replace (pre ++ ((lb ++ c) ++ encode_components pp p) ++ rest)
      with (pre ++ lb ++ (c ++ encode_components pp p ++ rest)) by (rewrite !app_assoc; reflexivity).
    rewrite slice_app by (auto; lia). cbn [bind].
    unfold lb at 1. rewrite toT_small by lia.
    rewrite EncodeIntMax32_roundtrip by lia. cbn [bind].
    replace (pre ++ lb ++ c ++ encode_components pp p ++ rest)
      with ((pre ++ lb) ++ c ++ (encode_components pp p ++ rest)) by (rewrite !app_assoc; reflexivity).
    rewrite slice_app by (rewrite ?len_app; lia). cbn [bind].
    replace ((pre ++ lb) ++ c ++ (encode_components pp p ++ rest))
      with (((pre ++ lb) ++ c) ++ encode_components pp p ++ rest) by (rewrite !app_assoc; reflexivity).
    rewrite IH; auto; [|rewrite !len_app; lia]. cbn [bind].
    f_equal. f_equal. rewrite !len_app. lia.
Qed.

Lemma DecodePath_EncodePath pp p rest :
  codec_params pp -> codec_path pp p ->
  DecodePath pp (EncodePath pp p ++ rest) = Ok (len (EncodePath pp p), p).
Proof.
  intros CP [H1 H2]. pose proof CP as ((PC & PL & PP) & HC & HL).
  unfold EncodePath, DecodePath. fold (encode_components pp p).
  set (cb := EncodeIntMax32 (toT pp (len p)) (max_component_count pp)).
  assert (Hcb : len cb = GetWidthMax32Int (max_component_count pp)) by apply EncodeIntMax32_len.
  rewrite <- app_assoc, slice_0_app by lia. cbn [bind].
  unfold cb at 1. rewrite toT_small, EncodeIntMax32_roundtrip by lia. cbn [bind].
  replace (N.to_nat (len p)) with (length p) by (unfold len; lia).
  rewrite decode_components_spec by (auto; lia). rewrite len_app. f_equal. f_equal. lia.
Qed.

Lemma EncodePathLength_spec pp p : EncodePathLength pp p = len (EncodePath pp p).
Proof.
  unfold EncodePathLength, EncodePath. rewrite len_app, EncodeIntMax32_len.
  generalize (GetWidthMax32Int (max_component_count pp)) as acc.
  induction p as [|c p IH]; intros acc; cbn [fold_left flat_map]; [rewrite len_nil; lia|].
  rewrite IH, !len_app, EncodeIntMax32_len. lia.
Qed.

Lemma EncodePath_prefix_free pp p q r s :
  codec_params pp -> codec_path pp p -> codec_path pp q ->
  EncodePath pp p ++ r = EncodePath pp q ++ s -> p = q /\ r = s.
Proof.
  intros CP Hp Hq H.
  pose proof (DecodePath_EncodePath pp p r CP Hp) as E1.
  pose proof (DecodePath_EncodePath pp q s CP Hq) as E2.
  rewrite H in E1. rewrite E1 in E2. inversion E2; subst. split; auto.
  eapply app_inv_head; eauto.
Qed.

Lemma EncodePath_wf pp p : wf_path p -> wf_bytes (EncodePath pp p).
Proof.
  intros H. unfold EncodePath. apply Forall_app; split; [apply EncodeIntMax32_wf|].
  induction p as [|c p IH]; [constructor|]. inversion H; subst. cbn [flat_map].
  apply Forall_app; split; [apply Forall_app; split; [apply EncodeIntMax32_wf|auto]|apply IH; auto].
Qed.

(** Relative paths. *)
Lemma codec_path_skipn pp n p : codec_path pp p -> codec_path pp (skipn n p).
Proof.
  intros [H1 H2]. split.
  - unfold len in *. rewrite skipn_length. lia.
  - rewrite <- (firstn_skipn n p) in H2. apply Forall_app in H2. tauto.
Qed.

Lemma common_count_len_r a b : (common_count a b <= length b)%nat.
Proof.
  revert b; induction a as [|c a IH]; intros [|d b]; cbn [common_count length]; try lia.
  destruct (OrderBytes c d =? 0)%Z; [specialize (IH b)|]; lia.
Qed.

Lemma DecodeRelativePath_EncodeRelativePath pp p ref enc rest :
  codec_params pp -> codec_path pp p ->
  EncodeRelativePath pp p ref = Ok enc ->
  DecodeRelativePath pp (enc ++ rest) ref = Ok p.
Proof.
  intros CP Hp. unfold EncodeRelativePath, CommonPrefix.
  pose proof (common_count_le p ref) as Hle.
  destruct (common_count_prefix p ref) as [Hpre _].
  pose proof (prefix_of_length _ _ Hpre) as Hlr. rewrite firstn_length_le in Hlr by lia.
  destruct (common_count p ref) as [|k] eqn:E; [discriminate|].
  remember (S k) as n eqn:En. cbv zeta. intros H; injection H as <-.
  assert (Hn : len (firstn n p) = N.of_nat n) by (unfold len; rewrite firstn_length_le; lia).
  rewrite Hn, Nat2N.id.
  pose proof CP as ((PC & PL & PP) & HC & HL). pose proof Hp as [Hp1 Hp2].
  assert (Hnle : N.of_nat n <= max_component_count pp) by (unfold len in Hp1; lia).
  rewrite toT_small by lia.
  unfold DecodeRelativePath. rewrite <- app_assoc.
  rewrite slice_0_app by (rewrite EncodeIntMax32_len; reflexivity). cbn [bind].
  rewrite EncodeIntMax32_roundtrip by lia. cbn [bind].
  assert (Hsl : slice ref 0 (N.of_nat n) = Ok (firstn n p)).
  { destruct Hpre as [s Hs]. rewrite Hs. apply slice_0_app. auto. }
  rewrite Hsl. cbn [bind].
  rewrite slice_from_app by (rewrite EncodeIntMax32_len; reflexivity). cbn [bind].
  rewrite DecodePath_EncodePath; auto.
  - rewrite firstn_skipn. reflexivity.
  - apply codec_path_skipn; auto.
Qed.

(** EncodeRelativePath succeeds exactly when the first components agree. *)
Lemma EncodeRelativePath_total pp p ref :
  (exists enc, EncodeRelativePath pp p ref = Ok enc) <->
  exists c p' r', p = c :: p' /\ ref = c :: r'.
Proof.
  unfold EncodeRelativePath. pose proof (CommonPrefix_spec p ref) as H.
  destruct (CommonPrefix p ref) as [c| | | |]; try contradiction.
  - destruct H as (Hne & [s1 Ha] & [s2 Hb] & _). split; [|eauto].
    intros _. destruct c as [|x c]; [congruence|]. subst. cbn. eauto 6.
  - split; [intros [? ?]; discriminate|]. intros (c & p' & r' & -> & ->).
    specialize (H [c]). discriminate H; apply prefix_of_cons; split; auto; apply prefix_of_nil.
Qed.

(** ** Distance *)

Local Open Scope Z_scope.
Lemma bytes_distance_sym a b : bytes_distance a b = bytes_distance b a.
Proof.
  revert b. induction a as [|x a IH]; intros [|y b]; cbn [bytes_distance]; auto.
  - f_equal. induction b as [|z b IHb]; cbn [bytes_distance]; auto. rewrite IHb. reflexivity.
  - f_equal. clear IH. induction a as [|z a IHa]; cbn [bytes_distance]; auto. rewrite IHa. reflexivity.
  - rewrite IH. ring.
Qed.

Lemma bytes_distance_nonneg a b : 0 <= bytes_distance a b.
Proof.
  revert b. induction a as [|x a IH]; intros [|y b]; cbn [bytes_distance]; try lia.
  - apply Z.add_nonneg_nonneg; [apply Z.square_nonneg|].
    induction b; [lia|]. apply Z.add_nonneg_nonneg; [apply Z.square_nonneg|auto].
  - specialize (IH []). pose proof (Z.square_nonneg (Z.of_N x)). lia.
  - specialize (IH b). pose proof (Z.square_nonneg (Z.of_N x - Z.of_N y)). lia.
Qed.

Lemma bytes_distance_refl a : bytes_distance a a = 0.
Proof. induction a; cbn [bytes_distance]; auto. rewrite IHa. ring. Qed.

Lemma PathDistance_sym a b : PathDistance a b = PathDistance b a.
Proof.
  revert b. induction a as [|x a IH]; intros [|y b]; cbn [PathDistance]; auto.
  - rewrite bytes_distance_sym. f_equal. induction b as [|z b IHb]; cbn [PathDistance]; auto.
    rewrite IHb, bytes_distance_sym. reflexivity.
  - rewrite bytes_distance_sym. f_equal. clear IH.
    induction a as [|z a IHa]; cbn [PathDistance]; auto. rewrite IHa, bytes_distance_sym. reflexivity.
  - rewrite IH, bytes_distance_sym. reflexivity.
Qed.

Lemma PathDistance_nonneg a b : 0 <= PathDistance a b.
Proof.
  revert b. induction a as [|x a IH]; intros [|y b]; cbn [PathDistance]; try lia.
  - apply Z.add_nonneg_nonneg; [apply bytes_distance_nonneg|].
    induction b; [lia|]. apply Z.add_nonneg_nonneg; [apply bytes_distance_nonneg|auto].
  - specialize (IH []). pose proof (bytes_distance_nonneg x []). lia.
  - specialize (IH b). pose proof (bytes_distance_nonneg x y). lia.
Qed.

Lemma PathDistance_refl a : PathDistance a a = 0.
Proof. induction a; cbn [PathDistance]; auto. rewrite IHa, bytes_distance_refl. reflexivity. Qed.

Lemma bytes_distance_zero_eq a b : length a = length b -> bytes_distance a b = 0 -> a = b.
Proof.
  revert b. induction a as [|x a IH]; intros [|y b] Hl; cbn [bytes_distance length] in *; try lia; auto.
  intros H. pose proof (bytes_distance_nonneg a b).
  pose proof (Z.square_nonneg (Z.of_N x - Z.of_N y)) as Hs.
  assert (Hz : (Z.of_N x - Z.of_N y) * (Z.of_N x - Z.of_N y) = 0) by lia.
  apply Z.mul_eq_0 in Hz. f_equal; [lia|apply IH; lia].
Qed.

(** With the same shape (component count and lengths) distance zero does mean
    equality. *)
Lemma PathDistance_zero_eq a b :
  map (@length N) a = map (@length N) b -> PathDistance a b = 0 -> a = b.
Proof.
  revert b. induction a as [|x a IH]; intros [|y b] Hl; cbn [PathDistance map] in *; try discriminate; auto.
  inversion Hl. intros H. pose proof (PathDistance_nonneg a b). pose proof (bytes_distance_nonneg x y).
  f_equal; [apply bytes_distance_zero_eq; auto; lia|apply IH; auto; lia].
Qed.
