(** Proofs about M_Encoding. *)
From Verif Require Import Base M_Encoding S_Order P_Order.
Local Open Scope N_scope.

Lemma len_app {A} (a b : list A) : len (a ++ b) = len a + len b.
Proof. unfold len. rewrite app_length. lia. Qed.
Lemma len_cons {A} (x : A) l : len (x :: l) = 1 + len l.
Proof. unfold len. cbn [length]. lia. Qed.
Lemma len_nil {A} : len (@nil A) = 0.
Proof. reflexivity. Qed.

Lemma slice_app {A} (a b c : list A) from to :
  from = len a -> to = len a + len b -> slice (a ++ b ++ c) from to = Ok b.
Proof.
  intros -> ->. unfold slice. rewrite !len_app.
  replace (len a <=? len a + len b) with true by (symmetry; apply N.leb_le; lia).
  replace (len a + len b <=? len a + (len b + len c)) with true by (symmetry; apply N.leb_le; lia).
  cbn [andb]. f_equal. unfold len.
  replace (N.to_nat (N.of_nat (length a))) with (length a) by lia.
  rewrite skipn_app, skipn_all2, Nat.sub_diag by lia. cbn [skipn app].
  replace (N.to_nat _) with (length b) by lia.
  rewrite firstn_app, firstn_all2, Nat.sub_diag by lia. cbn [firstn]. apply app_nil_r.
Qed.

Lemma slice_0_app {A} (b c : list A) to : to = len b -> slice (b ++ c) 0 to = Ok b.
Proof. intros ->. apply (slice_app [] b c); reflexivity. Qed.

Lemma slice_all {A} (b : list A) to : to = len b -> slice b 0 to = Ok b.
Proof. intros ->. rewrite <- (app_nil_r b) at 1. apply slice_0_app; reflexivity. Qed.

Lemma slice_from_app {A} (a b : list A) n : n = len a -> slice_from (a ++ b) n = Ok b.
Proof.
  intros ->. unfold slice_from. rewrite len_app.
  replace (len a <=? len a + len b) with true by (symmetry; apply N.leb_le; lia).
  f_equal. unfold len. replace (N.to_nat (N.of_nat (length a))) with (length a) by lia.
  rewrite skipn_app, skipn_all2, Nat.sub_diag by lia. reflexivity.
Qed.

Lemma be_encode_length w x : length (be_encode w x) = w.
Proof. revert x; induction w; intros; cbn [be_encode]; [reflexivity|rewrite app_length, IHw; cbn; lia]. Qed.

Lemma be_encode_len w x : len (be_encode w x) = N.of_nat w.
Proof. unfold len. rewrite be_encode_length. reflexivity. Qed.

Lemma be_encode_wf w x : wf_bytes (be_encode w x).
Proof.
  revert x; induction w; intros; cbn [be_encode]; [constructor|].
  apply Forall_app; split; [apply IHw|]. constructor; [|constructor]. apply N.mod_lt; lia.
Qed.

Lemma be_decode_snoc b z : be_decode (b ++ [z]) = be_decode b * 256 + z.
Proof. unfold be_decode. rewrite fold_left_app. reflexivity. Qed.

Lemma pow256_S w : 256 ^ N.of_nat (S w) = 256 * 256 ^ N.of_nat w.
Proof. rewrite Nat2N.inj_succ, N.pow_succ_r'. reflexivity. Qed.

Lemma pow256_pos w : 0 < 256 ^ N.of_nat w.
Proof. apply N.neq_0_lt_0, N.pow_nonzero. lia. Qed.

Lemma be_decode_encode_mod w x : be_decode (be_encode w x) = x mod 256 ^ N.of_nat w.
Proof.
  revert x; induction w; intros x.
  - cbn. rewrite N.mod_1_r. reflexivity.
  - cbn [be_encode]. rewrite be_decode_snoc, IHw, pow256_S.
    pose proof (pow256_pos w).
    rewrite N.mod_mul_r by lia. lia.
Qed.

Lemma be_decode_encode w x : x < 256 ^ N.of_nat w -> be_decode (be_encode w x) = x.
Proof. intros. rewrite be_decode_encode_mod. apply N.mod_small; auto. Qed.

Lemma be_decode_bound b : wf_bytes b -> be_decode b < 256 ^ len b.
Proof.
  induction b as [|z b IH] using rev_ind; intros H.
  - cbn. lia.
  - apply Forall_app in H as [H1 H2]. inversion H2; subst.
    rewrite be_decode_snoc, len_app. change (len [z]) with 1.
    specialize (IH H1). rewrite N.pow_add_r. change (256 ^ 1) with 256. nia.
Qed.

Lemma be_encode_decode b : wf_bytes b -> be_encode (length b) (be_decode b) = b.
Proof.
  induction b as [|z b IH] using rev_ind; intros H; [reflexivity|].
  apply Forall_app in H as [H1 H2]. inversion H2; subst.
  rewrite app_length, be_decode_snoc. cbn [length]. rewrite Nat.add_1_r. cbn [be_encode].
  rewrite N.div_add_l, N.div_small, N.add_0_r, IH by (auto; lia).
  f_equal. f_equal. rewrite N.add_comm, N.mod_add by lia. apply N.mod_small; auto.
Qed.

Lemma be_encode_inj w x y :
  x < 256 ^ N.of_nat w -> y < 256 ^ N.of_nat w -> be_encode w x = be_encode w y -> x = y.
Proof. intros Hx Hy H. rewrite <- (be_decode_encode w x), <- (be_decode_encode w y), H; auto. Qed.

Lemma lex_app_l {A} (lt : A -> A -> Prop) p a b : lex lt a b -> lex lt (p ++ a) (p ++ b).
Proof. induction p; cbn; auto. intros; apply lex_tail; auto. Qed.

(** Different strings of equal length stay ordered whatever follows them. *)
Lemma lex_app_r {A} (lt : A -> A -> Prop) a b s t :
  length a = length b -> lex lt a b -> lex lt (a ++ s) (b ++ t).
Proof.
  intros Hl H. induction H; cbn in *; try discriminate.
  - apply lex_head; auto.
  - apply lex_tail. apply IHlex. lia.
Qed.

Lemma be_encode_lt w x y :
  x < y -> y < 256 ^ N.of_nat w -> bytes_lt (be_encode w x) (be_encode w y).
Proof.
  revert x y; induction w; intros x y Hxy Hy.
  - cbn in Hy. lia.
  - rewrite pow256_S in Hy. cbn [be_encode].
    pose proof (N.div_mod x 256 ltac:(lia)) as Ex.
    pose proof (N.div_mod y 256 ltac:(lia)) as Ey.
    pose proof (N.mod_lt x 256 ltac:(lia)). pose proof (N.mod_lt y 256 ltac:(lia)).
    destruct (N.lt_trichotomy (x / 256) (y / 256)) as [L|[L|L]].
    + apply lex_app_r. { rewrite !be_encode_length; auto. }
      apply IHw; auto. apply N.div_lt_upper_bound; lia.
    + rewrite L. apply lex_app_l, lex_head. lia.
    + exfalso. lia.
Qed.

(** A big-endian encoding of a small number has leading zeros only, so the top
    byte of a 24-bit number is its third byte. *)
Lemma EncodeIntMax32_be num max :
  EncodeIntMax32 num max = be_encode (N.to_nat (GetWidthMax32Int max)) num.
Proof.
  unfold EncodeIntMax32, GetWidthMax32Int.
  destruct (max <? 2 ^ 8); [reflexivity|].
  destruct (max <? 2 ^ 16); [reflexivity|].
  destruct (max <? 2 ^ 24); [|reflexivity].
  cbn [be_encode app N.eqb Pos.eqb]. unfold u8.
  change (N.to_nat 3) with 3%nat. cbn [be_encode app].
  rewrite N.div_div by lia. reflexivity.
Qed.

Lemma GetWidthMax32Int_bound max : max < 2 ^ 32 -> max < 256 ^ GetWidthMax32Int max.
Proof.
  unfold GetWidthMax32Int. intros H.
  destruct (N.ltb_spec max (2 ^ 8)); [assumption|].
  destruct (N.ltb_spec max (2 ^ 16)); [assumption|].
  destruct (N.ltb_spec max (2 ^ 24)); assumption.
Qed.

Lemma GetWidthMax32Int_cases max :
  GetWidthMax32Int max = 1 \/ GetWidthMax32Int max = 2 \/ GetWidthMax32Int max = 3
  \/ GetWidthMax32Int max = 4.
Proof.
  unfold GetWidthMax32Int.
  destruct (max <? 2 ^ 8), (max <? 2 ^ 16), (max <? 2 ^ 24); auto.
Qed.

Lemma EncodeIntMax32_len num max : len (EncodeIntMax32 num max) = GetWidthMax32Int max.
Proof. rewrite EncodeIntMax32_be, be_encode_len. lia. Qed.

Lemma EncodeIntMax32_wf num max : wf_bytes (EncodeIntMax32 num max).
Proof. rewrite EncodeIntMax32_be. apply be_encode_wf. Qed.

Lemma DecodeIntMax32_be b max :
  len b = GetWidthMax32Int max -> DecodeIntMax32 b max = Ok (be_decode b).
Proof.
  intros H. unfold DecodeIntMax32. rewrite H, N.eqb_refl. cbn [negb].
  destruct (GetWidthMax32Int_cases max) as [E|[E|[E|E]]]; rewrite E in *; try reflexivity.
  cbn [N.eqb Pos.eqb]. unfold len in H.
  destruct b as [|x [|y [|z [|]]]]; cbn [length] in H; try lia.
  reflexivity.
Qed.

Lemma EncodeIntMax32_roundtrip x max :
  x <= max -> max < 2 ^ 32 -> DecodeIntMax32 (EncodeIntMax32 x max) max = Ok x.
Proof.
  intros H1 H2. rewrite DecodeIntMax32_be by apply EncodeIntMax32_len.
  rewrite EncodeIntMax32_be, be_decode_encode; auto.
  rewrite N2Nat.id. eapply N.le_lt_trans; [exact H1|]. apply GetWidthMax32Int_bound; auto.
Qed.

Lemma EncodeIntMax32_lt x y max :
  x < y -> y <= max -> max < 2 ^ 32 ->
  bytes_lt (EncodeIntMax32 x max) (EncodeIntMax32 y max).
Proof.
  intros H1 H2 H3. rewrite !EncodeIntMax32_be. apply be_encode_lt; auto.
  rewrite N2Nat.id. eapply N.le_lt_trans; [exact H2|]. apply GetWidthMax32Int_bound; auto.
Qed.

Lemma EncodeIntMax64_be num :
  EncodeIntMax64 num = be_encode (N.to_nat (GetWidthMax64Int num)) num.
Proof.
  unfold EncodeIntMax64, GetWidthMax64Int.
  destruct (num <? 2 ^ 8); [reflexivity|].
  destruct (num <? 2 ^ 16); [reflexivity|].
  destruct (num <? 2 ^ 32); reflexivity.
Qed.

Lemma GetWidthMax64Int_bound n : n < 2 ^ 64 -> n < 256 ^ GetWidthMax64Int n.
Proof.
  unfold GetWidthMax64Int. intros H.
  destruct (N.ltb_spec n (2 ^ 8)); [assumption|].
  destruct (N.ltb_spec n (2 ^ 16)); [assumption|].
  destruct (N.ltb_spec n (2 ^ 32)); assumption.
Qed.

Lemma GetWidthMax64Int_cases n :
  GetWidthMax64Int n = 1 \/ GetWidthMax64Int n = 2 \/ GetWidthMax64Int n = 4
  \/ GetWidthMax64Int n = 8.
Proof.
  unfold GetWidthMax64Int.
  destruct (n <? 2 ^ 8), (n <? 2 ^ 16), (n <? 2 ^ 32); auto.
Qed.

Lemma EncodeIntMax64_len n : len (EncodeIntMax64 n) = GetWidthMax64Int n.
Proof. rewrite EncodeIntMax64_be, be_encode_len. lia. Qed.

Lemma EncodeIntMax64_wf n : wf_bytes (EncodeIntMax64 n).
Proof. rewrite EncodeIntMax64_be. apply be_encode_wf. Qed.

Lemma EncodeIntMax64_roundtrip x : x < 2 ^ 64 -> DecodeIntMax64 (EncodeIntMax64 x) = Ok x.
Proof.
  intros H. unfold DecodeIntMax64. rewrite EncodeIntMax64_len.
  destruct (GetWidthMax64Int_cases x) as [E|[E|[E|E]]]; rewrite E; cbn [N.eqb Pos.eqb orb];
  rewrite EncodeIntMax64_be, be_decode_encode; auto; rewrite N2Nat.id; apply GetWidthMax64Int_bound; auto.
Qed.

Lemma BigIntToBytes_len x : len (BigIntToBytes x) = 8.
Proof. apply be_encode_len. Qed.
Lemma BigIntToBytes_wf x : wf_bytes (BigIntToBytes x).
Proof. apply be_encode_wf. Qed.

Lemma BigIntToBytes_roundtrip x rest : x < 2 ^ 64 -> be_uint64 (BigIntToBytes x ++ rest) = Ok x.
Proof.
  intros H. unfold be_uint64. rewrite slice_0_app by (rewrite BigIntToBytes_len; auto).
  cbn [bind]. unfold BigIntToBytes. rewrite be_decode_encode; auto.
Qed.

Lemma BigIntToBytes_lt x y :
  x < y -> y < 2 ^ 64 -> bytes_lt (BigIntToBytes x) (BigIntToBytes y).
Proof. intros. apply be_encode_lt; auto. Qed.
