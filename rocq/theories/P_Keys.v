(** Proofs about M_Keys. *)
From Verif Require Import Base M_Order M_Encoding M_Paths M_Keys S_Order P_Order P_Encoding P_Paths.
Local Open Scope N_scope.

Lemma be_uint64_bigint x : x < 2 ^ 64 -> be_uint64 (BigIntToBytes x) = Ok x.
Proof. intros. rewrite <- (app_nil_r (BigIntToBytes x)). apply BigIntToBytes_roundtrip; auto. Qed.

Lemma DecodeKey_EncodeKey pp p :
  codec_params pp -> codec_path pp (pos_path p) -> pos_time p < 2 ^ 64 ->
  DecodeKey (EncodeKey p pp) pp = Ok p.
Proof.
  intros CP HP HT. unfold DecodeKey, EncodeKey.
  rewrite slice_0_app by (rewrite BigIntToBytes_len; reflexivity). cbn [bind].
  rewrite be_uint64_bigint by auto. cbn [bind].
  rewrite slice_from_app by (rewrite BigIntToBytes_len; reflexivity). cbn [bind].
  rewrite DecodePath_EncodePath by auto. cbn [bind].
  rewrite app_assoc, slice_from_app by (rewrite len_app, BigIntToBytes_len; reflexivity). cbn [bind].
  destruct p; reflexivity.
Qed.

Lemma EncodeKey_inj pp p q :
  codec_params pp -> codec_path pp (pos_path p) -> codec_path pp (pos_path q) ->
  pos_time p < 2 ^ 64 -> pos_time q < 2 ^ 64 ->
  EncodeKey p pp = EncodeKey q pp -> p = q.
Proof.
  intros CP Hp Hq Tp Tq H.
  pose proof (DecodeKey_EncodeKey pp p CP Hp Tp) as E1.
  pose proof (DecodeKey_EncodeKey pp q CP Hq Tq) as E2.
  rewrite H in E1. congruence.
Qed.

Lemma EncodeKey_time_order pp p q :
  pos_time p < pos_time q -> pos_time q < 2 ^ 64 ->
  bytes_lt (EncodeKey p pp) (EncodeKey q pp).
Proof.
  intros H Hq. unfold EncodeKey. apply lex_app_r.
  - apply Nat2N.inj. change (len (BigIntToBytes (pos_time p)) = len (BigIntToBytes (pos_time q))).
    rewrite !BigIntToBytes_len. reflexivity.
  - apply BigIntToBytes_lt; auto.
Qed.

Lemma EncodeKey_wf pp p : wf_bytes (pos_subspace p) -> wf_path (pos_path p) -> wf_bytes (EncodeKey p pp).
Proof.
  intros. unfold EncodeKey. apply Forall_app; split; [apply BigIntToBytes_wf|].
  apply Forall_app; split; auto. apply EncodePath_wf; auto.
Qed.

(** ** Values *)

Lemma two64_pow : two64 = 2 ^ 64. Proof. reflexivity. Qed.

Lemma add64_small a b : a + b < 2 ^ 64 -> add64 a b = a + b.
Proof. intros. unfold add64. rewrite two64_pow. apply N.mod_small; auto. Qed.

Lemma bytesToString_spec s rest : len s + 8 < 2 ^ 64 ->
  bytesToString (stringToBytes s ++ rest) = Ok (s, rest).
Proof.
  intros H. unfold bytesToString, stringToBytes. rewrite <- app_assoc.
  rewrite slice_0_app by (rewrite BigIntToBytes_len; reflexivity). cbn [bind].
  rewrite be_uint64_bigint by lia. cbn [bind]. rewrite add64_small by lia.
  rewrite slice_app by (rewrite BigIntToBytes_len; lia). cbn [bind].
  rewrite app_assoc, slice_from_app by (rewrite len_app, BigIntToBytes_len; reflexivity). reflexivity.
Qed.

(** A length that fits a 64-bit machine's memory. *)
Definition values_ok (v : values) : Prop :=
  v_length v < 2 ^ 64 /\ len (v_digest v) + 8 < 2 ^ 64 /\ len (v_auth v) + 8 < 2 ^ 64.

Lemma DecodeValues_EncodeValues v rest : values_ok v -> DecodeValues (EncodeValues v ++ rest) = Ok v.
Proof.
  intros (H1 & H2 & H3). unfold DecodeValues, EncodeValues. rewrite <- !app_assoc.
  rewrite slice_0_app by (rewrite BigIntToBytes_len; reflexivity). cbn [bind].
  rewrite be_uint64_bigint by auto. cbn [bind].
  rewrite slice_from_app by (rewrite BigIntToBytes_len; reflexivity). cbn [bind].
  rewrite bytesToString_spec by auto. cbn [bind].
  rewrite bytesToString_spec by auto. cbn [bind].
  destruct v; reflexivity.
Qed.

(** Truncation: a strict prefix of a string with its length prefix panics. *)
Lemma prefix_of_app_cases {A} (t a b : list A) : prefix_of t (a ++ b) ->
  (exists x s, a = t ++ x :: s) \/ (exists t', t = a ++ t' /\ prefix_of t' b).
Proof.
  intros [s H]. apply app_eq_app in H as (l & [[H1 H2]|[H1 H2]]).
  - destruct l as [|x l].
    + right. exists []. rewrite app_nil_r in *. split; auto. apply prefix_of_nil.
    + left. eauto.
  - right. exists l. split; auto. exists s. auto.
Qed.

Lemma slice_short {A} (t : list A) n m : len t < m -> n <= m -> slice t n m = Panic.
Proof.
  intros H Hn. unfold slice. destruct (N.leb_spec n m), (N.leb_spec m (len t)); try lia; reflexivity.
Qed.

Lemma bytesToString_trunc s t : len s + 8 < 2 ^ 64 ->
  proper_prefix_of t (stringToBytes s) -> bytesToString t = Panic.
Proof.
  intros Hs (x & r & H). unfold bytesToString.
  assert (Hl : len t < 8 + len s).
  { apply (f_equal len) in H. unfold stringToBytes in H. rewrite !len_app, BigIntToBytes_len, len_cons in H. lia. }
  destruct (N.lt_ge_cases (len t) 8) as [L|L]; [rewrite slice_short by lia; reflexivity|].
  assert (Hp : prefix_of t (BigIntToBytes (len s) ++ s)) by (exists (x :: r); auto).
  apply prefix_of_app_cases in Hp as [(y & z & E)|(t' & -> & Hp)].
  - apply (f_equal len) in E. rewrite BigIntToBytes_len, len_app, len_cons in E. lia.
  - rewrite slice_0_app by (rewrite BigIntToBytes_len; reflexivity). cbn [bind].
    rewrite be_uint64_bigint by lia. cbn [bind]. rewrite add64_small by lia.
    rewrite slice_short by lia. reflexivity.
Qed.

Lemma DecodeValues_trunc v t : values_ok v -> proper_prefix_of t (EncodeValues v) -> DecodeValues t = Panic.
Proof.
  intros (H1 & H2 & H3) HP. apply proper_prefix_spec in HP as [HP Hne].
  unfold EncodeValues in *. unfold DecodeValues.
  apply prefix_of_app_cases in HP as [(y & z & E)|(t' & -> & HP)].
  - apply (f_equal len) in E. rewrite BigIntToBytes_len, len_app, len_cons in E.
    rewrite slice_short by lia. reflexivity.
  - rewrite slice_0_app by (rewrite BigIntToBytes_len; reflexivity). cbn [bind].
    rewrite be_uint64_bigint by auto. cbn [bind].
    rewrite slice_from_app by (rewrite BigIntToBytes_len; reflexivity). cbn [bind].
    apply prefix_of_app_cases in HP as [(y & z & E)|(t2 & -> & HP)].
    + rewrite (bytesToString_trunc (v_digest v)); auto. exists y, z; auto.
    + rewrite bytesToString_spec by auto. cbn [bind].
      rewrite (bytesToString_trunc (v_auth v)); auto. apply proper_prefix_spec. split; auto.
      intros ->. apply Hne. reflexivity.
Qed.

(** ** Key helpers *)

Lemma CompareTwoKeyParts_decides : decides N.lt CompareTwoKeyParts.
Proof.
  intros a b. unfold CompareTwoKeyParts, Greater, Less, Equal.
  destruct (N.ltb_spec b a); [right; right; auto|].
  destruct (N.ltb_spec a b); [left; auto|right; left; split; auto; lia].
Qed.

Lemma CompareTwoKeyParts_total : total_order N.lt CompareTwoKeyParts.
Proof. split; [apply N_sto|apply CompareTwoKeyParts_decides]. Qed.

Lemma IsFirstPrefixOfSecond_spec a b :
  exists r, IsFirstPrefixOfSecond a b = Ok r /\ (r = true <-> prefix_of a b).
Proof.
  unfold IsFirstPrefixOfSecond. destruct (N.ltb_spec (len b) (len a)) as [H|H].
  - exists false. split; auto. split; [discriminate|]. intros [s ->]. rewrite len_app in H. lia.
  - revert b H. induction a as [|x a IH]; intros b H.
    + exists true. split; auto. split; auto. intros; apply prefix_of_nil.
    + destruct b as [|y b]; [rewrite len_cons, len_nil in H; lia|]. cbn [prefix_loop].
      rewrite !len_cons in H. destruct (CompareTwoKeyParts x y =? 0)%Z eqn:E; cbn [negb].
      * apply (order_eqb0 _ _ CompareTwoKeyParts_total) in E. subst y.
        destruct (IH b) as (r & Hr & Hs); [lia|]. exists r. split; auto.
        rewrite prefix_of_cons. tauto.
      * exists false. split; auto. split; [discriminate|]. rewrite prefix_of_cons. intros [-> _].
        rewrite (order_refl _ _ CompareTwoKeyParts_total) in E. discriminate.
Qed.

(** Shorter first, then lexicographic. *)
Definition shortlex_lt (a b : bytes) : Prop :=
  len a < len b \/ (len a = len b /\ bytes_lt a b).

Lemma shortlex_sto : strict_total_order shortlex_lt.
Proof.
  pose proof bytes_sto as [I T C]. split; unfold shortlex_lt.
  - intros a [H|[_ H]]; [lia|eapply I; eauto].
  - intros a b c [H|[H H']] [K|[K K']]; try (left; lia). right; split; [lia|eauto].
  - intros a b. destruct (N.lt_trichotomy (len a) (len b)) as [?|[E|?]]; auto.
    destruct (C a b) as [?|[?|?]]; auto.
Qed.

Lemma CompareKeys_decides a b :
  (CompareKeys a b = Ok Less /\ shortlex_lt a b)
  \/ (CompareKeys a b = Ok Equal /\ a = b)
  \/ (CompareKeys a b = Ok Greater /\ shortlex_lt b a).
Proof.
  unfold CompareKeys, shortlex_lt.
  destruct (N.ltb_spec (len b) (len a)) as [H|H]; [auto|].
  destruct (N.ltb_spec (len a) (len b)) as [H'|H']; [auto|].
  assert (E : len a = len b) by lia. clear H H'.
  revert b E. induction a as [|x a IH]; intros [|y b] E; rewrite ?len_cons, ?len_nil in *; try lia.
  - auto.
  - cbn [compare_loop]. destruct (CompareTwoKeyParts_decides x y) as [[-> H]|[[-> ->]|[-> H]]]; cbn [negb Z.eqb Less Equal Greater].
    + left. split; auto. right. split; auto. apply lex_head; auto.
    + destruct (IH b) as [[-> [H|[H H']]]|[[-> ->]|[-> [H|[H H']]]]]; auto; try lia.
      * left. split; auto. right. split; [lia|]. apply lex_tail; auto.
      * right; right. split; auto. right. split; [lia|]. apply lex_tail; auto.
    + right; right. split; auto. right. split; auto. apply lex_head; auto.
Qed.
