(** Proofs about M_Json.v. *)
From Coq Require Import Ascii String.
From Verif Require Import Base M_Order M_Encoding M_Entry M_Map M_Store M_Names M_Json S_Names S_Json P_Encoding P_Names.
From Coq Require Import Lia ZifyN ZifyBool Zify.
Local Open Scope N_scope.
Local Open Scope list_scope.
Notation length := List.length.
Ltac Zify.zify_post_hook ::= Z.to_euclidean_division_equations.

(** ** Numbers *)
Definition dig (acc c : N) : N := acc * 10 + (c - 48).

Lemma digits_value fuel n acc : n < 10 ^ N.of_nat fuel -> fold_left dig (digits fuel n acc) 0 = fold_left dig acc n.
Proof.
  revert n acc. induction fuel as [|f IH]; intros n acc H.
  - cbn [digits]. change (10 ^ N.of_nat 0) with 1 in H. replace n with 0 by lia. reflexivity.
  - cbn [digits]. cbv zeta. destruct (N.eqb_spec (n / 10) 0) as [E|E].
    + cbn [fold_left]. f_equal. unfold dig. lia.
    + rewrite IH.
      * cbn [fold_left]. f_equal. unfold dig. lia.
      * rewrite Nat2N.inj_succ, N.pow_succ_r' in H. apply N.div_lt_upper_bound; lia.
Qed.

Lemma digits_digits fuel n acc : Forall (fun c => is_digit c = true) acc -> Forall (fun c => is_digit c = true) (digits fuel n acc).
Proof.
  revert n acc. induction fuel as [|f IH]; intros n acc H; cbn [digits]; auto. cbv zeta.
  assert (X : Forall (fun c => is_digit c = true) (48 + n mod 10 :: acc)) by (constructor; auto; unfold is_digit; lia).
  destruct (_ =? _); auto.
Qed.

Lemma decimal_bound n : n < 10 ^ N.of_nat (S (N.size_nat n)).
Proof.
  eapply N.lt_le_trans with (2 ^ N.of_nat (N.size_nat n)).
  - replace (N.of_nat (N.size_nat n)) with (N.size n) by (destruct n as [|p]; [reflexivity|]; cbn; induction p; cbn; lia).
    apply N.size_gt.
  - rewrite Nat2N.inj_succ. transitivity (10 ^ N.of_nat (N.size_nat n)).
    + apply N.pow_le_mono_l. lia.
    + apply N.pow_le_mono_r; lia.
Qed.

Lemma number_digits d r acc : Forall (fun c => is_digit c = true) d -> (forall c, hd_error r = Some c -> is_digit c = false) ->
  number acc (d ++ r) = (fold_left dig d acc, r).
Proof.
  intros H HR. revert acc. induction H as [|c d E _ IH]; intros acc.
  - cbn [app fold_left]. destruct r as [|c r]; [reflexivity|]. cbn [number]. rewrite HR by reflexivity. reflexivity.
  - cbn [app number fold_left]. rewrite E. apply IH.
Qed.

Lemma number_decimal n r : (forall c, hd_error r = Some c -> is_digit c = false) -> number 0 (decimal n ++ r) = (n, r).
Proof.
  intros HR. rewrite number_digits; auto.
  - unfold decimal. rewrite digits_value by apply decimal_bound. reflexivity.
  - apply digits_digits. constructor.
Qed.

Lemma decimal_first n : exists c r, decimal n = c :: r /\ is_digit c = true.
Proof.
  pose proof (digits_digits (S (N.size_nat n)) n [] (Forall_nil _)) as F.
  assert (L : decimal n <> []).
  { unfold decimal. cbn [digits]. cbv zeta. destruct (_ =? _); [discriminate|].
    assert (G : forall f m a, a <> [] -> digits f m a <> []).
    { induction f as [|f IH]; intros m a Ha; cbn [digits]; auto. cbv zeta. destruct (_ =? _); [discriminate|]. apply IH. discriminate. }
    apply G. discriminate. }
  unfold decimal in *. destruct (digits _ n []) as [|c r]; [congruence|]. exists c, r. inversion F; auto.
Qed.

(** ** Strings *)
Definition plain (c : N) : Prop := c <> 34 /\ c <> 92.

Lemma string_plain s r : Forall plain s -> string_rest (s ++ 34 :: r) = Some (s, r).
Proof.
  induction 1 as [|c s [H1 H2] _ IH]; [reflexivity|]. cbn [app string_rest].
  apply N.eqb_neq in H1, H2. rewrite H1, H2, IH. reflexivity.
Qed.

Lemma string_step_plain c s : plain c -> string_rest (c :: s) = match string_rest s with Some (x, y) => Some (c :: x, y) | None => None end.
Proof. intros [H1 H2]. cbn [string_rest]. apply N.eqb_neq in H1, H2. rewrite H1, H2. reflexivity. Qed.

Lemma base64_plain (b : list N) : Forall (fun x => x < 256) b -> Forall plain (base64 b).
Proof.
  assert (P : forall v, v < 64 -> plain (b64_char v)) by (intros v H; destruct (b64_char_ok v H) as (_ & _ & X); unfold plain; lia).
  assert (Q : plain pad_char) by (unfold plain, pad_char; lia).
  induction b as [|a|a b|a b c r IH] using three_ind; intros H; bounded H; cbn [base64 map repeat app];
    repeat (constructor; [first [exact Q | apply P; lia]|]); auto.
Qed.

(** What the reader makes of an escaped byte. *)
Lemma string_escape c s : c < 128 ->
  string_rest (escape c ++ s) = match string_rest s with Some (x, y) => Some (c :: x, y) | None => None end.
Proof.
  intros L. assert (E : In c (map N.of_nat (seq 0 128))).
  { apply in_map_iff. exists (N.to_nat c). rewrite N2Nat.id. split; auto. apply in_seq. lia. }
  cbn in E. repeat (destruct E as [<-|E]; [cbn; destruct (string_rest s) as [[x y]|]; reflexivity|]). destruct E.
Qed.

Lemma cont_iff lo hi c : cont lo hi c = true <-> lo <= c <= hi.
Proof. unfold cont. rewrite andb_true_iff, !N.leb_le. reflexivity. Qed.

(** The bytes of a valid rune after the first are not ASCII. *)
Lemma rune_width_rest c r k : rune_width (c :: r) = S k -> Forall (fun x => 128 <= x) (firstn k r) /\ (k <= length r)%nat.
Proof.
  unfold rune_width. destruct r as [|c1 r]; [intros E; injection E as <-; cbn; split; [constructor|lia]|].
  assert (Z : forall l : list N, 1%nat = S k -> Forall (fun x => 128 <= x) (firstn k l) /\ (k <= length l)%nat)
    by (intros l E; injection E as <-; split; [constructor|lia]).
  destruct (cont 194 223 c); [|destruct (cont 224 239 c); [|destruct (cont 240 244 c); auto]].
  - destruct (cont 128 191 c1) eqn:E1; auto. apply cont_iff in E1. intros E; injection E as <-.
    cbn [firstn length]. split; [|lia]. constructor; [lia|constructor].
  - destruct r as [|c2 r]; auto. destruct (_ && _) eqn:E1; auto. apply andb_prop in E1 as [E1 E2]. apply cont_iff in E1, E2.
    intros E; injection E as <-. cbn [firstn length]. split; [|lia].
    constructor; [destruct (c =? 224); lia|]. constructor; [lia|constructor].
  - destruct r as [|c2 [|c3 r]]; auto. destruct (_ && _) eqn:E1; auto. apply andb_prop in E1 as [E1 E3].
    apply andb_prop in E1 as [E1 E2]. apply cont_iff in E1, E2, E3.
    intros E; injection E as <-. cbn [firstn length]. split; [|lia].
    constructor; [destruct (c =? 240); lia|]. constructor; [lia|]. constructor; [lia|constructor].
Qed.

(** A string ends where it should, whatever its bytes. *)
Lemma string_body_ends s : forall copy skip, Forall (fun x => 128 <= x) (firstn copy s) ->
  exists x, forall r, string_rest (string_body copy skip s ++ 34 :: r) = Some (x, r).
Proof.
  induction s as [|c s IH]; intros copy skip H; [exists []; reflexivity|].
  cbn [string_body]. destruct copy as [|k].
  - destruct skip as [|k]; [|apply IH; constructor].
    destruct (N.ltb_spec c 128) as [L|L].
    + destruct (IH O O (Forall_nil _)) as [x X]. exists (c :: x). intros r. rewrite <- app_assoc, string_escape, X by auto. reflexivity.
    + assert (PL : plain c) by (unfold plain; lia).
      assert (CP : forall k, rune_width (c :: s) = S k ->
        exists x, forall r, string_rest ((c :: string_body k 0 s) ++ 34 :: r) = Some (x, r)).
      { intros k E. destruct (rune_width_rest c s k E) as [F _]. destruct (IH k O F) as [x X].
        exists (c :: x). intros r. cbn [app]. rewrite string_step_plain, X by auto. reflexivity. }
      assert (BAD : exists x, forall r, string_rest (([92; 117; 102; 102; 102; 100] ++ string_body 0 0 s) ++ 34 :: r) = Some (x, r)).
      { destruct (IH O O (Forall_nil _)) as [x X]. eexists. intros r. cbn [app string_rest]. cbn [N.eqb Pos.eqb]. rewrite X. reflexivity. }
      destruct (rune_width (c :: s)) as [|[|k]] eqn:EW; auto.
      destruct s as [|c1 s]; [apply (CP (S k)); auto|].
      destruct (N.eq_dec c1 128) as [->|NE].
      * destruct s as [|c2 s]; [apply (CP (S k)); auto|].
        destruct ((c =? 226) && ((c2 =? 168) || (c2 =? 169))); [|apply (CP (S k)); auto].
        destruct (IH O 2%nat (Forall_nil _)) as [x X]. eexists. intros r. specialize (X r). cbn [app string_rest] in *. cbn [N.eqb Pos.eqb]. rewrite X. reflexivity.
      * specialize (CP (S k) eq_refl). revert CP. generalize (string_body (S k) 0 (c1 :: s)) (string_body 0 2 (c1 :: s)). intros b b' CP.
        destruct c1 as [|p]; [exact CP|]. do 7 (destruct p as [p|p|]; try exact CP). destruct p; try exact CP. congruence.
  - cbn [firstn] in H. inversion H as [|? ? H1 H2]; subst. destruct (IH k O H2) as [x X]. exists (c :: x). intros r.
    cbn [app]. rewrite string_step_plain, X by (unfold plain; lia). reflexivity.
Qed.

Lemma string_body_reads s : exists x, forall r, string_rest (string_body 0 0 s ++ 34 :: r) = Some (x, r).
Proof. apply string_body_ends. constructor. Qed.

Lemma cont_true lo hi c : lo <= c <= hi -> cont lo hi c = true.
Proof. apply cont_iff. Qed.
Lemma cont_false lo hi c : ~ lo <= c <= hi -> cont lo hi c = false.
Proof. intros H. apply Bool.not_true_is_false. rewrite cont_iff. exact H. Qed.

(** Copying what is left of a rune. *)
Lemma string_body_copy a s : string_body (length a) 0 (a ++ s) = a ++ string_body 0 0 s.
Proof. induction a as [|c a IH]; [reflexivity|]. cbn [length app string_body]. f_equal. exact IH. Qed.

Lemma copy_reads a s x r : Forall plain a -> string_rest s = Some (x, r) -> string_rest (a ++ s) = Some (a ++ x, r).
Proof. intros H E. induction H as [|c a P _ IH]; [exact E|]. cbn [app]. rewrite string_step_plain, IH by auto. reflexivity. Qed.

(** A rune of more than one byte is copied, or written as its number. *)
Lemma string_body_rune v s r x : 128 <= v -> v < 1114112 -> ~ 55296 <= v < 57344 ->
  string_rest (string_body 0 0 s ++ 34 :: r) = Some (x, r) ->
  string_rest (string_body 0 0 (utf8 v ++ s) ++ 34 :: r) = Some (utf8 v ++ x, r).
Proof.
  intros L1 L2 L3 X.
  assert (W : exists c1 c2 a, utf8 v = c1 :: c2 :: a /\ rune_width (utf8 v ++ s) = S (S (length a)) /\ 128 <= c1
            /\ Forall plain (c1 :: c2 :: a)
            /\ (c1 = 226 -> c2 = 128 -> forall d q, a ++ s = d :: q -> d = 168 \/ d = 169 -> (v = 8232 \/ v = 8233))).
  { unfold utf8. destruct (N.ltb_spec v 128); [lia|]. destruct (N.ltb_spec v 2048).
    - eexists _, _, _. split; [reflexivity|]. cbn [app rune_width length].
      rewrite (cont_true 194 223), (cont_true 128 191) by lia. split; [reflexivity|]. split; [lia|].
      split; [repeat (constructor; [unfold plain; lia|]); constructor|]. intros; lia.
    - destruct (N.ltb_spec v 65536).
      + eexists _, _, _. split; [reflexivity|]. cbn [app rune_width length].
        rewrite (cont_false 194 223), (cont_true 224 239), (cont_true 128 191 (128 + v mod 64)) by lia.
        rewrite (cont_true _ _ (128 + v / 64 mod 64)).
        2: { destruct (N.eqb_spec (224 + v / 4096) 224), (N.eqb_spec (224 + v / 4096) 237); lia. }
        split; [reflexivity|]. split; [lia|]. split; [repeat (constructor; [unfold plain; lia|]); constructor|].
        intros E1 E2 d q E HD. cbn [app] in E. assert (D : d = 128 + v mod 64) by congruence. clear E. lia.
      + eexists _, _, _. split; [reflexivity|]. cbn [app rune_width length].
        rewrite (cont_false 194 223), (cont_false 224 239), (cont_true 240 244), (cont_true 128 191 (128 + v mod 64)), (cont_true 128 191 (128 + v / 64 mod 64)) by lia.
        rewrite (cont_true _ _ (128 + v / 4096 mod 64)).
        2: { destruct (N.eqb_spec (240 + v / 262144) 240), (N.eqb_spec (240 + v / 262144) 244); lia. }
        split; [reflexivity|]. split; [lia|]. split; [repeat (constructor; [unfold plain; lia|]); constructor|]. intros; lia. }
  destruct W as (c1 & c2 & a & EU & EW & LC & PL & ESC). rewrite EU in *. cbn [app] in EW |- *.
  set (t := a ++ s) in *. cbn [string_body]. rewrite (proj2 (N.ltb_ge c1 128) LC), EW.
  assert (CP : string_rest ((c1 :: string_body (S (length a)) 0 (c2 :: t)) ++ 34 :: r) = Some (c1 :: c2 :: a ++ x, r)).
  { change (c2 :: t) with ((c2 :: a) ++ s). change (S (length a)) with (length (c2 :: a)). rewrite string_body_copy.
    change (string_rest (((c1 :: c2 :: a) ++ string_body 0 0 s) ++ 34 :: r) = Some ((c1 :: c2 :: a) ++ x, r)).
    rewrite <- app_assoc. apply copy_reads; auto. }
  destruct (N.eq_dec c2 128) as [->|NE].
  - destruct t as [|d q] eqn:ET; [exact CP|].
    destruct ((c1 =? 226) && ((d =? 168) || (d =? 169))) eqn:EB; [|exact CP].
    apply andb_prop in EB as [EB1 EB2]. apply N.eqb_eq in EB1. apply Bool.orb_true_iff in EB2. rewrite !N.eqb_eq in EB2.
    assert (V : v = 8232 \/ v = 8233) by (apply (ESC EB1 eq_refl d q eq_refl EB2)).
    assert (E3 : a = [d] /\ q = s).
    { destruct V as [-> | ->]; vm_compute in EU; injection EU as _ <-; cbn [app] in ET; unfold t in ET; injection ET as <- <-; auto. }
    destruct E3 as [-> ->].
    assert (D : d = v - 8064) by (destruct V as [-> | ->]; vm_compute in EU; injection EU as _ <-; reflexivity).
    change (string_body 0 2 (128 :: d :: s)) with (string_body 0 0 s).
    rewrite <- app_assoc.
    destruct V as [-> | ->]; subst d c1; cbn [app string_rest]; cbn; rewrite X; reflexivity.
  -
    destruct c2 as [|p]; [exact CP|]. do 7 (destruct p as [p|p|]; try exact CP). destruct p; try exact CP. congruence.
Qed.

Lemma string_body_utf8 s r : utf8_text s -> string_rest (string_body 0 0 s ++ 34 :: r) = Some (s, r).
Proof.
  intros (vs & -> & H). induction H as [|v vs [L1 L2] _ IH]; [reflexivity|]. cbn [flat_map].
  destruct (N.lt_ge_cases v 128) as [L|L].
  - unfold utf8 at 1 3. rewrite (proj2 (N.ltb_lt _ _) L). cbn [app string_body]. rewrite (proj2 (N.ltb_lt _ _) L), <- app_assoc, string_escape by auto.
    rewrite IH. reflexivity.
  - apply string_body_rune; auto.
Qed.

(** What is copied is UTF-8. *)
Lemma rune_valid c s k : rune_width (c :: s) = S (S k) ->
  exists v s', c :: s = utf8 v ++ s' /\ 128 <= v /\ v < 1114112 /\ ~ 55296 <= v < 57344.
Proof.
  unfold rune_width. destruct s as [|c1 s]; [discriminate|].
  destruct (cont 194 223 c) eqn:E0; [|clear E0; destruct (cont 224 239 c) eqn:E0; [|clear E0; destruct (cont 240 244 c) eqn:E0; [|discriminate]]];
    apply cont_iff in E0.
  - destruct (cont 128 191 c1) eqn:E1; [|discriminate]. apply cont_iff in E1. intros _.
    exists ((c - 192) * 64 + (c1 - 128)), s. unfold utf8.
    rewrite (proj2 (N.ltb_ge _ 128)), (proj2 (N.ltb_lt _ 2048)) by lia. cbn [app]. split; [repeat f_equal; lia|lia].
  - destruct s as [|c2 s]; [discriminate|]. destruct (_ && _) eqn:E1; [|discriminate]. apply andb_prop in E1 as [E1 E2].
    apply cont_iff in E1, E2. intros _. exists ((c - 224) * 4096 + (c1 - 128) * 64 + (c2 - 128)), s.
    assert (B : 128 <= c1 <= 191 /\ (c = 224 -> 160 <= c1) /\ (c = 237 -> c1 <= 159))
      by (destruct (N.eqb_spec c 224), (N.eqb_spec c 237); lia). clear E1.
    unfold utf8. rewrite (proj2 (N.ltb_ge _ 128)), (proj2 (N.ltb_ge _ 2048)), (proj2 (N.ltb_lt _ 65536)) by lia.
    cbn [app]. split; [repeat f_equal; lia|lia].
  - destruct s as [|c2 [|c3 s]]; try discriminate. destruct (_ && _) eqn:E1; [|discriminate]. apply andb_prop in E1 as [E1 E3].
    apply andb_prop in E1 as [E1 E2]. apply cont_iff in E1, E2, E3. intros _.
    exists ((c - 240) * 262144 + (c1 - 128) * 4096 + (c2 - 128) * 64 + (c3 - 128)), s.
    assert (B : 128 <= c1 <= 191 /\ (c = 240 -> 144 <= c1) /\ (c = 244 -> c1 <= 143))
      by (destruct (N.eqb_spec c 240), (N.eqb_spec c 244); lia). clear E1.
    unfold utf8. rewrite (proj2 (N.ltb_ge _ 128)), (proj2 (N.ltb_ge _ 2048)), (proj2 (N.ltb_ge _ 65536)) by lia.
    cbn [app]. split; [repeat f_equal; lia|lia].
Qed.

Lemma utf8_text_cons v x : v < 1114112 -> ~ 55296 <= v < 57344 -> utf8_text x -> utf8_text (utf8 v ++ x).
Proof. intros H1 H2 (vs & -> & F). exists (v :: vs). split; [reflexivity|]. constructor; auto. Qed.

Lemma string_body_text s : exists x, utf8_text x /\ forall r, string_rest (string_body 0 0 s ++ 34 :: r) = Some (x, r).
Proof.
  remember (length s) as n eqn:E. assert (L : (length s <= n)%nat) by lia. clear E.
  revert s L. induction n as [|n IH]; intros [|c s] L; cbn [length] in L; try lia;
    try (exists []; split; [exists []; split; [reflexivity|constructor]|reflexivity]).
  destruct (N.ltb_spec c 128) as [LC|LC].
  - destruct (IH s ltac:(lia)) as (x & T & X). exists (utf8 c ++ x). split; [apply utf8_text_cons; auto; lia|]. intros r.
    cbn [string_body]. unfold utf8. rewrite (proj2 (N.ltb_lt _ _) LC), <- app_assoc, string_escape, X by auto. reflexivity.
  - destruct (rune_width (c :: s)) as [|[|k]] eqn:EW.
    + destruct (IH s ltac:(lia)) as (x & T & X). exists (utf8 65533 ++ x). split; [apply utf8_text_cons; auto; lia|]. intros r.
      cbn [string_body]. rewrite (proj2 (N.ltb_ge _ _) LC), EW. cbn [app string_rest]. cbn [N.eqb Pos.eqb]. rewrite X. reflexivity.
    + destruct (IH s ltac:(lia)) as (x & T & X). exists (utf8 65533 ++ x). split; [apply utf8_text_cons; auto; lia|]. intros r.
      cbn [string_body]. rewrite (proj2 (N.ltb_ge _ _) LC), EW. cbn [app string_rest]. cbn [N.eqb Pos.eqb]. rewrite X. reflexivity.
    + destruct (rune_valid c s k EW) as (v & s' & E & V1 & V2 & V3).
      assert (LS : (length s' <= n)%nat).
      { apply (f_equal (@length N)) in E. rewrite app_length in E. cbn [length] in E.
        assert (1 <= length (utf8 v))%nat by (unfold utf8; repeat destruct (_ <? _); cbn [length]; lia). lia. }
      destruct (IH s' LS) as (x & T & X). exists (utf8 v ++ x). split; [apply utf8_text_cons; auto|]. intros r.
      rewrite E. apply string_body_rune; auto.
Qed.

(** ** Values *)
Definition says (enc : bytes) (j : json) : Prop := forall f r, (length enc < f)%nat -> value f (enc ++ r) = Some (j, r).

Lemma says_null : says t_null JNull.
Proof. intros [|f] r L; [lia|]. reflexivity. Qed.

Definition j_bytes (o : option bytes) : json := match o with Some b => JStr (base64 b) | None => JNull end.

Lemma says_bytes o : (forall b, o = Some b -> Forall (fun x => x < 256) b) -> says (json_bytes o) (j_bytes o).
Proof.
  destruct o as [b|]; intros H; [|apply says_null]. intros [|f] r L; [lia|]. cbn [json_bytes app value j_bytes].
  rewrite <- app_assoc. cbn [app]. rewrite string_plain by (apply base64_plain; auto). reflexivity.
Qed.

Lemma items_commas {A} (g : A -> bytes) (v : A -> json) l r : Forall (fun a => says (g a) (v a)) l -> l <> [] ->
  forall f, (S (length (commas (map g l))) < f)%nat -> items f (commas (map g l) ++ 93 :: r) = Some (map v l, r).
Proof.
  induction 1 as [|a l Ha Hl IH]; [congruence|]. intros _ f L. destruct f as [|f]; [lia|].
  destruct l as [|b l].
  - cbn [map commas] in *. cbn [items]. rewrite Ha by lia. reflexivity.
  - cbn [map] in *. change (commas (g a :: g b :: map g l)) with (g a ++ 44 :: commas (g b :: map g l)) in *.
    rewrite app_length in L. cbn [length] in L. rewrite <- app_assoc. cbn [app items]. rewrite Ha by lia.
    rewrite IH by (try discriminate; lia). reflexivity.
Qed.

Definition j_array {A} (v : A -> json) (o : option (list A)) : json := match o with Some l => JArr (map v l) | None => JNull end.

Lemma says_array {A} (g : A -> bytes) (v : A -> json) o :
  (forall a, exists c r, g a = c :: r /\ (c = 34 \/ c = 110 \/ c = 123)) ->
  (forall l, o = Some l -> Forall (fun a => says (g a) (v a)) l) -> says (json_array g o) (j_array v o).
Proof.
  intros HF H. destruct o as [l|]; [|apply says_null]. specialize (H l eq_refl). intros [|f] r L; [lia|].
  cbn [json_array j_array app] in *. rewrite <- app_assoc. cbn [app length] in *. rewrite app_length in L. cbn [length] in L.
  destruct l as [|a l]; [reflexivity|].
  pose proof (items_commas g v (a :: l) r H ltac:(discriminate) f ltac:(lia)) as X.
  destruct (HF a) as (c & q & E & HC).
  assert (exists q', commas (map g (a :: l)) ++ 93 :: r = c :: q') as [q' E'].
  { cbn [map]. rewrite E. destruct (map g l); cbn [commas app]; eauto. }
  rewrite E' in *. destruct HC as [->|[->| ->]]; cbn [value]; rewrite X; reflexivity.
Qed.

Lemma json_bytes_first o : exists c r, json_bytes o = c :: r /\ (c = 34 \/ c = 110 \/ c = 123).
Proof. destruct o; cbn [json_bytes]; eexists _, _; split; try reflexivity; auto. Qed.
Lemma json_key_first k : exists c r, json_key k = c :: r /\ (c = 34 \/ c = 110 \/ c = 123).
Proof. unfold json_key, t_time. cbn [app]. eexists _, _. split; try reflexivity; auto. Qed.

(** A field of an object. *)
Lemma fields_step f name s : Forall plain name ->
  fields (S f) (34 :: name ++ 34 :: 58 :: s) =
  match value f s with
  | Some (v, c :: r2) =>
      if c =? 125 then Some ([(name, v)], r2)
      else if c =? 44 then match fields f r2 with Some (l, y) => Some ((name, v) :: l, y) | None => None end
      else None
  | _ => None
  end.
Proof. intros H. cbn [fields after]. cbn [N.eqb Pos.eqb]. rewrite string_plain by auto. reflexivity. Qed.

Lemma value_number f n r : value (S f) (decimal n ++ 44 :: r) = Some (JNum n, 44 :: r).
Proof.
  pose proof (number_decimal n (44 :: r) ltac:(intros c E; injection E as <-; reflexivity)) as X.
  destruct (decimal_first n) as (c & q & E & D). rewrite E in *. cbn [app] in *.
  assert (C : In c [48; 49; 50; 51; 52; 53; 54; 55; 56; 57]).
  { unfold is_digit in D. cbn [In]. lia. }
  cbn [In] in C. repeat destruct C as [<-|C]; try contradiction; cbn [value]; cbn [is_digit N.leb N.compare Pos.compare Pos.compare_cont andb];
    rewrite X; reflexivity.
Qed.

Definition txt (s : string) : bytes := map N_of_ascii (list_ascii_of_string s).
Definition j_key (fp : bytes) (k : key) : json :=
  JObj [(txt "Timestamp", JNum (k_time k)); (txt "Subspace", j_bytes (k_sub k));
        (txt "Path", j_array j_bytes (k_path k)); (txt "Fingerprint", JStr fp)].

Definition key_wf (k : key) : Prop :=
  Forall (fun x => x < 256) (opt_bytes (k_sub k)) /\ Forall (fun c => Forall (fun x => x < 256) c) (opt_path (k_path k)).

Lemma says_key k fp : key_wf k -> (forall r, string_rest (string_body 0 0 (k_fp k) ++ 34 :: r) = Some (fp, r)) ->
  says (json_key k) (j_key fp k).
Proof.
  intros [W1 W2] HF. intros f r L.
  assert (S1 : says (json_bytes (k_sub k)) (j_bytes (k_sub k))).
  { apply says_bytes. intros b E. rewrite E in W1. exact W1. }
  assert (S2 : says (json_array json_bytes (k_path k)) (j_array j_bytes (k_path k))).
  { apply says_array; [apply json_bytes_first|]. intros l E. rewrite E in W2. cbn [opt_path] in W2.
    clear -W2. induction l as [|o l IH]; [constructor|]. cbn [map] in W2. inversion W2; subst. constructor; auto.
    apply says_bytes. intros b ->. auto. }
  unfold json_key in *. rewrite !app_length in L. unfold t_time, t_sub, t_path, t_fp, json_string in *. cbn [length] in L.
  do 6 (destruct f as [|f]; [lia|]).
  rewrite <- !app_assoc. cbn [app]. cbn [value].
  assert (N1 : forall f s, fields (S f) (34 :: 84 :: 105 :: 109 :: 101 :: 115 :: 116 :: 97 :: 109 :: 112 :: 34 :: 58 :: s) = _) by
    (intros f0 s; apply (fields_step f0 (txt "Timestamp") s); repeat constructor; discriminate).
  rewrite N1. clear N1. rewrite value_number.
  assert (N1 : forall f s, fields (S f) (34 :: 83 :: 117 :: 98 :: 115 :: 112 :: 97 :: 99 :: 101 :: 34 :: 58 :: s) = _) by
    (intros f0 s; apply (fields_step f0 (txt "Subspace") s); repeat constructor; discriminate).
  rewrite N1. clear N1. rewrite S1 by lia.
  assert (N1 : forall f s, fields (S f) (34 :: 80 :: 97 :: 116 :: 104 :: 34 :: 58 :: s) = _) by
    (intros f0 s; apply (fields_step f0 (txt "Path") s); repeat constructor; discriminate).
  rewrite N1. clear N1. rewrite S2 by lia.
  assert (N1 : forall f s, fields (S f) (34 :: 70 :: 105 :: 110 :: 103 :: 101 :: 114 :: 112 :: 114 :: 105 :: 110 :: 116 :: 34 :: 58 :: s) = _) by
    (intros f0 s; apply (fields_step f0 (txt "Fingerprint") s); repeat constructor; discriminate).
  rewrite N1. clear N1.
  assert (V : value (S f) (34 :: (string_body 0 0 (k_fp k) ++ [34]) ++ 125 :: r) = Some (JStr fp, 125 :: r)).
  { cbn [value]. rewrite <- app_assoc. cbn [app]. rewrite HF. reflexivity. }
  rewrite V. reflexivity.
Qed.

(** ** Rows *)
Definition opt_list {A} (o : option (list A)) : list A := match o with Some l => l | None => [] end.

Lemma as_bytes_ok o : Forall (fun x => x < 256) (opt_bytes o) -> as_bytes (j_bytes o) = Some (opt_bytes o).
Proof. destruct o as [b|]; intros H; [|reflexivity]. cbn [j_bytes as_bytes opt_bytes] in *. rewrite unbase64_spec by exact H. reflexivity. Qed.

Lemma as_path_ok o : Forall (fun c => Forall (fun x => x < 256) c) (opt_path o) -> as_list as_bytes (j_array j_bytes o) = Some (opt_path o).
Proof.
  destruct o as [l|]; intros H; [|reflexivity]. cbn [j_array as_list opt_path] in *.
  induction l as [|c l IH]; [reflexivity|]. cbn [map] in *. inversion H; subst. cbn [all]. rewrite as_bytes_ok, IH by auto. reflexivity.
Qed.

Lemma as_row_ok fp k : key_wf k -> as_row (j_key fp k) = Some (k_time k, opt_bytes (k_sub k), opt_path (k_path k), fp).
Proof.
  intros [W1 W2]. unfold as_row, j_key.
  change (named_field "Timestamp" _) with (Some (JNum (k_time k))). cbv beta iota.
  change (named_field "Subspace" _) with (Some (j_bytes (k_sub k))). cbv beta iota.
  change (named_field "Path" _) with (Some (j_array j_bytes (k_path k))). cbv beta iota.
  change (named_field "Fingerprint" _) with (Some (JStr fp)). cbv beta iota.
  rewrite as_bytes_ok, as_path_ok by auto. reflexivity.
Qed.

Lemma says_entries (o : option (list key)) (fp : key -> bytes) :
  Forall (fun k => key_wf k /\ forall r, string_rest (string_body 0 0 (k_fp k) ++ 34 :: r) = Some (fp k, r)) (opt_list o) ->
  says (entries_json o) (j_array (fun k => j_key (fp k) k) o).
Proof.
  intros H. apply says_array; [apply json_key_first|]. intros l ->. cbn [opt_list] in H. revert H. apply Forall_impl.
  intros k [W F]. apply says_key; auto.
Qed.

Lemma read_entries_ok (o : option (list key)) (fp : key -> bytes) :
  Forall (fun k => key_wf k /\ forall r, string_rest (string_body 0 0 (k_fp k) ++ 34 :: r) = Some (fp k, r)) (opt_list o) ->
  read_entries (entries_json o) = Some (map (fun k => (k_time k, opt_bytes (k_sub k), opt_path (k_path k), fp k)) (opt_list o)).
Proof.
  intros H. pose proof (says_entries o fp H) as X.
  unfold read_entries, read_json. rewrite <- (app_nil_r (entries_json o)) at 2. rewrite X by lia.
  destruct o as [l|]; [|reflexivity]. cbn [j_array as_list opt_list] in *.
  clear X. induction H as [|k l [W _] _ IH]; [reflexivity|]. cbn [map all]. rewrite as_row_ok, IH by auto. reflexivity.
Qed.

(** ** Texts cut short: what is read does not depend on what follows *)
Lemma string_rest_more s : forall x y t, string_rest s = Some (x, y) -> string_rest (s ++ t) = Some (x, y ++ t).
Proof.
  remember (length s) as n eqn:E. assert (L : (length s <= n)%nat) by lia. clear E.
  revert s L. induction n as [|n IH]; intros [|c s] L x y t; try discriminate; cbn [length] in L; [lia|].
  cbn [app string_rest]. destruct (c =? 34); [intros E; injection E as <- <-; reflexivity|].
  assert (STEP : forall s', (length s' <= n)%nat -> forall g : bytes -> bytes,
    match string_rest s' with Some (x, y) => Some (g x, y) | None => None end = Some (x, y) ->
    match string_rest (s' ++ t) with Some (x, y) => Some (g x, y) | None => None end = Some (x, y ++ t)).
  { intros s' L' g. destruct (string_rest s') as [[x' y']|] eqn:E'; [|discriminate]. intros E; injection E as <- <-.
    rewrite (IH s' L' x' y' t E'). reflexivity. }
  destruct (c =? 92); [|apply (STEP s ltac:(lia) (cons c))].
  destruct s as [|e s]; [discriminate|]. cbn [length app] in *.
  destruct (e =? 117); [|apply (STEP s ltac:(lia) (cons (unescape e)))].
  destruct s as [|h3 [|h2 [|h1 [|h0 s]]]]; try discriminate. cbn [length app] in *.
  apply (STEP s ltac:(lia) (app _)).
Qed.

Lemma after_more p s y t : after p s = Some y -> after p (s ++ t) = Some (y ++ t).
Proof.
  revert s. induction p as [|a p IH]; intros s; cbn [after]; [intros E; injection E as <-; reflexivity|].
  destruct s as [|b s]; [discriminate|]. cbn [app]. destruct (a =? b); [apply IH|discriminate].
Qed.

Lemma number_more s : forall acc n r t, number acc s = (n, r) -> r <> [] -> number acc (s ++ t) = (n, r ++ t).
Proof.
  induction s as [|c s IH]; intros acc n r t; cbn [number app]; [intros E; injection E as <- <-; congruence|].
  destruct (is_digit c); [apply IH|intros E _; injection E as <- <-; reflexivity].
Qed.

Lemma more f :
  (forall s v r, value f s = Some (v, r) -> (r <> [] \/ forall n, v <> JNum n) -> forall t g, (f <= g)%nat -> value g (s ++ t) = Some (v, r ++ t))
  /\ (forall s l r, items f s = Some (l, r) -> forall t g, (f <= g)%nat -> items g (s ++ t) = Some (l, r ++ t))
  /\ (forall s l r, fields f s = Some (l, r) -> forall t g, (f <= g)%nat -> fields g (s ++ t) = Some (l, r ++ t)).
Proof.
  induction f as [|f (IV & II & IF)]; [repeat split; discriminate|]. split; [|split].
  - intros [|c s] v r; [discriminate|]. cbn [value]. intros E HR t [|g] LG; [lia|]. cbn [app value].
    destruct (c =? 110).
    { destruct (after _ s) as [y|] eqn:EA; [|discriminate]. rewrite (after_more _ _ _ t EA). injection E as <- <-. reflexivity. }
    destruct (c =? 34).
    { destruct (string_rest s) as [[x y]|] eqn:EA; [|discriminate]. rewrite (string_rest_more _ _ _ t EA). injection E as <- <-. reflexivity. }
    destruct (c =? 91).
    { destruct (after [93] s) as [y|] eqn:EA.
      - rewrite (after_more _ _ _ t EA). injection E as <- <-. reflexivity.
      - destruct (items f s) as [[l y]|] eqn:EI; [|discriminate]. injection E as <- <-.
        destruct s as [|b s]; [destruct f as [|[|f]]; discriminate EI|].
        assert (EA' : after [93] ((b :: s) ++ t) = None).
        { cbn [app after] in *. destruct (93 =? b); [discriminate|reflexivity]. }
        rewrite EA', (II _ _ _ EI t g) by lia. reflexivity. }
    destruct (c =? 123).
    { destruct (fields f s) as [[l y]|] eqn:EI; [|discriminate]. injection E as <- <-. rewrite (IF _ _ _ EI t g) by lia. reflexivity. }
    destruct (is_digit c); [|discriminate]. destruct (number 0 (c :: s)) as [n y] eqn:EN. injection E as <- <-.
    destruct HR as [HR|HR]; [|destruct (HR n eq_refl)]. change (c :: s ++ t) with ((c :: s) ++ t).
    rewrite (number_more _ _ _ _ t EN HR). reflexivity.
  - intros s l r. cbn [items]. intros E t [|g] LG; [lia|]. cbn [items].
    destruct (value f s) as [[v [|c y]]|] eqn:EV; try discriminate.
    assert (NC : c :: y <> []) by discriminate. rewrite (IV _ _ _ EV (or_introl NC) t g ltac:(lia)). cbn [app].
    destruct (c =? 93); [injection E as <- <-; reflexivity|]. destruct (c =? 44); [|discriminate].
    destruct (items f y) as [[l' y']|] eqn:EI; [|discriminate]. injection E as <- <-. rewrite (II _ _ _ EI t g) by lia. reflexivity.
  - intros s l r. cbn [fields]. intros E t [|g] LG; [lia|]. cbn [fields].
    destruct (after [34] s) as [s1|] eqn:E1; [|discriminate]. rewrite (after_more _ _ _ t E1).
    destruct (string_rest s1) as [[name s2]|] eqn:E2; [|discriminate]. rewrite (string_rest_more _ _ _ t E2).
    destruct (after [58] s2) as [s3|] eqn:E3; [|discriminate]. rewrite (after_more _ _ _ t E3).
    destruct (value f s3) as [[v [|c y]]|] eqn:EV; try discriminate.
    assert (NC : c :: y <> []) by discriminate. rewrite (IV _ _ _ EV (or_introl NC) t g ltac:(lia)). cbn [app].
    destruct (c =? 125); [injection E as <- <-; reflexivity|]. destruct (c =? 44); [|discriminate].
    destruct (fields f y) as [[l' y']|] eqn:EI; [|discriminate]. injection E as <- <-. rewrite (IF _ _ _ EI t g) by lia. reflexivity.
Qed.

Lemma read_cut enc j n : says enc j -> (forall c r, enc = c :: r -> is_digit c = false) -> (n < length enc)%nat -> read_json (firstn n enc) = None.
Proof.
  intros HS HD L. unfold read_json. set (p := firstn n enc).
  destruct (value (S (length p)) p) as [[v [|c r]]|] eqn:EV; auto. exfalso.
  assert (E : enc = p ++ skipn n enc) by (symmetry; apply firstn_skipn).
  assert (NN : forall m, v <> JNum m).
  { intros m ->. destruct p as [|c q] eqn:EP; [discriminate|]. specialize (HD c _ E). cbn [value] in EV. rewrite HD in EV.
    destruct (c =? 110); [destruct (after _ q); discriminate|].
    destruct (c =? 34); [destruct (string_rest q) as [[? ?]|]; discriminate|].
    destruct (c =? 91); [destruct (after _ q); [discriminate|]; destruct (items _ q) as [[? ?]|]; discriminate|].
    destruct (c =? 123); [destruct (fields _ q) as [[? ?]|]; discriminate|]. discriminate. }
  pose proof (proj1 (more (S (length p))) p v [] EV (or_intror NN) (skipn n enc) (S (length enc))) as X.
  rewrite <- E in X. specialize (X ltac:(unfold p; rewrite firstn_length; lia)).
  pose proof (HS (S (length enc)) [] ltac:(lia)) as Y. rewrite app_nil_r in Y. rewrite X in Y. injection Y as _ Y.
  cbn [app] in Y. apply (f_equal (@length N)) in Y. rewrite skipn_length in Y. cbn [length] in Y. lia.
Qed.
