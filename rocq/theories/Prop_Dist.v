(** * C77: distances between the keys of the index *)
From Verif Require Import Base S_Order M_Order M_Store M_Book M_Data M_Dist P_Order.
Local Open Scope Z_scope.

(** The time between two keys, and how many of subspace and path differ. *)
Definition apart (a b : node) : Z := Z.abs (Z.of_N (n_time a) - Z.of_N (n_time b)).
Inductive differ {A} (x y : A) : Z -> Prop :=
| Same : x = y -> differ x y 0
| Other : x <> y -> differ x y 1.
(** What a 64-bit signed integer keeps of a number. *)
Definition stands_for (i z : Z) : Prop := - 2 ^ 63 <= i < 2 ^ 63 /\ exists k, i = z + k * 2 ^ 64.

Lemma to_int_stands n z : (exists k, Z.of_N n = z + k * 2 ^ 64) -> stands_for (to_int n) z.
Proof.
  intros [k E]. unfold to_int, int64, stands_for.
  pose proof (Z.mod_pos_bound (Z.of_N n + 2 ^ 63) (2 ^ 64) ltac:(lia)) as B.
  pose proof (Z.div_mod (Z.of_N n + 2 ^ 63) (2 ^ 64) ltac:(lia)) as D. split; [lia|].
  exists (k - (Z.of_N n + 2 ^ 63) / 2 ^ 64). lia.
Qed.
Lemma stands_unique i j z : stands_for i z -> stands_for j z -> i = j.
Proof. intros [A [k E]] [B [l F]]. lia. Qed.
Lemma stands_small z : - 2 ^ 63 <= z < 2 ^ 63 -> stands_for z z.
Proof. split; [auto|exists 0; lia]. Qed.

Lemma squared_stands a b : exists k, Z.of_N (squared a b) = Z.abs (Z.of_N a - Z.of_N b) * Z.abs (Z.of_N a - Z.of_N b) + k * 2 ^ 64.
Proof.
  assert (S : exists k, Z.of_N (sub64 a b) = Z.of_N a - Z.of_N b + k * 2 ^ 64).
  { unfold sub64. pose proof (N.mod_lt b two64 ltac:(discriminate)) as L.
    pose proof (N.div_mod b two64 ltac:(discriminate)) as D1.
    pose proof (N.div_mod (a + two64 - b mod two64) two64 ltac:(discriminate)) as D2.
    exists (1 + Z.of_N (b / two64) - Z.of_N ((a + two64 - b mod two64) / two64)).
    set (q := (b / two64)%N) in *. set (r := (b mod two64)%N) in *.
    set (q2 := ((a + two64 - r) / two64)%N) in *. set (r2 := ((a + two64 - r) mod two64)%N) in *.
    change two64 with (2 ^ 64)%N in *. lia. }
  destruct S as [k E]. unfold squared, u64. set (s := sub64 a b) in *.
  pose proof (N.div_mod (s * s) two64 ltac:(discriminate)) as D.
  set (q := ((s * s) / two64)%N) in *. set (r := ((s * s) mod two64)%N) in *.
  assert (D' : Z.of_N s * Z.of_N s = 2 ^ 64 * Z.of_N q + Z.of_N r) by (change two64 with (2 ^ 64)%N in D; nia).
  set (d := Z.of_N a - Z.of_N b) in *.
  exists (2 * d * k + k * k * 2 ^ 64 - Z.of_N q).
  rewrite <- Z.abs_mul, (Z.abs_eq (d * d)) by nia. rewrite E in D'. nia.
Qed.

(** The distance in time is the square of the time between the keys, the distance
    of two keys that square and one for each of subspace and path in which they
    differ, both as far as 64-bit integers hold them. *)
Theorem C77_exact a b s p :
  differ (n_sub a) (n_sub b) s -> differ (n_path a) (n_path b) p ->
  stands_for (DistDim a b 0) (apart a b * apart a b)
  /\ stands_for (Dist a b) (apart a b * apart a b + s + p).
Proof.
  intros HS HP. unfold DistDim, Dist, apart. destruct (squared_stands (n_time a) (n_time b)) as [k E].
  split; [apply to_int_stands; eauto|]. apply to_int_stands.
  assert (FS : Z.of_N (if OrderBytes (n_sub a) (n_sub b) =? 0 then 0%N else 1%N) = s).
  { destruct (Z.eqb_spec (OrderBytes (n_sub a) (n_sub b)) 0) as [X|X]; destruct HS as [Y|Y]; auto; exfalso.
    - apply Y. apply (order_eqb0 _ _ OrderBytes_total). apply Z.eqb_eq. auto.
    - apply X. rewrite Y. apply (order_refl _ _ OrderBytes_total). }
  assert (FP : Z.of_N (if OrderPath (n_path a) (n_path b) =? 0 then 0%N else 1%N) = p).
  { destruct (Z.eqb_spec (OrderPath (n_path a) (n_path b)) 0) as [X|X]; destruct HP as [Y|Y]; auto; exfalso.
    - apply Y. apply (order_eqb0 _ _ OrderPath_total). apply Z.eqb_eq. auto.
    - apply X. rewrite Y. apply (order_refl _ _ OrderPath_total). }
  cbv zeta. unfold add64. set (i := if _ =? 0 then 0%N else 1%N) in *. set (j := if OrderPath _ _ =? 0 then 0%N else 1%N) in *.
  pose proof (N.div_mod (squared (n_time a) (n_time b) + (i + j)) two64 ltac:(discriminate)) as D.
  set (q := (_ / two64)%N) in *. set (r := (_ mod two64)%N) in *. change two64 with (2 ^ 64)%N in D.
  exists (k - Z.of_N q). lia.
Qed.
Print Assumptions C77_exact.

Lemma differ_dec (x y : bytes) : exists s, differ x y s.
Proof. destruct (list_eq_dec N.eq_dec x y); [exists 0|exists 1]; constructor; auto. Qed.
Lemma differ_dec_path (x y : path) : exists s, differ x y s.
Proof. destruct (list_eq_dec (list_eq_dec N.eq_dec) x y); [exists 0|exists 1]; constructor; auto. Qed.
Lemma differ_sym {A} (x y : A) s : differ x y s -> differ y x s.
Proof. intros [E|E]; constructor; congruence. Qed.

Theorem C77_symmetric a b dim : Dist a b = Dist b a /\ DistDim a b dim = DistDim b a dim.
Proof.
  destruct (differ_dec (n_sub a) (n_sub b)) as [s HS], (differ_dec_path (n_path a) (n_path b)) as [p HP].
  destruct (C77_exact a b s p HS HP) as [A B].
  destruct (C77_exact b a s p (differ_sym _ _ _ HS) (differ_sym _ _ _ HP)) as [A' B'].
  assert (E : apart b a = apart a b) by (unfold apart; lia). rewrite E in *.
  split; [eapply stands_unique; eauto|]. destruct dim; [eapply stands_unique; eauto|reflexivity].
Qed.
Print Assumptions C77_symmetric.

(** Full statement: the distance is zero exactly for keys of the same position, is
    never negative, and the distance in one dimension never exceeds it. Proved for
    keys less than 2^31.5 microseconds (about 50 minutes) apart and the dimension
    of time; refuted below for all else. *)
Theorem C77_distance_partial a b :
  apart a b * apart a b + 2 < 2 ^ 63 ->
  0 <= DistDim a b 0 <= Dist a b /\ DistDim a b 0 = apart a b * apart a b
  /\ (Dist a b = 0 <-> node_pos a = node_pos b)
  /\ (forall c, apart c b * apart c b + 2 < 2 ^ 63 -> apart a b < apart c b ->
        n_sub c <> n_sub b -> n_path c <> n_path b -> Dist a b < Dist c b).
Proof.
  intros H. destruct (differ_dec (n_sub a) (n_sub b)) as [s HS], (differ_dec_path (n_path a) (n_path b)) as [p HP].
  destruct (C77_exact a b s p HS HP) as [A B].
  assert (R : 0 <= s <= 1 /\ 0 <= p <= 1) by (destruct HS, HP; lia). assert (0 <= apart a b) by (unfold apart; lia).
  assert (EA : DistDim a b 0 = apart a b * apart a b) by (eapply stands_unique; [apply A|apply stands_small; nia]).
  assert (EB : Dist a b = apart a b * apart a b + s + p) by (eapply stands_unique; [apply B|apply stands_small; nia]).
  split; [nia|]. split; [auto|]. split.
  - rewrite EB. unfold node_pos. split.
    + intros Z. assert (s = 0 /\ p = 0 /\ apart a b = 0) as (-> & -> & ZZ) by nia.
      inversion HS; inversion HP. unfold apart in ZZ. f_equal; auto. lia.
    + intros E. injection E as E1 E2 E3. destruct HS as [_|X]; [|contradiction]. destruct HP as [_|X]; [|contradiction].
      unfold apart. rewrite E3, Z.sub_diag. reflexivity.
  - intros c Hc L NS NP. destruct (C77_exact c b 1 1 ltac:(constructor; auto) ltac:(constructor; auto)) as [_ BC].
    assert (EC : Dist c b = apart c b * apart c b + 1 + 1) by (eapply stands_unique; [apply BC|apply stands_small; nia]).
    rewrite EB, EC. nia.
Qed.
Print Assumptions C77_distance_partial.

(** Two keys 2^32 microseconds apart (71 minutes) are at distance 0. *)
Theorem C77_zero_refuted s p fp : exists a b,
  n_sub a = s /\ n_path a = p /\ n_sub b = s /\ n_path b = p /\ n_fp a = fp
  /\ node_pos a <> node_pos b /\ Dist a b = 0 /\ DistDim a b 0 = 0.
Proof.
  exists (Node s p 0 fp true), (Node s p (2 ^ 32) fp true). repeat (split; [reflexivity|]).
  split; [intros E; apply (f_equal pos_time) in E; discriminate E|]. unfold Dist. cbn [n_sub n_path n_time].
  rewrite (order_refl _ _ OrderBytes_total), (order_refl _ _ OrderPath_total). split; vm_compute; reflexivity.
Qed.
Print Assumptions C77_zero_refuted.

(** Two keys one hour apart are at a negative distance. *)
Theorem C77_negative_refuted : exists a b,
  apart a b = 60 * 60 * 10 ^ 6 /\ Dist a b < 0 /\ DistDim a b 0 < 0.
Proof. exists (Node [] [] 0 [] true), (Node [] [] 3600000000 [] true). vm_compute. auto. Qed.
Print Assumptions C77_negative_refuted.

(** In the dimensions of subspace and path the distance is 1 even for equal keys:
    no lower bound of the distance between them. *)
Theorem C77_bound_refuted a b dim : (dim <> 0)%nat -> DistDim a b dim = 1 /\ DistDim a a dim > Dist a a.
Proof.
  intros H. split; [destruct dim; [congruence|reflexivity]|]. destruct (C77_exact a a 0 0 ltac:(constructor; auto) ltac:(constructor; auto)) as [_ B].
  assert (E : apart a a = 0) by (unfold apart; lia). rewrite E in B.
  rewrite (stands_unique _ _ _ B (stands_small 0 ltac:(lia))). destruct dim; [congruence|]. cbn. lia.
Qed.
Print Assumptions C77_bound_refuted.

Example C77_instance :
  let a := (Node [1] [[2]] 1000 [] true)%N in let b := (Node [1] [[2]; [3]] 1003 [] true)%N in
  let c := (Node [7] [[8]] 2000 [] true)%N in
  apart a b * apart a b + 2 < 2 ^ 63 /\ DistDim a b 0 = 9 /\ Dist a b = 10 /\ Dist b a = 10
  /\ apart a b < apart c b /\ Dist c b = 994011.
Proof. vm_compute. auto 10. Qed.
Example C77_instance_differ : differ [1%N] [1%N] 0 /\ differ [[2%N]] [[2%N]; [3%N]] 1.
Proof. split; constructor; [reflexivity|discriminate]. Qed.
