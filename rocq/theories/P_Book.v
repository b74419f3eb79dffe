(** Proofs about the bookkeeping of the sync protocol. *)
From Verif Require Import Base M_Order M_Paths M_Ranges M_Areas M_Entry M_Book S_Order S_Book P_Order P_Areas.
From Coq Require Import Permutation.
Local Open Scope N_scope.

(** ** Maps *)
Section Maps.
Context {K V : Type} (eqb : K -> K -> bool).
Hypothesis eqb_eq : forall a b, eqb a b = true <-> a = b.
Lemma eqb_rfl a : eqb a a = true. Proof. apply eqb_eq. auto. Qed.
Lemma eqb_neq a b : a <> b -> eqb a b = false.
Proof. intros H. destruct (eqb a b) eqn:E; auto. apply eqb_eq in E. congruence. Qed.
Lemma mget_del (m : list (K * V)) k : mget eqb (mdel eqb m k) k = None.
Proof.
  unfold mdel. induction m as [|[k' v] m IH]; cbn [filter fst]; auto. destruct (eqb k k') eqn:E; cbn [negb mget]; auto. rewrite E. auto.
Qed.
Lemma mget_del_other (m : list (K * V)) k k' : k' <> k -> mget eqb (mdel eqb m k) k' = mget eqb m k'.
Proof.
  intros H. unfold mdel. induction m as [|[k2 v] m IH]; cbn [filter mget fst]; auto. destruct (eqb k k2) eqn:E; cbn [negb mget].
  - apply eqb_eq in E. subst k2. rewrite IH. rewrite (eqb_neq k' k); auto.
  - rewrite IH. auto.
Qed.
Lemma mget_put (m : list (K * V)) k v : mget eqb (mput eqb m k v) k = Some v.
Proof. cbn. rewrite eqb_rfl. auto. Qed.
Lemma mget_put_other (m : list (K * V)) k k' v : k' <> k -> mget eqb (mput eqb m k v) k' = mget eqb m k'.
Proof. intros H. cbn. rewrite (eqb_neq k' k) by auto. apply mget_del_other. auto. Qed.
End Maps.

(** ** Handles *)
Section Handles.
Context {V : Type}.
Implicit Types (s : hstore V) (ops : list (hs_op V)).

Definition target s (o : hs_op V) : N :=
  match o with HBind _ => h_least s | HUpdate h _ | HFree h | HInc h | HDec h => h end.

Lemma hs_step_other s o h : h <> target s o -> mget N.eqb (h_map (hs_step s o)) h = mget N.eqb (h_map s) h.
Proof.
  assert (NE : forall a b, N.eqb a b = true <-> a = b) by apply N.eqb_eq.
  intros H. destruct o; cbn [target] in H; cbn [hs_step].
  - cbn [hs_Bind snd h_map]. apply mget_put_other; auto.
  - unfold hs_Update. destruct (mget N.eqb (h_map s) h0); cbn [h_map]; auto. apply mget_put_other; auto.
  - unfold hs_Free. destruct (mget N.eqb (h_map s) h0); cbn [h_map]; auto.
    destruct (_ =? _)%Z; [apply mget_del_other|apply mget_put_other]; auto.
  - unfold hs_Increment. destruct (mget N.eqb (h_map s) h0); cbn [h_map]; auto. apply mget_put_other; auto.
  - unfold hs_Decrement. destruct (mget N.eqb (h_map s) h0); cbn [h_map]; auto.
    destruct (_ && _); [apply mget_del_other|apply mget_put_other]; auto.
Qed.

Lemma hs_step_least s o : h_least (hs_step s o) = match o with HBind _ => (h_least s + 1) mod 2 ^ 64 | _ => h_least s end.
Proof.
  destruct o; cbn [hs_step]; auto.
  - unfold hs_Update. destruct (mget _ _ _); auto.
  - unfold hs_Free. destruct (mget _ _ _); auto.
  - unfold hs_Increment. destruct (mget _ _ _); auto.
  - unfold hs_Decrement. destruct (mget _ _ _); auto.
Qed.

Lemma hs_handles_spec s ops k : h_least s = k mod 2 ^ 64 ->
  hs_handles s ops = map (fun i => (k + N.of_nat i) mod 2 ^ 64) (seq 0 (binds ops)).
Proof.
  revert s k. induction ops as [|o ops IH]; intros s k H; auto.
  cbn [hs_handles]. pose proof (hs_step_least s o) as L.
  destruct o; try (rewrite (IH _ k); [reflexivity|congruence]).
  rewrite (IH _ (k + 1)).
  - cbn [fst hs_Bind app]. unfold binds. cbn [filter length seq map]. rewrite H, N.add_0_r. f_equal.
    rewrite <- (seq_shift _ 0), map_map. apply map_ext. intros i. f_equal. lia.
  - rewrite L, H. rewrite N.add_mod_idemp_l; auto. apply N.pow_nonzero. lia.
Qed.

Lemma hs_run_snoc s ops o : hs_run s (ops ++ [o]) = hs_step (hs_run s ops) o.
Proof. unfold hs_run. rewrite fold_left_app. reflexivity. Qed.

Lemma hs_run_least s ops k : h_least s = k mod 2 ^ 64 -> h_least (hs_run s ops) = (k + N.of_nat (binds ops)) mod 2 ^ 64.
Proof.
  revert s k. induction ops as [|o ops IH]; intros s k H; cbn [hs_run fold_left].
  - unfold binds. cbn. rewrite N.add_0_r. auto.
  - pose proof (hs_step_least s o) as L. unfold hs_run in IH.
    destruct o; try (rewrite (IH _ k); [reflexivity|congruence]).
    rewrite (IH _ (k + 1)).
    + unfold binds. cbn [filter length]. f_equal. lia.
    + rewrite L, H. rewrite N.add_mod_idemp_l; auto. apply N.pow_nonzero. lia.
Qed.

(** Counting over a history extended at its end. *)
Lemma filter_snoc {A} (f : A -> bool) l x : length (filter f (l ++ [x])) = (length (filter f l) + if f x then 1 else 0)%nat.
Proof. rewrite filter_app, app_length. cbn. destruct (f x); auto. Qed.

Lemma last_value_snoc h v ops o :
  last_value h v (ops ++ [o]) = match o with HUpdate h' v' => if h =? h' then v' else last_value h v ops | _ => last_value h v ops end.
Proof.
  revert v. induction ops as [|o' ops IH]; intros v; cbn [app last_value].
  - destruct o; auto.
  - destruct o'; apply IH.
Qed.

Lemma released_snoc h ops o : released h (ops ++ [o]) <->
  released h ops \/ (In (HFree h) (ops ++ [o]) /\ begun h (ops ++ [o]) = processed h (ops ++ [o])).
Proof.
  split.
  - intros (p & q & E & H1 & H2). destruct q as [|x q _] using rev_ind.
    + right. rewrite app_nil_r in E. rewrite E. auto.
    + rewrite app_assoc in E. apply app_inj_tail in E. destruct E as [E _]. left. exists p, q. auto.
  - intros [(p & q & E & H1 & H2)|[H1 H2]].
    + exists p, (q ++ [o]). rewrite E, app_assoc. auto.
    + exists (ops ++ [o]), []. rewrite app_nil_r. auto.
Qed.

Lemma int64_small z : (- 2 ^ 63 <= z < 2 ^ 63)%Z -> int64 z = z.
Proof. intros H. unfold int64. rewrite Z.mod_small; lia. Qed.

(** What the store holds at a handle, any time after its Bind. *)
Definition freed (h : N) ops : bool := existsb (fun o => match o with HFree h' => h =? h' | _ => false end) ops.
Lemma freed_In h ops : freed h ops = true <-> In (HFree h) ops.
Proof.
  unfold freed. rewrite existsb_exists. split.
  - intros (o & H1 & H2). destruct o; try discriminate. apply N.eqb_eq in H2. subst. auto.
  - intros H. exists (HFree h). split; auto. apply N.eqb_refl.
Qed.

Lemma count_le {A} (f : A -> bool) l : (length (filter f l) <= length l)%nat.
Proof. induction l; cbn; auto. destruct (f a); cbn; lia. Qed.

Lemma hs_life s h v after :
  h = h_least s -> N.of_nat (S (binds after)) <= 2 ^ 64 -> h < 2 ^ 64 ->
  balanced h after -> (Z.of_nat (length after) < 2 ^ 63)%Z ->
  let s' := hs_run (snd (hs_Bind s v)) after in
  (released h after -> mget N.eqb (h_map s') h = None)
  /\ (~ released h after -> mget N.eqb (h_map s') h =
        Some (Triple (last_value h v after) (freed h after) (Z.of_nat (begun h after) - Z.of_nat (processed h after))%Z)).
Proof.
  assert (NE : forall a b, N.eqb a b = true <-> a = b) by apply N.eqb_eq.
  intros Hh. induction after as [|o ops IH] using rev_ind; intros HB HL HBal HLen; cbv zeta.
  - cbn [hs_run fold_left hs_Bind snd h_map]. rewrite <- Hh. split.
    + intros (p & q & E & H1 & _). destruct p; [destruct H1|discriminate].
    + intros _. rewrite mget_put by auto. reflexivity.
  - rewrite hs_run_snoc. unfold binds in HB. rewrite filter_snoc in HB. fold (binds ops) in HB.
    rewrite app_length in HLen. cbn [length] in HLen.
    destruct IH as [IH1 IH2]; try lia.
    { intros p q E. apply (HBal p (q ++ [o])). rewrite E, app_assoc. auto. }
    set (s1 := hs_run (snd (hs_Bind s v)) ops) in *. rewrite released_snoc, last_value_snoc.
    pose proof (HBal (ops ++ [o]) [] ltac:(rewrite app_nil_r; auto)) as B1.
    pose proof (HBal ops [o] eq_refl) as B0.
    assert (L1 : h_least s1 = (h + 1 + N.of_nat (binds ops)) mod 2 ^ 64).
    { unfold s1. apply hs_run_least. cbn [hs_Bind snd h_least]. rewrite Hh. reflexivity. }
    assert (FS : freed h (ops ++ [o]) = freed h ops || freed h [o]) by (unfold freed; apply existsb_app).
    pose proof (count_le (fun o => match o with HInc h' => h =? h' | _ => false end) ops) as C1. fold (begun h ops) in C1.
    pose proof (count_le (fun o => match o with HDec h' => h =? h' | _ => false end) ops) as C2. fold (processed h ops) in C2.
    destruct (N.eq_dec h (target s1 o)) as [Ht|Ht].
    + (* the call concerns this handle *)
      destruct o as [v'|h' v'|h'|h'|h']; cbn [target] in Ht.
      * exfalso. rewrite L1 in Ht.
        assert (X : (h + 1 + N.of_nat (binds ops)) mod 2 ^ 64 = h).
        { auto. }
        destruct (N.lt_ge_cases (h + 1 + N.of_nat (binds ops)) (2 ^ 64)).
        -- rewrite N.mod_small in X; lia.
        -- replace (h + 1 + N.of_nat (binds ops)) with ((h + 1 + N.of_nat (binds ops) - 2 ^ 64) + 1 * 2 ^ 64) in X by lia.
           rewrite N.mod_add in X by (apply N.pow_nonzero; lia). rewrite N.mod_small in X by lia. lia.
      * subst h'. rewrite N.eqb_refl. cbn [hs_step]. unfold hs_Update, begun, processed, freed in *. rewrite !filter_snoc in *.
        rewrite existsb_app in FS. rewrite !existsb_app. cbn [existsb]. rewrite !orb_false_r. cbn match in *.
        split.
        -- intros [R|[R1 R2]].
           ++ rewrite IH1 by auto. apply IH1. auto.
           ++ assert (R : released h ops). { exists ops, []. rewrite app_nil_r. split; auto. split.
                - apply in_app_iff in R1. destruct R1 as [R1|[R1|[]]]; [auto|discriminate].
                - unfold begun, processed. lia. }
              rewrite IH1 by auto. apply IH1; auto.
        -- intros NR. rewrite IH2 by tauto. cbn [h_map t_asked t_refs]. rewrite mget_put by auto. do 2 f_equal. lia.
      * subst h'. cbn [hs_step]. unfold hs_Free.
        assert (BE : begun h (ops ++ [HFree h]) = begun h ops) by (unfold begun; rewrite filter_snoc; lia).
        assert (PE : processed h (ops ++ [HFree h]) = processed h ops) by (unfold processed; rewrite filter_snoc; lia).
        rewrite BE, PE in *. rewrite FS. cbn [freed existsb]. rewrite N.eqb_refl. cbn [orb]. rewrite orb_true_r.
        split.
        -- intros [R|[R1 R2]].
           ++ rewrite IH1 by auto. apply IH1. auto.
           ++ destruct (mget N.eqb (h_map s1) h) as [t|] eqn:E; [|exact E].
              assert (NR : ~ released h ops) by (intros R; apply IH1 in R; discriminate).
              specialize (IH2 NR). injection IH2 as ->. cbn [t_refs]. rewrite R2, Z.sub_diag, Z.eqb_refl. cbn [h_map].
              apply mget_del.
        -- intros NR. assert (NR1 : ~ released h ops) by tauto. rewrite (IH2 NR1). cbn [t_refs t_value h_map].
           assert (NE2 : begun h ops <> processed h ops).
           { intros E. apply NR. right. split; auto. apply in_app_iff. right. left. auto. }
           rewrite (proj2 (Z.eqb_neq _ 0)) by lia. rewrite mget_put by auto. reflexivity.
      * subst h'. cbn [hs_step]. unfold hs_Increment.
        assert (BE : begun h (ops ++ [HInc h]) = S (begun h ops)) by (unfold begun; rewrite filter_snoc, N.eqb_refl; lia).
        assert (PE : processed h (ops ++ [HInc h]) = processed h ops) by (unfold processed; rewrite filter_snoc; lia).
        rewrite BE, PE in *. rewrite FS. cbn [freed existsb orb]. rewrite orb_false_r.
        split.
        -- intros [R|[R1 R2]]; [|lia]. rewrite IH1 by auto. apply IH1. auto.
        -- intros NR. assert (NR1 : ~ released h ops) by tauto. rewrite (IH2 NR1). cbn [t_refs t_value t_asked h_map].
           rewrite mget_put by auto. do 2 f_equal. rewrite int64_small; lia.
      * subst h'. cbn [hs_step]. unfold hs_Decrement.
        assert (BE : begun h (ops ++ [HDec h]) = begun h ops) by (unfold begun; rewrite filter_snoc; lia).
        assert (PE : processed h (ops ++ [HDec h]) = S (processed h ops)) by (unfold processed; rewrite filter_snoc, N.eqb_refl; lia).
        rewrite BE, PE in *. rewrite FS. cbn [freed existsb orb]. rewrite orb_false_r.
        assert (FI : In (HFree h) (ops ++ [HDec h]) <-> freed h ops = true).
        { rewrite freed_In, in_app_iff. split; auto. intros [H|[H|[]]]; [auto|discriminate]. }
        split.
        -- intros [R|[R1 R2]].
           ++ rewrite IH1 by auto. apply IH1. auto.
           ++ apply FI in R1. destruct (mget N.eqb (h_map s1) h) as [t|] eqn:E; [|exact E].
              assert (NR : ~ released h ops) by (intros R; apply IH1 in R; discriminate).
              specialize (IH2 NR). injection IH2 as ->. cbn [t_refs t_asked]. rewrite R1.
              rewrite int64_small by lia. rewrite (proj2 (Z.eqb_eq _ 0)) by lia. cbn [andb h_map]. apply mget_del.
        -- intros NR. assert (NR1 : ~ released h ops) by tauto. rewrite (IH2 NR1). cbn [t_refs t_value t_asked h_map].
           rewrite int64_small by lia.
           assert (X : freed h ops && (Z.of_nat (begun h ops) - Z.of_nat (processed h ops) - 1 =? 0)%Z = false).
           { destruct (freed h ops) eqn:F; auto. cbn [andb]. apply Z.eqb_neq. intros X. apply NR. right. split; [apply FI; auto|lia]. }
           rewrite X. rewrite mget_put by auto. do 2 f_equal. lia.
    + (* it concerns another *)
      rewrite hs_step_other by auto.
      assert (BE : begun h (ops ++ [o]) = begun h ops).
      { unfold begun. rewrite filter_snoc. destruct o; try lia. cbn [target] in Ht. rewrite (proj2 (N.eqb_neq h _)) by auto. lia. }
      assert (PE : processed h (ops ++ [o]) = processed h ops).
      { unfold processed. rewrite filter_snoc. destruct o; try lia. cbn [target] in Ht. rewrite (proj2 (N.eqb_neq h _)) by auto. lia. }
      assert (FE : freed h (ops ++ [o]) = freed h ops).
      { rewrite FS. unfold freed. cbn [existsb]. rewrite orb_false_r. destruct o; rewrite ?orb_false_r; auto.
        cbn [target] in Ht. rewrite (proj2 (N.eqb_neq h _)) by auto. apply orb_false_r. }
      rewrite BE, PE, FE. split.
      * intros [R|[R1 R2]]; [auto|]. apply IH1. exists ops, []. rewrite app_nil_r. split; auto. split; auto.
        apply freed_In in R1. rewrite FE in R1. apply freed_In. auto.
      * intros NR. rewrite IH2 by tauto. do 2 f_equal. destruct o; auto.
        cbn [target] in Ht. rewrite (proj2 (N.eqb_neq h _)); auto.
Qed.
End Handles.

(** ** Queues *)
Lemma q_take_inv n q : q_sent (q_take n q) ++ q_queue (q_take n q) = q_sent q ++ q_queue q.
Proof. unfold q_take. cbn. rewrite <- app_assoc, firstn_skipn. reflexivity. Qed.

Lemma use_loop_inv received : forall sched q q', use_loop sched received q = Ok q' ->
  q_sent q' ++ q_queue q' = q_sent q ++ q_queue q
  /\ q_outgoing q' ++ q_received q' = q_outgoing q ++ received.
Proof.
  induction received as [|b rest IH]; intros sched q q' H; cbn [use_loop] in H.
  - set (q1 := q_take _ q) in H. cbn [q_queue] in H. pose proof (q_take_inv (hd O sched) q) as T. fold q1 in T.
    destruct (q_queue q1) eqn:E; [|discriminate]. injection H as <-. cbn. auto.
  - set (q1 := q_take _ q) in H. cbn [q_queue q_guarantees q_received q_outgoing q_sent] in H.
    pose proof (q_take_inv (hd O sched) q) as T. fold q1 in T.
    destruct (q_queue q1) eqn:E.
    + injection H as <-. cbn. auto.
    + destruct (_ <? _).
      * injection H as <-. cbn. auto.
      * apply IH in H. cbn [q_queue q_guarantees q_received q_outgoing q_sent] in H. destruct H as [H1 H2]. split.
        -- rewrite H1. auto.
        -- rewrite H2, <- app_assoc. reflexivity.
Qed.

Lemma q_step_inv q o q' : q_step q o = Ok q' ->
  q_sent q' ++ q_queue q' = q_sent q ++ q_queue q ++ pushed [o]
  /\ q_outgoing q' ++ q_received q' = q_outgoing q ++ q_received q ++ concat (pushed [o]).
Proof.
  destruct o; cbn [q_step pushed concat].
  - unfold Push. set (q1 := q_take _ q). destruct (_ <=? _); [discriminate|]. intros H.
    unfold UseGuarantees in H. apply use_loop_inv in H. cbn [q_queue q_guarantees q_received q_outgoing q_sent] in H.
    destruct H as [H1 H2]. pose proof (q_take_inv (hd O sched) q) as T. fold q1 in T. split.
    + rewrite H1, app_assoc, T, <- app_assoc. reflexivity.
    + rewrite H2, app_nil_r. reflexivity.
  - unfold AddGuarantees, UseGuarantees. intros H. apply use_loop_inv in H.
    cbn [q_queue q_guarantees q_received q_outgoing q_sent] in H. rewrite !app_nil_r. auto.
  - intros H. injection H as <-. cbn. rewrite !app_nil_r. auto.
  - intros H. injection H as <-. rewrite q_take_inv, !app_nil_r. auto.
Qed.

Lemma q_run_inv ops : forall q q', q_run q ops = Ok q' ->
  q_sent q' ++ q_queue q' = q_sent q ++ q_queue q ++ pushed ops
  /\ q_outgoing q' ++ q_received q' = q_outgoing q ++ q_received q ++ concat (pushed ops).
Proof.
  induction ops as [|o ops IH]; intros q q' H.
  - injection H as <-. cbn. rewrite !app_nil_r. auto.
  - cbn [q_run] in H. destruct (q_step q o) as [q1| | | |] eqn:E; try discriminate. cbn [bind] in H.
    apply IH in H. apply q_step_inv in E. destruct H as [H1 H2], E as [E1 E2].
    assert (P : pushed (o :: ops) = pushed [o] ++ pushed ops) by (destruct o; reflexivity).
    rewrite P, concat_app, H1, H2. split.
    + rewrite app_assoc, E1, <- !app_assoc. reflexivity.
    + rewrite app_assoc, E2, <- !app_assoc. reflexivity.
Qed.

Lemma decimal_length_pos n : 1 <= decimal_length n.
Proof. unfold decimal_length. destruct (N.eqb_spec n 0); [lia|]. cbn [N.eqb]. destruct (N.eqb_spec n 0); lia. Qed.

Lemma use_loop_panic received : forall q, Forall (fun b => b < 128) received -> q_queue q <> [] ->
  use_loop [] received q = Panic.
Proof.
  induction received as [|b rest IH]; intros q HF HQ; cbn [use_loop hd tl].
  - unfold q_take. cbn [q_queue skipn]. destruct (q_queue q); [congruence|]. reflexivity.
  - unfold q_take. cbn [q_queue q_guarantees q_received q_outgoing q_sent skipn]. inversion HF; subst.
    destruct (q_queue q) eqn:E; [congruence|].
    assert (R : decimal_length (q_guarantees q) <? rune_length b = false).
    { apply N.ltb_ge. unfold rune_length. rewrite (proj2 (N.ltb_lt b 128)) by auto. apply decimal_length_pos. }
    rewrite R. apply IH; auto; cbn [q_queue]; discriminate.
Qed.

(** ** Capabilities *)
Lemma bytes_eqb_eq a b : bytes_eqb a b = true <-> a = b.
Proof.
  unfold bytes_eqb. split; [apply (order_eqb0 _ _ OrderBytes_total)|]. intros ->.
  rewrite (order_refl _ _ OrderBytes_total). reflexivity.
Qed.

(** ** Intersections of areas of interest *)
Lemma NoDup_remove_tail {A} (l l' : list A) : NoDup (l ++ l') -> NoDup l.
Proof.
  induction l as [|x l IH]; cbn; intros H; [constructor|]. inversion H; subst. constructor; auto.
  intros X. apply H2. apply in_app_iff. auto.
Qed.

Section Finder.
Variables (ours_area theirs_area : N -> area).

Variable isEqual : bytes -> bytes -> bool.
Hypothesis isEqual_eq : forall a b, isEqual a b = true <-> a = b.
Notation run_calls := (run_calls ours_area theirs_area isEqual).

Lemma mdel_absent {V} (m : list (N * V)) k : ~ In k (map fst m) -> mdel N.eqb m k = m.
Proof.
  intros H. unfold mdel. induction m as [|[k' v] m IH]; auto. cbn [filter fst] in *. rewrite (proj2 (N.eqb_neq k k')).
  - cbn [negb]. rewrite IH; auto. intros X. apply H. right. auto.
  - intros ->. apply H. left. auto.
Qed.

Notation valid_call := (valid_call ours_area theirs_area).
Notation shared := (shared ours_area theirs_area).

Lemma side_snoc b cs c : side b (cs ++ [c]) = side b cs ++ (if Bool.eqb (b_ours c) b then [(b_handle c, b_namespace c)] else []).
Proof. unfold side. rewrite flat_map_app. cbn. rewrite app_nil_r. auto. Qed.

Lemma side_valid b cs h ns : Forall valid_call cs -> In (h, ns) (side b cs) ->
  valid_range N.lt (area_times ((if b then ours_area else theirs_area) h)).
Proof.
  intros HV HI. unfold side in HI. apply in_flat_map in HI. destruct HI as (c & Hc & HI).
  rewrite Forall_forall in HV. destruct (HV c Hc) as [V _].
  destruct (Bool.eqb (b_ours c) b) eqn:E; [|destruct HI]. apply Bool.eqb_prop in E. destruct HI as [HI|[]].
  injection HI as <- <-. rewrite E in V. exact V.
Qed.

Lemma meets_shared a b : valid_range N.lt (area_times a) -> valid_range N.lt (area_times b) ->
  (match IntersectArea OrderSubspace a b with None => False | Some _ => True end <-> exists p, in_area a p /\ in_area b p).
Proof.
  intros Va Vb. destruct (IntersectArea OrderSubspace a b) as [r|] eqn:E; split; auto.
  - intros _. apply (IntersectArea_nonempty a b r Va Vb E).
  - intros []. 
  - intros [p Hp]. exact (IntersectArea_none a b E p Hp).
Qed.

Lemma NoDup_app_intro {A} (a b : list A) : NoDup a -> NoDup b -> (forall x, In x a -> In x b -> False) -> NoDup (a ++ b).
Proof.
  intros Ha Hb H. induction Ha as [|x a Hx Ha IH]; auto. cbn. constructor.
  - rewrite in_app_iff. intros [X|X]; [auto|]. apply (H x); auto. left; auto.
  - apply IH. intros y Y1 Y2. apply (H y); auto. right; auto.
Qed.

Lemma finder_spec cs : Forall valid_call cs ->
  NoDup (map fst (side true cs)) -> NoDup (map fst (side false cs)) ->
  let f := run_calls cs in
  f_ours f = rev (side true cs) /\ f_theirs f = rev (side false cs)
  /\ NoDup (map (fun i => (snd (fst i), snd i)) (f_queue f))
  /\ forall ns o t, In (ns, o, t) (f_queue f) <->
       In (o, ns) (side true cs) /\ In (t, ns) (side false cs) /\ shared o t.
Proof.
  induction cs as [|c cs IH] using rev_ind; intros HV N1 N2; cbv zeta.
  - cbn. split; [auto|]. split; [auto|]. split; [constructor|]. intros ns o t. split; [intros []|]. intros [[] _].
  - rewrite side_snoc in N1, N2. rewrite map_app in N1, N2.
    apply Forall_app in HV. destruct HV as [HV Hc]. inversion Hc as [|? ? [VC PC] _]; subst.
    destruct IH as (I1 & I2 & I3 & I4); auto.
    { clear - N1. apply NoDup_remove_tail in N1. auto. }
    { clear - N2. apply NoDup_remove_tail in N2. auto. }
    unfold run_calls in *. rewrite fold_left_app. cbn [fold_left]. set (f := fold_left _ cs _) in *.
    unfold add_call, AddAoiHandleToNamespace. cbn [f_ours f_theirs f_queue].
    destruct c as [h ns ours iter]. cbn [b_handle b_namespace b_ours b_iter] in *.
    rewrite !side_snoc. cbn [b_handle b_namespace b_ours].
    assert (OWN : ~ In h (map fst (side ours cs))).
    { destruct ours; cbn [Bool.eqb map fst] in *; [clear - N1|clear - N2]; intros HI.
      - apply NoDup_remove_2 in N1. rewrite app_nil_r in N1. auto.
      - apply NoDup_remove_2 in N2. rewrite app_nil_r in N2. auto. }
    assert (FO : (if ours then mput N.eqb (f_ours f) h ns else f_ours f) = rev (side true cs ++ (if Bool.eqb ours true then [(h, ns)] else []))).
    { destruct ours; cbn [Bool.eqb]; [|rewrite app_nil_r; auto]. unfold mput. rewrite mdel_absent.
      - rewrite I1, rev_app_distr. reflexivity.
      - rewrite I1, map_rev, <- in_rev. auto. }
    assert (FT : (if ours then f_theirs f else mput N.eqb (f_theirs f) h ns) = rev (side false cs ++ (if Bool.eqb ours false then [(h, ns)] else []))).
    { destruct ours; cbn [Bool.eqb]; [rewrite app_nil_r; auto|]. unfold mput. rewrite mdel_absent.
      - rewrite I2, rev_app_distr. reflexivity.
      - rewrite I2, map_rev, <- in_rev. auto. }
    split; [exact FO|]. split; [exact FT|]. clear FO FT.
    set (other := if ours then f_theirs f else f_ours f).
    assert (EO : other = rev (side (negb ours) cs)) by (unfold other; destruct ours; auto).
    match goal with |- context[f_queue f ++ ?x] => set (found := x) end.
    assert (SP : forall i, In i found <-> exists o, In (o, ns) (side (negb ours) cs)
      /\ i = (ns, if ours then h else o, if ours then o else h) /\ shared (if ours then h else o) (if ours then o else h)).
    { intros i. unfold found. rewrite in_flat_map. split.
      - intros ([o n2] & H1 & H2). apply (Permutation_in _ (PC other)) in H1. rewrite EO, <- in_rev in H1.
        destruct (isEqual ns n2) eqn:E; cbn [negb] in H2; [|destruct H2]. apply isEqual_eq in E. subst n2.
        pose proof (side_valid _ _ _ _ HV H1) as VO. exists o. split; auto.
        match type of H2 with In _ (match IntersectArea _ ?a ?b with _ => _ end) =>
          pose proof (meets_shared a b) as M; destruct (IntersectArea OrderSubspace a b) eqn:EI; [|destruct H2] end.
        destruct H2 as [H2|[]]. split; auto. unfold shared.
        destruct ours; cbn [negb] in *; destruct (proj1 (M VC VO) I) as [p [P1 P2]]; exists p; auto.
      - intros (o & H1 & -> & [p HP]). exists (o, ns). split.
        + apply (Permutation_in _ (Permutation_sym (PC other))). rewrite EO, <- in_rev. auto.
        + rewrite (proj2 (isEqual_eq ns ns)) by auto. cbn [negb].
          pose proof (side_valid _ _ _ _ HV H1) as VO.
          match goal with |- In _ (match IntersectArea _ ?a ?b with _ => _ end) =>
            pose proof (meets_shared a b) as M; destruct (IntersectArea OrderSubspace a b) eqn:EI end; [left; auto|].
          destruct ours; cbn [negb] in *; apply (M VC VO); exists p; tauto. }
    split.
    + rewrite map_app. apply NoDup_app_intro; auto.
      * unfold found. apply (Permutation_NoDup (l := map (fun i => (snd (fst i), snd i)) (flat_map (fun on : N * bytes =>
            let (o, n2) := on in if negb (isEqual ns n2) then []
            else match IntersectArea OrderSubspace ((if ours then ours_area else theirs_area) h) ((if ours then theirs_area else ours_area) o) with
                 | None => [] | Some _ => [(ns, if ours then h else o, if ours then o else h)] end) other))).
        { apply Permutation_map. apply Permutation_flat_map. apply Permutation_sym. apply PC. }
        assert (ND : NoDup (map fst other)).
        { rewrite EO, map_rev. apply NoDup_rev. destruct ours; cbn [negb];
            [clear - N2; apply NoDup_remove_tail in N2|clear - N1; apply NoDup_remove_tail in N1]; auto. }
        clear - ND. induction other as [|[o n2] other IH]; cbn [flat_map map]; [constructor|].
        cbn [map fst] in ND. inversion ND as [|? ? NI ND']; subst. rewrite map_app. apply NoDup_app_intro; auto.
        { destruct (negb _); [constructor|]. destruct (IntersectArea _ _ _); repeat constructor. intros []. }
        intros x X1 X2. apply in_map_iff in X1, X2. destruct X1 as (i & <- & X1), X2 as (j & X3 & X2).
        destruct (negb (isEqual ns n2)); [destruct X1|]. destruct (IntersectArea _ _ _) in X1; [|destruct X1].
        destruct X1 as [<-|[]]. apply in_flat_map in X2. destruct X2 as ([o' n'] & Y1 & Y2).
        destruct (negb _); [destruct Y2|]. destruct (IntersectArea _ _ _) in Y2; [|destruct Y2].
        destruct Y2 as [<-|[]]. cbn [fst snd] in X3.
        assert (o' = o) by (destruct ours; congruence). subst o'. apply NI. apply in_map_iff. exists (o, n'). auto.
      * intros x X1 X2. apply in_map_iff in X1, X2. destruct X1 as ([[n1 o1] t1] & <- & X1), X2 as (j & X3 & X2).
        apply I4 in X1. destruct X1 as (A1 & A2 & _). apply SP in X2. destruct X2 as (o & _ & -> & _).
        cbn [fst snd] in X3. injection X3 as E1 E2. apply OWN. destruct ours; apply in_map_iff.
        -- exists (o1, n1). subst. auto.
        -- exists (t1, n1). subst. auto.
    + intros n o t. rewrite in_app_iff, I4, SP, !in_app_iff. destruct ours; cbn [negb Bool.eqb In].
      * split.
        -- intros [(A1 & A2 & A3)|(o' & B1 & B2 & B3)]; [tauto|]. injection B2 as -> -> ->. tauto.
        -- intros ([A1|[A1|[]]] & [A2|[]] & A3); [left; auto|]. injection A1 as <- <-. right. exists t. auto.
      * split.
        -- intros [(A1 & A2 & A3)|(o' & B1 & B2 & B3)]; [tauto|]. injection B2 as -> -> ->. tauto.
        -- intros ([A1|[]] & [A2|[A2|[]]] & A3); [left; auto|]. injection A2 as <- <-. right. exists o. auto.
Qed.
End Finder.

(** ** Reconcilers *)
Section Reconcilers.
Context {R : Type}.
Lemma get_add o t o' t' r (m : reconciler_map R) :
  GetReconciler o t (AddReconciler o' t' r m) =
    if o =? o' then if t =? t' then Ok r else Err else GetReconciler o t m.
Proof.
  unfold GetReconciler, AddReconciler. destruct (N.eqb_spec o o') as [->|H].
  - rewrite mget_put by apply N.eqb_eq. cbn. destruct (t =? t'); auto.
  - rewrite mget_put_other by (auto; apply N.eqb_eq). reflexivity.
Qed.
End Reconcilers.
