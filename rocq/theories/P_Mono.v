(** What a store keeps, for paths up to and including the limits: no operation
    takes an entry away without a newer one at the same place or above it. Needs
    no relation between index and database except for the paths of the maximal
    number of components. *)
From Coq Require Import Sorting.Permutation.
From Verif Require Import Base M_Order M_Encoding M_Paths M_Successor M_Ranges M_Keys M_Entry M_Map M_Store
  S_Order S_Store P_Order P_Encoding P_Paths P_Ranges P_Successor P_Areas P_Keys P_Map P_Store.
Local Open Scope N_scope.

(** ** SuccessorPrefix and the caller's path *)

Lemma PrefixSuccessor_255 c : Forall (fun b => b = 255) c -> PrefixSuccessor c = (None, c).
Proof. induction 1 as [|x c Hx _ IH]; cbn; auto. rewrite IH. subst x. reflexivity. Qed.

Lemma PrefixSuccessor_le c c' m : PrefixSuccessor c = (Some c', m) -> prefix_of c' m.
Proof.
  revert c' m. induction c as [|x c IH]; cbn; intros c' m H; [discriminate|].
  destruct (PrefixSuccessor c) as [[r|] m0] eqn:E.
  - inversion H; subst. apply prefix_of_cons. auto.
  - destruct (x =? 255); inversion H; subst. exists m0. reflexivity.
Qed.

Lemma PrefixSuccessor_wf c : wf_bytes c -> wf_bytes (snd (PrefixSuccessor c)).
Proof.
  induction 1 as [|x c Hx Hc IH]; cbn; [constructor|].
  destruct (PrefixSuccessor c) as [[r|] m] eqn:E; cbn [snd] in *.
  - constructor; auto.
  - destruct (N.eqb_spec x 255); cbn [snd]; constructor; auto. lia.
Qed.

Lemma update_nth_total i (m : bytes) p : len m = len (nth i p []) -> (i < length p)%nat ->
  total_length (update_nth i m p) = total_length p.
Proof.
  intros Hm Hi. transitivity (total_length (firstn i p ++ nth i p [] :: skipn (S i) p)).
  - unfold update_nth. rewrite !total_length_app. cbn [total_length]. unfold bytes in *. lia.
  - rewrite <- split_nth; auto.
Qed.

Lemma update_nth_length {A} i (m : A) p : (i < length p)%nat -> length (update_nth i m p) = length p.
Proof.
  intros Hi. unfold update_nth. rewrite app_length. cbn [length]. rewrite firstn_length, skipn_length. lia.
Qed.

Lemma update_nth_ok pp i m p : ok_path pp p -> (i < length p)%nat -> wf_bytes m -> len m = len (nth i p []) ->
  ok_path pp (update_nth i m p).
Proof.
  intros (Hw & H1 & H2 & H3) Hi Wm Lm. pose proof (split_nth i p [] Hi) as Hsp.
  split; [|split; [|split]].
  - unfold wf_path, update_nth in *. rewrite Hsp in Hw. apply Forall_app in Hw as [A B]. inversion B; subst.
    apply Forall_app; split; auto.
  - unfold len. rewrite update_nth_length by auto. exact H1.
  - unfold update_nth. rewrite Hsp in H2. apply Forall_app in H2 as [A B]. inversion B; subst.
    apply Forall_app; split; auto. constructor; auto. rewrite Lm. auto.
  - rewrite update_nth_total; auto.
Qed.

Lemma successor_prefix_loop_caller pp p n : ok_path pp p -> (n <= length p)%nat ->
  let L := successor_prefix_loop pp p n in
  ok_path pp (snd L)
  /\ (snd L = p \/ forall q, fst L = Ok (Some q) -> forall s, path_le q (snd L ++ s)).
Proof.
  intros HP. cbn zeta. induction n as [|i IH]; intros Hn; cbn [successor_prefix_loop]; [cbn; auto|].
  destruct (TryAppendZeroByte (nth i p []) pp) as [c'|] eqn:E; [cbn; auto|].
  assert (Wc : wf_bytes (nth i p [])).
  { destruct HP as [Hw _]. unfold wf_path in Hw. rewrite Forall_forall in Hw. apply Hw, nth_In. lia. }
  destruct (PrefixSuccessor (nth i p [])) as [[c'|] m] eqn:E3.
  - cbn [fst snd]. split.
    + apply update_nth_ok; auto.
      * pose proof (PrefixSuccessor_wf _ Wc) as K. rewrite E3 in K. exact K.
      * pose proof (PrefixSuccessor_caller_length (nth i p [])) as K. rewrite E3 in K. cbn [snd] in K.
        unfold len. congruence.
    + right. intros q Hq s.
      destruct (PathAppend (firstn i p) c' pp) as [q'| | | |] eqn:EA; cbn [bind] in Hq; try discriminate.
      apply PathAppend_ok in EA. inversion Hq; subst. apply PrefixSuccessor_le in E3 as [r Hr].
      unfold update_nth. rewrite <- app_assoc. cbn [app]. apply path_le_lt. intros K.
      apply lex_app_inv in K; [|apply bytes_lt_irrefl]. apply lex_cons_inv in K as [K|[_ K]].
      * assert (G : bytes_le c' m).
        { subst m. destruct r; [right; rewrite app_nil_r; auto|left; apply lex_prefix]. }
        apply bytes_le_lt in G. auto.
      * inversion K.
  - apply PrefixSuccessor_none in E3 as [-> _]. rewrite update_nth_same by lia. apply IH. lia.
Qed.

Lemma path_le_trans a b c : path_le a b -> path_le b c -> path_le a c.
Proof.
  intros [H1| ->] [H2| ->]; [left; exact (path_lt_trans _ _ _ H1 H2)|left; auto|left; auto|right; auto].
Qed.

Lemma Position_dec (q r : position) : {q = r} + {q <> r}.
Proof. repeat decide equality. Qed.

Lemma bytes_dec (a b : bytes) : {a = b} + {a <> b}.
Proof. repeat decide equality. Qed.

Section Mono.
Variable C : cfg.
Notation pp := (c_pp C).
Hypothesis PP : store_params pp.
Hypothesis HB0 : 0 < max_component_count pp.
Hypothesis HB1 : max_component_count pp + 1 < 2 ^ pp_bits pp.
Hypothesis HB2 : max_path_length pp + 1 < 2 ^ pp_bits pp.

Lemma caller_ok p : ok_path pp p -> ok_path pp (SuccessorPrefix_caller p pp).
Proof. intros H. apply (successor_prefix_loop_caller pp p (length p) H (le_n _)). Qed.

(** With the maximal number of components, SuccessorPath succeeds only where
    SuccessorPrefix leaves the caller's path alone. *)
Lemma full_caller p n x : ok_path pp p -> (n <= length p)%nat -> len p = max_component_count pp ->
  successor_path_loop pp p n = Ok x -> snd (successor_prefix_loop pp p n) = p.
Proof.
  intros HP Hn Hfull. induction n as [|i IH]; intros H; cbn [successor_path_loop successor_prefix_loop] in *; auto.
  assert (Wc : wf_bytes (nth i p [])).
  { destruct HP as [Hw _]. unfold wf_path in Hw. rewrite Forall_forall in Hw. apply Hw, nth_In. lia. }
  destruct (TryAppendZeroByte (nth i p []) pp) as [c'|] eqn:E; [reflexivity|].
  destruct (SuccessorBytesFixedWidth (nth i p [])) as [c'|] eqn:E3.
  - exfalso. unfold PathAppend in H. destruct PP as ((P1 & _) & _). rewrite toT_small in H by lia.
    destruct (N.ltb_spec (max_component_count pp) (len p + 1)); [discriminate|lia].
  - apply SuccessorBytesFixedWidth_none in E3; auto. rewrite PrefixSuccessor_255 by auto.
    rewrite update_nth_same by lia. apply IH; auto. lia.
Qed.

Lemma successor_path_loop_form p n q : successor_path_loop pp p n = Ok (Some q) -> len p = max_component_count pp ->
  exists i c, q = firstn i p ++ [c] /\ (i <= length p)%nat.
Proof.
  revert q. induction n as [|i IH]; intros q H Hfull; cbn [successor_path_loop] in H; [discriminate|].
  destruct (Nat.le_gt_cases i (length p)) as [Hi|Hi].
  - destruct (TryAppendZeroByte (nth i p []) pp) as [c'|] eqn:E.
    + destruct (PathAppend (firstn i p) c' pp) as [q'| | | |] eqn:EA; cbn [bind] in H; try discriminate.
      apply PathAppend_ok in EA. inversion H; subst. eauto.
    + destruct (SuccessorBytesFixedWidth (nth i p [])) as [c'|] eqn:E3; [|auto].
      destruct (PathAppend p c' pp) as [q'| | | |] eqn:EA; cbn [bind] in H; try discriminate.
      apply PathAppend_ok in EA. inversion H; subst. exists (length p), c'. rewrite firstn_all. auto.
  - rewrite nth_overflow in H by lia.
    destruct (TryAppendZeroByte [] pp) as [c'|] eqn:E.
    + destruct (PathAppend (firstn i p) c' pp) as [q'| | | |] eqn:EA; cbn [bind] in H; try discriminate.
      apply PathAppend_ok in EA. inversion H; subst. exists (length p), c'.
      rewrite firstn_all. split; auto. rewrite firstn_all2 by lia. auto.
    + cbn in H. auto.
Qed.

Lemma below_window p start e n s :
  ok_path pp p -> SuccessorPath p pp = Ok start -> SuccessorPrefix p pp = Ok e -> ok_path pp (n_path n) ->
  IsIncluded3d OrderSubspace
    (path_window s (SuccessorSubspaceId s)
      (match start with Some q => reshare C p (SuccessorPrefix_caller p pp) q | None => [] end) e) (node_pos n) = true ->
  n_sub n = s /\ proper_prefix_of p (n_path n).
Proof.
  intros HP HS HE Hn HI. pose proof HP as [Hw Hl]. destruct PP as (PO & _).
  rewrite IsIncluded3d_spec in HI. unfold in_range3d, path_window in HI.
  cbn [subspace_range path_range time_range node_pos pos_subspace pos_path pos_time] in HI.
  rewrite subspace_singleton in HI. destruct HI as (HI1 & HI2 & _). split; [auto|].
  unfold in_range in HI2. cbn [r_start r_end r_open] in HI2. rewrite <- path_le_lt in HI2.
  destruct HI2 as [K1 [K2|K2]]; [discriminate|].
  destruct e as [q|]; [|inversion K2].
  pose proof (SuccessorPrefix_spec pp p PO Hw Hl) as SP. rewrite HE in SP. destruct SP as (SP1 & SP2 & SP3).
  specialize (SP3 HB2). destruct SP3 as [SP3 SP4].
  pose proof (SuccessorPath_spec pp p PO HB0 HB1 HB2 Hw Hl) as SS. rewrite HS in SS.
  assert (Pq : path_lt p q) by (rewrite <- (app_nil_r p); apply SP1).
  destruct start as [q0|].
  2:{ exfalso. specialize (SS q SP3 SP4). apply path_le_lt in SS. auto. }
  destruct SS as (_ & _ & SS1 & SS2).
  destruct (successor_prefix_loop_caller pp p (length p) HP (le_n _)) as [_ D]. cbn zeta in D.
  change (snd (successor_prefix_loop pp p (length p))) with (SuccessorPrefix_caller p pp) in D.
  change (fst (successor_prefix_loop pp p (length p))) with (SuccessorPrefix p pp) in D.
  assert (Fin : path_le q0 (n_path n) -> proper_prefix_of p (n_path n)).
  { intros L. assert (path_lt p (n_path n)) by (destruct L as [L| <-]; [exact (path_lt_trans _ _ _ SS1 L)|exact SS1]).
    apply proper_prefix_spec. split.
    - apply SP2; try apply Hn; auto. left; auto.
    - intros E. rewrite <- E in *. eapply path_lt_irrefl; eauto. }
  unfold reshare in K1. destruct p as [|c0 p0].
  { cbn in HE. discriminate. }
  set (p := c0 :: p0) in *. unfold SuccessorPath in HS. unfold p in HS at 1.
  destruct (toT pp (len p) <? max_component_count pp) eqn:EL.
  - (* room for a component: the start is the caller's path, extended *)
    destruct (PathAppend p [] pp) as [q1| | | |] eqn:EA; cbn [bind] in HS; try discriminate.
    apply PathAppend_ok in EA. inversion HS; subst q0 q1.
    assert (LC : length (SuccessorPrefix_caller p pp) = length p).
    { pose proof (caller_ok p HP) as _. unfold SuccessorPrefix_caller, SuccessorPrefix_full.
      assert (G : forall m, (m <= length p)%nat -> forall p', length p' = length p ->
        length (snd (successor_prefix_loop pp p' m)) = length p).
      { induction m as [|i IH]; intros Hm p' Hp'; cbn [successor_prefix_loop]; auto.
        destruct (TryAppendZeroByte _ _); auto. destruct (PrefixSuccessor _) as [[?|] m']; cbn [snd].
        - rewrite update_nth_length; lia.
        - apply IH; [lia|]. rewrite update_nth_length; lia. }
      apply G; auto. }
    assert (K1' : path_le (SuccessorPrefix_caller p pp ++ [[]]) (n_path n)).
    { rewrite <- LC in K1 at 1. rewrite firstn_all in K1.
      rewrite skipn_app, skipn_all, Nat.sub_diag in K1. exact K1. }
    destruct D as [D|D].
    + rewrite D in K1'. auto.
    + exfalso. specialize (D q HE [[]]).
      pose proof (path_le_trans _ _ _ D K1') as H.
      apply path_le_lt in H. auto.
  - assert (Hfull : len p = max_component_count pp).
    { destruct Hl as (Hl & _). destruct PO as (PO1 & _). rewrite toT_small in EL by lia. apply N.ltb_ge in EL. lia. }
    assert (DC : SuccessorPrefix_caller p pp = p).
    { unfold SuccessorPrefix_caller, SuccessorPrefix_full. eapply full_caller; eauto. }
    rewrite DC in K1. apply Fin.
    destruct (successor_path_loop_form p _ q0 HS Hfull) as (i & c & -> & Hi).
    rewrite app_length, firstn_length_le in K1 by lia. cbn [length] in K1.
    rewrite Nat.add_1_r in K1. cbn [Nat.pred] in K1.
    rewrite skipn_app, firstn_length_le, Nat.sub_diag in K1 by lia.
    rewrite skipn_all2 in K1 by (rewrite firstn_length; lia). exact K1.
Qed.

(** ** Positions held by the database *)

Definition pos_ok (q : position) : Prop := ok_path pp (pos_path q) /\ pos_time q < 2 ^ 64.
Notation key q := (EncodeKey q pp).

Lemma key_inj q r : pos_ok q -> pos_ok r -> key q = key r -> q = r.
Proof.
  intros [[_ H1] H2] [[_ H3] H4]. apply EncodeKey_inj; auto using within_codec.
Qed.
Lemma key_decode q : pos_ok q -> DecodeKey (key q) pp = Ok q.
Proof.
  intros [[_ H1] H2]. apply DecodeKey_EncodeKey; auto using within_codec.
Qed.

Definition held (st : state) (q : position) : Prop := pos_ok q /\ mget (kv st) (key q) <> None.

(** A path for which TryAppendZeroByte in SuccessorPath may write behind the
    last component. *)
Definition full_short (p : path) : Prop :=
  len p = max_component_count pp /\ TryAppendZeroByte (last p []) pp <> None.

Record W (st : state) : Prop := {
  w_budget : budget st = None;
  w_sorted : msorted (kv st);
  w_kv : forall k v, In (k, v) (kv st) -> exists q w, pos_ok q /\ k = key q /\ DecodeValues v = Ok w
    /\ (SuccessorPath (pos_path q) pp <> Ok None -> mget (refs st) (v_digest w) <> None)
}.

Record T (st : state) : Prop := {
  t_ok : forall n, In n (tree st) -> pos_ok (node_pos n);
  t_full : forall q, held st q -> full_short (pos_path q) -> exists n, In n (tree st) /\ node_pos n = q
}.

Lemma mget_mem {V} (m : bmap V) k : mget m k <> None <-> exists v, In (k, v) m.
Proof.
  split.
  - destruct (mget m k) as [v|] eqn:E; [|congruence]. intros _. exists v. apply mget_In; auto.
  - intros [v H] E. apply mget_None in E. apply E. apply (in_map fst _ _ H).
Qed.

Lemma mdel_In {V} (m : bmap V) k x : In x (mdel m k) -> In x m /\ fst x <> k.
Proof.
  unfold mdel. rewrite filter_In. intros [H1 H2]. split; auto. intros E. subst k.
  rewrite beqb_refl in H2. discriminate.
Qed.

(** ** Deleting *)

Lemma driver_Delete_W x st r st' : W st -> pos_ok (EntryPosition x) -> driver_Delete C x st = (r, st') ->
  r = Ok tt /\ W st' /\ (T st -> T st') /\ locked st' = locked st /\ refs st' = refs st
  /\ incl (tree st') (tree st)
  /\ (forall q, held st' q <-> held st q /\ q <> EntryPosition x).
Proof.
  intros [B S K] Ox. unfold driver_Delete, bindM, durable. rewrite B. intros H. inversion H; subst; clear H.
  assert (HH : forall q, held (set_tree (remove_first (node_is (e_subspace x) (e_path x) (e_time x)))
      (set_kv (fun m => mdel m (key (EntryPosition x))) st)) q <-> held st q /\ q <> EntryPosition x).
  { intros q. unfold held. cbn [kv set_kv set_tree]. rewrite mget_mdel.
    destruct (beqb_spec (key q) (key (EntryPosition x))) as [E|E].
    - split; [tauto|]. intros [[Hq _] Hne]. exfalso. apply Hne. apply key_inj; auto.
    - split; [intros [Hq Hm]; split; auto; congruence|tauto]. }
  assert (RI : forall f (t : list node) n, In n (remove_first f t) -> In n t).
  { induction t as [|m t IH]; cbn; auto. intros n. destruct (f m); cbn; intuition. }
  assert (RK : forall (f : node -> bool) (t : list node) n, In n t -> f n = false -> In n (remove_first f t)).
  { induction t as [|m t IH]; cbn; auto. intros n [->|Hn] Hf; [rewrite Hf; left; auto|].
    destruct (f m); [auto|right; auto]. }
  split; [reflexivity|]. split; [|split; [|split; [reflexivity|split; [reflexivity|split; [|exact HH]]]]].
  { split; [exact B|cbn; apply mdel_sorted; auto|].
    cbn [kv refs set_kv set_tree]. intros k v Hin. apply mdel_In in Hin as [Hin _]. auto. }
  - intros [T1 T2]. split.
    + intros n Hn. cbn in Hn. eauto.
    + intros q Hq Hf. apply HH in Hq as [Hq Hne]. destruct (T2 q Hq Hf) as (n & Hn & En).
      exists n. split; auto. cbn. apply RK; auto.
      destruct (node_is_spec (e_subspace x) (e_path x) (e_time x) n); auto. unfold EntryPosition in Hne. congruence.
  - intros n Hn. cbn in Hn. eauto.
Qed.

(** Payload files and reference counts: database, index and lock stay. *)
Definition same_kt (st st' : state) : Prop :=
  kv st' = kv st /\ tree st' = tree st /\ locked st' = locked st /\ budget st' = budget st.

Lemma same_kt_held st st' q : kv st' = kv st -> held st' q <-> held st q.
Proof. intros E. unfold held. rewrite E. tauto. Qed.

Lemma same_kt_W st st' : same_kt st st' -> (forall d, mget (refs st) d <> None -> mget (refs st') d <> None) ->
  W st -> W st'.
Proof.
  intros (E1 & E2 & E3 & E4) HR [B S K]. split; [congruence|congruence|].
  rewrite E1. intros k v Hin. destruct (K k v Hin) as (q & w & H1 & H2 & H3 & H4). exists q, w. auto 8.
Qed.
Lemma same_kt_T st st' : same_kt st st' -> T st -> T st'.
Proof.
  intros (E1 & E2 & E3 & E4) [T1 T2]. split; rewrite E2; auto.
  intros q Hq. apply T2. eapply same_kt_held; [|exact Hq]. auto.
Qed.

Lemma ref_Decrement_kt d st r st' : budget st = None -> ref_Decrement d st = (r, st') ->
  same_kt st st' /\ (forall x, mget (refs st) x <> None -> mget (refs st') x <> None)
  /\ (mget (refs st) d <> None -> exists c, r = Ok c) /\ ((exists c, r = Ok c) \/ r = Err).
Proof.
  intros B. unfold ref_Decrement, bindM, gets. destruct (mget (refs st) d) as [c|] eqn:E.
  - unfold durable, bindM. rewrite B. unfold ret. intros H. inversion H; subst. cbn [refs set_refs].
    split; [repeat split; auto|]. split; [|split; eauto].
    intros x Hx. rewrite mget_mset. destruct (beqb x d); congruence.
  - unfold fail. intros H. inversion H; subst. split; [repeat split; auto|]. split; auto. split; auto. congruence.
Qed.

Lemma payload_Erase_kt d st r st' : budget st = None -> payload_Erase C d st = (r, st') ->
  same_kt st st' /\ refs st' = refs st /\ r = Ok tt.
Proof.
  intros B. unfold payload_Erase, durable. rewrite B. intros H. inversion H; subst. repeat split; auto.
Qed.

Lemma incl_held_trans (st st1 st2 : state) P1 P2 :
  (forall q, held st q -> held st1 q \/ P1 q) -> (forall q, held st1 q -> held st2 q \/ P2 q) ->
  forall q, held st q -> held st2 q \/ (P1 q \/ P2 q).
Proof. intros H1 H2 q Hq. destruct (H1 q Hq) as [H|H]; auto. destruct (H2 q H); auto. Qed.

Lemma prune_loop_W xs st r st' : W st -> (forall x a, In (x, a) xs -> pos_ok (EntryPosition x)) ->
  prune_loop C xs st = (r, st') ->
  W st' /\ (T st -> T st') /\ locked st' = locked st
  /\ (forall q, held st q -> held st' q \/ exists x a, In (x, a) xs /\ q = EntryPosition x).
Proof.
  revert st r st'. induction xs as [|[x a] xs IH]; intros st r st' HW HX H; cbn [prune_loop] in H.
  - unfold ret in H. inversion H; subst. split; [auto|]. split; [auto|]. split; auto.
  - unfold bindM at 1 in H. destruct (driver_Delete C x st) as [r1 s1] eqn:E1.
    apply driver_Delete_W in E1 as (-> & W1 & T1 & L1 & R1 & I1 & H1); [|auto|eapply HX; left; eauto].
    unfold bindM at 1 in H. destruct (ref_Decrement (e_digest x) s1) as [r2 s2] eqn:E2.
    apply ref_Decrement_kt in E2 as (S2 & R2 & _ & O2); [|apply W1].
    assert (W2 : W s2) by (eapply same_kt_W; eauto). assert (T2 : T s1 -> T s2) by (apply same_kt_T; auto).
    assert (G2 : forall q, held st q -> held s2 q \/ q = EntryPosition x).
    { intros q Hq. destruct (Position_dec q (EntryPosition x)) as [E|E]; [right; auto|left].
      apply (same_kt_held s1); [apply S2|]. apply H1. auto. }
    assert (L2 : locked s2 = locked st) by (destruct S2 as (_ & _ & S2 & _); congruence).
    destruct O2 as [[c ->]| ->].
    2:{ inversion H; subst. split; [auto|]. split; [auto|]. split; [auto|]. intros q Hq.
        destruct (G2 q Hq) as [G|G]; [auto|right]. exists x, a. split; [left; auto|auto]. }
    unfold bindM at 1 in H.
    destruct ((if c =? 0 then payload_Erase C (e_digest x) else ret tt) s2) as [r3 s3] eqn:E3.
    assert (S3 : same_kt s2 s3 /\ refs s3 = refs s2 /\ r3 = Ok tt).
    { destruct (c =? 0); [eapply payload_Erase_kt; eauto; apply W2|].
      unfold ret in E3. inversion E3; subst. repeat split; auto. }
    destruct S3 as (S3 & R3 & ->).
    assert (W3 : W s3) by (eapply same_kt_W; eauto; rewrite R3; auto).
    assert (T3 : T s2 -> T s3) by (apply same_kt_T; auto).
    assert (L3 : locked s3 = locked st) by (destruct S3 as (_ & _ & S3 & _); congruence).
    assert (G3 : forall q, held st q -> held s3 q \/ q = EntryPosition x).
    { intros q Hq. destruct (G2 q Hq) as [G|G]; [left|auto]. apply (same_kt_held s2); [apply S3|auto]. }
    unfold bindM at 1 in H. destruct (prune_loop C xs s3) as [r4 s4] eqn:E4.
    destruct (IH s3 r4 s4 W3) as (W4 & T4 & L4 & G4); auto.
    { intros y b Hy. eapply HX. right; eauto. }
    assert (Fin : s4 = st') by (destruct r4; inversion H; auto). subst s4.
    split; [auto|]. split; [auto|]. split; [congruence|]. intros q Hq.
    destruct (G3 q Hq) as [G|G].
    + destruct (G4 q G) as [K|(y & b & Hy & E)]; [auto|right]. exists y, b. split; [right; auto|auto].
    + right. exists x, a. split; [left; auto|auto].
Qed.

(** ** Candidates for pruning *)

Lemma filter_map_two {A} (Q : A -> bool) (f : A -> A) l a b :
  In a l -> In b l -> a <> b -> Q (f a) = true -> Q (f b) = true ->
  (2 <= length (filter Q (map f l)))%nat.
Proof.
  intros Ha Hb Hne Qa Qb.
  assert (One : forall l c, In c l -> Q (f c) = true -> (1 <= length (filter Q (map f l)))%nat).
  { clear. intros l c. induction l as [|x l IH]; [intros []|]. cbn. intros [->|H] Hc.
    - rewrite Hc. cbn. lia.
    - specialize (IH H Hc). destruct (Q (f x)); cbn; lia. }
  induction l as [|x l IH]; [destruct Ha|]. cbn. destruct Ha as [->|Ha], Hb as [->|Hb].
  - congruence.
  - rewrite Qa. cbn. pose proof (One l b Hb Qb). lia.
  - rewrite Qb. cbn. pose proof (One l a Ha Qa). lia.
  - specialize (IH Ha Hb). destruct (Q (f x)); cbn; lia.
Qed.

Lemma clobber_eq (n m : node) : node_pos n = node_pos m -> n_shared n = n_shared m -> clobber C n = clobber C m.
Proof. destruct n, m. unfold node_pos. cbn. intros E1 E2. inversion E1; subst. reflexivity. Qed.

Lemma clobber_full n : clobber C n <> n_sub n ->
  ok_path pp (n_path n) -> n_shared n = true /\ full_short (n_path n).
Proof.
  unfold clobber. intros H HP. destruct (n_shared n); cbn [andb] in H; [|congruence]. split; auto.
  destruct (N.ltb_spec (toT pp (len (n_path n))) (max_component_count pp)) as [L|L]; cbn [negb andb] in H; [congruence|].
  destruct (TryAppendZeroByte (last (n_path n) []) pp) eqn:E; [|congruence].
  destruct HP as [_ (Hl & _)]. destruct PP as ((P1 & _) & _). rewrite toT_small in L by lia.
  split; [lia|congruence].
Qed.

Lemma clobber_le n : bytes_le (clobber C n) (n_sub n).
Proof.
  unfold clobber. destruct (_ && _ && _); [|right; auto]. destruct (n_sub n) as [|x r]; [right; auto|].
  destruct (N.eq_dec x 0) as [->|]; [right; auto|]. left. apply lex_head. lia.
Qed.

(** The window of the Get in PrunableEntries. *)
Lemma get_window s0 s1 p e n :
  n_path n = p -> bytes_le s0 (n_sub n) -> bytes_le (n_sub n) s1 -> path_lt p e ->
  IsIncluded3d OrderSubspace (path_window s0 (SuccessorSubspaceId s1) p (Some e)) (node_pos n) = true.
Proof.
  intros <- H1 H2 H3. rewrite IsIncluded3d_spec. unfold in_range3d, path_window, in_range.
  cbn [subspace_range path_range time_range node_pos pos_subspace pos_path pos_time r_start r_end r_open].
  split; [split; [apply bytes_le_lt; auto|right]|].
  - unfold SuccessorSubspaceId. destruct H2 as [H2| ->]; [|apply bytes_lt_append_zero].
    eapply bytes_lt_trans; [exact H2|apply bytes_lt_append_zero].
  - split; [split; [apply path_lt_irrefl|auto]|split; [lia|auto]].
Qed.

Lemma storage_Get_exact s0 s1 p st n st' : ok_path pp p -> (forall m, In m (tree st) -> pos_ok (node_pos m)) ->
  storage_Get C s0 (SuccessorSubspaceId s1) p st = (Ok (Some n), st') ->
  st' = st /\ In n (tree st) /\ n_path n = p /\ bytes_le s0 (n_sub n) /\ bytes_le (n_sub n) s1
  /\ exists e, path_lt p e /\ query (tree st) (path_window s0 (SuccessorSubspaceId s1) p (Some e)) = [n]
     /\ SuccessorPath p pp = Ok (Some e).
Proof.
  intros HP HT. unfold storage_Get, bindM, lift, gets.
  destruct (SuccessorPath p pp) as [e| | | |] eqn:E; try discriminate.
  destruct (query (tree st) (path_window s0 (SuccessorSubspaceId s1) p e)) as [|m [|]] eqn:EQ; try discriminate.
  unfold ret. intros H. inversion H; subst. split; auto.
  assert (Hin : In n (query (tree st') (path_window s0 (SuccessorSubspaceId s1) p e))) by (rewrite EQ; left; auto).
  unfold query in Hin. rewrite filter_In in Hin. destruct Hin as [Hin HI].
  pose proof (HT n Hin) as [Hok _]. cbn [node_pos pos_path] in Hok.
  rewrite IsIncluded3d_spec in HI. unfold in_range3d, path_window, in_range in HI.
  cbn [subspace_range path_range time_range node_pos pos_subspace pos_path pos_time r_start r_end r_open] in HI.
  destruct HI as ((K1 & K2) & (K3 & K4) & _). destruct K2 as [K2|K2]; [discriminate|]. destruct K4 as [K4|K4]; [discriminate|].
  destruct e as [e|]; [|inversion K4]. destruct PP as (PO & _).
  pose proof (SuccessorPath_spec pp p PO HB0 HB1 HB2 (proj1 HP) (proj2 HP)) as SS. rewrite E in SS.
  destruct SS as (_ & _ & S1 & S2).
  assert (EP : n_path n = p).
  { apply path_le_lt in K3. destruct K3 as [K3|K3]; [|auto]. exfalso.
    specialize (S2 _ (proj1 Hok) (proj2 Hok) K3). apply path_le_lt in S2. auto. }
  split; auto. split; auto. split; [apply bytes_le_lt; auto|]. split.
  - apply bytes_le_lt. intros K. apply append_zero_least in K. apply bytes_le_lt in K. auto.
  - exists e. auto.
Qed.

Lemma node_eta n : Node (n_sub n) (n_path n) (n_time n) (n_fp n) (n_shared n) = n.
Proof. destruct n; reflexivity. Qed.

Lemma prunable_loop_T t cands st r st' : W st -> T st -> incl cands (tree st) ->
  prunable_loop C t cands st = (r, st') ->
  kv st' = kv st /\ refs st' = refs st /\ locked st' = locked st /\ budget st' = budget st
  /\ (forall xs, r = Ok xs -> st' = st
       /\ forall x a, In (x, a) xs -> exists n, In n cands /\ n_time n < t /\ EntryPosition x = node_pos n).
Proof.
  intros HW HT. revert r st'. induction cands as [|n cands IH]; intros r st' HC H; cbn [prunable_loop] in H.
  { unfold ret in H. inversion H; subst. repeat split; auto; inversion H0; subst. intros x a []. }
  assert (Hn : In n (tree st)) by (apply HC; left; auto).
  assert (HC' : incl cands (tree st)) by (intros m Hm; apply HC; right; auto).
  destruct (N.ltb_spec (n_time n) t) as [Ht|Ht].
  2:{ destruct (IH _ _ HC' H) as (A1 & A2 & A3 & A4 & A5). repeat split; auto; apply A5 in H0 as [B1 B2]; auto.
      intros x a Hx. destruct (B2 x a Hx) as (m & Hm & K). exists m. split; [right; auto|auto]. }
  unfold bindM at 1 in H.
  set (f := fun m => if node_is (n_sub n) (n_path n) (n_time n) m && n_shared n then clobber_node C m else m) in *.
  set (st1 := set_tree (map f) st) in *.
  pose proof (t_ok _ HT n Hn) as On. pose proof On as [OP OT]. cbn [node_pos pos_path pos_time] in OP, OT.
  assert (Sf : forall m, In m (tree st) -> n_path (f m) = n_path m /\ n_time (f m) = n_time m).
  { intros m _. unfold f. destruct (_ && _); auto. }
  assert (Hok1 : forall m, In m (tree st1) -> pos_ok (node_pos m)).
  { intros m Hm. cbn in Hm. apply in_map_iff in Hm as (m0 & <- & Hm0). pose proof (t_ok _ HT m0 Hm0) as [A B].
    destruct (Sf m0 Hm0) as [E1 E2]. split; cbn [node_pos pos_path pos_time] in *; congruence. }
  assert (Sub : n_sub (f n) = clobber C n).
  { unfold f. destruct (node_is_spec (n_sub n) (n_path n) (n_time n) n) as [_|K]; [|exfalso; apply K; reflexivity].
    cbn [andb]. destruct (n_shared n) eqn:E; [reflexivity|]. unfold clobber. rewrite E. reflexivity. }
  unfold bindM at 1 in H. unfold driver_Get_at in H. unfold bindM at 1 in H.
  destruct (storage_Get C (clobber C n) (SuccessorSubspaceId (n_sub n)) (n_path n) st1) as [r2 s2] eqn:E2.
  assert (S2 : s2 = st1).
  { unfold storage_Get, bindM, lift, gets in E2. destruct (SuccessorPath _ _); try (inversion E2; auto; fail).
    destruct (query _ _) as [|? [|]]; unfold ret in E2; inversion E2; auto. }
  subst s2.
  destruct r2 as [[m|]| | | |];
    try (unfold fail, ret in H; inversion H; subst; repeat split; auto; discriminate).
  pose proof E2 as E2'.
  apply storage_Get_exact in E2' as (_ & Hm & Pm & L1 & L2 & e & Pe & EQ & _); auto.
  (* m is the image of n *)
  assert (Em : f n = m).
  { assert (Hin : In (f n) (query (tree st1) (path_window (clobber C n) (SuccessorSubspaceId (n_sub n)) (n_path n) (Some e)))).
    { unfold query. apply filter_In. split; [cbn; apply in_map; auto|]. apply get_window; auto.
      - apply Sf; auto.
      - rewrite Sub. right; auto.
      - rewrite Sub. apply clobber_le. }
    rewrite EQ in Hin. destruct Hin as [Hin|[]]. auto. }
  unfold bindM at 1, gets in H. change (kv st1) with (kv st) in H.
  destruct (mget (kv st) (key (node_pos m))) as [b|] eqn:EK.
  2:{ unfold fail in H. inversion H; subst. repeat split; auto; discriminate. }
  assert (Hheld : held st (Position (clobber C n) (n_path n) (n_time n))).
  { split; [split; auto|]. assert (E : node_pos m = Position (clobber C n) (n_path n) (n_time n)).
    { rewrite <- Em. unfold node_pos. rewrite Sub. destruct (Sf n Hn) as [-> ->]. reflexivity. }
    rewrite <- E. congruence. }
  assert (NC : clobber C n = n_sub n).
  { destruct (bytes_dec (clobber C n) (n_sub n)) as [E|E]; auto. exfalso.
    destruct (clobber_full n E OP) as [Sh Fs].
    destruct (t_full _ HT _ Hheld Fs) as (B & HB & EB).
    assert (NB : node_is (n_sub n) (n_path n) (n_time n) B = false).
    { destruct (node_is_spec (n_sub n) (n_path n) (n_time n) B) as [K|]; auto. rewrite EB in K.
      inversion K. congruence. }
    assert (fB : f B = B) by (unfold f; rewrite NB; reflexivity).
    assert (BF : n_sub B = clobber C n /\ n_path B = n_path n).
    { unfold node_pos in EB. inversion EB. auto. }
    assert (Two : (2 <= length (query (tree st1) (path_window (clobber C n) (SuccessorSubspaceId (n_sub n)) (n_path n) (Some e))))%nat).
    { unfold query, st1. cbn [tree set_tree]. apply filter_map_two with (a := n) (b := B); auto.
      - intros ->. apply E. symmetry. apply BF.
      - apply get_window; [apply Sf; auto| | |auto]; rewrite Sub; [right; auto|apply clobber_le].
      - rewrite fB. apply get_window; auto; [apply BF| |]; destruct BF as [-> _]; [right; auto|apply clobber_le]. }
    rewrite EQ in Two. cbn in Two. lia. }
  assert (St1 : st1 = st).
  { unfold st1. apply set_tree_id. rewrite <- (map_id (tree st)) at 2. apply map_ext_in. intros x Hx.
    unfold f. destruct (node_is_spec (n_sub n) (n_path n) (n_time n) x) as [K|]; [|reflexivity].
    destruct (n_shared n) eqn:Sh; cbn [andb]; [|reflexivity]. unfold clobber_node.
    assert (CX : clobber C x = n_sub x).
    { destruct (n_shared x) eqn:Sx.
      - rewrite (clobber_eq x n); [|rewrite K; reflexivity|congruence]. rewrite NC. unfold node_pos in K. inversion K; auto.
      - unfold clobber. rewrite Sx. reflexivity. }
    rewrite CX. apply node_eta. }
  rewrite St1 in H. clear E2 EQ Hok1 Hm St1 st1. unfold bindM at 1, lift in H.
  destruct (DecodeValues b) as [w| | | |];
    try (inversion H; subst; repeat split; auto; discriminate).
  unfold ret at 1 in H. unfold bindM at 1 in H.
  destruct (prunable_loop C t cands st) as [r3 s3] eqn:E3.
  destruct (IH _ _ HC' eq_refl) as (A1 & A2 & A3 & A4 & A5).
  assert (Fin : s3 = st') by (destruct r3; inversion H; auto). subst s3.
  split; auto. split; auto. split; auto. split; auto. intros xs Hr.
  destruct r3 as [ys| | | |]; unfold ret in H; inversion H; subst; try discriminate. inversion H1; subst.
  destruct (A5 ys eq_refl) as [A6 A7]. split; auto. intros x a [Hx|Hx].
  - inversion Hx; subst. exists n. split; [left; auto|]. split; auto. unfold EntryPosition, node_pos.
    cbn [e_subspace e_path e_time]. rewrite NC. f_equal. destruct (Sf n Hn) as [_ E]. rewrite E. reflexivity.
  - destruct (A7 x a Hx) as (k & Hk & K). exists k. split; [right; auto|auto].
Qed.

(** ** Inserting *)

Definition below (q : position) (e : entry) : Prop :=
  pos_subspace q = e_subspace e /\ proper_prefix_of (e_path e) (pos_path q) /\ pos_time q < e_time e.

Lemma proper_self {A} (p : list A) : ~ proper_prefix_of p p.
Proof.
  intros (x & r & E). apply (f_equal (@length A)) in E. rewrite app_length in E. cbn in E. lia.
Qed.

Lemma short_caller p : full_short p -> p <> [] -> SuccessorPrefix_caller p pp = p.
Proof.
  intros [_ H] Hp. destruct (exists_last Hp) as (a & b & ->). rewrite last_last in H.
  unfold SuccessorPrefix_caller, SuccessorPrefix_full. rewrite app_length. cbn [length].
  rewrite Nat.add_1_r. cbn [successor_prefix_loop]. rewrite app_nth2, Nat.sub_diag by lia. cbn [nth].
  destruct (TryAppendZeroByte b pp); [reflexivity|congruence].
Qed.

Lemma InsertEntry_W e token st r st' :
  W st -> T st -> pos_ok (EntryPosition e) -> e_path e <> [] ->
  values_ok (Values (e_length e) (e_digest e) (c_hash C token)) ->
  (SuccessorPath (e_path e) pp <> Ok None -> forall n, In n (tree st) -> node_pos n <> EntryPosition e) ->
  InsertEntry C e token st = (r, st') ->
  W st' /\ locked st' = locked st /\ ((exists xs, r = Ok xs) -> T st') /\ held st' (EntryPosition e)
  /\ (forall q, held st q -> held st' q \/ below q e).
Proof.
  intros HW HT Ok_ Hne HV HF H. unfold InsertEntry in H. unfold bindM at 1 in H.
  unfold payload_Set in H. unfold bindM at 1, durable at 1 in H. rewrite (w_budget _ HW) in H. unfold ret at 1 in H.
  cbn [fst] in H.
  set (s0 := set_files (fun m => mset m (c_fname C (c_hash C token)) token) st) in *.
  assert (S0 : same_kt st s0) by (repeat split; auto).
  assert (W0 : W s0) by (eapply same_kt_W; eauto). assert (T0 : T s0) by (eapply same_kt_T; eauto).
  change (tree st) with (tree s0) in HF. assert (H0 : forall q, held st q <-> held s0 q) by (intros; reflexivity).
  assert (L0 : locked s0 = locked st) by reflexivity. clearbody s0.
  unfold bindM at 1, driver_Insert in H. unfold bindM at 1, durable at 1 in H. rewrite (w_budget _ W0) in H.
  change (EntryPosition (Entry (c_ns C) (e_subspace e) (e_digest e) (e_path e) (e_time e) (e_length e)))
    with (EntryPosition e) in H. cbn [e_subspace e_path e_time e_length e_digest] in H.
  set (val := EncodeValues (Values (e_length e) (e_digest e) (c_hash C token))) in *.
  set (s1 := set_kv (fun m => mset m (key (EntryPosition e)) val) s0) in *.
  assert (Hval : DecodeValues val = Ok (Values (e_length e) (e_digest e) (c_hash C token))).
  { unfold val. rewrite <- (app_nil_r (EncodeValues _)). apply DecodeValues_EncodeValues; auto. }
  assert (G1 : forall q, held s0 q -> held s1 q).
  { intros q [Q1 Q2]. split; auto. cbn [kv s1 set_kv]. rewrite mget_mset. destruct (beqb _ _); congruence. }
  assert (G1e : held s1 (EntryPosition e)).
  { split; auto. cbn [kv s1 set_kv]. rewrite mget_mset, beqb_refl. discriminate. }
  assert (G1' : forall q, held s1 q -> held s0 q \/ q = EntryPosition e).
  { intros q [Q1 Q2]. cbn [kv s1 set_kv] in Q2. rewrite mget_mset in Q2.
    destruct (beqb_spec (key q) (key (EntryPosition e))) as [E|E]; [right; apply key_inj; auto|left; split; auto]. }
  assert (WR : forall s, budget s = None -> kv s = kv s1 ->
     (forall d, mget (refs s0) d <> None -> mget (refs s) d <> None) ->
     (SuccessorPath (e_path e) pp <> Ok None -> mget (refs s) (e_digest e) <> None) -> W s).
  { intros s B EK HR HD. split; auto.
    - rewrite EK. cbn. apply mset_sorted. apply W0.
    - rewrite EK. cbn [kv s1 set_kv]. intros k v Hin. apply mset_In in Hin as [Hin|Hin].
      + inversion Hin; subst. exists (EntryPosition e), (Values (e_length e) (e_digest e) (c_hash C token)).
        cbn [v_digest]. split; auto.
      + destruct (w_kv _ W0 _ _ Hin) as (q & w & A1 & A2 & A3 & A4). exists q, w. auto 8. }
  unfold bindM at 1, gets in H. change (tree s1) with (tree s0) in H.
  destruct (existsb (node_is (e_subspace e) (e_path e) (e_time e)) (tree s0)) eqn:EX.
  { (* the index has such a node: only where SuccessorPath has no answer *)
    unfold fail in H. inversion H; subst. split.
    - apply WR; auto; [apply W0|]. intros HS. exfalso. apply existsb_exists in EX as (n & Hn & E).
      destruct (node_is_spec (e_subspace e) (e_path e) (e_time e) n) as [K|]; [|discriminate].
      eapply HF; eauto.
    - split; [auto|]. split; [intros [xs K]; discriminate|]. split; [auto|]. intros q Hq. left. apply G1, H0, Hq. }
  set (nn := Node (e_subspace e) (e_path e) (e_time e) [] false) in *.
  set (s2 := set_tree (cons nn) s1) in *.
  unfold bindM at 1, ref_Increment in H. unfold bindM at 1, gets in H.
  set (c := match mget (refs s2) (e_digest e) with Some c => add64 c 1 | None => 1 end) in *. clearbody c.
  unfold bindM at 1, durable at 1 in H. change (budget s2) with (budget s0) in H. rewrite (w_budget _ W0) in H.
  unfold ret at 1 in H. set (s3 := set_refs (fun m => mset m (e_digest e) c) s2) in *.
  assert (W3 : W s3).
  { apply WR; auto.
    - apply W0.
    - cbn [refs s3 set_refs s2 set_tree s1 set_kv]. intros d Hd. rewrite mget_mset. destruct (beqb _ _); congruence.
    - cbn [refs s3 set_refs]. intros _. rewrite mget_mset, beqb_refl. discriminate. }
  assert (K3 : kv s3 = kv s1) by reflexivity. assert (T3 : tree s3 = nn :: tree s0) by reflexivity.
  assert (L3 : locked s3 = locked st) by exact L0. 
  assert (G3 : forall q, held st q -> held s3 q).
  { intros q Hq. apply (same_kt_held s1); [auto|]. apply G1, H0, Hq. }
  assert (G3e : held s3 (EntryPosition e)) by (apply (same_kt_held s1); auto).
  assert (G3' : forall q, held s3 q -> held s0 q \/ q = EntryPosition e).
  { intros q Hq. apply G1'. apply (same_kt_held s1) in Hq; auto. }
  clearbody s3. clear s2 s1 WR G1 G1e G1' K3 EX.
  assert (Stop : forall s, W s -> kv s = kv s3 -> locked s = locked s3 ->
    W s /\ locked s = locked st /\ held s (EntryPosition e) /\ forall q, held st q -> held s q \/ below q e).
  { intros s Ws Es Ls. split; auto. split; [congruence|]. split; [apply (same_kt_held s3); auto|].
    intros q Hq. left. apply (same_kt_held s3); auto. }
  unfold bindM at 1, PrunableEntries, PrefixedBy in H. do 2 unfold bindM at 1 in H. unfold lift at 1 in H.
  destruct (SuccessorPath (e_path e) pp) as [start| | | |] eqn:ES;
    try (inversion H; subst; destruct (Stop st' W3 eq_refl eq_refl) as (? & ? & ? & ?);
         split; [auto|]; split; [auto|]; split; [intros [? K]; discriminate|auto]; fail).
  unfold bindM at 1, lift at 1 in H.
  destruct (SuccessorPrefix (e_path e) pp) as [en| | | |] eqn:EE;
    try (inversion H; subst; destruct (Stop st' W3 eq_refl eq_refl) as (? & ? & ? & ?);
         split; [auto|]; split; [auto|]; split; [intros [? K]; discriminate|auto]; fail).
  unfold bindM at 1 in H. set (after := SuccessorPrefix_caller (e_path e) pp) in *.
  set (hd' := Node (e_subspace e) after (e_time e) [] false).
  set (s4 := set_tree _ s3) in H.
  assert (T4 : tree s4 = hd' :: tree s0) by (unfold s4; cbn [tree set_tree]; rewrite T3; reflexivity).
  assert (W4 : W s4).
  { destruct W3 as [B S K]. split; auto. }
  destruct (Stop s4 W4 eq_refl eq_refl) as (_ & L4 & G4e & G4).
  assert (Ts4 : T s4).
  { split.
    - rewrite T4. intros n [<-|Hn]; [|apply (t_ok _ T0); auto]. destruct Ok_ as [O1 O2].
      split; [apply caller_ok; auto|auto].
    - intros q Hq Hf. rewrite T4. apply (same_kt_held s3) in Hq; [|reflexivity].
      destruct (G3' q Hq) as [Hq0| ->].
      + destruct (t_full _ T0 q Hq0 Hf) as (n & Hn & E). exists n. split; [right; auto|auto].
      + exists hd'. split; [left; auto|]. unfold hd', node_pos, EntryPosition. cbn [n_sub n_path n_time].
        f_equal. unfold after. apply short_caller; auto. }
  assert (K4 : kv s4 = kv s3) by reflexivity.
  clearbody s4. unfold bindM at 1, gets in H. unfold ret at 1 in H. cbn [fst] in H.
  match type of H with context [prunable_loop C ?t ?cs s4] => set (cands := cs) in *;
    destruct (prunable_loop C t cands s4) as [r5 s5] eqn:E5 end.
  apply prunable_loop_T in E5 as (A1 & A2 & A3 & A4 & A5); auto.
  2:{ unfold cands, query. intros n Hn. apply filter_In in Hn. apply Hn. }
  assert (Cand : forall n, In n cands -> n_sub n = e_subspace e /\ proper_prefix_of (e_path e) (n_path n) /\ pos_ok (node_pos n)).
  { intros n Hn. unfold cands, query in Hn. apply filter_In in Hn as [Hn HI].
    pose proof (t_ok _ Ts4 n Hn) as On. split; [|split; auto]; eapply below_window; eauto;
      try apply Ok_; try apply On. }
  destruct r5 as [xs| | | |].
  2,3,4,5: inversion H; subst; assert (W5 : W st') by
     (destruct W4 as [B S K]; split; [congruence|congruence|rewrite A1, A2; auto]);
     split; [auto|]; split; [congruence|]; split; [intros [? K]; discriminate|]; split;
     [apply (same_kt_held s4); auto|intros q Hq; left; apply (same_kt_held s3); [congruence|auto]].
  destruct (A5 xs eq_refl) as [-> A6].
  assert (OX : forall x a, In (x, a) xs -> pos_ok (EntryPosition x)).
  { intros x a Hx. destruct (A6 x a Hx) as (n & Hn & _ & ->). apply Cand; auto. }
  apply prune_loop_W in H as (W6 & T6 & L6 & G6); auto.
  assert (BX : forall x a, In (x, a) xs -> below (EntryPosition x) e).
  { intros x a Hx. destruct (A6 x a Hx) as (n & Hn & Tn & ->). destruct (Cand n Hn) as (C1 & C2 & _).
    split; [|split]; auto. }
  split; auto. split; [congruence|]. split; [auto|]. split.
  - destruct (G6 _ G4e) as [K|(x & a & Hx & E)]; auto. exfalso. destruct (BX x a Hx) as (_ & K & _).
    rewrite <- E in K. eapply proper_self; eauto.
  - intros q Hq. destruct (G4 q Hq) as [K|K]; [|auto].
    destruct (G6 q K) as [K'|(x & a & Hx & ->)]; eauto.
Qed.

(** ** Operations *)

Definition covers (a b : position) : Prop :=
  pos_subspace a = pos_subspace b
  /\ ((pos_path a = pos_path b /\ pos_time b <= pos_time a)
      \/ (pos_path a <> [] /\ proper_prefix_of (pos_path a) (pos_path b) /\ pos_time b < pos_time a)).

Lemma covers_refl a : covers a a.
Proof. split; auto. left. split; auto. lia. Qed.
Lemma covers_trans a b c : covers a b -> covers b c -> covers a c.
Proof.
  intros [E1 H1] [E2 H2]. split; [congruence|].
  destruct H1 as [[P1 T1]|(N1 & P1 & T1)], H2 as [[P2 T2]|(N2 & P2 & T2)].
  - left. split; [congruence|lia].
  - right. rewrite P1. split; auto. split; auto. lia.
  - right. rewrite <- P2. split; auto. split; auto. lia.
  - right. split; auto. split; [|lia]. destruct P1 as (x & u & E1'), P2 as (y & v & E2').
    exists x, (u ++ y :: v). rewrite E2', E1', <- app_assoc. reflexivity.
Qed.

Definition Keeps (st st' : state) : Prop :=
  forall q, held st q -> exists q', held st' q' /\ covers q' q.
Lemma Keeps_same st st' : kv st' = kv st -> Keeps st st'.
Proof. intros E q Hq. exists q. split; [apply (same_kt_held st); auto|apply covers_refl]. Qed.
Lemma Keeps_trans a b c : Keeps a b -> Keeps b c -> Keeps a c.
Proof.
  intros H1 H2 q Hq. destruct (H1 q Hq) as (q1 & A1 & B1). destruct (H2 q1 A1) as (q2 & A2 & B2).
  exists q2. split; auto. eapply covers_trans; eauto.
Qed.

Definition MInv (st : state) : Prop := W st /\ (locked st = false -> T st).
Definition ing_ok (e : entry) : Prop :=
  pos_ok (EntryPosition e) /\ values_ok (Values (e_length e) (e_digest e) (c_hash C (e_subspace e))).

Lemma W_locked b st : W st -> W (set_locked b st).
Proof. intros [B S K]. split; auto. Qed.
Lemma T_locked b st : T st -> T (set_locked b st).
Proof. intros [A B]. split; auto. Qed.

Lemma IngestEntry_MInv e token st r st' : MInv st -> ing_ok e -> IngestEntry C e token st = (r, st') ->
  MInv st' /\ Keeps st st'.
Proof.
  intros [HW HT] [Oe Ve] H. unfold IngestEntry in H. unfold bindM at 1, lock in H.
  destruct (locked st) eqn:L.
  { inversion H; subst. split; [split; auto; congruence|apply Keeps_same; auto]. }
  specialize (HT eq_refl). set (s0 := set_locked true st) in *.
  assert (W0 : W s0) by (apply W_locked; auto). assert (T0 : T s0) by (apply T_locked; auto).
  assert (K0 : kv s0 = kv st) by reflexivity. assert (L0 : locked s0 = true) by reflexivity.
  assert (H0 : forall q, held st q <-> held s0 q) by reflexivity. clearbody s0.
  assert (Same : forall s, s = s0 -> MInv s /\ Keeps st s).
  { intros s ->. split; [split; [auto|congruence]|apply Keeps_same; auto]. }
  assert (Un : MInv (set_locked false s0) /\ Keeps st (set_locked false s0)).
  { split; [split; [apply W_locked; auto|intros; apply T_locked; auto]|apply Keeps_same; auto]. }
  destruct (negb (ns_equal (c_ns C) (e_namespace e))).
  { unfold bindM, unlock, fail in H. inversion H; subst. auto. }
  unfold IsAuthoriseWrite in H. destruct (beqb_spec (e_subspace e) token) as [ET|ET]; cbn [negb] in H.
  2:{ unfold bindM, unlock, fail in H. inversion H; subst. auto. }
  unfold bindM at 1 in H. destruct (DriverPrefixesOf C (e_subspace e) (e_path e) s0) as [r1 s1] eqn:E1.
  assert (S1 : s1 = s0 /\ (e_path e = [] -> r1 = Panic)).
  { unfold DriverPrefixesOf, bindM, lift, gets in E1. split.
    - destruct (slice _ _ _); inversion E1; auto.
    - intros EP. rewrite EP in E1. cbn in E1. inversion E1. auto. }
  destruct S1 as [-> Hp].
  destruct r1 as [ps| | | |]; try (inversion H; subst; auto; fail).
  assert (Hne : e_path e <> []) by (intros EP; specialize (Hp EP); discriminate). clear Hp.
  destruct (existsb (fun n => e_time e <=? n_time n) ps).
  { unfold bindM, unlock, fail in H. inversion H; subst. auto. }
  unfold bindM at 1 in H. unfold driver_Get, driver_Get_at in H. unfold bindM at 1 in H.
  destruct (storage_Get C (e_subspace e) (SuccessorSubspaceId (e_subspace e)) (e_path e) s0) as [r2 s2] eqn:E2.
  assert (S2 : s2 = s0).
  { unfold storage_Get, bindM, lift, gets in E2. destruct (SuccessorPath _ _); try (inversion E2; auto; fail).
    destruct (query _ _) as [|? [|]]; unfold ret in E2; inversion E2; auto. }
  subst s2. destruct r2 as [o| | | |]; try (inversion H; subst; auto; fail).
  (* the rest, from a state s without nodes at the position of e *)
  assert (Fin : forall s, W s -> T s -> locked s = true ->
     (SuccessorPath (e_path e) pp <> Ok None -> forall n, In n (tree s) -> node_pos n <> EntryPosition e) ->
     (forall q, held st q -> held s q \/ covers (EntryPosition e) q) ->
     forall r st', (let* pruned := InsertEntry C e token in unlock ;; ret pruned) s = (r, st') -> MInv st' /\ Keeps st st').
  { clear r st' H. intros s Ws Ts Ls HF HK r st' H. unfold bindM at 1 in H.
    destruct (InsertEntry C e token s) as [r3 s3] eqn:E3. rewrite <- ET in E3.
    destruct (InsertEntry_W e (e_subspace e) s r3 s3 Ws Ts Oe Hne Ve HF E3) as (W3 & L3 & T3 & G3 & G3').
    assert (KP : Keeps st s3).
    { intros q Hq. destruct (HK q Hq) as [K|K]; [|exists (EntryPosition e); auto].
      destruct (G3' q K) as [K'|(B1 & B2 & B3)]; [exists q; split; auto; apply covers_refl|].
      exists (EntryPosition e). split; auto. split; [cbn; auto|]. right. auto. }
    destruct r3 as [xs| | | |].
    { unfold bindM, unlock, ret in H. inversion H; subst. split; [split; [apply W_locked; auto|]|exact KP].
      intros _. apply T_locked. eauto. }
    all: inversion H; subst; split; auto; split; auto; congruence. }
  destruct o as [n|].
  2:{ (* nothing found *)
    unfold ret at 1 in H. unfold bindM at 1, ret at 1 in H. cbn [negb] in H.
    apply (Fin s0) in H; auto; [|intros q Hq; left; apply H0; auto].
    intros HS m Hm Em. unfold storage_Get, bindM, lift, gets in E2.
    destruct (SuccessorPath (e_path e) pp) as [en| | | |] eqn:ES; try discriminate.
    destruct (query _ _) as [|x [|]] eqn:EQ; try discriminate. destruct en as [en|]; [|congruence].
    assert (Hin : In m (query (tree s0) (path_window (e_subspace e) (SuccessorSubspaceId (e_subspace e)) (e_path e) (Some en)))).
    { unfold query. apply filter_In. split; auto. unfold node_pos, EntryPosition in Em. inversion Em as [[M1 M2 M3]].
      apply get_window; auto; try (right; auto; fail). destruct PP as (PO & _).
      pose proof (SuccessorPath_spec pp (e_path e) PO HB0 HB1 HB2) as SS. rewrite ES in SS.
      destruct Oe as [[O1 O2] _]. rewrite M2. apply SS; auto. }
    rewrite EQ in Hin. destruct Hin. }
  apply storage_Get_exact in E2 as (_ & Hn & Pn & Ln1 & Ln2 & en & Pe & EQ & ES); [|apply Oe|apply (t_ok _ T0)].
  assert (Sn : n_sub n = e_subspace e).
  { destruct Ln1 as [A|A], Ln2 as [B|B]; auto. exfalso. eapply bytes_lt_irrefl, bytes_lt_trans; eauto. }
  unfold bindM at 1, gets in H.
  destruct (mget (kv s0) (key (node_pos n))) as [b|] eqn:EB.
  2:{ unfold fail in H. inversion H; subst; auto. }
  pose proof (mget_In _ _ _ EB) as Hb. destruct (w_kv _ W0 _ _ Hb) as (q0 & w0 & Q1 & Q2 & Q3 & Q4).
  apply key_inj in Q2; auto; [|apply (t_ok _ T0); auto].
  unfold bindM at 1, lift in H. rewrite Q3 in H. unfold ret at 1 in H.
  unfold bindM at 1 in H. unfold replace_other in H. cbn [e_path e_time e_digest e_subspace] in H.
  rewrite (order_refl _ _ OrderPath_total) in H. cbn [Z.eqb] in H.
  destruct (N.leb_spec (e_time e) (n_time n)) as [Hle|Hlt].
  { unfold bindM, unlock, ret in H. cbn [negb] in H. unfold fail in H. inversion H; subst. auto. }
  set (o := Entry (c_ns C) (e_subspace e) (v_digest w0) (e_path e) (n_time n) (v_length w0)) in *.
  assert (Po : EntryPosition o = node_pos n).
  { unfold EntryPosition, node_pos, o. cbn [e_subspace e_path e_time]. rewrite Sn, Pn. reflexivity. }
  unfold bindM at 1 in H. destruct (driver_Delete C o s0) as [r3 s3] eqn:E3.
  apply driver_Delete_W in E3 as (-> & W3 & T3 & L3 & R3 & I3 & G3); [|auto|rewrite Po; apply (t_ok _ T0); auto].
  specialize (T3 T0). unfold bindM at 1 in H. destruct (payload_Erase C (v_auth w0) s3) as [r4 s4] eqn:E4.
  apply payload_Erase_kt in E4 as (S4 & R4 & ->); [|apply W3].
  assert (W4 : W s4) by (eapply same_kt_W; eauto; rewrite R4; auto). assert (T4 : T s4) by (eapply same_kt_T; eauto).
  assert (RD : mget (refs s4) (v_digest w0) <> None).
  { rewrite R4, R3. apply Q4. rewrite <- Q2. cbn [node_pos pos_path]. rewrite Pn, ES. discriminate. }
  assert (Fin2 : forall s, same_kt s4 s -> (forall d, mget (refs s4) d <> None -> mget (refs s) d <> None) ->
    forall r st', (let* pruned := InsertEntry C e token in unlock ;; ret pruned) s = (r, st') -> MInv st' /\ Keeps st st').
  { intros s Ss Rs. pose proof Ss as (S1 & S2 & S3 & _). destruct S4 as (A1 & A2 & A3 & _).
    apply Fin; [eapply same_kt_W; eauto|eapply same_kt_T; eauto|congruence| |].
    - intros _ m Hm Em. rewrite S2, A2 in Hm. apply I3 in Hm.
      assert (Hin : In m (query (tree s0) (path_window (e_subspace e) (SuccessorSubspaceId (e_subspace e)) (e_path e) (Some en)))).
      { unfold query. apply filter_In. split; auto. unfold node_pos, EntryPosition in Em. inversion Em as [[M1 M2 M3]].
        apply get_window; auto; try (right; auto; fail). rewrite M2; auto. }
      rewrite EQ in Hin. destruct Hin as [<-|[]]. unfold node_pos, EntryPosition in Em. inversion Em. lia.
    - intros q Hq. destruct (Position_dec q (EntryPosition o)) as [E|E].
      + right. subst q. split; [reflexivity|]. left. split; [reflexivity|]. unfold o. cbn. lia.
      + left. apply (same_kt_held s3); [congruence|]. apply G3. split; auto. apply H0; auto. }
  unfold bindM at 1 in H.
  destruct (negb (beqb (v_digest w0) (e_digest e))).
  - unfold bindM at 1 in H. destruct (ref_Decrement (v_digest w0) s4) as [r5 s5] eqn:E5.
    apply ref_Decrement_kt in E5 as (S5 & R5 & O5 & _); [|apply W4]. destruct (O5 RD) as [c ->].
    destruct (c =? 0).
    + destruct (payload_Erase C (v_digest w0) s5) as [r6 s6] eqn:E6.
      apply payload_Erase_kt in E6 as (S6 & R6 & ->); [|eapply w_budget, same_kt_W; eauto].
      unfold ret at 1 in H. cbn [negb] in H. apply (Fin2 s6) in H; auto.
      * destruct S5 as (? & ? & ? & ?), S6 as (? & ? & ? & ?). repeat split; congruence.
      * intros d Hd. rewrite R6. auto.
    + unfold ret at 1 2 in H. cbn [negb] in H. apply (Fin2 s5) in H; auto.
  - unfold ret at 1 2 in H. cbn [negb] in H. apply (Fin2 s4) in H; auto. repeat split; auto.
Qed.

Lemma MInv_refs st st' : same_kt st st' -> (forall d, mget (refs st) d <> None -> mget (refs st') d <> None) ->
  MInv st -> MInv st'.
Proof.
  intros S R [HW HT]. split; [eapply same_kt_W; eauto|]. intros L. eapply same_kt_T; eauto. apply HT.
  destruct S as (_ & _ & S & _). congruence.
Qed.

Lemma Set_MInv i auth now st r st' : MInv st -> ing_ok (set_entry C i now) -> Set_ C i auth now st = (r, st') ->
  MInv st' /\ Keeps st st'.
Proof.
  intros I O H. unfold Set_ in H. unfold bindM at 1, payload_Set in H. unfold bindM at 1, durable at 1 in H.
  rewrite (w_budget _ (proj1 I)) in H. unfold ret at 1 in H. cbn [fst snd] in H.
  change (Entry (c_ns C) (i_sub i) (c_hash C (i_payload i)) (i_path i) (if i_time i =? 0 then now else i_time i)
    (len (i_payload i))) with (set_entry C i now) in H.
  set (s0 := set_files _ st) in *.
  assert (I0 : MInv s0) by (apply (MInv_refs st); [repeat split; auto|auto|exact I]).
  assert (K0 : Keeps st s0) by (apply Keeps_same; auto). clearbody s0.
  unfold bindM at 1, lift in H. destruct (Authorise (set_entry C i now) auth) as [tok| | | |];
    try (inversion H; subst; auto; fail).
  unfold bindM at 1 in H. destruct (IngestEntry C (set_entry C i now) tok s0) as [r1 s1] eqn:E1.
  apply IngestEntry_MInv in E1 as [I1 K1]; auto. assert (K : Keeps st s1) by (eapply Keeps_trans; eauto).
  destruct r1 as [xs| | | |]; try (inversion H; subst; auto; fail).
  unfold bindM at 1, ref_Count in H. unfold bindM at 1, gets in H.
  destruct (mget (refs s1) (c_hash C (i_payload i))) as [c|]; [|unfold fail in H; inversion H; subst; auto].
  unfold ret at 1 in H. unfold bindM at 1 in H.
  destruct ((if c =? 0 then payload_Erase C (c_hash C (i_payload i)) else ret tt) s1) as [r2 s2] eqn:E2.
  assert (S2 : same_kt s1 s2 /\ refs s2 = refs s1 /\ r2 = Ok tt).
  { destruct (c =? 0); [eapply payload_Erase_kt; eauto; apply I1|].
    unfold ret in E2. inversion E2; subst. repeat split; auto. }
  destruct S2 as (S2 & R2 & ->). unfold ret in H. inversion H; subst.
  split; [eapply MInv_refs; eauto; rewrite R2; auto|].
  eapply Keeps_trans; [exact K|apply Keeps_same; apply S2].
Qed.

Lemma load_nodes_In m t n : load_nodes C m = Ok t -> In n t -> exists k v, In (k, v) m /\ DecodeKey k pp = Ok (node_pos n).
Proof.
  revert t. induction m as [|[k v] m IH]; cbn [load_nodes]; intros t H Hn.
  - inversion H; subst. destruct Hn.
  - destruct (load_node C (k, v)) as [n0| | | |] eqn:E; cbn [bind] in H; try discriminate.
    destruct (load_nodes C m) as [t0| | | |] eqn:E2; cbn [bind] in H; try discriminate. inversion H; subst.
    destruct Hn as [<-|Hn].
    + exists k, v. split; [left; auto|]. unfold load_node in E. cbn [fst snd] in E.
      destruct (DecodeKey k pp) as [q| | | |]; try discriminate;
        destruct (DecodeValues v); cbn [bind] in E; try discriminate.
      inversion E; subst. destruct q; reflexivity.
    + destruct (IH t0 eq_refl Hn) as (k' & v' & Hin & K). exists k', v'. split; [right; auto|auto].
Qed.

Lemma load_nodes_has m t k v q : load_nodes C m = Ok t -> In (k, v) m -> DecodeKey k pp = Ok q ->
  exists n, In n t /\ node_pos n = q.
Proof.
  revert t. induction m as [|[k0 v0] m IH]; cbn [load_nodes]; intros t H Hin Hk; [destruct Hin|].
  destruct (load_node C (k0, v0)) as [n0| | | |] eqn:E; cbn [bind] in H; try discriminate.
  destruct (load_nodes C m) as [t0| | | |] eqn:E2; cbn [bind] in H; try discriminate. inversion H; subst.
  destruct Hin as [Hin|Hin].
  - inversion Hin; subst. unfold load_node in E. cbn [fst snd] in E. rewrite Hk in E.
    destruct (DecodeValues v); cbn [bind] in E; try discriminate. inversion E; subst.
    eexists. split; [left; reflexivity|]. destruct q; reflexivity.
  - destruct (IH t0 eq_refl Hin Hk) as (n & Hn & En). exists n. split; [right; auto|auto].
Qed.

Lemma reopen_MInv st st' : W st -> reopen C st = Ok st' -> MInv st' /\ Keeps st st'.
Proof.
  intros HW H. unfold reopen in H. destruct (load_nodes C (kv st)) as [t| | | |] eqn:E; cbn [bind] in H; try discriminate.
  inversion H; subst. pose proof HW as [B S K].
  assert (HT : T (State (kv st) t (refs st) (files st) false None)).
  { split; cbn [tree].
    - intros n Hn. destruct (load_nodes_In _ _ _ E Hn) as (k & v & Hin & D).
      destruct (K _ _ Hin) as (q & w & Q1 & -> & _). rewrite key_decode in D by auto. inversion D; subst. auto.
    - intros q [Q1 Q2] _. cbn [kv] in Q2. apply mget_mem in Q2 as [v Hin].
      eapply load_nodes_has; eauto. apply key_decode; auto. }
  split; [split; [split; auto|auto]|apply Keeps_same; auto].
Qed.

Lemma step_MInv o st r st' : MInv st -> op_bounded C o -> step C o st = (r, st') -> MInv st' /\ Keeps st st'.
Proof.
  intros I O H.
  assert (G : forall e t, offer C o = Some (e, t) -> ing_ok e).
  { intros e t E. unfold op_bounded in O. rewrite E in O. destruct O as (O1 & O2 & O3 & O4 & O5 & O6).
    split; [split; [split; auto|auto]|]. split; [|split]; auto. }
  destruct o as [i auth now|e token|]; cbn [step] in H.
  - eapply Set_MInv; eauto. eapply G; reflexivity.
  - eapply IngestEntry_MInv; eauto. eapply G; reflexivity.
  - destruct (reopen C st) as [s| | | |] eqn:E; inversion H; subst.
    { eapply reopen_MInv; eauto. apply I. }
    all: split; [exact I|apply Keeps_same; reflexivity].
Qed.

Lemma goes_MInv st ops st' : MInv st -> Forall (op_bounded C) ops -> goes C st ops st' -> MInv st' /\ Keeps st st'.
Proof.
  intros I F H. induction H as [|ops o s r s' H IH E O|ops o s r s' s'' H IH E R].
  - split; auto. apply Keeps_same; auto.
  - apply Forall_app in F as [F1 F2]. inversion F2; subst. destruct (IH F1) as [I1 K1].
    destruct (step_MInv _ _ _ _ I1 H2 E) as [I2 K2]. split; auto. eapply Keeps_trans; eauto.
  - apply Forall_app in F as [F1 F2]. inversion F2; subst. destruct (IH F1) as [I1 K1].
    destruct (step_MInv _ _ _ _ I1 H2 E) as [I2 K2]. destruct (reopen_MInv _ _ (proj1 I2) R) as [I3 K3].
    split; auto. eapply Keeps_trans; [exact K1|]. eapply Keeps_trans; eauto.
Qed.

Lemma MInv_empty : MInv empty_store.
Proof.
  split; [split; cbn; auto; [constructor|intros k v []]|]. intros _. split; cbn.
  - intros n [].
  - intros q [_ Q]. cbn in Q. congruence.
Qed.

Lemma held_live st e : W st -> live C st e -> held st (EntryPosition e).
Proof.
  intros HW (_ & k & v & w & Hin & D & _). destruct (w_kv _ HW _ _ Hin) as (q & w' & Q1 & -> & _).
  rewrite key_decode in D by auto. inversion D; subst. split; auto. apply mget_mem. eauto.
Qed.
Lemma live_held st q : W st -> held st q -> exists x, live C st x /\ EntryPosition x = q.
Proof.
  intros HW [Q1 Q2]. apply mget_mem in Q2 as [v Hin]. destruct (w_kv _ HW _ _ Hin) as (q' & w & Q1' & E & D & _).
  apply key_inj in E; auto. subst q'. exists (Entry (c_ns C) (pos_subspace q) (v_digest w) (pos_path q) (pos_time q) (v_length w)).
  split; [|destruct q; reflexivity]. split; [reflexivity|]. exists (key q), v, w. split; auto. split; [|auto].
  rewrite key_decode by auto. destruct q; reflexivity.
Qed.
End Mono.
