(** C86: GrowingBytes with several readers. *)
From Verif Require Import Base M_Growing P_Growing M_Readers.
Local Open Scope N_scope.

(** ** Invariant *)

(** The lines between 79 and 94, and 84: the reader has the lock. *)
Definition has_lock (c : rpc) : Prop := match c with RLocked _ | RToken _ _ | RWaitOld _ _ => True | _ => False end.
(** The resolver a reader has or waits at. *)
Definition resolver (c : rpc) : option nat := match c with RToken _ id | RWait _ id | RWaitOld _ id => Some id | _ => None end.
(** How often something can still be received from resolver [id]: what is in it, and
    the deferred request when 51 can still come. *)
Definition in_box (id : nat) (bs : list (nat * (bytes * bytes))) : nat := length (filter (fun b => Nat.eqb (fst b) id) bs).
Definition to_come (id : nat) (p : producer_pc) (def : option (nat * N)) : nat :=
  match p, def with PClear, _ => 0%nat | _, Some (i, _) => if Nat.eqb i id then 1%nat else 0%nat | _, None => 0%nat end.
Definition supply (id : nat) (s : rstate) : nat := (in_box id (r_boxes s) + to_come id (r_p s) (r_deferred s))%nat.

Record rinv (s : rstate) : Prop := {
  ri_stream : r_sent s = r_gone s ++ r_array s ++ in_hand (r_p s) ++ concat (r_in s);
  ri_boxes : forall id g b, In (id, (g, b)) (r_boxes s) -> (id < r_next s)%nat /\ exists later, r_sent s = g ++ b ++ later;
  ri_returned : forall i n g b, In (i, n, g, b) (r_returned s) -> exists later, r_sent s = g ++ b ++ later;
  ri_deferred : forall id n, r_deferred s = Some (id, n) -> (id < r_next s)%nat;
  ri_send : r_p s = PSend -> r_deferred s <> None;
  ri_ids : forall i id, resolver (r_c s i) = Some id -> (id < r_next s)%nat;
  ri_held : forall i, has_lock (r_c s i) -> r_held s = true;
  ri_one : forall i j, has_lock (r_c s i) -> has_lock (r_c s j) -> i = j;
  ri_supply : forall id, (supply id s <= 1)%nat
}.

Ltac rs := cbn [r_in r_array r_held r_deferred r_token r_boxes r_next r_p r_c r_sent r_gone r_returned in_hand] in *.

Lemma upd_eq c i x : upd c i x i = x. Proof. unfold upd. now rewrite Nat.eqb_refl. Qed.
Lemma upd_ne c i x j : j <> i -> upd c i x j = c j. Proof. unfold upd. intros H. apply Nat.eqb_neq in H. now rewrite H. Qed.

Lemma later_grow (s ch : bytes) (g b : bytes) : (exists later, s = g ++ b ++ later) -> exists later, s ++ ch = g ++ b ++ later.
Proof. intros (l & ->). exists (l ++ ch). now rewrite <- !app_assoc. Qed.

Lemma in_box_app id bs cs : in_box id (bs ++ cs) = (in_box id bs + in_box id cs)%nat.
Proof. unfold in_box. now rewrite filter_app, app_length. Qed.
Lemma in_box_out id bs : (forall b, In b bs -> fst b <> id) -> in_box id bs = 0%nat.
Proof.
  unfold in_box. induction bs as [|b bs IH]; intros H; [reflexivity|]. cbn [filter].
  rewrite (proj2 (Nat.eqb_neq _ _) (H b (or_introl eq_refl))). apply IH. intros c Hc. apply H. now right.
Qed.
Lemma take_spec id bs g b q : take id bs = Some (g, b, q) ->
  In (id, (g, b)) bs /\ (forall x, In x q -> In x bs) /\ in_box id bs = S (in_box id q) /\ forall k, k <> id -> in_box k q = in_box k bs.
Proof.
  revert q. induction bs as [|[i x] bs IH]; intros q; [discriminate|]. cbn [take]. destruct (Nat.eqb_spec i id) as [->|N].
  - intros [= -> <-]. split; [now left|]. split; [now right|]. unfold in_box. cbn [filter fst]. rewrite Nat.eqb_refl. split; [reflexivity|].
    intros k Hk. cbn [filter fst]. rewrite (proj2 (Nat.eqb_neq id k)); auto.
  - destruct (take id bs) as [[[g' b'] q']|]; [|discriminate]. intros [= -> -> <-]. destruct (IH q' eq_refl) as (A & B & C & D).
    split; [now right|]. split.
    + intros y [->|Hy]; [now left|right; auto].
    + unfold in_box in *. cbn [filter fst]. rewrite (proj2 (Nat.eqb_neq i id) N). split; [exact C|].
      intros k Hk. destruct (Nat.eqb i k); cbn [length]; [f_equal|]; apply D; auto.
Qed.

Lemma rinv_init : rinv rinit.
Proof. constructor; cbn; auto; try discriminate; try contradiction; try (intros; contradiction). Qed.

Lemma rcall_inv i n s : rinv s -> ~ has_lock (r_c s i) -> rinv (rcall i n s).
Proof.
  intros [HS HB HR HD HP HI HH HO HU] HN. destruct s as [inn arr held def tok boxes nxt p c sent gone ret].
  unfold rcall, supply in *. rs. destruct (n <=? len arr); constructor; unfold supply; rs; auto.
  - intros j m g b Hin. apply in_app_or in Hin as [Hin|[Hin|[]]]; [eauto|]. injection Hin as <- <- <- <-. eauto.
  - intros j id. destruct (Nat.eq_dec j i) as [->|Hj]; [rewrite upd_eq; discriminate|rewrite upd_ne; eauto].
  - intros j. destruct (Nat.eq_dec j i) as [->|Hj]; [rewrite upd_eq; cbn; tauto|rewrite upd_ne; eauto].
  - intros j k. destruct (Nat.eq_dec j i) as [->|Hj]; [rewrite upd_eq; cbn; tauto|rewrite (upd_ne _ _ _ j) by auto].
    destruct (Nat.eq_dec k i) as [->|Hk]; [rewrite upd_eq; cbn; tauto|rewrite upd_ne; eauto].
  - intros j id. destruct (Nat.eq_dec j i) as [->|Hj]; [rewrite upd_eq; discriminate|rewrite upd_ne; eauto].
  - intros j. destruct (Nat.eq_dec j i) as [->|Hj]; [rewrite upd_eq; cbn; tauto|rewrite upd_ne; eauto].
  - intros j k. destruct (Nat.eq_dec j i) as [->|Hj]; [rewrite upd_eq; cbn; tauto|rewrite (upd_ne _ _ _ j) by auto].
    destruct (Nat.eq_dec k i) as [->|Hk]; [rewrite upd_eq; cbn; tauto|rewrite upd_ne; eauto].
Qed.

(** A reader moves to a place without lock and without new resolver. *)
Lemma move_inv s i x held tok : rinv s -> ~ has_lock x -> (forall id, resolver x = Some id -> resolver (r_c s i) = Some id) ->
  (held = r_held s \/ has_lock (r_c s i)) ->
  rinv (RState (r_in s) (r_array s) held (r_deferred s) tok (r_boxes s) (r_next s) (r_p s) (upd (r_c s) i x) (r_sent s) (r_gone s) (r_returned s)).
Proof.
  intros [HS HB HR HD HP HI HH HO HU] HN HX HL. constructor; unfold supply in *; rs; auto.
  - intros j id. destruct (Nat.eq_dec j i) as [->|Hj]; [rewrite upd_eq; eauto|rewrite upd_ne; eauto].
  - intros j. destruct (Nat.eq_dec j i) as [->|Hj]; [rewrite upd_eq; tauto|rewrite upd_ne by auto].
    intros Hj'. destruct HL as [->|HL]; [eauto|]. elim Hj. eauto.
  - intros j k. destruct (Nat.eq_dec j i) as [->|Hj]; [rewrite upd_eq; tauto|rewrite (upd_ne _ _ _ j) by auto].
    destruct (Nat.eq_dec k i) as [->|Hk]; [rewrite upd_eq; tauto|rewrite upd_ne; eauto].
Qed.
(** A reader moves to a place with the lock: it has it already, or the lock was free. *)
Lemma lock_inv s i x : rinv s -> (has_lock (r_c s i) \/ r_held s = false) ->
  (forall id, resolver x = Some id -> (id < r_next s)%nat) ->
  rinv (RState (r_in s) (r_array s) true (r_deferred s) (r_token s) (r_boxes s) (r_next s) (r_p s) (upd (r_c s) i x) (r_sent s) (r_gone s) (r_returned s)).
Proof.
  intros [HS HB HR HD HP HI HH HO HU] HL HX. constructor; unfold supply in *; rs; auto.
  - intros j id. destruct (Nat.eq_dec j i) as [->|Hj]; [rewrite upd_eq; eauto|rewrite upd_ne; eauto].
  - intros j k. assert (NO : forall m, m <> i -> has_lock (r_c s m) -> False).
    { intros m Hm Hl. destruct HL as [HL|HL]; [apply Hm; eauto|rewrite (HH _ Hl) in HL; discriminate]. }
    destruct (Nat.eq_dec j i) as [->|Hj]; [|rewrite (upd_ne _ _ _ j) by auto; intros H; elim (NO _ Hj H)].
    destruct (Nat.eq_dec k i) as [->|Hk]; [auto|rewrite (upd_ne _ _ _ k) by auto; intros _ H; elim (NO _ Hk H)].
Qed.

Lemma rstep_inv l s s' : rinv s -> rstep l s = Some s' -> rinv s'.
Proof.
  intros I. pose proof I as [HS HB HR HD HP HI HH HO HU]. destruct s as [inn arr held def tok boxes nxt p c sent gone ret].
  destruct l as [ch| | | |i n|i k|i k|i]; cbn [rstep]; unfold supply in *; rs.
  - intros [= <-]. constructor; unfold supply; rs; auto.
    + rewrite HS, concat_app. cbn. rewrite app_nil_r, <- !app_assoc. auto.
    + intros id g b Hin. destruct (HB id g b Hin). split; auto using later_grow.
    + intros. eauto using later_grow.
  - destruct p, tok; try discriminate. intros [= <-]. constructor; unfold supply; rs; auto.
  - destruct p, inn; try discriminate. intros [= <-]. constructor; unfold supply; rs; auto. discriminate.
  - destruct p as [|ch| | | |]; try discriminate.
    + destruct held; [discriminate|]. intros [= <-]. constructor; unfold supply; rs; auto; try discriminate.
      rewrite HS, <- !app_assoc. auto.
    + destruct def as [[id n]|].
      * intros [= <-]. destruct (n <=? len arr); constructor; unfold supply; rs; auto; discriminate.
      * intros [= <-]. constructor; unfold supply; rs; auto; discriminate.
    + destruct def as [[id n]|]; [|discriminate]. intros [= <-]. constructor; unfold supply; rs; auto; try discriminate.
      * intros k g b Hin. apply in_app_or in Hin as [Hin|[Hin|[]]]; [eauto|]. injection Hin as <- <- <-. split; eauto.
      * intros k. specialize (HU k). cbn [to_come] in *. rewrite in_box_app. unfold in_box at 2. cbn [filter fst].
        destruct (Nat.eqb id k); cbn [length] in *; lia.
    + intros [= <-]. constructor; unfold supply; rs; auto; try discriminate.
    + destruct tok; [discriminate|]. intros [= <-]. constructor; unfold supply; rs; auto; try discriminate.
  - destruct (c i) eqn:EC; try discriminate. intros [= <-]. apply rcall_inv; auto. rs. rewrite EC. cbn. tauto.
  - destruct (c i) eqn:EC; try discriminate. intros [= <-].
    apply (move_inv _ i (RTarget (len arr + k)) held tok) in I; rs; auto. cbn. discriminate.
  - destruct (c i); try discriminate. destruct held; [discriminate|]. intros [= <-].
    remember (if len arr <=? k then length arr else N.to_nat k) as cut. constructor; unfold supply; rs; auto.
    rewrite HS, <- !app_assoc, (app_assoc (firstn cut arr)), firstn_skipn. auto.
  - destruct (c i) as [|n|n|n|n id|n id|n id] eqn:EC; try discriminate.
    + intros [= <-]. apply rcall_inv; auto. rs. rewrite EC. cbn. tauto.
    + destruct held; [discriminate|]. intros [= <-]. apply (lock_inv _ i (RLocked n)) in I; rs; auto. cbn. discriminate.
    + assert (L : held = true) by (apply (HH i); rewrite EC; exact Logic.I). subst held.
      assert (Fresh : rinv (RState inn arr true (Some (nxt, n)) tok boxes (S nxt) p (upd c i (RToken n nxt)) sent gone ret)).
      { constructor; unfold supply; rs; auto.
        - intros k g b Hin. destruct (HB k g b Hin). split; auto.
        - intros k m [= <- <-]. auto.
        - intros _. discriminate.
        - intros j k. destruct (Nat.eq_dec j i) as [->|Hj]; [rewrite upd_eq; intros [= <-]; auto|rewrite upd_ne by auto].
          intros H. apply HI in H. auto.
        - intros j k. assert (NO : forall m, m <> i -> has_lock (c m) -> False).
          { intros m Hm Hl. apply Hm. apply HO; auto. rewrite EC. exact Logic.I. }
          destruct (Nat.eq_dec j i) as [->|Hj]; [|rewrite (upd_ne _ _ _ j) by auto; intros H; elim (NO _ Hj H)].
          destruct (Nat.eq_dec k i) as [->|Hk]; [auto|rewrite (upd_ne _ _ _ k) by auto; intros _ H; elim (NO _ Hk H)].
        - intros k. destruct (Nat.eq_dec k nxt) as [->|Hk].
          + rewrite in_box_out; [|intros [j [g b]] Hin; apply HB in Hin as [Hin _]; cbn; lia].
            unfold to_come. destruct p; try lia; rewrite Nat.eqb_refl; lia.
          + specialize (HU k). assert (T : to_come k p (Some (nxt, n)) = 0%nat).
            { unfold to_come. destruct p; auto; rewrite (proj2 (Nat.eqb_neq nxt k)); auto. }
            rewrite T. lia. }
      destruct def as [[id m]|]; [destruct (m =? n)|]; intros [= <-]; auto.
      apply (lock_inv _ i (RWaitOld n id)) in I; rs; auto.
      * left. rewrite EC. exact Logic.I.
      * cbn. intros k [= <-]. eauto.
    + destruct tok; [discriminate|]. intros [= <-]. apply (move_inv _ i (RWait n id) false true) in I; rs; auto.
      * rewrite EC. auto.
      * right. rewrite EC. exact Logic.I.
    + destruct (take id boxes) as [[[g b] bs]|] eqn:ET; [|discriminate]. intros [= <-].
      apply take_spec in ET as (T1 & T2 & T3 & T4). apply (move_inv _ i RIdle held tok) in I; rs; auto; [|cbn; discriminate].
      destruct I as [IS IB IR ID IP II IH IO IU]. rs. constructor; unfold supply in *; rs; auto.
      * intros j m g' b' Hin. apply in_app_or in Hin as [Hin|[Hin|[]]]; [eauto|]. injection Hin as <- <- <- <-. eapply HB; eauto.
      * intros k. specialize (HU k). destruct (Nat.eq_dec k id) as [->|Hk]; [rewrite T3 in HU; lia|rewrite T4; auto].
    + destruct (take id boxes) as [[[g b] bs]|] eqn:ET; [|discriminate]. intros [= <-].
      apply take_spec in ET as (T1 & T2 & T3 & T4). apply (move_inv _ i RIdle held tok) in I; rs; auto; [|cbn; discriminate].
      destruct I as [IS IB IR ID IP II IH IO IU]. rs. constructor; unfold supply in *; rs; auto.
      * intros j m g' b' Hin. apply in_app_or in Hin as [Hin|[Hin|[]]]; [eauto|]. injection Hin as <- <- <- <-. eapply HB; eauto.
      * intros k. specialize (HU k). destruct (Nat.eq_dec k id) as [->|Hk]; [rewrite T3 in HU; lia|rewrite T4; auto].
Qed.

Lemma rruns_inv ls : forall s s', rinv s -> rruns ls s = Some s' -> rinv s'.
Proof.
  induction ls as [|l ls IH]; intros s s' H E; cbn [rruns] in E; [injection E as <-; auto|].
  destruct (rstep l s) as [s1|] eqn:E1; [|discriminate]. eapply IH; [eapply rstep_inv; eauto|exact E].
Qed.

(** ** Resolvers run dry *)

(** Waiting for what comes out of resolver [id]. *)
Definition waits_at (id : nat) (c : rpc) : Prop := match c with RWait _ k | RWaitOld _ k => k = id | _ => False end.

Lemma supply_step l s s' id : rinv s -> (id < r_next s)%nat -> rstep l s = Some s' ->
  (r_next s <= r_next s')%nat /\ (supply id s' <= supply id s)%nat
  /\ forall i, waits_at id (r_c s i) -> r_c s' i = r_c s i \/ (supply id s' < supply id s)%nat.
Proof.
  intros [HS HB HR HD HP HI HH HO HU] HN. destruct s as [inn arr held def tok boxes nxt p c sent gone ret].
  assert (MV : forall i x j, ~ waits_at id (c i) -> waits_at id (c j) -> upd c i x j = c j).
  { intros i x j H1 H2. apply upd_ne. intros ->. auto. }
  destruct l as [ch| | | |i n|i k|i k|i]; cbn [rstep]; unfold supply; rs.
  - intros [= <-]. rs. auto.
  - destruct p, tok; try discriminate. intros [= <-]. rs. auto.
  - destruct p, inn; try discriminate. intros [= <-]. rs. auto.
  - destruct p as [|ch| | | |]; try discriminate.
    + destruct held; [discriminate|]. intros [= <-]. rs. auto.
    + destruct def as [[k n]|]; intros [= <-]; rs; [destruct (n <=? len arr)|]; auto.
    + destruct def as [[k n]|]; [|discriminate]. intros [= <-]. rs. split; auto. split; auto.
      rewrite in_box_app. cbn [to_come]. unfold in_box at 2. cbn [filter fst]. destruct (Nat.eqb k id); cbn [length]; lia.
    + intros [= <-]. rs. split; auto.
    + destruct tok; [discriminate|]. intros [= <-]. rs. auto.
  - destruct (c i) eqn:EC; try discriminate. intros [= <-]. unfold rcall. rs. destruct (n <=? len arr); rs; split; auto; split; auto;
      intros j Hj; left; apply MV; auto; rewrite EC; cbn; tauto.
  - destruct (c i) eqn:EC; try discriminate. intros [= <-]. rs. split; auto. split; auto. intros j Hj. left. apply MV; auto. rewrite EC. cbn. tauto.
  - destruct (c i) eqn:EC; try discriminate. destruct held; [discriminate|]. intros [= <-]. rs. auto.
  - destruct (c i) as [|n|n|n|n k|n k|n k] eqn:EC; try discriminate.
    + intros [= <-]. unfold rcall. rs. destruct (n <=? len arr); rs; split; auto; split; auto;
        intros j Hj; left; apply MV; auto; rewrite EC; cbn; tauto.
    + destruct held; [discriminate|]. intros [= <-]. rs. split; auto. split; auto. intros j Hj. left. apply MV; auto. rewrite EC. cbn. tauto.
    + assert (T : forall n, to_come id p (Some (nxt, n)) = 0%nat).
      { intros m. unfold to_come. destruct p; auto; rewrite (proj2 (Nat.eqb_neq nxt id)); auto; lia. }
      assert (W : ~ waits_at id (c i)) by (rewrite EC; cbn; tauto).
      destruct def as [[k m]|]; [destruct (m =? n)|]; intros [= <-]; rs; try rewrite T; (split; [auto|]); (split; [lia|]); auto.
    + destruct tok; [discriminate|]. intros [= <-]. rs. split; auto. split; auto. intros j Hj. left. apply MV; auto. rewrite EC. cbn. tauto.
    + destruct (take k boxes) as [[[g b] bs]|] eqn:ET; [|discriminate]. intros [= <-]. rs.
      apply take_spec in ET as (T1 & T2 & T3 & T4). split; auto. destruct (Nat.eq_dec id k) as [->|Hk].
      * rewrite T3. split; [lia|]. intros. right. lia.
      * rewrite T4 by auto. split; auto. intros j Hj. left. apply MV; auto. rewrite EC. cbn. auto.
    + destruct (take k boxes) as [[[g b] bs]|] eqn:ET; [|discriminate]. intros [= <-]. rs.
      apply take_spec in ET as (T1 & T2 & T3 & T4). split; auto. destruct (Nat.eq_dec id k) as [->|Hk].
      * rewrite T3. split; [lia|]. intros. right. lia.
      * rewrite T4 by auto. split; auto. intros j Hj. left. apply MV; auto. rewrite EC. cbn. auto.
Qed.

Lemma waits_resolver id c : waits_at id c -> resolver c = Some id.
Proof. destruct c; cbn; try contradiction; intros ->; reflexivity. Qed.

Lemma dry_runs ls : forall s s' id i, rinv s -> waits_at id (r_c s i) -> supply id s = 0%nat -> rruns ls s = Some s' ->
  r_c s' i = r_c s i.
Proof.
  induction ls as [|l ls IH]; intros s s' id i I W D E; cbn [rruns] in E; [injection E as <-; auto|].
  destruct (rstep l s) as [s1|] eqn:E1; [|discriminate].
  assert (HN : (id < r_next s)%nat) by (apply (ri_ids _ I i); apply waits_resolver; auto).
  destruct (supply_step _ _ _ _ I HN E1) as (A & B & C). destruct (C i W) as [C'|C']; [|lia]. rewrite <- C' in *.
  eapply IH; eauto using rstep_inv. lia.
Qed.

(** ** Theorems *)

(** Whatever the readers do at the same time, what a call returns is a stretch of the
    stream, and no byte is lost. *)
Theorem C86_stretch ls s : rruns ls rinit = Some s ->
  forall i n gone b, In (i, n, gone, b) (r_returned s) -> exists later, r_sent s = gone ++ b ++ later.
Proof. intros E. exact (ri_returned _ (rruns_inv _ _ _ rinv_init E)). Qed.

Theorem C86_nothing_lost ls s : rruns ls rinit = Some s ->
  exists in_hand, r_sent s = r_gone s ++ r_array s ++ in_hand ++ concat (r_in s) /\ (in_hand <> [] -> r_p s = PGot in_hand).
Proof.
  intros E. exists (in_hand (r_p s)). split; [exact (ri_stream _ (rruns_inv _ _ _ rinv_init E))|].
  destruct (r_p s); cbn; try contradiction; auto.
Qed.

(** The goroutine never finds the request gone between 50 and 51. *)
Theorem C86_no_nil ls s : rruns ls rinit = Some s -> r_p s = PSend -> exists s', rstep SProducer s = Some s'.
Proof.
  intros E HP. pose proof (ri_send _ (rruns_inv _ _ _ rinv_init E) HP) as D. destruct s as [inn arr held def tok boxes nxt p c sent gone ret]. rs.
  subst p. cbn [rstep]. destruct def as [[id n]|]; [eauto|contradiction].
Qed.

(** A call whose request is no longer the deferred one, and for which nothing is in
    the resolver, never returns. *)
Theorem C86_forgotten ls s i n id : rruns ls rinit = Some s ->
  r_c s i = RWait n id \/ r_c s i = RWaitOld n id ->
  (forall g b, ~ In (id, (g, b)) (r_boxes s)) -> (forall m, r_deferred s <> Some (id, m)) ->
  forall ls' s', rruns ls' s = Some s' -> r_c s' i = r_c s i.
Proof.
  intros E W B D ls' s' E'. apply (dry_runs ls' s s' id i); auto.
  - eapply rruns_inv; eauto using rinv_init.
  - destruct W as [-> | ->]; reflexivity.
  - unfold supply. rewrite in_box_out; [|intros [k [g b]] Hin; cbn; intros ->; eapply B; eauto].
    destruct (r_deferred s) as [[k m]|]; [|destruct (r_p s); reflexivity].
    assert (k <> id) by (intros ->; eapply D; eauto). unfold to_come. destruct (r_p s); auto; rewrite (proj2 (Nat.eqb_neq k id)); auto.
Qed.

(** Of two calls that wait at the same resolver at least one never returns. Lines
    82-85 make a second call for the same length wait there. *)
Theorem C86_one_of_two ls s i j n m id : rruns ls rinit = Some s -> i <> j ->
  r_c s i = RWait n id \/ r_c s i = RWaitOld n id -> r_c s j = RWait m id \/ r_c s j = RWaitOld m id ->
  forall ls' s', rruns ls' s = Some s' -> r_c s' i = r_c s i \/ r_c s' j = r_c s j.
Proof.
  intros E NE Wi Wj ls' s' E'. pose proof (rruns_inv _ _ _ rinv_init E) as I. clear E.
  assert (Wi' : waits_at id (r_c s i)) by (destruct Wi as [-> | ->]; reflexivity).
  assert (Wj' : waits_at id (r_c s j)) by (destruct Wj as [-> | ->]; reflexivity).
  clear Wi Wj. revert s I Wi' Wj' E'. induction ls' as [|l ls' IH]; intros s I Wi Wj E; cbn [rruns] in E; [injection E as <-; auto|].
  destruct (rstep l s) as [s1|] eqn:E1; [|discriminate]. pose proof (rstep_inv _ _ _ I E1) as I1.
  assert (HN : (id < r_next s)%nat) by (apply (ri_ids _ I i); apply waits_resolver; auto).
  destruct (supply_step _ _ _ _ I HN E1) as (A & B & C). pose proof (ri_supply _ I id) as U.
  destruct (C i Wi) as [Ci|Ci], (C j Wj) as [Cj|Cj].
  - rewrite <- Ci, <- Cj in *. apply IH; auto.
  - left. rewrite <- Ci in *. apply (dry_runs ls' s1 s' id i); auto. lia.
  - right. rewrite <- Cj in *. apply (dry_runs ls' s1 s' id j); auto. lia.
  - (* one step moves one reader *)
    assert (O : r_c s1 i = r_c s i \/ r_c s1 j = r_c s j).
    { clear - E1 NE. destruct s as [inn arr held def tok boxes nxt p c sent gone ret].
      assert (U : forall k x, upd c k x i = c i \/ upd c k x j = c j).
      { intros k x. destruct (Nat.eq_dec i k) as [<-|H]; [right|left]; apply upd_ne; auto. }
      destruct l as [ch| | | |k n|k n|k n|k]; cbn [rstep] in E1; unfold rcall in E1; rs;
        repeat match goal with
               | H : match ?x with _ => _ end = Some _ |- _ => destruct x; try discriminate
               | H : Some _ = Some _ |- _ => injection H as <-; rs
               end; auto;
        repeat match goal with |- context[if ?b then _ else _] => destruct b; rs end; auto. }
    destruct O as [O|O].
    + left. rewrite <- O in *. apply (dry_runs ls' s1 s' id i); auto. lia.
    + right. rewrite <- O in *. apply (dry_runs ls' s1 s' id j); auto. lia.
Qed.

(** A second call for a length that is already asked for waits with the lock (84). If
    the goroutine has not yet passed the lock, nothing is ever appended or pruned
    again, and that call never returns. *)
Theorem C86_wedge ls s i n id : rruns ls rinit = Some s -> r_c s i = RWaitOld n id ->
  (forall g b, ~ In (id, (g, b)) (r_boxes s)) -> (r_p s = PSelect \/ exists ch, r_p s = PGot ch) ->
  forall ls' s', rruns ls' s = Some s' ->
    r_c s' i = RWaitOld n id /\ r_array s' = r_array s /\ r_gone s' = r_gone s /\ r_held s' = true.
Proof.
  intros E W B P ls' s' E'. pose proof (rruns_inv _ _ _ rinv_init E) as I. clear E.
  revert s I W B P E'. induction ls' as [|l ls' IH]; intros s I W B P E; cbn [rruns] in E.
  { injection E as <-. repeat split; auto. apply (ri_held _ I i). rewrite W. exact Logic.I. }
  destruct (rstep l s) as [s1|] eqn:E1; [|discriminate]. pose proof (rstep_inv _ _ _ I E1) as I1.
  assert (H : r_held s = true) by (apply (ri_held _ I i); rewrite W; exact Logic.I).
  assert (NL : forall j, has_lock (r_c s j) -> j = i) by (intros j Hj; apply (ri_one _ I); auto; rewrite W; exact Logic.I).
  assert (K : r_c s1 i = RWaitOld n id /\ r_array s1 = r_array s /\ r_gone s1 = r_gone s
              /\ (forall g b, ~ In (id, (g, b)) (r_boxes s1)) /\ (r_p s1 = PSelect \/ exists ch, r_p s1 = PGot ch)).
  { clear IH E I I1. destruct s as [inn arr held def tok boxes nxt p c sent gone ret]. rs. subst held.
    assert (NE : forall j x, c j <> RWaitOld n id -> upd c j x i = RWaitOld n id).
    { intros j x Hj. rewrite upd_ne; auto. intros ->. auto. }
    assert (TK : forall k g b bs, take k boxes = Some (g, b, bs) -> k <> id /\ forall g b, ~ In (id, (g, b)) bs).
    { intros k g b bs T. apply take_spec in T as (T1 & T2 & _). split; [intros ->; eapply B; eauto|].
      intros g' b' Hin. eapply B; eauto. }
    destruct l as [ch| | | |k m|k m|k m|k]; cbn [rstep] in E1.
    - injection E1 as <-. rs. auto 8.
    - destruct p, tok; try discriminate. injection E1 as <-. rs. auto 8.
    - destruct p, inn; try discriminate. injection E1 as <-. rs. eauto 8.
    - destruct P as [->|[ch ->]]; discriminate.
    - destruct (c k) eqn:EC; try discriminate. injection E1 as <-. unfold rcall. rs.
      destruct (m <=? len arr); rs; (split; [apply NE; congruence|auto 8]).
    - destruct (c k) eqn:EC; try discriminate. injection E1 as <-. rs. split; [apply NE; congruence|auto 8].
    - destruct (c k); discriminate.
    - destruct (c k) as [|m|m|m|m q|m q|m q] eqn:EC; try discriminate.
      + injection E1 as <-. unfold rcall. rs. destruct (m <=? len arr); rs; (split; [apply NE; congruence|auto 8]).
      + assert (k = i) by (apply NL; rewrite EC; exact Logic.I). congruence.
      + assert (k = i) by (apply NL; rewrite EC; exact Logic.I). congruence.
      + destruct (take q boxes) as [[[g b] bs]|] eqn:ET; [|discriminate]. injection E1 as <-. rs.
        destruct (TK _ _ _ _ ET). split; [apply NE; congruence|auto 8].
      + destruct (take q boxes) as [[[g b] bs]|] eqn:ET; [|discriminate]. injection E1 as <-. rs.
        destruct (TK _ _ _ _ ET). split; [apply NE; congruence|auto 8]. }
  destruct K as (K1 & K2 & K3 & K4 & K5). destruct (IH s1 I1 K1 K4 K5 E) as (A1 & A2 & A3 & A4). repeat split; congruence.
Qed.

(** ** One reader *)

Definition of_reader (i : nat) (l : rlabel) : Prop :=
  match l with SCall j _ | SRelative j _ | SPrune j _ | SReader j => j = i | _ => True end.
Definition to_c (c : rpc) : reader_pc :=
  match c with
  | RIdle | RTarget _ => CIdle | RChecked n => CChecked n | RLocked n => CLocked n
  | RToken n id => CToken n id | RWait n id => CWait n id | RWaitOld n id => CWaitOld n id
  end.
(** The state as M_Growing.v has it when reader [i] is the only one. *)
Definition seen_by (i : nat) (s : rstate) : gstate :=
  GState (r_in s) (r_array s) (r_held s) (r_deferred s) (r_token s) (map (fun b => (fst b, snd (snd b))) (r_boxes s)) (r_next s)
    (r_p s) (to_c (r_c s i)) (r_sent s) (r_gone s) (map (fun r => let '(_, n, g, b) := r in (n, g, b)) (r_returned s)).

Lemma take_box_map id bs : take_box id (map (fun b => (fst b, snd (snd b))) bs)
  = match take id bs with Some (g, b, q) => Some (b, map (fun b => (fst b, snd (snd b))) q) | None => None end.
Proof.
  induction bs as [|[k [g b]] bs IH]; [reflexivity|]. cbn [map take take_box fst snd]. destruct (Nat.eqb k id); [reflexivity|].
  rewrite IH. destruct (take id bs) as [[[g' b'] q]|]; reflexivity.
Qed.

(** With one reader a step is a step of M_Growing.v, or changes nothing that is modelled there. *)
Lemma one_step i l s s' : ginv (seen_by i s) -> (forall id g b, In (id, (g, b)) (r_boxes s) -> g = r_gone s) ->
  of_reader i l -> rstep l s = Some s' ->
  ((exists l', gstep l' (seen_by i s) = Some (seen_by i s')) \/ seen_by i s' = seen_by i s)
  /\ (forall id g b, In (id, (g, b)) (r_boxes s') -> g = r_gone s').
Proof.
  intros GI GB OF E. destruct s as [inn arr held def tok boxes nxt p c sent gone ret]. unfold seen_by in *. rs.
  destruct l as [ch| | | |j m|j m|j m|j]; cbn [rstep of_reader] in *.
  - injection E as <-. rs. split; auto. left. exists (LSend ch). reflexivity.
  - destruct p, tok; try discriminate. injection E as <-. rs. split; auto. left. exists LTakeToken. reflexivity.
  - destruct p, inn; try discriminate. injection E as <-. rs. split; auto. left. exists LTakeChunk. reflexivity.
  - destruct p as [|ch| | | |]; try discriminate.
    + destruct held; [discriminate|]. injection E as <-. rs. split; auto. left. exists LProducer. reflexivity.
    + destruct def as [[k n]|]; injection E as <-; rs; (split; [|auto]); left; exists LProducer; reflexivity.
    + destruct def as [[k n]|]; [|discriminate]. injection E as <-. rs. split.
      * left. exists LProducer. cbn [gstep]. gs. rewrite map_app. reflexivity.
      * intros id g b Hin. apply in_app_or in Hin as [Hin|[Hin|[]]]; [eauto|]. injection Hin as <- <- <-. reflexivity.
    + injection E as <-. rs. split; auto. left. exists LProducer. reflexivity.
    + destruct tok; [discriminate|]. injection E as <-. rs. split; auto. left. exists LProducer. reflexivity.
  - subst j. destruct (c i) eqn:EC; try discriminate. injection E as <-. unfold rcall. rs. split.
    + left. exists (LCall m). cbn [gstep to_c]. gs. destruct (m <=? len arr); rs; rewrite upd_eq; cbn [to_c]; [rewrite map_app|]; reflexivity.
    + destruct (m <=? len arr); exact GB.
  - subst j. destruct (c i) eqn:EC; try discriminate. injection E as <-. rs. rewrite upd_eq. split; auto.
  - subst j. destruct (c i) eqn:EC; try discriminate. destruct held; [discriminate|]. injection E as <-. rs. rewrite EC. split.
    + left. exists (LPrune m). reflexivity.
    + destruct (gi_boxes _ GI) as [G|(id & n & b & t & _ & G & _)]; gs; [|discriminate].
      destruct boxes; [intros ? ? ? []|discriminate].
  - subst j. destruct (c i) as [|m|m|m|m q|m q|m q] eqn:EC; try discriminate.
    + injection E as <-. unfold rcall. rs. split.
      * left. exists (LCall m). cbn [gstep to_c]. gs. destruct (m <=? len arr); rs; rewrite upd_eq; cbn [to_c]; [rewrite map_app|]; reflexivity.
      * destruct (m <=? len arr); exact GB.
    + destruct held; [discriminate|]. injection E as <-. rs. rewrite upd_eq. split; auto. left. exists LReader. reflexivity.
    + destruct def as [[k n]|].
      * destruct (n =? m) eqn:EN; injection E as <-; rs; rewrite upd_eq; (split; [|auto]); left; exists LReader; cbn [gstep to_c]; gs; rewrite EN; reflexivity.
      * injection E as <-. rs. rewrite upd_eq. split; auto. left. exists LReader. reflexivity.
    + destruct tok; [discriminate|]. injection E as <-. rs. rewrite upd_eq. split; auto. left. exists LReader. reflexivity.
    + destruct (take q boxes) as [[[g b] bs]|] eqn:ET; [|discriminate]. injection E as <-. rs. rewrite upd_eq.
      pose proof (take_spec _ _ _ _ _ ET) as (T1 & T2 & _). split; [|eauto].
      left. exists LReader. cbn [gstep to_c]. gs. rewrite take_box_map, ET, map_app. cbn [map]. rewrite (GB _ _ _ T1). reflexivity.
    + destruct (take q boxes) as [[[g b] bs]|] eqn:ET; [|discriminate]. injection E as <-. rs. rewrite upd_eq.
      pose proof (take_spec _ _ _ _ _ ET) as (T1 & T2 & _). split; [|eauto].
      left. exists LReader. cbn [gstep to_c]. gs. rewrite take_box_map, ET, map_app. cbn [map]. rewrite (GB _ _ _ T1). reflexivity.
Qed.

Lemma gruns_app ls ls' : forall s s1, gruns ls s = Some s1 -> gruns (ls ++ ls') s = gruns ls' s1.
Proof.
  induction ls as [|l ls IH]; intros s s1 E; cbn [gruns app] in *; [now injection E as ->|].
  destruct (gstep l s); [apply IH; auto|discriminate].
Qed.

Lemma one_runs i ls : forall s s', ginv (seen_by i s) -> (forall id g b, In (id, (g, b)) (r_boxes s) -> g = r_gone s) ->
  Forall (of_reader i) ls -> rruns ls s = Some s' ->
  (exists ls', gruns ls' (seen_by i s) = Some (seen_by i s')) /\ ginv (seen_by i s')
  /\ (forall id g b, In (id, (g, b)) (r_boxes s') -> g = r_gone s').
Proof.
  induction ls as [|l ls IH]; intros s s' GI GB F E; cbn [rruns] in E.
  - injection E as <-. split; auto. exists []. reflexivity.
  - destruct (rstep l s) as [s1|] eqn:E1; [|discriminate]. inversion F as [|? ? F1 F2]; subst.
    destruct (one_step _ _ _ _ GI GB F1 E1) as [[(l' & G)|G] GB1].
    + destruct (IH s1 s' (gstep_inv _ _ _ GI G) GB1 F2 E) as ((ls' & R) & A & B). split; auto.
      exists (l' :: ls'). cbn [gruns]. now rewrite G.
    + rewrite <- G in *. apply IH; auto.
Qed.

(** With one reader, the model is that of C23: every state is one of M_Growing.v. *)
Theorem C86_one_reader i ls s : Forall (of_reader i) ls -> rruns ls rinit = Some s ->
  exists ls' g, gruns ls' ginit = Some g
    /\ g_sent g = r_sent s /\ g_gone g = r_gone s /\ g_array g = r_array s /\ g_in g = r_in s
    /\ g_held g = r_held s /\ g_token g = r_token s /\ g_deferred g = r_deferred s /\ g_p g = r_p s
    /\ map (fun r => let '(n, gone, b) := r in (i, n, gone, b)) (g_returned g) = r_returned s.
Proof.
  intros F E. assert (RI : forall ls s0 s1, Forall (of_reader i) ls -> rruns ls s0 = Some s1 ->
     (forall j n g b, In (j, n, g, b) (r_returned s0) -> j = i) -> forall j n g b, In (j, n, g, b) (r_returned s1) -> j = i).
  { clear. induction ls as [|l ls IH]; intros s0 s1 F E H; cbn [rruns] in E; [injection E as <-; auto|].
    destruct (rstep l s0) as [s2|] eqn:E1; [|discriminate]. inversion F as [|? ? F1 F2]; subst. apply (IH s2 s1 F2 E). clear IH E F F2.
    destruct s0 as [inn arr held def tok boxes nxt p c sent gone ret]. rs.
    assert (A : forall k n g b, k = i -> forall j m g' b', In (j, m, g', b') (ret ++ [(k, n, g, b)]) -> j = i).
    { intros k n g b -> j m g' b' Hin. apply in_app_or in Hin as [Hin|[Hin|[]]]; [eauto|congruence]. }
    destruct l as [ch| | | |k n|k n|k n|k]; cbn [rstep of_reader] in *; unfold rcall in E1; rs;
      repeat match goal with
             | H : match ?x with _ => _ end = Some _ |- _ => destruct x; try discriminate
             | H : Some _ = Some _ |- _ => injection H as <-; rs
             end; auto;
      repeat match goal with |- context[if ?b then _ else _] => destruct b; rs end; auto; apply A; auto. }
  destruct (one_runs i ls rinit s) as ((ls' & R) & _); auto.
  { apply ginv_init. } { intros ? ? ? []. }
  exists ls', (seen_by i s). split; [exact R|]. unfold seen_by. gs. repeat (split; [reflexivity|]).
  rewrite map_map. rewrite <- (map_id (r_returned s)) at 2. apply map_ext_in. intros [[[j n] g] b] Hin.
  assert (j = i) by (eapply (RI ls rinit s); eauto; intros ? ? ? ? []). congruence.
Qed.

(** ** NextRelative *)

(** While a call of NextRelative is under way the reader makes no other. *)
Definition not_a_call (l : rlabel) : Prop := match l with SCall _ _ | SRelative _ _ | SPrune _ _ => False | _ => True end.
Definition calls (n : N) (c : rpc) : Prop :=
  match c with RIdle => False | RTarget m | RChecked m | RLocked m | RToken m _ | RWait m _ | RWaitOld m _ => m = n end.

Lemma call_step i n l s s' : of_reader i l -> not_a_call l -> (forall id g b, In (id, (g, b)) (r_boxes s) -> g = r_gone s) ->
  rstep l s = Some s' ->
  r_gone s' = r_gone s /\ (exists more, r_sent s' = r_sent s ++ more)
  /\ (calls n (r_c s i) -> (calls n (r_c s' i) /\ r_returned s' = r_returned s)
        \/ (r_c s' i = RIdle /\ exists b, r_returned s' = r_returned s ++ [(i, n, r_gone s, b)]))
  /\ (r_c s i = RIdle -> r_c s' i = RIdle /\ r_returned s' = r_returned s).
Proof.
  intros OF NC GB E. destruct s as [inn arr held def tok boxes nxt p c sent gone ret]. rs.
  assert (Z : exists more, sent = sent ++ more) by (exists []; now rewrite app_nil_r).
  destruct l as [ch| | | |j m|j m|j m|j]; cbn [rstep of_reader not_a_call] in *; try contradiction.
  - injection E as <-. rs. eauto 8.
  - destruct p, tok; try discriminate. injection E as <-. rs. auto 8.
  - destruct p, inn; try discriminate. injection E as <-. rs. auto 8.
  - destruct p as [|ch| | | |]; try discriminate.
    + destruct held; [discriminate|]. injection E as <-. rs. auto 8.
    + destruct def as [[k m]|]; injection E as <-; rs; auto 8.
    + destruct def as [[k m]|]; [|discriminate]. injection E as <-. rs. auto 8.
    + injection E as <-. rs. auto 8.
    + destruct tok; [discriminate|]. injection E as <-. rs. auto 8.
  - subst j. destruct (c i) as [|m|m|m|m q|m q|m q] eqn:EC; try discriminate; cbn [calls].
    + injection E as <-. unfold rcall. rs. destruct (m <=? len arr); rs; rewrite upd_eq; cbn [calls];
        (split; [reflexivity|]); (split; [exact Z|]); (split; [|discriminate]); intros ->; eauto.
    + destruct held; [discriminate|]. injection E as <-. rs. rewrite upd_eq. cbn [calls]. split; auto. split; auto. split; [auto|discriminate].
    + destruct def as [[k m']|]; [destruct (m' =? m)|]; injection E as <-; rs; rewrite upd_eq; cbn [calls];
        (split; [reflexivity|]); (split; [exact Z|]); (split; [auto|discriminate]).
    + destruct tok; [discriminate|]. injection E as <-. rs. rewrite upd_eq. cbn [calls]. split; auto. split; auto. split; [auto|discriminate].
    + destruct (take q boxes) as [[[g b] bs]|] eqn:ET; [|discriminate]. injection E as <-. rs. rewrite upd_eq.
      pose proof (take_spec _ _ _ _ _ ET) as (T1 & _). rewrite (GB _ _ _ T1).
      split; [reflexivity|]. split; [exact Z|]. split; [|discriminate]. intros ->. eauto.
    + destruct (take q boxes) as [[[g b] bs]|] eqn:ET; [|discriminate]. injection E as <-. rs. rewrite upd_eq.
      pose proof (take_spec _ _ _ _ _ ET) as (T1 & _). rewrite (GB _ _ _ T1).
      split; [reflexivity|]. split; [exact Z|]. split; [|discriminate]. intros ->. eauto.
Qed.

Lemma call_runs i n ls : forall s s', ginv (seen_by i s) -> (forall id g b, In (id, (g, b)) (r_boxes s) -> g = r_gone s) ->
  Forall (of_reader i) ls -> Forall not_a_call ls -> rruns ls s = Some s' ->
  r_gone s' = r_gone s /\ (exists more, r_sent s' = r_sent s ++ more)
  /\ (calls n (r_c s i) -> r_returned s' = r_returned s \/ exists b, r_returned s' = r_returned s ++ [(i, n, r_gone s, b)])
  /\ (r_c s i = RIdle -> r_returned s' = r_returned s).
Proof.
  induction ls as [|l ls IH]; intros s s' GI GB F NC E; cbn [rruns] in E.
  - injection E as <-. repeat split; auto. exists []. now rewrite app_nil_r.
  - destruct (rstep l s) as [s1|] eqn:E1; [|discriminate]. inversion F as [|? ? F1 F2]; inversion NC as [|? ? N1 N2]; subst.
    destruct (call_step i n l s s1 F1 N1 GB E1) as (A1 & (m1 & A2) & A3 & A4).
    assert (GI1 : ginv (seen_by i s1) /\ (forall id g b, In (id, (g, b)) (r_boxes s1) -> g = r_gone s1)).
    { destruct (one_step i l s s1 GI GB F1 E1) as [[(l' & G)|G] B]; split; auto; [eapply gstep_inv; eauto|rewrite G; auto]. }
    destruct GI1 as [GI1 GB1]. destruct (IH s1 s' GI1 GB1 F2 N2 E) as (B1 & (m2 & B2) & B3 & B4).
    split; [congruence|]. split; [exists (m1 ++ m2); rewrite B2, A2, app_assoc; reflexivity|]. split.
    + intros C. destruct (A3 C) as [[C1 R1]|[C1 (b & R1)]].
      * rewrite <- R1, <- A1. apply B3; auto.
      * right. exists b. rewrite (B4 C1). exact R1.
    + intros C. destruct (A4 C) as [C1 R1]. rewrite (B4 C1). exact R1.
Qed.

(** What a sole reader's NextRelative(k) returns is the array at the call and at least
    k bytes more, in the order of the stream. *)
Theorem C86_relative i k ls s ls' s' : Forall (of_reader i) ls -> rruns ls rinit = Some s -> r_c s i = RIdle ->
  Forall (of_reader i) ls' -> Forall not_a_call ls' -> rruns (SRelative i k :: ls') s = Some s' ->
  r_returned s' = r_returned s
  \/ exists n more, r_returned s' = r_returned s ++ [(i, n, r_gone s, r_array s ++ more)] /\ k <= len more.
Proof.
  intros F E HC F' NC E'. destruct (one_runs i ls rinit s) as ((ls0 & R) & GI & GB); auto.
  { apply ginv_init. } { intros ? ? ? []. }
  cbn [rruns] in E'. destruct (rstep (SRelative i k) s) as [s1|] eqn:E1; [|discriminate].
  destruct (one_step i (SRelative i k) s s1 GI GB eq_refl E1) as [_ GB1].
  assert (S1 : seen_by i s1 = seen_by i s /\ r_c s1 i = RTarget (len (r_array s) + k) /\ r_returned s1 = r_returned s /\ r_gone s1 = r_gone s /\ r_sent s1 = r_sent s).
  { destruct s as [inn arr held def tok boxes nxt p c sent gone ret]. cbn [rstep] in E1. rs. rewrite HC in E1. injection E1 as <-.
    unfold seen_by. rs. rewrite upd_eq, HC. auto. }
  destruct S1 as (S1 & S2 & S3 & S4 & S5). rewrite <- S1 in GI.
  destruct (call_runs i (len (r_array s) + k) ls' s1 s' GI GB1 F' NC E') as (A1 & (m & A2) & A3 & _).
  rewrite S2 in A3. destruct (A3 eq_refl) as [A|(b & A)]; [left; congruence|]. right.
  destruct (one_runs i ls' s1 s' GI GB1 F' E') as (_ & GI' & _).
  assert (Hin : In (len (r_array s) + k, r_gone s, b) (g_returned (seen_by i s'))).
  { unfold seen_by. gs. rewrite A, map_app. apply in_or_app. right. left. now rewrite S4. }
  destruct (gi_returned _ GI' _ _ _ Hin) as (L & later & ST). unfold seen_by in ST. gs.
  pose proof (gi_stream _ GI) as ST0. rewrite S1 in ST0. unfold seen_by in ST0. gs.
  rewrite A2, S5, ST0, <- !app_assoc in ST. apply app_inv_head in ST.
  assert (P : firstn (length (r_array s)) b = r_array s).
  { apply (f_equal (firstn (length (r_array s)))) in ST. rewrite !firstn_app in ST.
    rewrite Nat.sub_diag, firstn_O, app_nil_r, firstn_all in ST.
    replace (length (r_array s) - length b)%nat with 0%nat in ST by (unfold len in L; unfold bytes in *; lia).
    rewrite firstn_O, app_nil_r in ST. auto. }
  exists (len (r_array s) + k), (skipn (length (r_array s)) b). split.
  - replace (r_array s ++ skipn (length (r_array s)) b) with b; [now rewrite A, S3, S4|].
    transitivity (firstn (length (r_array s)) b ++ skipn (length (r_array s)) b); [symmetry; apply firstn_skipn|now rewrite P].
  - unfold len in *. rewrite skipn_length. unfold bytes in *. lia.
Qed.

(** ** Refuted *)

(** "A call returns at least as many bytes as it asked for", refuted with two readers.
    The goroutine has found at 50 that the request of reader 0 is met; reader 1 asks
    for two bytes before 51, and 51 gives it the one byte there is. Reader 0, which
    the byte was for, never gets an answer. *)
Definition overtaken : list rlabel :=
  [SCall 0 1; SReader 0; SReader 0; SReader 0; STakeToken; SSend [7]; STakeChunk; SProducer; SProducer;
   SCall 1 2; SReader 1; SReader 1; SReader 1; SProducer; SReader 1].
Theorem C86_short_refuted : exists ls s i n gone b, rruns ls rinit = Some s /\ In (i, n, gone, b) (r_returned s) /\ len b < n
  /\ exists j, r_c s j = RWait 1 0 /\ 1 <= len (r_array s)
     /\ forall ls' s', rruns ls' s = Some s' -> r_c s' j = RWait 1 0.
Proof.
  exists overtaken. destruct (rruns overtaken rinit) as [s|] eqn:E; [|vm_compute in E; discriminate].
  exists s, 1%nat, 2, [], [7]. split; [reflexivity|]. pose proof E as E'. vm_compute in E'. injection E' as <-.
  split; [left; reflexivity|]. split; [reflexivity|]. exists 0%nat. split; [reflexivity|]. split; [cbn; lia|].
  intros ls' s' R. assert (W := C86_forgotten _ _ 0%nat 1 0%nat E).
  rewrite (W ltac:(left; reflexivity) ltac:(intros g b []) ltac:(discriminate) ls' s' R). reflexivity.
Qed.

(** "Two calls for the same length are both answered", refuted: a byte that would answer
    both is on its way and never gets into the array. *)
Definition same_length : list rlabel :=
  [SCall 0 1; SReader 0; SReader 0; SReader 0; STakeToken; SCall 1 1; SReader 1; SReader 1; SSend [7]; STakeChunk].
Theorem C86_both_refuted : exists ls s, rruns ls rinit = Some s /\ r_c s 0%nat = RWait 1 0 /\ r_c s 1%nat = RWaitOld 1 0
  /\ r_p s = PGot [7] /\ r_returned s = []
  /\ forall ls' s', rruns ls' s = Some s' -> r_array s' = [] /\ r_c s' 1%nat = RWaitOld 1 0.
Proof.
  exists same_length. destruct (rruns same_length rinit) as [s|] eqn:E; [|vm_compute in E; discriminate].
  exists s. split; [reflexivity|]. pose proof E as E'. vm_compute in E'. injection E' as <-.
  do 4 (split; [reflexivity|]). intros ls' s' R.
  assert (W := C86_wedge _ _ 1%nat 1 0%nat E eq_refl). destruct (W ltac:(intros g b []) ltac:(right; eexists; reflexivity) ls' s' R) as (A & B & _).
  auto.
Qed.

(** "NextRelative(2), called after two bytes were sent, returns", refuted: it does if the
    goroutine has not yet taken them in, and waits for two more if it has. The calls
    and what was sent are those of TestGrowingBytes_Relative in
    /repo/tests/growing_bytes_test.go. *)
Definition in_time : list rlabel :=
  [SSend [4; 5]; SRelative 0 2; SReader 0; SReader 0; SReader 0; SReader 0; STakeToken; STakeChunk; SProducer; SProducer; SProducer; SReader 0].
Definition too_late : list rlabel :=
  [SSend [4; 5]; STakeChunk; SProducer; SProducer; SRelative 0 2; SReader 0; SReader 0; SReader 0; SReader 0; STakeToken].
Theorem C86_relative_refuted :
  (exists s, rruns in_time rinit = Some s /\ r_returned s = [(0%nat, 2, [], [4; 5])])
  /\ exists s, rruns too_late rinit = Some s /\ r_sent s = [4; 5] /\ r_returned s = []
     /\ forall l, match l with SSend _ => False | _ => of_reader 0 l end -> rstep l s = None.
Proof.
  split; [eexists; split; [vm_compute; reflexivity|reflexivity]|].
  eexists. split; [vm_compute; reflexivity|]. do 2 (split; [reflexivity|]).
  intros [ch| | | |j m|j m|j m|j] H; cbn [of_reader] in H; try contradiction; subst; reflexivity.
Qed.

(** Two readers, both served, one after the other; the second has to wait. *)
Definition two_readers : list rlabel :=
  [SSend [5; 6]; STakeChunk; SProducer; SProducer; SCall 0 2; SPrune 0 1; SCall 1 3; SReader 1; SReader 1; SReader 1; STakeToken;
   SSend [7; 8; 9]; STakeChunk; SProducer; SProducer; SProducer; SReader 1].
Example C86_instance_two : exists s, rruns two_readers rinit = Some s
  /\ r_returned s = [(0%nat, 2, [], [5; 6]); (1%nat, 3, [5], [6; 7; 8; 9])] /\ r_sent s = [5; 6; 7; 8; 9].
Proof. eexists. split; [vm_compute; reflexivity|]. split; reflexivity. Qed.
(** Two calls at one resolver; the goroutine is past the lock, and one of them returns. *)
Example C86_instance_one_of_two : exists s s',
  rruns [SCall 0 1; SReader 0; SReader 0; SReader 0; STakeToken; SCall 1 1; SSend [7]; STakeChunk; SProducer; SProducer; SReader 1; SReader 1] rinit = Some s
  /\ r_c s 0%nat = RWait 1 0 /\ r_c s 1%nat = RWaitOld 1 0
  /\ rruns [SProducer; SReader 1] s = Some s' /\ r_returned s' = [(1%nat, 1, [], [7])].
Proof. do 2 eexists. split; [vm_compute; reflexivity|]. do 2 (split; [reflexivity|]). split; [vm_compute; reflexivity|reflexivity]. Qed.
Example C86_instance_relative : Forall (of_reader 0) in_time /\ exists s, rruns in_time rinit = Some s /\ r_c s 0%nat = RIdle
  /\ exists s', rruns [SRelative 0 1; SReader 0; SReader 0; SReader 0] s = Some s' /\ r_c s' 0%nat = RToken 3 1.
Proof.
  split; [repeat constructor|]. eexists. split; [vm_compute; reflexivity|]. split; [reflexivity|].
  eexists. split; [vm_compute; reflexivity|reflexivity].
Qed.
Print Assumptions C86_stretch.
Print Assumptions C86_nothing_lost.
Print Assumptions C86_no_nil.
Print Assumptions C86_forgotten.
Print Assumptions C86_one_of_two.
Print Assumptions C86_wedge.
Print Assumptions C86_one_reader.
Print Assumptions C86_relative.
Print Assumptions C86_short_refuted.
Print Assumptions C86_both_refuted.
Print Assumptions C86_relative_refuted.
