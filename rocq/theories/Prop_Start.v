(** C79: opening a store again when calls of pebble fail, exactly. *)
From Verif Require Import Base M_Order M_Encoding M_Paths M_Keys M_Entry M_Map M_Store M_Fault
  S_Order S_Store P_Order P_Encoding P_Paths P_Keys P_Map P_Store P_Fault P_Demo Prop_Store Prop_Fault.
Local Open Scope N_scope.

Lemma io_at st os : io (st, os) = (Ok (nth 0 os Fine), (st, skipn 1 os)).
Proof. unfold io. cbn [fst snd]. destruct os; reflexivity. Qed.
Lemma nth_skipn (i j : nat) (os : list outcome) : nth i (skipn j os) Fine = nth (j + i) os Fine.
Proof. revert os. induction j as [|j IH]; intros [|o os]; cbn [skipn nth Nat.add]; auto. destruct i; reflexivity. Qed.
Lemma skip_more (i j : nat) (os : list outcome) : skipn i (skipn j os) = skipn (j + i) os.
Proof. revert os. induction j as [|j IH]; intros [|o os]; cbn [skipn Nat.add]; auto. destruct i; reflexivity. Qed.

(** The values are read one after the other, up to the first read that fails. *)
Lemma values_at st m os : (forall k v, In (k, v) m -> mget (kv st) k = Some v) ->
  ((forall i, (i < length m)%nat -> nth i os Fine = Fine) -> f_values m (st, os) = (Ok m, (st, skipn (length m) os)))
  /\ (forall j, (j < length m)%nat -> (forall i, (i < j)%nat -> nth i os Fine = Fine) -> nth j os Fine <> Fine ->
        f_values m (st, os) = (Err, (st, skipn (S j) os)))
  /\ exists r os', f_values m (st, os) = (r, (st, os')).
Proof.
  revert os. induction m as [|[k v] m IH]; intros os H.
  - cbn. split; [auto|]. split; [intros j L; inversion L|]. unfold retF. eauto.
  - destruct (IH (skipn 1 os)) as (I1 & I2 & r & os' & I3); [intros; apply H; right; auto|].
    pose proof (H k v (or_introl eq_refl)) as G.
    assert (E : f_values ((k, v) :: m) (st, os) = match nth 0 os Fine with
                | Fine => match f_values m (st, skipn 1 os) with (Ok x, s) => (Ok ((k, v) :: x), s) | (Err, s) => (Err, s) | (Panic, s) => (Panic, s)
                                                                | (Fatal, s) => (Fatal, s) | (Hang, s) => (Hang, s) end
                | _ => (Err, (st, skipn 1 os)) end).
    { cbn [f_values]. unfold db_get, bindF at 1 2. rewrite io_at. destruct (nth 0 os Fine); try reflexivity.
      unfold mem, gets. cbn [fst snd]. rewrite G. unfold bindF. destruct (f_values m (st, skipn 1 os)) as [[x| | | |] s]; reflexivity. }
    rewrite E. split; [|split].
    + intros F. rewrite (F 0%nat) by (cbn; lia). rewrite I1; [rewrite skip_more; reflexivity|].
      intros i L. rewrite nth_skipn. apply F. cbn [length]. lia.
    + intros [|j] L F N0.
      * destruct (nth 0 os Fine); [congruence|reflexivity..].
      * rewrite (F 0%nat) by lia. rewrite (I2 j); [rewrite skip_more; reflexivity|cbn [length] in L; lia| |rewrite nth_skipn; exact N0].
        intros i Li. rewrite nth_skipn. apply F. lia.
    + destruct (nth 0 os Fine); eauto. rewrite I3. destruct r; eauto.
Qed.

Lemma troubled_sorted C ops st : troubled C ops st -> msorted (kv st).
Proof.
  assert (M : forall o st os r st' os', msorted (kv st) -> f_step C o (st, os) = (r, (st', os')) -> msorted (kv st')).
  { intros o st0 os r st' os' H E. eapply (step_kv msorted); eauto; intros; [apply mdel_sorted|apply mset_sorted]; auto. }
  induction 1 as [|ops o st os r st' os' T IH E _|ops o st os r st' os' os1 st'' os2 T IH E E2].
  - constructor.
  - eapply M; eauto.
  - apply reopen_kv in E2. rewrite E2. eapply M; eauto.
Qed.

(** Opening a store again, for every way its calls can go: the two databases are opened, an iterator made, each value read,
    the iterator closed. A failure of one of the first two ends the process, as do an iterator that stops and an error of
    closing it; when the iterator is not made or a value is not read, the store opens as if it were empty; when all goes
    well it opens as it should. *)
Theorem C79_start_exactly C ops st os :
  store_params (c_pp C) -> Forall (op_bounded C) ops -> troubled C ops st ->
  let call (i : nat) := nth i os Fine in
  let n := length (kv st) in
  let '(r, (st', _)) := f_reopen C (st, os) in
  let ends := r = Fatal /\ st' = st in
  let empty := r = Ok tt /\ st' = State (kv st) [] (refs st) (files st) false None in
  (call 0%nat <> Fine \/ call 1%nat <> Fine -> ends)
  /\ (call 0%nat = Fine -> call 1%nat = Fine ->
       (call 2%nat = Fails -> empty)
       /\ (forall k, call 2%nat = Torn k -> ends)
       /\ (call 2%nat = Fine ->
            (forall j, (j < n)%nat -> (forall i, (i < j)%nat -> call (3 + i)%nat = Fine) -> call (3 + j)%nat <> Fine ->
               (call (4 + j)%nat = Fine -> empty) /\ (call (4 + j)%nat <> Fine -> ends))
            /\ ((forall i, (i < n)%nat -> call (3 + i)%nat = Fine) ->
               (call (3 + n)%nat = Fine -> r = Ok tt /\ reopen C st = Ok st') /\ (call (3 + n)%nat <> Fine -> ends)))).
Proof.
  intros SP HB T call n.
  destruct (C79_opens C ops st SP HB T) as (_ & st1 & RO & _).
  assert (HV : forall m, incl m (kv st) -> forall k v, In (k, v) m -> mget (kv st) k = Some v).
  { intros m I k v Hin. apply mget_NoDup; [apply msorted_NoDup, (troubled_sorted C ops), T|apply I, Hin]. }
  unfold f_reopen, bindF at 1. rewrite io_at. fold (call 0%nat).
  assert (N1 : nth 0 (skipn 1 os) Fine = call 1%nat) by (rewrite nth_skipn; reflexivity).
  destruct (call 0%nat) eqn:C0.
  2,3: cbn; split; [auto|intros X; discriminate X].
  unfold bindF at 1. rewrite io_at, N1, skip_more. change (1 + 1)%nat with 2%nat.
  destruct (call 1%nat) eqn:C1.
  2,3: cbn; split; [auto|intros _ X; discriminate X].
  unfold f_ListAllValues, bindF at 1. rewrite io_at, nth_skipn, skip_more. change (2 + 0)%nat with 2%nat. change (2 + 1)%nat with 3%nat. fold (call 2%nat).
  assert (LN : load_nodes C (kv st) = Ok (tree st1) /\ st1 = State (kv st) (tree st1) (refs st) (files st) false None).
  { unfold reopen in RO. destruct (load_nodes C (kv st)); try discriminate RO. inversion RO. auto. }
  destruct LN as [LN E1].
  destruct (call 2%nat) as [| |k] eqn:C2.
  - unfold bindF at 1, mem, gets. cbn [fst snd].
    destruct (values_at st (kv st) (skipn 3 os) (HV _ (incl_refl _))) as (V1 & V2 & r & os' & V3). fold n in V1, V2.
    assert (CV : (forall i, (i < n)%nat -> call (3 + i)%nat = Fine)
      \/ exists j, (j < n)%nat /\ (forall i, (i < j)%nat -> call (3 + i)%nat = Fine) /\ call (3 + j)%nat <> Fine).
    { clear. induction n as [|m IH]; [left; intros i L; lia|]. destruct IH as [IH|(j & Lj & Hj)]; [|right; exists j; split; [lia|auto]].
      destruct (call (3 + m)%nat) eqn:E; [left; intros i L; assert (Q : i = m \/ (i < m)%nat) by lia; destruct Q; subst; auto
        |right; exists m; split; [lia|split; [auto|congruence]]..]. }
    destruct CV as [CV|(j & Lj & Hj & Nj)].
    + rewrite V1 by (intros i L; rewrite nth_skipn; apply CV, L). unfold bindF at 1. rewrite io_at, !nth_skipn, !skip_more.
      replace (nth (3 + (n + 0)) os Fine) with (call (3 + n)%nat) by (unfold call; f_equal; lia).
      assert (NF : forall j, (j < n)%nat -> call (3 + j)%nat <> Fine -> False) by (intros j L X; apply X, CV, L).
      destruct (call (3 + n)%nat) eqn:CN; cbn [fst snd mem lift].
      * rewrite LN. split; [intros [X|X]; congruence|]. intros _ _. split; [discriminate|]. split; [discriminate|]. intros _.
        split; [intros j L _ X; elim (NF j L X)|]. intros _. split; [|intros; congruence]. intros _. split; [reflexivity|]. rewrite RO, E1. reflexivity.
      * split; [auto|]. intros _ _. split; [discriminate|]. split; [discriminate|]. intros _. split; [intros j L _ X; elim (NF j L X)|].
        intros _. split; [intros; congruence|auto].
      * split; [auto|]. intros _ _. split; [discriminate|]. split; [discriminate|]. intros _. split; [intros j L _ X; elim (NF j L X)|].
        intros _. split; [intros; congruence|auto].
    + assert (Q1 : forall i, (i < j)%nat -> nth i (skipn 3 os) Fine = Fine) by (intros i L; rewrite nth_skipn; apply Hj, L).
      assert (Q2 : nth j (skipn 3 os) Fine <> Fine) by (rewrite nth_skipn; exact Nj).
      rewrite (V2 j Lj Q1 Q2).
      unfold bindF at 1. rewrite io_at, !nth_skipn, skip_more.
      replace (nth (3 + (S j + 0)) os Fine) with (call (4 + j)%nat) by (unfold call; f_equal; lia).
      assert (UJ : forall j', (forall i, (i < j')%nat -> call (3 + i)%nat = Fine) -> call (3 + j')%nat <> Fine -> j' = j).
      { intros j' A B. destruct (Nat.lt_trichotomy j' j) as [L|[L|L]]; auto; [elim B; auto|elim Nj; auto]. }
      destruct (call (4 + j)%nat) eqn:CN; cbn [fst snd mem lift].
      * split; [intros [X|X]; congruence|]. intros _ _. split; [discriminate|]. split; [discriminate|]. intros _.
        split; [intros j' _ A B; rewrite (UJ j' A B), CN; split; [auto|intros; congruence]|intros A; elim Nj; auto].
      * split; [auto|]. intros _ _. split; [discriminate|]. split; [discriminate|]. intros _.
        split; [intros j' _ A B; rewrite (UJ j' A B), CN; split; [discriminate|auto]|intros A; elim Nj; auto].
      * split; [auto|]. intros _ _. split; [discriminate|]. split; [discriminate|]. intros _.
        split; [intros j' _ A B; rewrite (UJ j' A B), CN; split; [discriminate|auto]|intros A; elim Nj; auto].
  - cbn. split; [intros [X|X]; congruence|]. intros _ _. split; [auto|]. split; discriminate.
  - unfold bindF at 1, mem, gets. cbn [fst snd].
    destruct (values_at st (firstn k (kv st)) (skipn 3 os)) as (_ & _ & r & os' & V3).
    { apply HV. intros x Hx. rewrite <- (firstn_skipn k). apply in_or_app. auto. }
    rewrite V3. unfold bindF. rewrite io_at. destruct (nth 0 os' Fine); cbn; (split; [auto|]; intros _ _; split; [discriminate|]; split; [auto|discriminate]).
Qed.
Print Assumptions C79_start_exactly.

(** One entry: its value is not read; the iterator stops; its Close fails; nothing fails. *)
Example C79_instance_start :
  troubled demo [demo_set [[97]; [98]] [1; 2] 5] one /\ Forall (op_bounded demo) [demo_set [[97]; [98]] [1; 2] 5] /\ length (kv one) = 1%nat
  /\ fst (f_reopen demo (one, [Fine; Fine; Fine; Fails])) = Ok tt /\ tree (fst (snd (f_reopen demo (one, [Fine; Fine; Fine; Fails])))) = []
  /\ fst (f_reopen demo (one, [Fine; Fine; Torn 1])) = Fatal /\ fst (f_reopen demo (one, [Fine; Fine; Fine; Fine; Fails])) = Fatal
  /\ fst (f_reopen demo (one, [Fine; Fails])) = Fatal
  /\ length (tree (fst (snd (f_reopen demo (one, []))))) = 1%nat.
Proof. split; [apply one_troubled|]. split; [apply op_boundedb_spec; vm_compute; reflexivity|]. repeat split; vm_compute; reflexivity. Qed.
