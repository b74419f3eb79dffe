(** Proofs about the payload driver. *)
From Verif Require Import Base M_Order M_Encoding M_Paths M_Keys M_Map M_Store M_Payload P_Map.
Local Open Scope N_scope.

Section Driver.
Variable hash : bytes -> bytes.
Variable fname : bytes -> bytes.

(** The name of the file an operation writes or removes, if any. *)
Definition touches (o : pd_op) (k : bytes) : Prop :=
  match o with
  | PdSet b => fname (hash b) = k
  | PdErase d => fname d = k
  | PdReceive _ _ _ d Complete => fname d = k
  | _ => False
  end.

Lemma Receive_files tmp payload offset d st r st' :
  pd_Receive hash fname tmp payload offset d st = (r, st') -> p_files st' = p_files st /\ p_partial st' = p_partial st.
Proof.
  unfold pd_Receive. destruct (_ && _); [intros [= <- <-]; auto|].
  destruct (_ <? 0)%Z; intros [= <- <-]; auto.
Qed.

Lemma commit_files tmp d c st k : (c = true -> fname d <> k) ->
  mget (p_files (pd_commit fname tmp d c st)) k = mget (p_files st) k.
Proof.
  intros H. unfold pd_commit. destruct (mget (p_staging st) tmp); auto. destruct c.
  - destruct (fname d) as [|x r] eqn:E; auto. cbn [p_files]. rewrite mget_mset, beqb_neq; auto.
    intros E2. apply H; auto.
  - destruct (fname d); auto.
Qed.

Lemma step_other o st k : ~ touches o k -> mget (p_files (pd_step hash fname o st)) k = mget (p_files st) k.
Proof.
  destruct o as [b|d|tmp payload offset d v]; cbn [touches pd_step]; intros H.
  - unfold pd_Set. cbn [snd]. destruct (fname (hash b)) as [|x r] eqn:E; auto. cbn [p_files].
    rewrite mget_mset, beqb_neq; auto.
  - unfold pd_Erase. destruct (fname d) as [|x r] eqn:E; auto.
    destruct (mget (p_files st) (x :: r)); auto. cbn [snd p_files]. rewrite mget_mdel, beqb_neq; auto.
  - destruct (pd_Receive hash fname tmp payload offset d st) as [r st'] eqn:E.
    destruct (Receive_files _ _ _ _ _ _ _ E) as [F _]. rewrite <- F.
    destruct r; auto. destruct v; auto; apply commit_files; auto; discriminate.
Qed.

Lemma run_keeps ops k b : forall st,
  (forall o, In o ops -> ~ touches o k \/ o = PdSet b) -> fname (hash b) = k -> k <> [] ->
  mget (p_files st) k = Some b -> mget (p_files (pd_run hash fname ops st)) k = Some b.
Proof.
  unfold pd_run. induction ops as [|o ops IH]; cbn [fold_left]; intros st HO Hk Hn Hg; auto.
  apply IH; auto; [intros; apply HO; right; auto|]. destruct (HO o) as [H|H]; [left; auto| |].
  - rewrite step_other; auto.
  - subst o. cbn [pd_step]. unfold pd_Set. cbn [snd]. rewrite Hk. destruct k; [congruence|]. cbn [p_files].
    rewrite mget_mset, beqb_refl. auto.
Qed.

End Driver.

Lemma skipn_slice_from (b : bytes) (n : nat) : le n (length b) -> slice_from b (N.of_nat n) = Ok (skipn n b).
Proof.
  intros H. unfold slice_from, len. rewrite !Nat2N.id.
  destruct (N.leb_spec (N.of_nat n) (N.of_nat (length b))); auto. lia.
Qed.

(** ** Histories *)
Section History.
Variable hash : bytes -> bytes.
Variable fname : bytes -> bytes.

Lemma run_snoc ops o st : pd_run hash fname (ops ++ [o]) st = pd_step hash fname o (pd_run hash fname ops st).
Proof. unfold pd_run. rewrite fold_left_app. reflexivity. Qed.

(** What one Receive does, by its outcome. *)
Lemma receive_step tmp payload offset d v st k : k <> [] ->
  let ok := ((offset <= 0)%Z \/ mget (p_partial st) (fname d) <> None) /\ (0 <= offset + Z.of_nat (length payload))%Z in
  let st' := pd_step hash fname (PdReceive tmp payload offset d v) st in
  (ok /\ fname d = k -> v = Complete -> mget (p_files st') k = Some (repeat 0 (Z.to_nat offset) ++ payload))
  /\ (~ (ok /\ fname d = k /\ v = Complete) -> mget (p_files st') k = mget (p_files st) k)
  /\ (ok /\ fname d = k /\ v = Partial -> mget (p_partial st') k <> None)
  /\ (~ (ok /\ fname d = k /\ v = Partial) -> mget (p_partial st') k = mget (p_partial st) k).
Proof.
  intros Hk. cbn [pd_step]. unfold pd_Receive.
  destruct ((0 <? offset)%Z && match mget (p_partial st) (fname d) with None => true | Some _ => false end) eqn:E1.
  { apply andb_true_iff in E1 as [E1 E2]. apply Z.ltb_lt in E1.
    assert (N : mget (p_partial st) (fname d) = None) by (destruct (mget (p_partial st) (fname d)); [discriminate|auto]).
    repeat split; auto; intros ((H & _) & _); destruct H; try lia; congruence. }
  assert (O : (offset <= 0)%Z \/ mget (p_partial st) (fname d) <> None).
  { apply andb_false_iff in E1 as [E1|E1]; [left; apply Z.ltb_ge in E1; auto|right]. destruct (mget (p_partial st) (fname d)); [discriminate|discriminate E1]. }
  unfold len. destruct (Z.ltb_spec (offset + Z.of_N (N.of_nat (length payload))) 0) as [L|L]; cbn [p_files p_partial].
  { repeat split; auto; intros ((_ & H) & _); lia. }
  set (ok := (_ \/ _) /\ _). assert (K : ok) by (split; [exact O|lia]). clearbody ok.
  destruct v; unfold pd_commit, pd_reject; cbn [p_files p_partial p_staging]; try rewrite mget_mset, beqb_refl; cbn [p_files p_partial p_staging].
  - destruct (fname d) as [|x f] eqn:E; cbn [p_files p_partial].
    + repeat split; auto; try (intros (_ & <-); congruence). intros (_ & _ & H); discriminate.
    + rewrite mget_mset. destruct (beqb_spec k (x :: f)) as [->|Nk]; repeat split; auto; try tauto; try (intros (_ & _ & H); discriminate).
      intros (_ & <-); congruence.
  - destruct (fname d) as [|x f] eqn:E; cbn [p_files p_partial].
    + repeat split; auto; try discriminate. intros (_ & <- & _); congruence.
    + rewrite mget_mset. destruct (beqb_spec k (x :: f)) as [->|Nk]; repeat split; auto; try tauto; try discriminate.
      intros (_ & <- & _); congruence.
  - repeat split; auto; try discriminate. intros (_ & _ & H); discriminate.
Qed.

End History.
