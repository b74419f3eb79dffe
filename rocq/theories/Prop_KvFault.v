(** C87: reading and clearing a database whose calls fail. *)
From Verif Require Import Base M_Order M_Encoding M_Paths M_Ranges M_Areas M_Keys M_Entry M_Map M_Store M_Query M_Fault M_KvFault
  S_Order S_Store P_Order P_Map P_KvFault P_Demo Prop_Store Prop_Pebble.
Local Open Scope N_scope.

(** The calls of pebble made between [s] and [s'] all went well; one of them did not. *)
Definition none_failed (s s' : kvdb) : Prop :=
  exists made, db_todo s = made ++ db_todo s' /\ forall o, In o made -> o = Fine.
Definition some_failed (s s' : kvdb) : Prop :=
  exists made o, db_todo s = made ++ db_todo s' /\ In o made /\ o <> Fine.

(** Reading gives the right answer if nothing failed, and otherwise an error or the end of the process: never a wrong or a
    shortened answer. *)
Definition right_or_error {A} (answer r : res A) (s s' : kvdb) : Prop :=
  db_map s' = db_map s /\ (r = answer /\ none_failed s s' \/ (r = Err \/ r = Fatal) /\ some_failed s s').

Lemma not_Fine l : ~ Forall (eq Fine) l -> exists o, In o l /\ o <> Fine.
Proof.
  induction l as [|o l IH]; intros H; [exfalso; auto|].
  destruct o; [destruct IH as (o & H1 & H2); [intros F; apply H; auto|exists o; split; [right; exact H1|exact H2]]
              |exists Fails; split; [left; reflexivity|discriminate]|exists (Torn n); split; [left; reflexivity|discriminate]].
Qed.
Lemma all_Fine l : Forall (eq Fine) l -> forall o, In o l -> o = Fine.
Proof. intros H o Ho. symmetry. revert o Ho. apply Forall_forall. exact H. Qed.
Lemma faithful_right {A} (calm : bmap bytes -> res A) m s r s' : faithful calm m -> m s = (r, s') -> right_or_error (calm (db_map s)) r s s'.
Proof.
  intros H E. destruct (H _ _ _ E) as (M & u & T & G & B). split; [exact M|]. destruct (Fine_dec u) as [F|F].
  - left. split; [auto|]. exists u. split; [exact T|apply all_Fine, F].
  - right. split; [auto|]. destruct (not_Fine u F) as (o & H1 & H2). exists u, o. auto.
Qed.

Theorem C87_multiple ks s r s' : drv_GetMultipleValues ks s = (r, s') ->
  right_or_error (GetMultipleValues (db_map s) ks) r s s'.
Proof. apply (faithful_right (fun db => GetMultipleValues db ks)), faithful_multiple. Qed.

Theorem C87_all s r s' : msorted (db_map s) -> drv_ListAllValues s = (r, s') -> right_or_error (Ok (db_map s)) r s s'.
Proof.
  intros HS E. rewrite <- (values_at_part (db_map s) (db_map s) (msorted_NoDup _ HS) (incl_refl _)).
  apply (faithful_right (fun db => values_at db (mkeys db)) drv_ListAllValues); [|exact E].
  apply (faithful_iter false (fun ks db => values_at db ks) drv_values_loop); [apply faithful_values|]. intros ks db. apply values_at_NH.
Qed.

Theorem C87_list C aoi st s r s' : msorted (kv st) -> db_map s = kv st -> drv_ListValues C aoi s = (r, s') ->
  right_or_error (fst (ListWithAOI C aoi st)) r s s'.
Proof.
  intros HS ES E. unfold ListWithAOI. cbn [fst]. rewrite <- ES in *.
  rewrite <- (list_at_part C aoi (db_map s) (msorted_NoDup _ HS) (rev (db_map s)) 0 []) by (intros x Hx; apply in_rev; exact Hx).
  unfold mkeys. rewrite map_rev. exact (faithful_right _ _ _ _ _ (faithful_ListValues C aoi) E).
Qed.

Theorem C87_query C range st s r s' : db_map s = kv st -> drv_Query C (tree st) range s = (r, s') ->
  right_or_error (fst (driver_Query C range st)) r s s'.
Proof.
  intros ES E. unfold driver_Query, bindM at 1, gets. cbv zeta. unfold bindM. rewrite query_at_spec, <- ES. unfold drv_Query in E. cbv zeta in E.
  set (ns := query (tree st) range) in *.
  assert (H : faithful (fun db => do xs <- query_at C db ns; Ok (repeat zero_ext (length ns) ++ xs))
                (let? xs := drv_query_loop C ns in retK (repeat zero_ext (length ns) ++ xs))).
  { apply (faithful_bind _ (fun xs _ => Ok (repeat zero_ext (length ns) ++ xs)) _ _ (faithful_query C ns)). intros. apply faithful_ret. }
  pose proof (faithful_right _ _ _ _ _ H E) as R. cbn [fst] in *. destruct (query_at C (db_map s) ns); exact R.
Qed.

(** An iterator that cannot be made is an error, and one that stops on its way ends the process. *)
Theorem C87_iterator C aoi db os i v n :
  fst (drv_ListValues C aoi (KvDb db (Fails :: os) i v)) = Err
  /\ fst (drv_ListAllValues (KvDb db (Fails :: os) i v)) = Err
  /\ fst (drv_ListValues C aoi (KvDb db (Torn n :: os) i v)) = Fatal
  /\ fst (drv_ListAllValues (KvDb db (Torn n :: os) i v)) = Fatal.
Proof.
  do 2 (split; [reflexivity|]).
  assert (D : forall A (c : bmap bytes -> res A) body s, faithful c body -> fst (body s) <> Hang -> fst (deferring false body s) = Fatal).
  { intros A c body s H NH. destruct (deferring false body s) as [r s'] eqn:E. cbn [fst]. apply (deferring_false _ _ _ _ _ H NH E). }
  assert (N : forall A (c : bmap bytes -> res A) body s, faithful c body -> (forall db, c db <> Hang) -> fst (body s) <> Hang).
  { intros A c body s H NC. destruct (body s) as [x s'] eqn:E. destruct (faithful_right _ _ _ _ _ H E) as [_ [[-> _]|[[-> | ->] _]]]; cbn [fst]; auto; discriminate. }
  split; unfold drv_ListValues, drv_ListAllValues; unfold bindK at 1, db_NewIter, next_call, open_iter; unfold bindK;
    cbn [db_todo db_map db_iters db_values fst snd].
  - eapply D; [apply faithful_list|]. eapply N; [apply faithful_list|]. intros. apply list_at_NH.
  - eapply D; [apply faithful_values|]. eapply N; [apply faithful_values|]. intros. apply values_at_NH.
Qed.

(** ** Clear *)

(** Without an error everything is gone; with one, the keys from some key on are left, and calling it again without failures
    removes them. Its iterator is not given back if keys are left because a Delete failed. *)
Theorem C87_clear s r s' : msorted (db_map s) -> drv_Clear s = (r, s') ->
  (r = Ok tt /\ none_failed s s' /\ db_map s' = [] \/ r = Err /\ some_failed s s')
  /\ (exists gone, db_map s = gone ++ db_map s')
  /\ db_values s' = db_values s
  /\ (db_iters s' = db_iters s \/ db_iters s' = db_iters s + 1 /\ r = Err /\ db_map s' <> []).
Proof.
  intros HS E. pose proof (msorted_NoDup _ HS) as HN. destruct s as [db todo i v]. cbn [db_map db_iters db_values db_todo] in *.
  assert (K : forall fine part rest td pre, part ++ rest = db -> (fine = true -> rest = []) -> todo = pre ++ td -> (fine = true <-> Forall (eq Fine) pre) ->
    (let? _ := drv_clear_loop (mkeys part) in let? c := iter_Close fine in if c then retK tt else failK) (KvDb db td (i + 1) v) = (r, s') ->
    (r = Ok tt /\ none_failed (KvDb db todo i v) s' /\ db_map s' = [] \/ r = Err /\ some_failed (KvDb db todo i v) s')
    /\ (exists gone, db = gone ++ db_map s') /\ db_values s' = v
    /\ (db_iters s' = i \/ db_iters s' = i + 1 /\ r = Err /\ db_map s' <> [])).
  { intros fine part rest td pre ED HR HT HF E0. unfold bindK at 1 in E0. subst db.
    destruct (drv_clear_loop (mkeys part) (KvDb (part ++ rest) td (i + 1) v)) as [x s1] eqn:E1.
    destruct (clear_runs _ _ _ _ _ _ _ HN E1) as (I1 & V1 & u & g & T & G & R).
    destruct R as [(F & -> & R)|(F & -> & R)].
    - destruct s1 as [db1 td1 i1 v1]. cbn [db_iters db_values db_todo db_map] in *. subst i1 v1 db1.
      unfold bindK, iter_Close, next_call, shut_iter, retK, failK in E0. unfold bindK in E0.
      assert (X : exists last, td1 = last ++ db_todo s' /\ db_map s' = rest /\ db_iters s' = i /\ db_values s' = v
         /\ (r = Ok tt /\ fine = true /\ Forall (eq Fine) last \/ r = Err /\ (fine = false \/ ~ Forall (eq Fine) last))).
      { destruct td1 as [|o os]; cbn [db_iters db_values db_todo db_map] in E0.
        - exists []. destruct fine; cbn [andb] in E0; injection E0 as <- <-; cbn [db_iters db_values db_todo db_map]; repeat split; auto; try lia.
        - exists [o]. destruct fine, o; cbn [andb] in E0; injection E0 as <- <-; cbn [db_iters db_values db_todo db_map];
            repeat split; auto; try lia; try (left; repeat split; auto; fail); right; split; auto; right; intros Q; inversion Q; discriminate. }
      destruct X as (la & T2 & M2 & I2 & V2 & X).
      assert (TT : todo = (pre ++ u ++ la) ++ db_todo s') by (rewrite HT, T, T2, !app_assoc; reflexivity).
      split; [|split; [exists part; rewrite M2; reflexivity|split; [exact V2|left; exact I2]]].
      destruct X as [(-> & -> & FL)|(-> & X)].
      + left. split; [reflexivity|]. split; [|rewrite M2; apply HR; reflexivity]. exists (pre ++ u ++ la). split; [exact TT|].
        apply all_Fine. apply Forall_app. split; [apply HF; reflexivity|]. apply Forall_app. auto.
      + right. split; [reflexivity|]. destruct (not_Fine (pre ++ u ++ la)) as (o & O1 & O2); [|exists (pre ++ u ++ la), o; auto].
        intros Q. apply Forall_app in Q as [Q1 Q]. apply Forall_app in Q as [_ Q3]. apply HF in Q1. destruct X; congruence.
    - injection E0 as <- <-. cbn [db_todo] in T. split; [|split; [eauto|split; [exact V1|right; rewrite I1; auto]]].
      right. split; [reflexivity|]. destruct (not_Fine u F) as (o & O1 & O2). exists (pre ++ u), o. split; [cbn [db_todo]; rewrite HT, T, app_assoc; reflexivity|].
      split; [apply in_or_app; right; exact O1|exact O2]. }
  unfold drv_Clear, db_NewIter, next_call, open_iter in E. unfold bindK at 1 in E. unfold bindK at 1 in E. unfold bindK at 1 in E.
  destruct todo as [|o os]; [|destruct o as [| |n]]; cbn [db_todo db_map db_iters db_values fst snd] in E.
  - apply (K true db [] [] []); auto using app_nil_r. split; auto.
  - apply (K true db [] os [Fine]); auto using app_nil_r. split; auto.
  - injection E as <- <-. cbn [db_map db_iters db_values]. split; [right; split; [reflexivity|]|split; [exists []; reflexivity|auto]].
    exists [Fails], Fails. split; [reflexivity|]. split; [left; reflexivity|discriminate].
  - apply (K false (firstn n db) (skipn n db) os [Torn n]); auto using firstn_skipn; try discriminate.
    + split; [discriminate|]. intros Q. inversion Q. discriminate.
    + unfold mkeys. rewrite <- firstn_map. exact E.
Qed.

Theorem C87_clear_again s i v : msorted (db_map s) -> exists s', drv_Clear (KvDb (db_map s) [] i v) = (Ok tt, s') /\ db_map s' = [].
Proof.
  intros HS. destruct (drv_Clear (KvDb (db_map s) [] i v)) as [r s'] eqn:E. exists s'.
  destruct (C87_clear (KvDb (db_map s) [] i v) _ _ HS E) as ([(-> & _ & M)|(_ & made & o & T & O & _)] & _); [auto|].
  exfalso. cbn [db_todo] in T. destruct made; [destruct O|discriminate].
Qed.

(** ** What is given back *)

Theorem C87_given_back C range t ks s r1 s1 r2 s2 r3 s3 :
  drv_GetMultipleValues ks s = (r1, s1) -> drv_Query C t range s = (r2, s2) -> drv_ListAllValues s = (r3, s3) ->
  (db_iters s1 = db_iters s /\ db_values s1 = db_values s) /\ (db_iters s2 = db_iters s /\ db_values s2 = db_values s)
  /\ (r3 = Fatal \/ db_iters s3 = db_iters s /\ db_values s3 = db_values s).
Proof.
  intros E1 E2 E3. split; [eapply tidy_multiple, E1|]. split.
  { revert E2. unfold drv_Query. cbv zeta. apply tidy_bind; [apply tidy_query|]. intros. apply tidy_ret. }
  assert (V : db_values s3 = db_values s).
  { destruct s as [db todo i v]. cbn [db_values].
    assert (K : forall fine ks td, deferring fine (drv_values_loop ks) (KvDb db td (i + 1) v) = (r3, s3) -> db_values s3 = v).
    { intros fine ks0 td E0. unfold deferring in E0. destruct (drv_values_loop ks0 (KvDb db td (i + 1) v)) as [x s4] eqn:E4.
      destruct (tidy_values _ _ _ _ E4) as [_ V4]. cbn [db_values] in V4.
      destruct s4 as [db1 [|o os] i1 v1]; unfold iter_Close, bindK, next_call, shut_iter, retK, liftK in E0; cbn [db_todo db_map db_iters db_values] in *;
        destruct x; injection E0 as _ <-; exact V4. }
    unfold drv_ListAllValues in E3. destruct todo as [|o os]; unfold bindK at 1, db_NewIter, next_call, open_iter in E3; unfold bindK in E3; cbn [db_todo db_map db_iters db_values] in E3.
    - eapply K, E3.
    - destruct o; cbn [db_todo db_map db_iters db_values] in E3; try (eapply K, E3). injection E3 as _ <-. reflexivity. }
  destruct (iter_shut false drv_values_loop _ _ _ ltac:(intros ? ? ? ? Q; apply (tidy_values _ _ _ _ Q))
    ltac:(intros k0 s0 r0 s0' Q; destruct (faithful_right _ _ _ _ _ (faithful_values k0) Q) as [_ [[-> _]|[[-> | ->] _]]]; [apply values_at_NH|discriminate|discriminate]) E3); auto.
Qed.

(** ListValues keeps at most one value, and none if there is no limit on the size and every value can be read. *)
Theorem C87_list_given_back C aoi s r s' : drv_ListValues C aoi s = (r, s') -> r <> Fatal ->
  db_iters s' = db_iters s
  /\ (db_values s' = db_values s
      \/ db_values s' = db_values s + 1
         /\ (0 < aoi_max_size aoi \/ exists k v, In (k, v) (db_map s) /\ forall w, DecodeValues v <> Ok w)).
Proof.
  intros E NF. split.
  - destruct (iter_shut true (fun ks => drv_list_loop C aoi ks 0 []) s r s') as [H|H]; auto; [| |contradiction].
    + intros ks s0 r0 s0' Q. apply (list_keeps _ _ _ _ _ _ _ _ Q).
    + intros ks s0 r0 s0' Q. destruct (faithful_right _ _ _ _ _ (faithful_list C aoi ks 0 []) Q) as [_ [[-> _]|[[-> | ->] _]]]; [apply list_at_NH|discriminate|discriminate].
  - destruct s as [db todo i v]. cbn [db_values db_map].
    assert (K : forall fine ks td, deferring fine (drv_list_loop C aoi ks 0 []) (KvDb db td (i + 1) v) = (r, s') ->
      db_values s' = v \/ db_values s' = v + 1 /\ (0 < aoi_max_size aoi \/ exists k v, In (k, v) db /\ forall w, DecodeValues v <> Ok w)).
    { intros fine ks td E0. unfold deferring in E0. destruct (drv_list_loop C aoi ks 0 [] (KvDb db td (i + 1) v)) as [x s1] eqn:E1.
      destruct (list_keeps _ _ _ _ _ _ _ _ E1) as [_ V1]. cbn [db_values db_map] in V1.
      assert (V2 : db_values s' = db_values s1).
      { destruct s1 as [db1 [|o os] i1 v1]; unfold iter_Close, bindK, next_call, shut_iter, retK, liftK in E0; cbn [db_todo db_map db_iters db_values] in *;
          destruct x; injection E0 as _ <-; reflexivity. }
      rewrite V2. destruct V1 as [->|[-> [[_ H]|(k & b & _ & H1 & H2)]]]; auto.
      right. split; [reflexivity|]. right. exists k, b. split; [apply mget_In, H1|exact H2]. }
    unfold drv_ListValues in E. destruct todo as [|o os]; unfold bindK at 1, db_NewIter, next_call, open_iter in E; unfold bindK in E; cbn [db_todo db_map db_iters db_values] in E.
    + eapply K, E.
    + destruct o; cbn [db_todo db_map db_iters db_values] in E; try (eapply K, E). injection E as _ <-. auto.
Qed.

(** "Everything is given back", refuted. A listing that stops at the size it was given keeps a value, every time it is made;
    a Clear whose Delete fails keeps its iterator. *)
Fixpoint listed_times (n : nat) (aoi : area_of_interest) (s : kvdb) : kvdb :=
  match n with O => s | S n' => listed_times n' aoi (snd (drv_ListValues demo aoi s)) end.
Definition up_to_size (m : N) : area_of_interest := AOI (aoi_area whole) 0 m.
Theorem C87_given_back_refuted :
  (exists db aoi, msorted db /\ (forall i v, fst (drv_ListValues demo aoi (KvDb db [] i v)) = Ok [demo_e [[98]] [2] 6])
     /\ forall n, listed_times n aoi (KvDb db [] 0 0) = KvDb db [] 0 (N.of_nat n))
  /\ exists db os s', msorted db /\ drv_Clear (KvDb db os 0 0) = (Err, s') /\ db_iters s' = 1.
Proof.
  assert (HS : msorted (kv pair_store)).
  { replace (kv pair_store) with (fold_right (fun x m => mset m (fst x) (snd x)) [] (kv pair_store)) by (vm_compute; reflexivity).
    induction (kv pair_store) as [|x l IH]; [constructor|apply mset_sorted, IH]. }
  split.
  - exists (kv pair_store), (up_to_size 2). split; [exact HS|].
    assert (K : forall i v, drv_ListValues demo (up_to_size 2) (KvDb (kv pair_store) [] i v)
                  = (Ok [demo_e [[98]] [2] 6], KvDb (kv pair_store) [] (i + 1 - 1) (v + 1 - 1 + 1))).
    { intros i v. vm_compute. reflexivity. }
    split; [intros i v; rewrite K; reflexivity|].
    assert (G : forall n v, listed_times n (up_to_size 2) (KvDb (kv pair_store) [] 0 v) = KvDb (kv pair_store) [] 0 (v + N.of_nat n)).
    { induction n as [|n IH]; intros v; cbn [listed_times]; [f_equal; lia|]. rewrite K. cbn [snd]. rewrite N.add_sub.
      change (0 + 1 - 1) with 0. rewrite IH. f_equal. lia. }
    intros n. rewrite G. reflexivity.
  - exists (kv pair_store), [Fine; Fine; Fails]. eexists. split; [exact HS|]. split; [vm_compute; reflexivity|reflexivity].
Qed.

(** ** Instances *)
Definition calm_db : kvdb := KvDb (kv pair_store) [] 0 0.
Example C87_instance_list :
  drv_ListValues demo whole calm_db = (Ok [demo_e [[98]] [2] 6; demo_e [[97]] [1] 5], calm_db)
  /\ fst (drv_ListValues demo whole (KvDb (kv pair_store) [Fine; Fine; Fails] 0 0)) = Err
  /\ fst (drv_ListValues demo whole (KvDb (kv pair_store) [Torn 1] 0 0)) = Fatal
  /\ fst (drv_ListValues demo whole (KvDb (kv pair_store) [Fine; Fine; Fine; Fails] 0 0)) = Fatal.
Proof. repeat split; vm_compute; reflexivity. Qed.
Example C87_instance_all :
  drv_ListAllValues calm_db = (Ok (kv pair_store), calm_db)
  /\ fst (drv_ListAllValues (KvDb (kv pair_store) [Fine; Fails] 0 0)) = Err
  /\ fst (drv_ListAllValues (KvDb (kv pair_store) [Fine; Fine; Fine; Fails] 0 0)) = Fatal.
Proof. repeat split; vm_compute; reflexivity. Qed.
Example C87_instance_query :
  drv_Query demo (tree pair_store) (Range3d (Range [] [] true) (Range [] [] true) (Range 0 0 true)) (KvDb (kv pair_store) [Fine; Fails] 0 0)
  = (Err, KvDb (kv pair_store) [] 0 0).
Proof. vm_compute. reflexivity. Qed.
Example C87_instance_clear :
  drv_Clear (KvDb (kv pair_store) [Torn 1] 0 0) = (Err, KvDb (tl (kv pair_store)) [] 0 0) /\ length (kv pair_store) = 2%nat.
Proof. split; vm_compute; reflexivity. Qed.

Print Assumptions C87_multiple.
Print Assumptions C87_all.
Print Assumptions C87_list.
Print Assumptions C87_query.
Print Assumptions C87_iterator.
Print Assumptions C87_clear.
Print Assumptions C87_clear_again.
Print Assumptions C87_given_back.
Print Assumptions C87_list_given_back.
Print Assumptions C87_given_back_refuted.
