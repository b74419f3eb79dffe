(** What can enter the entry database, without any assumption on the state. *)
From Verif Require Import Base M_Order M_Encoding M_Paths M_Successor M_Ranges M_Keys M_Entry M_Map M_Store
  S_Order S_Store P_Order P_Encoding P_Paths P_Keys P_Map P_Store.
Local Open Scope N_scope.

Definition keeps (P : bytes * bytes -> Prop) {A} (m : M A) : Prop :=
  forall st r st', m st = (r, st') -> (forall x, In x (kv st) -> P x) -> forall x, In x (kv st') -> P x.

Section Keeps.
Variable P : bytes * bytes -> Prop.
Notation keeps := (keeps P).

Lemma keeps_same {A} (m : M A) : (forall st, kv (snd (m st)) = kv st) -> keeps m.
Proof. intros H st r st' E HP x Hx. specialize (H st). rewrite E in H. cbn in H. rewrite H in Hx. auto. Qed.

Lemma keeps_ret {A} (a : A) : keeps (ret a).  Proof. apply keeps_same. reflexivity. Qed.
Lemma keeps_fail {A} : keeps (@fail A).  Proof. apply keeps_same. reflexivity. Qed.
Lemma keeps_lift {A} (r : res A) : keeps (lift r).  Proof. apply keeps_same. reflexivity. Qed.
Lemma keeps_gets {A} (f : state -> A) : keeps (gets f).  Proof. apply keeps_same. reflexivity. Qed.
Lemma keeps_unlock : keeps unlock.  Proof. apply keeps_same. reflexivity. Qed.
Lemma keeps_lock : keeps lock.
Proof. apply keeps_same. intros st. unfold lock. destruct (locked st); reflexivity. Qed.
Lemma keeps_tree f : keeps (fun st => (Ok tt, set_tree f st)).  Proof. apply keeps_same. reflexivity. Qed.

Lemma keeps_bind {A B} (m : M A) (f : A -> M B) : keeps m -> (forall a, keeps (f a)) -> keeps (bindM m f).
Proof.
  intros H1 H2 st r st' E HP. unfold bindM in E. destruct (m st) as [r1 s1] eqn:E1.
  specialize (H1 _ _ _ E1 HP). destruct r1; try (inversion E; subst; auto; fail). eapply H2; eauto.
Qed.

Lemma keeps_durable f : (forall st, (forall x, In x (kv st) -> P x) -> forall x, In x (kv (f st)) -> P x) ->
  keeps (durable f).
Proof.
  intros H st r st' E HP x. unfold durable in E. destruct (budget st) as [[|n]|]; inversion E; subst; cbn; auto.
  - apply (H st HP).
  - apply (H st HP).
Qed.

Lemma keeps_if {A} (b : bool) (m1 m2 : M A) : keeps m1 -> keeps m2 -> keeps (if b then m1 else m2).
Proof. destruct b; auto. Qed.
End Keeps.

Lemma mset_In_cases {V} (m : bmap V) k v x : In x (mset m k v) -> x = (k, v) \/ In x m.
Proof.
  induction m as [|[k0 v0] m IH]; cbn; [intuition|].
  destruct (OrderBytes k k0 <? 0)%Z; [cbn; intuition|]. destruct (beqb k k0); cbn; intuition.
Qed.

Ltac keeps_one :=
  first
    [ apply keeps_ret | apply keeps_fail | apply keeps_lift | apply keeps_gets | apply keeps_unlock
    | apply keeps_lock | apply keeps_tree | apply keeps_if
    | apply keeps_bind; [|intros ?]
    | match goal with
      | |- keeps _ (match ?x with _ => _ end) => destruct x
      | |- keeps _ (durable (set_files _)) => apply keeps_durable; intros ? ? ? ?; cbn in *; auto; fail
      | |- keeps _ (durable (set_refs _)) => apply keeps_durable; intros ? ? ? ?; cbn in *; auto; fail
      end ].
Ltac keeps_tac := repeat keeps_one.

Section Auth.
Variable C : cfg.
Variable P : bytes * bytes -> Prop.
Notation keeps := (keeps P).

Lemma keeps_driver_Delete e : keeps (driver_Delete C e).
Proof.
  unfold driver_Delete. apply keeps_bind; [|intros; apply keeps_tree].
  apply keeps_durable. intros st H x. cbn. unfold mdel. rewrite filter_In. intros []; auto.
Qed.

Lemma keeps_driver_Insert e a : P (EncodeKey (EntryPosition e) (c_pp C), EncodeValues (Values (e_length e) (e_digest e) a)) ->
  keeps (driver_Insert C (e, a)).
Proof.
  intros HP. unfold driver_Insert. apply keeps_bind; [|intros; keeps_tac].
  apply keeps_durable. intros st H x Hx. cbn [kv set_kv] in Hx. apply mset_In_cases in Hx as [->|Hx]; auto.
Qed.

Lemma keeps_Erase d : keeps (payload_Erase C d).
Proof. unfold payload_Erase. keeps_tac. Qed.
Lemma keeps_PSet b : keeps (payload_Set C b).
Proof. unfold payload_Set. keeps_tac. Qed.
Lemma keeps_Incr d : keeps (ref_Increment d).
Proof. unfold ref_Increment. keeps_tac. Qed.
Lemma keeps_Decr d : keeps (ref_Decrement d).
Proof. unfold ref_Decrement. keeps_tac. Qed.
Lemma keeps_Count d : keeps (ref_Count d).
Proof. unfold ref_Count. keeps_tac. Qed.
Lemma keeps_Get s0 s1 p : keeps (driver_Get_at C s0 s1 p).
Proof. unfold driver_Get_at, storage_Get. keeps_tac. Qed.

Lemma keeps_prunable t cands : keeps (prunable_loop C t cands).
Proof.
  induction cands as [|n cands IH]; cbn [prunable_loop]; repeat first [exact IH|apply keeps_Get|keeps_one].
Qed.

Lemma keeps_prune xs : keeps (prune_loop C xs).
Proof.
  induction xs as [|[e a] xs IH]; cbn [prune_loop];
    repeat first [exact IH|apply keeps_driver_Delete|apply keeps_Decr|apply keeps_Erase|keeps_one].
Qed.

Lemma keeps_PrefixedBy s p : keeps (PrefixedBy C s p).
Proof. unfold PrefixedBy. keeps_tac. Qed.

Lemma keeps_Prefixes s p : keeps (DriverPrefixesOf C s p).
Proof. unfold DriverPrefixesOf. keeps_tac. Qed.

Lemma keeps_replace e x : keeps (replace_other C e x).
Proof.
  unfold replace_other. destruct x.
  repeat first [apply keeps_driver_Delete|apply keeps_Decr|apply keeps_Erase|keeps_one].
Qed.

Lemma payload_Set_fst b st r st' : payload_Set C b st = (Ok r, st') -> fst r = c_hash C b.
Proof.
  unfold payload_Set, bindM, durable, ret. destruct (budget st) as [[|n]|]; intros E; inversion E; reflexivity.
Qed.

Lemma keeps_Insert e token : e_namespace e = c_ns C -> token = e_subspace e ->
  P (ekey C e, eval_ C e) -> keeps (InsertEntry C e token).
Proof.
  intros Hn -> HP. unfold InsertEntry. intros st r st' E HK. unfold bindM at 1 in E.
  destruct (payload_Set C (e_subspace e) st) as [r1 s1] eqn:E1.
  pose proof (keeps_PSet (e_subspace e) _ _ _ E1 HK) as HK1.
  destruct r1 as [a| | | |]; try (inversion E; subst; auto; fail).
  apply payload_Set_fst in E1. rewrite E1 in E. revert E HK1. 
  assert (G : keeps (let* _ := driver_Insert C
    (Entry (c_ns C) (e_subspace e) (e_digest e) (e_path e) (e_time e) (e_length e), c_hash C (e_subspace e)) in
    let* _ := ref_Increment (e_digest e) in
    let* xs := PrunableEntries C (e_subspace e) (e_path e) (e_time e) in prune_loop C xs)).
  { apply keeps_bind; [apply keeps_driver_Insert; exact HP|intros _].
    apply keeps_bind; [apply keeps_Incr|intros _].
    apply keeps_bind; [|intros; apply keeps_prune].
    unfold PrunableEntries. apply keeps_bind; [apply keeps_PrefixedBy|intros; apply keeps_prunable]. }
  intros E HK1. eapply G; eauto.
Qed.

Lemma keeps_Ingest e token :
  (e_namespace e = c_ns C -> token = e_subspace e -> P (ekey C e, eval_ C e)) ->
  keeps (IngestEntry C e token).
Proof.
  intros HP. unfold IngestEntry, ns_equal, IsAuthoriseWrite.
  apply keeps_bind; [apply keeps_lock|intros _].
  destruct (beqb_spec (c_ns C) (e_namespace e)); cbn [negb]; [|keeps_tac].
  destruct (beqb_spec (e_subspace e) token); cbn [negb]; [|keeps_tac].
  apply keeps_bind; [apply keeps_Prefixes|intros ns].
  apply keeps_if; [keeps_tac|]. apply keeps_bind; [apply keeps_Get|intros o].
  apply keeps_bind; [destruct o; [apply keeps_replace|apply keeps_ret]|intros go].
  apply keeps_if; [keeps_tac|].
  apply keeps_bind; [apply keeps_Insert; auto|intros; keeps_tac].
Qed.

Lemma keeps_Set i auth now :
  (auth = e_subspace (set_entry C i now) -> P (ekey C (set_entry C i now), eval_ C (set_entry C i now))) ->
  keeps (Set_ C i auth now).
Proof.
  intros HP st r st' E HK. unfold Set_ in E. unfold bindM at 1 in E.
  destruct (payload_Set C (i_payload i) st) as [r1 s1] eqn:E1.
  pose proof (keeps_PSet _ _ _ _ E1 HK) as HK1.
  destruct r1 as [a| | | |]; try (inversion E; subst; auto; fail).
  assert (Ea : a = (c_hash C (i_payload i), len (i_payload i))).
  { revert E1. unfold payload_Set, bindM, durable, ret.
    destruct (budget st) as [[|n]|]; intros X; inversion X; reflexivity. }
  subst a. cbn [fst snd] in E. fold (set_entry C i now) in E.
  unfold bindM at 1, lift at 1 in E. unfold Authorise in E.
  destruct (beqb_spec (e_subspace (set_entry C i now)) auth) as [Ea|Ea]; [|inversion E; subst; auto].
  assert (G : keeps (let* pruned := IngestEntry C (set_entry C i now) (e_subspace (set_entry C i now)) in
     let* c := ref_Count (c_hash C (i_payload i)) in
     (if c =? 0 then payload_Erase C (c_hash C (i_payload i)) else ret tt) ;; ret pruned)).
  { apply keeps_bind; [apply keeps_Ingest; auto|intros]. apply keeps_bind; [apply keeps_Count|intros].
    apply keeps_bind; [apply keeps_if; [apply keeps_Erase|apply keeps_ret]|intros; apply keeps_ret]. }
  eapply G; eauto.
Qed.

(** One operation, whatever its outcome. *)
Lemma keeps_step o st r st' : step C o st = (r, st') ->
  (forall e, offer C o = Some (e, e_subspace e) -> e_namespace e = c_ns C -> P (ekey C e, eval_ C e)) ->
  (forall x, In x (kv st) -> P x) -> forall x, In x (kv st') -> P x.
Proof.
  intros E HP HK. destruct o as [i auth now|e token|]; cbn [step offer] in *.
  - eapply keeps_Set; eauto. intros ->. apply HP; auto.
  - eapply keeps_Ingest; eauto. intros Hn ->. apply HP; auto.
  - destruct (reopen C st) as [s| | | |] eqn:E2; inversion E; subst; auto.
    unfold reopen in E2. destruct (load_nodes C (kv st)); try discriminate. inversion E2; subst. auto.
Qed.

Lemma keeps_reopen st st' : reopen C st = Ok st' -> kv st' = kv st.
Proof.
  unfold reopen. destruct (load_nodes C (kv st)); intros E; inversion E; reflexivity.
Qed.
End Auth.

Definition from_offer (C : cfg) (ops : list op) (x : bytes * bytes) : Prop :=
  exists o e, In o ops /\ offer C o = Some (e, e_subspace e) /\ e_namespace e = c_ns C
    /\ x = (ekey C e, eval_ C e).

Lemma from_offer_app C ops ops' x : from_offer C ops x -> from_offer C (ops ++ ops') x.
Proof. intros (o & e & H & R). exists o, e. split; auto. apply in_or_app; auto. Qed.

Lemma lives_from_offer C ops st : lives C ops st -> forall x, In x (kv st) -> from_offer C ops x.
Proof.
  induction 1 as [|ops o st r st' H IH E _|ops o b st r st' st'' H IH E E2].
  - intros x [].
  - eapply keeps_step; [exact E| |].
    + intros e H1 H2. exists o, e. split; auto. apply in_or_app; right; left; auto.
    + intros x Hx. apply from_offer_app; auto.
  - rewrite (keeps_reopen _ _ _ E2). eapply keeps_step; [exact E| |].
    + intros e H1 H2. exists o, e. split; auto. apply in_or_app; right; left; auto.
    + intros x Hx. apply from_offer_app; auto.
Qed.

Lemma lives_offered C ops st e : store_params (c_pp C) -> Forall (op_within C) ops -> lives C ops st ->
  live C st e -> e_namespace e = c_ns C /\ exists o, In o ops /\ offer C o = Some (e, e_subspace e).
Proof.
  intros PP HW HL (Hn & k & v & w & Hin & Hk & Hv & Hd & Hl). split; auto.
  apply (lives_from_offer _ _ _ HL) in Hin as (o & x & Ho & Eo & Hx & E).
  rewrite Forall_forall in HW. specialize (HW o Ho). unfold op_within in HW. rewrite Eo in HW.
  destruct HW as (W1 & W2 & W3 & W4 & W5 & W6).
  pose proof (f_equal fst E) as E1. pose proof (f_equal snd E) as E2. cbn [fst snd] in E1, E2. clear E. subst k v.
  unfold ekey in Hk.
  rewrite (DecodeKey_EncodeKey (c_pp C) (EntryPosition x) (store_codec C PP) (within_codec _ _ W1) W3) in Hk.
  assert (VO : values_ok (Values (e_length x) (e_digest x) (c_hash C (e_subspace x)))) by (repeat split; auto).
  unfold eval_ in Hv. pose proof (DecodeValues_EncodeValues _ [] VO) as HV. rewrite app_nil_r in HV.
  rewrite HV in Hv. inversion Hv; subst w. cbn [v_digest v_length] in *.
  exists o. split; auto. assert (x = e); [|subst; auto].
  unfold EntryPosition in Hk. inversion Hk. destruct x, e; cbn in *; subst; auto.
Qed.
