(** C79: calls of pebble and of the file system that fail.

    [troubled C ops st]: [st] is reached from a new store by the operations [ops], any number of whose calls failed, and any number of which ended the process
    and were followed by another start, which may meet failures too. *)
From Verif Require Import Base M_Order M_Encoding M_Paths M_Keys M_Entry M_Map M_Store M_Fault
  S_Order S_Store P_Order P_Encoding P_Paths P_Keys P_Map P_Store P_Fault P_Demo Prop_Store.
Local Open Scope N_scope.

Inductive troubled (C : cfg) : list op -> state -> Prop :=
| troubled_new : troubled C [] empty_store
| troubled_step ops o st os r st' os' :
    troubled C ops st -> f_step C o (st, os) = (r, (st', os')) -> (r = Err \/ exists pr, r = Ok pr) ->
    troubled C (ops ++ [o]) st'
| troubled_end ops o st os r st' os' os1 st'' os2 :
    troubled C ops st -> f_step C o (st, os) = (r, (st', os')) ->
    f_reopen C (st', os1) = (Ok tt, (st'', os2)) ->
    troubled C (ops ++ [o]) st''.

(** ** When nothing fails *)

(** Operations and reads are then those of the store without failures. *)
Theorem C79_no_failure C o st os :
  budget st = None -> msorted (kv st) -> Forall (eq Fine) os ->
  (exists os', f_step C o (st, os) = (fst (step C o st), (snd (step C o st), os')) /\ msorted (kv (snd (step C o st))))
  /\ forall p, exists os', f_GetPayload C p (st, os) = (fst (GetPayload C p st), (snd (GetPayload C p st), os')).
Proof.
  intros HB HS HF. split.
  - destruct (a_step C o st os HS HB HF) as (os' & _ & E & _ & HS'). exists os'. split; [exact E|exact HS'].
  - intros p. destruct (a_GetPayload C p st os HS HB HF) as (os' & _ & E & _). exists os'. exact E.
Qed.
Print Assumptions C79_no_failure.

(** ** Whatever fails *)

Lemma step_kv (Q : bmap bytes -> Prop) C o st os r st' os' :
  Q (kv st) -> (forall k m, Q m -> Q (mdel m k)) ->
  (forall e m, offer C o = Some (e, e_subspace e) -> e_namespace e = c_ns C -> Q m ->
     Q (mset m (EncodeKey (EntryPosition e) (c_pp C)) (EncodeValues (Values (e_length e) (e_digest e) (c_hash C (e_subspace e)))))) ->
  f_step C o (st, os) = (r, (st', os')) -> Q (kv st').
Proof.
  intros H0 H1 H2 E. assert (K : keeps (fun s => Q (kv s)) (f_step C o)).
  { apply k_step with (W := fun _ => True); auto. - intros k s. apply H1. - intros e E1 E2. split; [exact I|]. intros s HQ. apply H2; auto. }
  specialize (K st os H0). rewrite E in K. destruct r; exact K.
Qed.
Lemma reopen_kv C st os r st' os' : f_reopen C (st, os) = (r, (st', os')) -> kv st' = kv st.
Proof.
  intros E. assert (K : keeps (fun s => kv s = kv st) (f_reopen C)) by (apply k_reopen; auto).
  specialize (K st os eq_refl). rewrite E in K. destruct r; exact K.
Qed.

(** The database of entries holds nothing but entries that were offered with a token authorising them, spelt in full. *)
Theorem C79_recorded C ops st k v :
  troubled C ops st -> In (k, v) (kv st) ->
  exists e, offered C ops e /\ k = EncodeKey (EntryPosition e) (c_pp C)
    /\ v = EncodeValues (Values (e_length e) (e_digest e) (c_hash C (e_subspace e))).
Proof.
  intros T. revert k v.
  set (R := fun (ops : list op) (m : bmap bytes) => forall k v, In (k, v) m ->
    exists e, offered C ops e /\ k = EncodeKey (EntryPosition e) (c_pp C)
      /\ v = EncodeValues (Values (e_length e) (e_digest e) (c_hash C (e_subspace e)))).
  change (R ops (kv st)).
  assert (M : forall ops o st os r st' os', R ops (kv st) -> f_step C o (st, os) = (r, (st', os')) -> R (ops ++ [o]) (kv st')).
  { intros ops0 o st0 os r st' os' IH E. eapply (step_kv (R (ops0 ++ [o]))); [| | |exact E].
    - intros k v H. destruct (IH k v H) as (e & [O1 (o' & O2 & O3)] & Ek & Ev). exists e. split; [|auto].
      split; [exact O1|]. exists o'. split; [apply in_or_app; auto|exact O3].
    - intros k m H k' v' Hin. apply H. unfold mdel in Hin. apply filter_In in Hin as [Hin _]. exact Hin.
    - intros e m Eo En H k v Hin. apply mset_In in Hin as [Hin|Hin]; [|apply H; exact Hin]. inversion Hin; subst.
      exists e. split; [|auto]. split; [exact En|]. exists o. split; [apply in_or_app; right; left; reflexivity|exact Eo]. }
  induction T as [|ops o st os r st' os' T IH E _|ops o st os r st' os' os1 st'' os2 T IH E E2].
  - intros k v [].
  - eapply M; eauto.
  - rewrite (reopen_kv _ _ _ _ _ _ E2). eapply M; eauto.
Qed.
Print Assumptions C79_recorded.

(** So every live entry is one that was offered, and the database opens again, giving one node to each entry. *)
Definition codec_entry (C : cfg) (e : entry) : Prop :=
  within_limits (c_pp C) (e_path e) /\ e_time e < 2 ^ 64 /\ e_length e < 2 ^ 64 /\ len (e_digest e) + 8 < 2 ^ 64 /\ len (c_hash C (e_subspace e)) + 8 < 2 ^ 64.
Lemma offered_codec C ops e : Forall (op_bounded C) ops -> offered C ops e -> codec_entry C e.
Proof.
  intros B (_ & o & Hin & Ho). rewrite Forall_forall in B. specialize (B o Hin). unfold op_bounded in B. rewrite Ho in B.
  destruct B as (_ & B). exact B.
Qed.
Lemma codec_key C e : store_params (c_pp C) -> codec_entry C e -> DecodeKey (EncodeKey (EntryPosition e) (c_pp C)) (c_pp C) = Ok (EntryPosition e).
Proof. intros SP (H1 & H2 & _). apply DecodeKey_EncodeKey; [apply store_codec, SP|apply within_codec, H1|exact H2]. Qed.
Lemma codec_value C e : codec_entry C e ->
  DecodeValues (EncodeValues (Values (e_length e) (e_digest e) (c_hash C (e_subspace e)))) = Ok (Values (e_length e) (e_digest e) (c_hash C (e_subspace e))).
Proof.
  intros (_ & _ & H3 & H4 & H5). rewrite <- (app_nil_r (EncodeValues _)). apply DecodeValues_EncodeValues. repeat split; cbn; auto.
Qed.
Theorem C79_opens C ops st :
  store_params (c_pp C) -> Forall (op_bounded C) ops -> troubled C ops st ->
  (forall e, live C st e -> offered C ops e)
  /\ exists st', reopen C st = Ok st' /\ kv st' = kv st /\ locked st' = false
       /\ Forall2 (fun kvp n => DecodeKey (fst kvp) (c_pp C) = Ok (node_pos n)) (kv st) (tree st').
Proof.
  intros SP HB T. pose proof (fun k v => C79_recorded C ops st k v T) as R. split.
  - intros e (En & k & v & w & Hin & Dk & Dv & Ed & El). destruct (R k v Hin) as (x & Ox & -> & ->).
    pose proof (offered_codec _ _ _ HB Ox) as CX. rewrite (codec_key _ _ SP CX) in Dk. rewrite (codec_value _ _ CX) in Dv.
    inversion Dv; subst w. cbn in Ed, El. unfold EntryPosition in Dk. inversion Dk. destruct Ox as [Ox1 Ox2].
    assert (EX : x = e) by (destruct x, e; cbn in *; congruence). subst x. split; auto.
  - assert (L : exists t, load_nodes C (kv st) = Ok t /\ Forall2 (fun kvp n => DecodeKey (fst kvp) (c_pp C) = Ok (node_pos n)) (kv st) t).
    { clear T. induction (kv st) as [|[k v] m IH]; [exists []; split; [reflexivity|constructor]|].
      destruct IH as (t & Et & Ft); [intros k0 v0 H; apply R; right; exact H|].
      destruct (R k v (or_introl eq_refl)) as (x & Ox & -> & ->). pose proof (offered_codec _ _ _ HB Ox) as CX.
      cbn [load_nodes]. unfold load_node. cbn [fst snd]. rewrite (codec_key _ _ SP CX), (codec_value _ _ CX). cbn [bind]. rewrite Et. cbn [bind].
      eexists. split; [reflexivity|]. constructor; [|exact Ft]. cbn [fst]. rewrite (codec_key _ _ SP CX). reflexivity. }
    destruct L as (t & Et & Ft). exists (State (kv st) t (refs st) (files st) false None). unfold reopen. rewrite Et. cbn [bind]. auto.
Qed.
Print Assumptions C79_opens.

(** A payload file holds the first bytes of a payload given to Set, or of the subspace of an offered entry, under the name of its digest. *)
Definition given (C : cfg) (ops : list op) (b : bytes) : Prop :=
  (exists i auth now, In (OpSet i auth now) ops /\ b = i_payload i) \/ exists e, offered C ops e /\ b = e_subspace e.
Theorem C79_files C ops st k c :
  troubled C ops st -> In (k, c) (files st) ->
  exists b n, given C ops b /\ k = c_fname C (c_hash C b) /\ c = firstn n b.
Proof.
  intros T. revert k c.
  set (R := fun (ops : list op) (m : bmap bytes) => forall k c, In (k, c) m -> exists b n, given C ops b /\ k = c_fname C (c_hash C b) /\ c = firstn n b).
  change (R ops (files st)).
  assert (M : forall ops o st os r st' os', R ops (files st) -> f_step C o (st, os) = (r, (st', os')) -> R (ops ++ [o]) (files st')).
  { intros ops0 o st0 os r st' os' IH E.
    assert (K : keeps (fun s => R (ops0 ++ [o]) (files s)) (f_step C o)).
    { apply k_step with (W := given C (ops0 ++ [o])); auto.
      - intros b n s G H k c Hin. cbn [set_files files] in Hin. apply mset_In in Hin as [Hin|Hin]; [|apply H; exact Hin]. inversion Hin; subst. exists b, n. auto.
      - intros k s H k' c' Hin. apply H. cbn [set_files files] in Hin. unfold mdel in Hin. apply filter_In in Hin as [Hin _]. exact Hin.
      - intros i auth now ->. left. exists i, auth, now. split; [apply in_or_app; right; left; reflexivity|reflexivity].
      - intros e E1 E2. split; [|auto]. right. exists e. split; [|reflexivity]. split; [exact E2|]. exists o. split; [apply in_or_app; right; left; reflexivity|exact E1]. }
    assert (H0 : R (ops0 ++ [o]) (files st0)).
    { intros k c H. destruct (IH k c H) as (b & n & G & Ek & Ec). exists b, n. split; [|auto]. destruct G as [(i & auth & now & G1 & G2)|(e & [G1 (o' & G2 & G3)] & G4)].
      - left. exists i, auth, now. split; [apply in_or_app; auto|exact G2].
      - right. exists e. split; [|exact G4]. split; [exact G1|]. exists o'. split; [apply in_or_app; auto|exact G3]. }
    specialize (K st0 os H0). rewrite E in K. destruct r; exact K. }
  assert (M2 : forall ops st os r st' os', R ops (files st) -> f_reopen C (st, os) = (r, (st', os')) -> R ops (files st')).
  { intros ops0 st0 os r st' os' H E. assert (K : keeps (fun s => R ops0 (files s)) (f_reopen C)) by (apply k_reopen; auto).
    specialize (K st0 os H). rewrite E in K. destruct r; exact K. }
  induction T as [|ops o st os r st' os' T IH E _|ops o st os r st' os' os1 st'' os2 T IH E E2].
  - intros k v [].
  - eapply M; eauto.
  - eapply M2; [|exact E2]. eapply M; eauto.
Qed.
Print Assumptions C79_files.

(** Reading changes nothing, and what it gives is the first bytes of what is stored; all of it when no call fails. *)
Theorem C79_read C p st os r st' os' :
  f_GetPayload C p (st, os) = (r, (st', os')) ->
  st' = st /\ forall b', r = Ok b' -> exists b n, fst (GetPayload C p st) = Ok b /\ b' = firstn n b.
Proof.
  intros E.
  assert (K : ends (fun s => s = st) (f_GetPayload C p)
    (fun b' s => s = st /\ exists b n, fst (GetPayload C p st) = Ok b /\ b' = firstn n b) (fun s => s = st) (fun s => s = st)).
  { unfold f_GetPayload, GetPayload, bindM, gets, fail, lift, payload_Get, ret.
    apply (ends_bind _ _ _ (fun o s => o = mget (kv st) (EncodeKey p (c_pp C)) /\ s = st)); [apply ends_get; intros s ->; auto|].
    intros o. apply ends_pure. intros <-. destruct o as [v|]; [|apply ends_fail; auto].
    apply (ends_bind _ _ _ (fun w s => DecodeValues v = Ok w /\ s = st)); [apply ends_mem; intros s ->; unfold lift; destruct (DecodeValues v); auto|].
    intros w. apply ends_pure. intros ->. unfold f_payload_Get. unfold bindM, gets, fail, ret. eapply ends_bind; [apply ends_io|]. intros []; [|apply ends_fail; auto..].
    apply (ends_bind _ _ _ (fun o s => o = mget (files st) (c_fname C (v_digest w)) /\ s = st)); [apply ends_mem; intros s ->; auto|].
    intros o. apply ends_pure. intros <-. destruct o as [b|]; [|apply ends_fail; auto]. eapply ends_bind; [apply ends_io|]. intros o.
    apply ends_ret. intros s ->. split; [reflexivity|]. exists b. destruct o as [| |n]; [exists (length b)|exists 0%nat|exists n]; cbn [fst]; (split; [reflexivity|]); [symmetry; apply firstn_all|reflexivity..]. }
  specialize (K st os eq_refl). rewrite E in K. destruct r as [b0| | | |]; try (split; [exact K|discriminate]).
  destruct K as (K1 & b & n & K2 & K3). split; [exact K1|]. intros b' Eb. inversion Eb; subst. exists b, n. auto.
Qed.
Print Assumptions C79_read.

(** So where no two of the byte strings given share a digest, reading the payload of a live entry gives the first bytes of its payload. *)
Lemma troubled_sorted C ops st : troubled C ops st -> msorted (kv st).
Proof.
  induction 1 as [|ops o st os r st' os' T IH E _|ops o st os r st' os' os1 st'' os2 T IH E E2]; [constructor| |rewrite (reopen_kv _ _ _ _ _ _ E2)];
    (eapply (step_kv msorted); [exact IH| | |exact E]); auto using mdel_sorted, mset_sorted.
Qed.
Theorem C79_payload C U ops st e b os b' s' :
  store_params (c_pp C) -> Forall (op_bounded C) ops -> universe C U -> (forall x, given C ops x -> U x) -> troubled C ops st ->
  live C st e -> U b -> e_digest e = c_hash C b ->
  f_GetPayload C (EntryPosition e) (st, os) = (Ok b', s') -> exists n, b' = firstn n b.
Proof.
  intros SP HB [UI _] HG T LV HU HD E. destruct s' as [st' os']. destruct (C79_read _ _ _ _ _ _ _ E) as [_ R].
  destruct (R b' eq_refl) as (c & n & G & ->). unfold GetPayload, bindM, gets, fail, lift, payload_Get, ret in G.
  destruct LV as (_ & k & v & w & Hin & Dk & Dv & Ed & El). destruct (C79_recorded _ _ _ _ _ T Hin) as (x & Ox & -> & ->).
  pose proof (offered_codec _ _ _ HB Ox) as CX. rewrite (codec_key _ _ SP CX) in Dk. inversion Dk as [EP].
  assert (EQ : EntryPosition x = EntryPosition e) by (unfold EntryPosition; congruence).
  rewrite EQ in Hin. rewrite (mget_NoDup _ _ _ (msorted_NoDup _ (troubled_sorted _ _ _ T)) Hin), Dv in G. unfold bindM, gets in G. rewrite Ed, HD in G.
  destruct (mget (files st) (c_fname C (c_hash C b))) as [f|] eqn:Ef; [|discriminate]. inversion G; subst f.
  destruct (C79_files _ _ _ _ _ T (mget_In _ _ _ Ef)) as (b2 & n2 & G2 & En & ->).
  assert (b = b2) by (apply UI; auto). subst b2. exists (Nat.min n n2). apply firstn_firstn.
Qed.
Print Assumptions C79_payload.

(** An operation that succeeds had a right to: its token authorises the entry, its namespace is the store's. It has recorded the entry, in the tree as well
    for paths strictly within the limits, and has released the lock. This holds from every state. *)
Theorem C79_success C o e token st os pr st' os' :
  store_params (c_pp C) -> op_bounded C o -> offer C o = Some (e, token) ->
  f_step C o (st, os) = (Ok pr, (st', os')) ->
  token = e_subspace e /\ live C st' e /\ locked st' = false
  /\ (strict_path (c_pp C) (e_path e) -> exists n, In n (tree st') /\ node_pos n = EntryPosition e).
Proof.
  intros SP HB HO E. assert (CE : codec_entry C e) by (unfold op_bounded in HB; rewrite HO in HB; apply HB).
  assert (HT : e_time e < 2 ^ 64) by apply CE.
  assert (G : (e_namespace e = c_ns C /\ token = e_subspace e) /\ good C e st' /\ locked st' = false).
  { destruct o as [i auth now|x tk|]; cbn [offer] in HO; [| |discriminate]; inversion HO; subst; cbn [f_step] in E.
    - pose proof (good_Set C (set_entry C i now) SP HT i token now eq_refl st os I) as G. rewrite E in G. destruct G as (G1 & G). split; auto.
    - pose proof (good_IngestEntry C e SP HT token st os I) as G. rewrite E in G. exact G. }
  destruct G as ((G1 & G2) & (G3 & G4) & G5). split; [exact G2|]. split; [|split; [exact G5|]].
  - split; [exact G1|]. eexists _, _, _. split; [apply (mget_In _ _ _ G3)|]. split; [apply (codec_key _ _ SP CE)|]. split; [apply (codec_value _ _ CE)|]. auto.
  - intros S. exists (enode e). split; [apply G4, S|reflexivity].
Qed.
Print Assumptions C79_success.

(** An ingestion that reports an error has refused the entry, leaving everything as it was, or has kept the lock. *)
Theorem C79_error C e token st os st' os' :
  locked st = false -> f_IngestEntry C e token (st, os) = (Err, (st', os')) -> st' = st \/ locked st' = true.
Proof. intros L E. pose proof (locked_IngestEntry C e token st L st os eq_refl) as H. rewrite E in H. exact H. Qed.
Print Assumptions C79_error.

(** A Set that reports an error has left everything but the payload files as it was, or has kept the lock, or has recorded the entry all the same. *)
Theorem C79_set_error C i auth now st os st' os' :
  store_params (c_pp C) -> op_bounded C (OpSet i auth now) -> locked st = false ->
  f_Set C i auth now (st, os) = (Err, (st', os')) ->
  (kv st' = kv st /\ tree st' = tree st /\ refs st' = refs st /\ locked st' = false)
  \/ locked st' = true
  \/ live C st' (set_entry C i now) /\ locked st' = false.
Proof.
  intros SP HB L E. set (e := set_entry C i now) in *.
  unfold f_Set in E. cbv zeta in E. unfold bindF at 1 in E.
  pose proof (payload_Set_result C (i_payload i) st os) as R.
  pose proof (k_payload_Set C (fun s => kv s = kv st /\ tree s = tree st /\ refs s = refs st /\ locked s = false) (fun _ => True)
    ltac:(intros b n s _ (A & B & D & F); auto) (i_payload i) I st os (conj eq_refl (conj eq_refl (conj eq_refl L)))) as K.
  destruct (f_payload_Set C (i_payload i) (st, os)) as [r [s1 os1]]. cbn [fst] in R. subst r. cbn [fst snd] in E.
  fold e in E. change (Entry (c_ns C) (i_sub i) (c_hash C (i_payload i)) (i_path i) (if i_time i =? 0 then now else i_time i) (len (i_payload i))) with e in E.
  unfold bindF at 1 in E. unfold mem, lift in E. cbn [fst snd] in E.
  destruct (Authorise e auth) as [tk| | | |]; try discriminate.
  2:{ inversion E; subst. left. exact K. }
  unfold bindF at 1 in E. destruct K as (K1 & K2 & K3 & K4).
  pose proof (locked_IngestEntry C e tk s1 K4 s1 os1 eq_refl) as H.
  assert (CE : codec_entry C e) by (unfold op_bounded in HB; apply HB). assert (HT : e_time e < 2 ^ 64) by apply CE.
  pose proof (good_IngestEntry C e SP HT tk s1 os1 I) as G.
  destruct (f_IngestEntry C e tk (s1, os1)) as [[pr| | | |] [s2 os2]]; try discriminate.
  2:{ inversion E; subst. destruct H as [-> |H]; [left; auto|right; left; exact H]. }
  right. right. destruct G as ((G1 & _) & G2).
  assert (W : ends (fun s => good C e s /\ locked s = false)
     (let! c := f_Count (c_hash C (i_payload i)) in
      let! _ := (if c =? 0 then ignore (f_payload_Erase C (c_hash C (i_payload i))) else retF tt) in retF pr)
     (fun _ s => good C e s /\ locked s = false) (fun s => good C e s /\ locked s = false) (fun s => good C e s /\ locked s = false)).
  { apply keeps_bind; [apply k_Count|]. intros c. apply keeps_bind; [|intros; apply keeps_ret].
    destruct (c =? 0); [|apply keeps_ret]. apply keeps_ignore, k_payload_Erase. intros f s [A B]. split; auto. }
  specialize (W s2 os2 G2). cbn [fst] in W. rewrite E in W. destruct W as ((G3 & _) & G5). split; [|exact G5].
  split; [exact G1|]. eexists _, _, _. split; [apply (mget_In _ _ _ G3)|]. split; [apply (codec_key _ _ SP CE)|]. split; [apply (codec_value _ _ CE)|]. auto.
Qed.
Print Assumptions C79_set_error.

(** With the lock kept, no operation succeeds before the next start: an ingestion never returns, and nothing but payload files changes. *)
Theorem C79_stuck C o st os r st' os' :
  locked st = true -> o <> OpReopen -> f_step C o (st, os) = (r, (st', os')) ->
  (forall pr, r <> Ok pr) /\ (forall e token, o = OpIngest e token -> r = Hang)
  /\ kv st' = kv st /\ tree st' = tree st /\ refs st' = refs st /\ locked st' = true.
Proof.
  intros L NR E. destruct o as [i auth now|e token|]; [| |congruence]; cbn [f_step] in E.
  - unfold f_Set in E. cbv zeta in E. unfold bindF at 1 in E.
    pose proof (payload_Set_result C (i_payload i) st os) as R.
    pose proof (k_payload_Set C (fun s => kv s = kv st /\ tree s = tree st /\ refs s = refs st /\ locked s = true) (fun _ => True)
      ltac:(intros b n s _ (A & B & D & F); auto) (i_payload i) I st os (conj eq_refl (conj eq_refl (conj eq_refl L)))) as K.
    destruct (f_payload_Set C (i_payload i) (st, os)) as [r1 [s1 os1]]. cbn [fst] in R. subst r1. cbn [fst snd] in E.
    unfold bindF at 1 in E. unfold mem, lift in E. cbn [fst snd] in E. destruct K as (K1 & K2 & K3 & K4).
    destruct (Authorise _ auth) as [tk| | | |].
    + unfold bindF at 1 in E. rewrite (hang_IngestEntry C _ tk s1 os1 K4) in E. inversion E; subst.
      split; [discriminate|]. split; [discriminate|]. auto.
    + inversion E; subst. split; [discriminate|]. split; [discriminate|]. auto.
    + inversion E; subst. split; [discriminate|]. split; [discriminate|]. auto.
    + inversion E; subst. split; [discriminate|]. split; [discriminate|]. auto.
    + inversion E; subst. split; [discriminate|]. split; [discriminate|]. auto.
  - rewrite (hang_IngestEntry C e token st os L) in E. inversion E; subst. split; [discriminate|]. split; [reflexivity|]. auto.
Qed.
Print Assumptions C79_stuck.

(** ** Cases *)
Definition ff (n : nat) (o : outcome) : list outcome := repeat Fine n ++ [o].
Definition one : state := after_ops [demo_set [[97]; [98]] [1; 2] 5].
Lemma demo_params_ok : store_params (c_pp demo).
Proof. assert (H : history_ok demo small []) by (apply demo_history; vm_compute; reflexivity). apply H. Qed.
Lemma one_troubled : troubled demo [demo_set [[97]; [98]] [1; 2] 5] one.
Proof.
  eapply (troubled_step demo [] (demo_set [[97]; [98]] [1; 2] 5) empty_store [] _ one []); [constructor|vm_compute; reflexivity|].
  right. eexists. vm_compute. reflexivity.
Qed.

(** A directory entry is written above an older file; the delete of the file fails; Set succeeds. Then the process is restarted. *)
Example C79_instance :
  exists st os st2 pr,
    f_step demo (demo_set [[97]] [7] 9) (one, ff 6 Fails) = (Ok pr, (st, os))
    /\ f_reopen demo (st, []) = (Ok tt, (st2, []))
    /\ troubled demo ([demo_set [[97]; [98]] [1; 2] 5] ++ [demo_set [[97]] [7] 9]) st
    /\ Forall (op_bounded demo) ([demo_set [[97]; [98]] [1; 2] 5] ++ [demo_set [[97]] [7] 9])
    /\ live demo st (demo_e [[97]] [7] 9) /\ live demo st (demo_e [[97]; [98]] [1; 2] 5) /\ length (tree st2) = 2%nat
    /\ pr = [demo_e [[97]; [98]] [1; 2] 5].
Proof.
  do 4 eexists. split; [vm_compute; reflexivity|]. split; [vm_compute; reflexivity|].
  split; [eapply (troubled_step demo _ _ one (ff 6 Fails)); [apply one_troubled|vm_compute; reflexivity|right; eexists; reflexivity]|].
  split; [apply op_boundedb_spec; vm_compute; reflexivity|].
  rewrite <- !liveb_spec. vm_compute. auto.
Qed.
Example C79_instance_no_failure :
  budget one = None /\ msorted (kv one) /\ Forall (eq Fine) [Fine; Fine]
  /\ fst (f_step demo (demo_set [[97]] [7] 9) (one, [Fine; Fine])) = Ok [demo_e [[97]; [98]] [1; 2] 5].
Proof.
  split; [reflexivity|]. split; [repeat constructor|]. split; [repeat constructor|vm_compute; reflexivity].
Qed.
(** A payload is written in part, and read in part. *)
Example C79_instance_payload :
  exists st, f_step demo (demo_set [[97]] [7; 8; 9] 9) (one, [Torn 2]) = (Ok [demo_e [[97]; [98]] [1; 2] 5], (st, []))
    /\ live demo st (demo_e [[97]] [7; 8; 9] 9) /\ fst (f_GetPayload demo (Position [115] [[97]] 9) (st, ff 2 (Torn 1))) = Ok [7]
    /\ given demo [demo_set [[97]] [7; 8; 9] 9] [7; 8; 9] /\ small [7; 8; 9].
Proof.
  eexists. split; [vm_compute; reflexivity|]. split; [apply liveb_spec; vm_compute; reflexivity|]. split; [vm_compute; reflexivity|].
  split; [left; eexists _, _, _; split; [left; reflexivity|reflexivity]|apply smallb_spec; vm_compute; reflexivity].
Qed.
(** The read of the entry to be replaced fails: an error, and the lock is kept; the next offer never returns. *)
Example C79_instance_error :
  exists st os, f_IngestEntry demo (demo_e [[97]; [98]] [3] 6) [115] (one, [Fails]) = (Err, (st, os))
    /\ locked one = false /\ locked st = true /\ fst (f_step demo (demo_set [[120]] [1] 1) (st, [])) = Hang.
Proof. do 2 eexists. split; [vm_compute; reflexivity|]. vm_compute. auto. Qed.

(** ** What fails *)

(** Set succeeds although the payload was not written at all, or was written in part: the dropped error of WriteFile. *)
Theorem C79_payload_refuted :
  exists o e b, op_ok demo small o /\ offer demo o = Some (e, [115]) /\ e_digest e = c_hash demo b
    /\ (exists os st os', f_step demo o (empty_store, os) = (Ok [], (st, os')) /\ live demo st e /\ fst (GetPayload demo (EntryPosition e) st) = Err)
    /\ exists os st os' b', f_step demo o (empty_store, os) = (Ok [], (st, os')) /\ live demo st e
         /\ fst (GetPayload demo (EntryPosition e) st) = Ok b' /\ b' <> b.
Proof.
  exists (demo_set [[97]; [98]] [1; 2] 5), (demo_e [[97]; [98]] [1; 2] 5), [1; 2].
  split; [apply demo_op_okb_spec; vm_compute; reflexivity|]. split; [reflexivity|]. split; [reflexivity|]. split.
  - exists [Fails]. do 2 eexists. split; [vm_compute; reflexivity|]. split; [apply liveb_spec; vm_compute; reflexivity|vm_compute; reflexivity].
  - exists [Torn 1]. do 3 eexists. split; [vm_compute; reflexivity|]. split; [apply liveb_spec; vm_compute; reflexivity|].
    split; [vm_compute; reflexivity|discriminate].
Qed.
Print Assumptions C79_payload_refuted.

(** GetPayload succeeds with other bytes than the file holds: the dropped error of ReadFile. *)
Theorem C79_read_refuted :
  exists ops st e os b b', troubled demo ops st /\ live demo st e /\ fst (GetPayload demo (EntryPosition e) st) = Ok b
    /\ fst (f_GetPayload demo (EntryPosition e) (st, os)) = Ok b' /\ b' <> b.
Proof.
  exists [demo_set [[97]; [98]] [1; 2] 5], one, (demo_e [[97]; [98]] [1; 2] 5), [Fine; Fine; Fails]. do 2 eexists.
  split; [apply one_troubled|]. split; [apply liveb_spec; vm_compute; reflexivity|]. split; [vm_compute; reflexivity|].
  split; [vm_compute; reflexivity|discriminate].
Qed.
Print Assumptions C79_read_refuted.

(** The delete of the version to be replaced fails; Set succeeds. Two entries are live at one place, one without its payload, and the next write there ends the process, after every start
    again. *)
Theorem C79_replace_refuted :
  exists ops st o os st' os' x y o2 st2,
    troubled demo ops st /\ op_ok demo small o /\ f_step demo o (st, os) = (Ok [], (st', os'))
    /\ live demo st' x /\ live demo st' y /\ same_place x y /\ e_time x < e_time y
    /\ fst (GetPayload demo (EntryPosition x) st) = Ok [1; 2] /\ fst (GetPayload demo (EntryPosition x) st') = Err
    /\ op_ok demo small o2 /\ fst (step demo o2 st') = Fatal /\ reopen demo st' = Ok st2 /\ fst (step demo o2 st2) = Fatal.
Proof.
  exists [demo_set [[97]; [98]] [1; 2] 5], one, (demo_set [[97]; [98]] [7] 9), (ff 2 Fails). do 2 eexists.
  exists (demo_e [[97]; [98]] [1; 2] 5), (demo_e [[97]; [98]] [7] 9), (demo_set [[97]; [98]] [8] 10). eexists.
  split; [apply one_troubled|]. split; [apply demo_op_okb_spec; vm_compute; reflexivity|]. split; [vm_compute; reflexivity|].
  split; [apply liveb_spec; vm_compute; reflexivity|]. split; [apply liveb_spec; vm_compute; reflexivity|]. split; [split; reflexivity|].
  split; [reflexivity|]. split; [vm_compute; reflexivity|]. split; [vm_compute; reflexivity|].
  split; [apply demo_op_okb_spec; vm_compute; reflexivity|]. repeat split; vm_compute; reflexivity.
Qed.
Print Assumptions C79_replace_refuted.

(** Inserting the new version fails after the old one was deleted: an error, the store holds neither, and it accepts nothing more. *)
Theorem C79_unchanged_refuted :
  exists ops st o os st' os' x o2,
    troubled demo ops st /\ op_ok demo small o /\ live demo st x /\ f_step demo o (st, os) = (Err, (st', os'))
    /\ (forall y, ~ live demo st' y) /\ op_ok demo small o2 /\ fst (step demo o2 st') = Hang.
Proof.
  exists [demo_set [[97]; [98]] [1; 2] 5], one, (demo_set [[97]; [98]] [7] 9), (ff 8 Fails). do 2 eexists.
  exists (demo_e [[97]; [98]] [1; 2] 5), (demo_set [[120]] [8] 10).
  split; [apply one_troubled|]. split; [apply demo_op_okb_spec; vm_compute; reflexivity|]. split; [apply liveb_spec; vm_compute; reflexivity|].
  split; [vm_compute; reflexivity|]. split; [intros y (_ & k & v & w & [] & _)|].
  split; [apply demo_op_okb_spec; vm_compute; reflexivity|vm_compute; reflexivity].
Qed.
Print Assumptions C79_unchanged_refuted.

(** Set reports an error although the entry is recorded (the count cannot be read), and the same Set again is refused. *)
Theorem C79_reported_refuted :
  exists o e os st os', op_ok demo small o /\ offer demo o = Some (e, [115])
    /\ f_step demo o (empty_store, os) = (Err, (st, os')) /\ live demo st e /\ locked st = false /\ fst (step demo o st) = Err.
Proof.
  exists (demo_set [[97]; [98]] [1; 2] 5), (demo_e [[97]; [98]] [1; 2] 5), (ff 5 Fails). do 2 eexists.
  split; [apply demo_op_okb_spec; vm_compute; reflexivity|]. split; [reflexivity|]. split; [vm_compute; reflexivity|].
  split; [apply liveb_spec; vm_compute; reflexivity|]. split; vm_compute; reflexivity.
Qed.
Print Assumptions C79_reported_refuted.

(** The dropped error of Increment: a later overwrite of another entry erases the payload of a live one. *)
Theorem C79_count_refuted :
  exists ops st os st1 os1 o o2 st2 e,
    troubled demo ops st /\ op_ok demo small o /\ f_step demo o (st, os) = (Ok [], (st1, os1))
    /\ op_ok demo small o2 /\ step demo o2 st1 = (Ok [], st2)
    /\ live demo st1 e /\ live demo st2 e /\ fst (GetPayload demo (EntryPosition e) st1) = Ok [1; 2] /\ fst (GetPayload demo (EntryPosition e) st2) = Err.
Proof.
  exists [demo_set [[97]; [98]] [1; 2] 5], one, (ff 4 Fails). do 2 eexists. exists (demo_set [[99]] [1; 2] 6), (demo_set [[97]; [98]] [7] 9). eexists.
  exists (demo_e [[99]] [1; 2] 6).
  split; [apply one_troubled|]. split; [apply demo_op_okb_spec; vm_compute; reflexivity|]. split; [vm_compute; reflexivity|].
  split; [apply demo_op_okb_spec; vm_compute; reflexivity|]. split; [vm_compute; reflexivity|].
  split; [apply liveb_spec; vm_compute; reflexivity|]. split; [apply liveb_spec; vm_compute; reflexivity|]. split; vm_compute; reflexivity.
Qed.
Print Assumptions C79_count_refuted.

(** The dropped error of ListAllValues at a start: the store opens as if it were empty, takes a version older than the one it holds, and cannot be written there
    after the next start. *)
Theorem C79_start_refuted :
  exists ops st os st1 os1 o st2 x y st3,
    troubled demo ops st /\ live demo st x /\ f_reopen demo (st, os) = (Ok tt, (st1, os1)) /\ tree st1 = []
    /\ op_ok demo small o /\ step demo o st1 = (Ok [], st2) /\ live demo st2 y /\ same_place x y /\ e_time y < e_time x
    /\ fst (step demo o st) = Err /\ reopen demo st2 = Ok st3 /\ fst (step demo (demo_set [[97]; [98]] [8] 10) st3) = Fatal.
Proof.
  exists [demo_set [[97]; [98]] [1; 2] 5], one, (ff 2 Fails). do 2 eexists. exists (demo_set [[97]; [98]] [7] 3). eexists.
  exists (demo_e [[97]; [98]] [1; 2] 5), (demo_e [[97]; [98]] [7] 3). eexists.
  split; [apply one_troubled|]. split; [apply liveb_spec; vm_compute; reflexivity|]. split; [vm_compute; reflexivity|]. split; [reflexivity|].
  split; [apply demo_op_okb_spec; vm_compute; reflexivity|]. split; [vm_compute; reflexivity|]. split; [apply liveb_spec; vm_compute; reflexivity|].
  split; [split; reflexivity|]. split; [reflexivity|]. repeat split; vm_compute; reflexivity.
Qed.
Print Assumptions C79_start_refuted.
