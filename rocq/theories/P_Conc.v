(** What an ingestion does to payload files, and the invariant of concurrent Set
    calls. *)
From Coq Require Import Sorting.Permutation.
From Verif Require Import Base M_Order M_Encoding M_Paths M_Successor M_Ranges M_Keys M_Entry M_Map M_Store M_Conc
  S_Order S_Store P_Order P_Encoding P_Paths P_Ranges P_Successor P_Areas P_Keys P_Map P_Store P_History.
From Coq Require Import Lia.
Local Open Scope N_scope.

(** ** Programs that leave the file [f] alone *)
Definition keepsf {A} (f : bytes) (m : M A) : Prop :=
  forall st, mget (files (snd (m st))) f = mget (files st) f.

Section Keeps.
Variable C : cfg.
Variable f : bytes.

Lemma kf_ret {A} (a : A) : keepsf f (ret a). Proof. intros st; reflexivity. Qed.
Lemma kf_fail {A} : keepsf f (@fail A). Proof. intros st; reflexivity. Qed.
Lemma kf_lift {A} (r : res A) : keepsf f (lift r). Proof. intros st; reflexivity. Qed.
Lemma kf_gets {A} (g : state -> A) : keepsf f (gets g). Proof. intros st; reflexivity. Qed.
Lemma kf_bind {A B} (m : M A) (k : A -> M B) : keepsf f m -> (forall a, keepsf f (k a)) -> keepsf f (bindM m k).
Proof.
  intros H1 H2 st. unfold bindM. specialize (H1 st). destruct (m st) as [[a| | | |] s]; cbn [snd] in *; auto.
  rewrite H2. auto.
Qed.
Lemma kf_durable g : (forall st, mget (files (g st)) f = mget (files st) f) -> keepsf f (durable g).
Proof. intros H st. unfold durable. destruct (budget st) as [[|n]|]; cbn; auto. Qed.
Lemma kf_tree {A} (a : A) g : keepsf f (fun st => (Ok a, set_tree g st)). Proof. intros st; reflexivity. Qed.
Lemma kf_lock : keepsf f lock. Proof. intros st. unfold lock. destruct (locked st); reflexivity. Qed.
Lemma kf_unlock : keepsf f unlock. Proof. intros st; reflexivity. Qed.

Lemma kf_erase d : c_fname C d <> f -> keepsf f (payload_Erase C d).
Proof. intros H. apply kf_durable. intros st. cbn. rewrite mget_mdel, beqb_neq; auto. Qed.
Lemma kf_dec d : keepsf f (ref_Decrement d).
Proof.
  apply kf_bind; [apply kf_gets|]. intros [c|]; [|apply kf_fail].
  apply kf_bind; [apply kf_durable; reflexivity|]. intros; apply kf_ret.
Qed.
Lemma kf_inc d : keepsf f (ref_Increment d).
Proof.
  apply kf_bind; [apply kf_gets|]. intros o. apply kf_bind; [apply kf_durable; reflexivity|]. intros; apply kf_ret.
Qed.
Lemma kf_delete e : keepsf f (driver_Delete C e).
Proof. apply kf_bind; [apply kf_durable; reflexivity|]. intros; apply kf_tree. Qed.
Lemma kf_insert x : keepsf f (driver_Insert C x).
Proof.
  destruct x as [e a]. apply kf_bind; [apply kf_durable; reflexivity|]. intros _.
  apply kf_bind; [apply kf_gets|]. intros t. destruct (existsb _ t); [apply kf_fail|apply kf_tree].
Qed.
Lemma kf_get s0 s1 p : keepsf f (driver_Get_at C s0 s1 p).
Proof.
  apply kf_bind.
  - apply kf_bind; [apply kf_lift|]. intros e. apply kf_bind; [apply kf_gets|]. intros t.
    destruct (query _ _) as [|n [|? ?]]; [apply kf_ret|apply kf_ret|apply kf_lift].
  - intros [n|]; [|apply kf_ret]. apply kf_bind; [apply kf_gets|]. intros [b|]; [|apply kf_fail].
    apply kf_bind; [apply kf_lift|]. intros; apply kf_ret.
Qed.
Lemma kf_prunable_loop t cands : keepsf f (prunable_loop C t cands).
Proof.
  induction cands as [|n cands IH]; [apply kf_ret|]. cbn [prunable_loop]. destruct (n_time n <? t); auto.
  apply kf_bind; [apply kf_tree|]. intros _. apply kf_bind; [apply kf_get|]. intros [x|]; [|apply kf_fail].
  apply kf_bind; [auto|]. intros; apply kf_ret.
Qed.
Lemma kf_prunable s p t : keepsf f (PrunableEntries C s p t).
Proof.
  apply kf_bind; [|intros; apply kf_prunable_loop].
  apply kf_bind; [apply kf_lift|]. intros st. apply kf_bind; [apply kf_lift|]. intros e.
  apply kf_bind; [apply kf_tree|]. intros _. apply kf_bind; [apply kf_gets|]. intros; apply kf_ret.
Qed.
Lemma kf_prune xs : (forall x, In x xs -> c_fname C (e_digest (fst x)) <> f) -> keepsf f (prune_loop C xs).
Proof.
  induction xs as [|[e a] xs IH]; intros H; [apply kf_ret|]. cbn [prune_loop].
  apply kf_bind; [apply kf_delete|]. intros _. apply kf_bind; [apply kf_dec|]. intros c.
  apply kf_bind; [destruct (c =? 0); [apply kf_erase; apply (H (e, a)); left; auto|apply kf_ret]|]. intros _.
  apply kf_bind; [apply IH; intros x Hx; apply H; right; auto|]. intros; apply kf_ret.
Qed.
Lemma kf_replace e x : c_fname C (snd x) <> f -> c_fname C (e_digest (fst x)) <> f -> keepsf f (replace_other C e x).
Proof.
  destruct x as [o a]. cbn [fst snd]. intros H1 H2. unfold replace_other.
  destruct (_ =? 0)%Z; [|apply kf_ret]. destruct (_ <=? _).
  - apply kf_bind; [apply kf_unlock|]. intros; apply kf_ret.
  - apply kf_bind; [apply kf_delete|]. intros _. apply kf_bind; [apply kf_erase; auto|]. intros _.
    apply kf_bind; [|intros; apply kf_ret]. destruct (negb _); [|apply kf_ret].
    apply kf_bind; [apply kf_dec|]. intros c. destruct (c =? 0); [apply kf_erase; auto|apply kf_ret].
Qed.
End Keeps.

Lemma prune_loop_returns C xs st r st' : prune_loop C xs st = (Ok r, st') -> r = map fst xs.
Proof.
  revert st r st'. induction xs as [|[e a] xs IH]; intros st r st'; cbn [prune_loop].
  - unfold ret. intros [= <- _]. auto.
  - unfold bindM at 1. destruct (driver_Delete C e st) as [[?| | | |] s1]; try discriminate.
    unfold bindM at 1. destruct (ref_Decrement _ s1) as [[c| | | |] s2]; try discriminate.
    unfold bindM at 1. destruct ((if c =? 0 then payload_Erase C (e_digest e) else ret tt) s2) as [[?| | | |] s3]; try discriminate.
    unfold bindM at 1. destruct (prune_loop C xs s3) as [[r'| | | |] s4] eqn:E; try discriminate.
    unfold ret. intros [= <- _]. cbn. f_equal. eauto.
Qed.

Lemma insert_file C e token st pruned st' f :
  budget st = None -> InsertEntry C e token st = (Ok pruned, st') ->
  (forall x, In x pruned -> c_fname C (e_digest x) <> f) ->
  mget (files st') f = if beqb f (c_fname C (c_hash C token)) then Some token else mget (files st) f.
Proof.
  intros B. unfold InsertEntry, payload_Set. unfold bindM at 1. unfold bindM at 1. unfold durable at 1. rewrite B.
  unfold ret at 1. set (s1 := set_files _ st). cbn [fst].
  assert (E1 : mget (files s1) f = if beqb f (c_fname C (c_hash C token)) then Some token else mget (files st) f).
  { unfold s1. cbn. apply mget_mset. }
  rewrite <- E1. clear E1 B.
  unfold bindM at 1. pose proof (kf_insert C f (Entry (c_ns C) (e_subspace e) (e_digest e) (e_path e) (e_time e) (e_length e), c_hash C token) s1) as K1.
  destruct (driver_Insert C _ s1) as [[?| | | |] s2]; try discriminate. cbn [snd] in K1. rewrite <- K1. clear K1.
  unfold bindM at 1. pose proof (kf_inc f (e_digest e) s2) as K2.
  destruct (ref_Increment _ s2) as [[?| | | |] s3]; try discriminate. cbn [snd] in K2. rewrite <- K2. clear K2.
  unfold bindM at 1. pose proof (kf_prunable C f (e_subspace e) (e_path e) (e_time e) s3) as K3.
  destruct (PrunableEntries C _ _ _ s3) as [[xs| | | |] s4]; try discriminate. cbn [snd] in K3. rewrite <- K3. clear K3.
  intros E H. pose proof (prune_loop_returns _ _ _ _ _ E) as ->.
  assert (K : keepsf f (prune_loop C xs)). { apply kf_prune. intros x Hx. apply H. apply in_map; auto. }
  specialize (K s4). rewrite E in K. exact K.
Qed.

Section Ingest.
Variable C : cfg.
Variable U : bytes -> Prop.
Hypothesis PP : store_params (c_pp C).
Hypothesis HU : universe C U.

(** A payload file survives an ingestion unless an entry that the ingestion
    removes has that payload. *)
Lemma ingest_keeps n xs st e token pruned st' d b :
  n + 1 < 2 ^ 64 -> Inv C U n xs st -> entry_ok C U e ->
  IngestEntry C e token st = (Ok pruned, st') ->
  digest_ok C U d -> file_of C st d = Some b ->
  (forall x, In x xs -> same_place x e \/ prunes e x -> e_digest x <> d) ->
  file_of C st' d = Some b.
Proof.
  intros Hn I Oe E Hd Hf HX.
  destruct (IngestEntry_spec C U PP HU n xs st e token Hn I Oe)
    as [(A & pr & s2 & E2 & HP & I2 & _)|(_ & E2)]; rewrite E in E2; [|discriminate].
  injection E2 as <- <-. pose proof I as [R RF FS L B].
  assert (HS : strict_path (c_pp C) (e_path e)) by apply Oe.
  assert (HN : e_path e <> []) by apply HS.
  set (f := c_fname C d).
  assert (HXf : forall x, In x xs -> same_place x e \/ prunes e x -> c_fname C (e_digest x) <> f).
  { intros x Hx H Ef. apply (HX x Hx H). eapply (fname_inj C U HU); eauto.
    apply stored_digest. eapply Rep_In_ok; eauto. }
  assert (HPf : forall x, In x pruned -> c_fname C (e_digest x) <> f).
  { intros x Hx. apply (Permutation_in _ HP) in Hx. apply filter_In in Hx as [Hx1 Hx2].
    apply others_In in Hx1 as [Hx1 _]. apply HXf; auto. right. destruct (prunesb_spec e x HN); auto; discriminate. }
  destruct A as (En & Et & _). subst token.
  assert (Tok : f = c_fname C (c_hash C (e_subspace e)) -> b = e_subspace e).
  { intros Ef. unfold file_of in Hf. fold f in Hf. apply FS in Hf as [Hb Hf]. destruct HU as [HI _].
    apply HI; auto; [apply Oe|congruence]. }
  unfold file_of in *. fold f. fold f in Hf.
  unfold IngestEntry in E. unfold bindM at 1, lock in E. rewrite L in E. set (s1 := set_locked true st) in *.
  assert (R1 : Rep C U xs s1) by (apply (Rep_same _ _ _ st); auto).
  rewrite En in E. unfold ns_equal, IsAuthoriseWrite in E. rewrite !beqb_refl in E. cbn [negb] in E.
  destruct (DriverPrefixesOf_spec C U PP xs s1 e R1 HS) as (ns & E1 & _).
  unfold bindM at 1 in E. rewrite E1 in E. destruct (existsb _ ns); [discriminate|].
  unfold bindM at 1 in E.
  destruct (driver_Get_spec C U PP HU xs s1 (e_subspace e) (e_path e) R1 HS) as [[G _]|(x & G & Hx & X1 & X2)];
    rewrite G in E; clear G.
  - unfold bindM at 1, ret at 1 in E. cbn [negb] in E. unfold bindM at 1 in E.
    destruct (InsertEntry C e (e_subspace e) s1) as [[pr| | | |] s2] eqn:EI; try discriminate.
    unfold bindM, unlock, ret in E. injection E as -> <-. cbn [files set_locked].
    rewrite (insert_file C e _ s1 pruned s2 f B EI HPf).
    destruct (beqb_spec f (c_fname C (c_hash C (e_subspace e)))) as [Ef|]; [rewrite Tok; auto|auto].
  - unfold bindM at 1 in E. destruct (replace_other C e (x, c_hash C (e_subspace x)) s1) as [[go| | | |] s2] eqn:ER; try discriminate.
    destruct go; cbn [negb] in E; [|discriminate]. unfold bindM at 1 in E.
    assert (B2 : budget s2 = None).
    { pose proof (others_one e xs x (rep_place _ _ _ _ R) Hx (conj X1 X2)) as HPo.
      destruct (N.lt_ge_cases (e_time x) (e_time e)) as [Ht|Ht].
      - destruct (replace_older_spec C U HU n x (others e xs) s1 e) as (s2' & E2 & _ & _ & _ & _ & B2 & _); auto.
        + lia.
        + eapply Rep_perm; eauto.
        + eapply Refs_perm; eauto.
        + split; auto.
        + split; auto.
        + rewrite ER in E2. injection E2 as <-. auto.
      - exfalso. unfold replace_other in ER. rewrite X2, (order_refl _ _ OrderPath_total) in ER. cbn [Z.eqb] in ER.
        destruct (N.leb_spec (e_time e) (e_time x)); [|lia]. unfold bindM, unlock, ret in ER. discriminate. }
    destruct (InsertEntry C e (e_subspace e) s2) as [[pr| | | |] s3] eqn:EI; try discriminate.
    unfold bindM, unlock, ret in E. injection E as -> <-. cbn [files set_locked].
    rewrite (insert_file C e _ s2 pruned s3 f B2 EI HPf).
    destruct (beqb_spec f (c_fname C (c_hash C (e_subspace e)))) as [Ef|Ef]; [rewrite Tok; auto|].
    assert (K : keepsf f (replace_other C e (x, c_hash C (e_subspace x)))).
    { apply kf_replace; cbn [fst snd]; [congruence|]. apply HXf; auto. left. split; auto. }
    specialize (K s1). rewrite ER in K. cbn [snd] in K. rewrite K. exact Hf.
Qed.
End Ingest.
