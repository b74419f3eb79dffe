(** Proofs about M_Names.v. *)
From Verif Require Import Base M_Order M_Encoding M_Paths M_Entry M_Ranges M_Areas M_Successor M_Keys M_Map M_Store M_Names S_Names P_Encoding P_Map.
From Coq Require Import Lia ZifyN ZifyBool Zify.
Local Open Scope N_scope.
Ltac Zify.zify_post_hook ::= Z.to_euclidean_division_equations.

Lemma b32_char_ok v : v < 32 -> b32_value (b32_char v) = v /\ (b32_char v =? 61) = false
  /\ (65 <= b32_char v <= 90 \/ 50 <= b32_char v <= 55).
Proof.
  intros L. unfold b32_value, b32_char. destruct (N.ltb_spec v 26).
  - destruct (N.leb_spec 65 (65 + v)); [|lia]. split; [lia|]. split; [apply N.eqb_neq; lia|lia].
  - destruct (N.leb_spec 65 (24 + v)); [lia|]. split; [lia|]. split; [apply N.eqb_neq; lia|lia].
Qed.

Lemma b64_char_ok v : v < 64 -> b64_value (b64_char v) = v /\ (b64_char v =? 61) = false
  /\ (65 <= b64_char v <= 90 \/ 97 <= b64_char v <= 122 \/ 48 <= b64_char v <= 57 \/ b64_char v = 43 \/ b64_char v = 47).
Proof.
  intros L. assert (H : forallb (fun n => let v := N.of_nat n in (b64_value (b64_char v) =? v) && negb (b64_char v =? 61)
     && (((65 <=? b64_char v) && (b64_char v <=? 90)) || ((97 <=? b64_char v) && (b64_char v <=? 122)) || ((48 <=? b64_char v) && (b64_char v <=? 57))
         || (b64_char v =? 43) || (b64_char v =? 47)))%bool (seq 0 64) = true) by (vm_compute; reflexivity).
  rewrite forallb_forall in H. specialize (H (N.to_nat v)). rewrite in_seq in H. specialize (H ltac:(lia)).
  cbv zeta in H. rewrite N2Nat.id in H. apply andb_prop in H as [H H3]. apply andb_prop in H as [H1 H2].
  apply N.eqb_eq in H1. apply Bool.negb_true_iff in H2. split; [exact H1|]. split; [exact H2|]. lia.
Qed.

(** The characters of each length of rest. *)
Lemma five_ind (P : list N -> Prop) :
  P [] -> (forall a, P [a]) -> (forall a b, P [a; b]) -> (forall a b c, P [a; b; c]) -> (forall a b c d, P [a; b; c; d]) ->
  (forall a b c d e r, P r -> P (a :: b :: c :: d :: e :: r)) -> forall l, P l.
Proof.
  intros H0 H1 H2 H3 H4 H5 l. remember (length l) as n eqn:E. assert (L : (length l <= n)%nat) by lia. clear E.
  revert l L. induction n as [n IH] using lt_wf_ind. intros [|a [|b [|c [|d [|e r]]]]] L; auto.
  apply H5. cbn [length] in L. apply (IH (length r)); lia.
Qed.
Lemma three_ind (P : list N -> Prop) :
  P [] -> (forall a, P [a]) -> (forall a b, P [a; b]) -> (forall a b c r, P r -> P (a :: b :: c :: r)) -> forall l, P l.
Proof.
  intros H0 H1 H2 H3 l. remember (length l) as n eqn:E. assert (L : (length l <= n)%nat) by lia. clear E.
  revert l L. induction n as [n IH] using lt_wf_ind. intros [|a [|b [|c r]]] L; auto.
  apply H3. cbn [length] in L. apply (IH (length r)); lia.
Qed.

Ltac chars32 := repeat match goal with |- context [b32_value (b32_char ?v)] => rewrite (proj1 (b32_char_ok v ltac:(lia)))
                                  | |- context [b32_char ?v =? 61] => rewrite (proj1 (proj2 (b32_char_ok v ltac:(lia)))) end.
Ltac chars64 := repeat match goal with |- context [b64_value (b64_char ?v)] => rewrite (proj1 (b64_char_ok v ltac:(lia)))
                                  | |- context [b64_char ?v =? 61] => rewrite (proj1 (proj2 (b64_char_ok v ltac:(lia)))) end.
Ltac bounded H := repeat match type of H with Forall _ (_ :: _) => let A := fresh "L" in let B := fresh "F" in
  inversion H as [|? ? A B]; subst; clear H; rename B into H end.

Lemma unbase32_spec (b : list N) : Forall (fun x => x < 256) b -> unbase32 (base32 b) = b.
Proof.
  induction b as [|a|a b|a b c|a b c d|a b c d e r IH] using five_ind; intros H; bounded H; [reflexivity| | | | |].
  - cbn [base32 map repeat app pad_char unbase32]. unfold pad_char. cbv zeta. rewrite N.eqb_refl. chars32. f_equal. lia.
  - cbn [base32 map repeat app pad_char unbase32]. unfold pad_char. cbv zeta. rewrite N.eqb_refl. chars32. repeat f_equal; lia.
  - cbn [base32 map repeat app pad_char unbase32]. unfold pad_char. cbv zeta. rewrite N.eqb_refl. chars32. repeat f_equal; lia.
  - cbn [base32 map repeat app pad_char unbase32]. unfold pad_char. cbv zeta. rewrite N.eqb_refl. chars32. repeat f_equal; lia.
  - cbn [base32 map repeat app pad_char unbase32]. cbv zeta. chars32. rewrite IH by assumption. repeat f_equal; lia.
Qed.

Lemma unbase64_spec (b : list N) : Forall (fun x => x < 256) b -> unbase64 (base64 b) = b.
Proof.
  induction b as [|a|a b|a b c r IH] using three_ind; intros H; bounded H; [reflexivity| | |].
  - cbn [base64 map repeat app pad_char unbase64]. unfold pad_char. cbv zeta. rewrite N.eqb_refl. chars64. f_equal. lia.
  - cbn [base64 map repeat app pad_char unbase64]. unfold pad_char. cbv zeta. rewrite N.eqb_refl. chars64. repeat f_equal; lia.
  - cbn [base64 map repeat app pad_char unbase64]. cbv zeta. chars64. rewrite IH by assumption. repeat f_equal; lia.
Qed.

Lemma base32_length (b : list N) : len (base32 b) = 8 * ((len b + 4) / 5).
Proof.
  induction b as [|a|a b|a b c|a b c d|a b c d e r IH] using five_ind; try reflexivity.
  cbn [base32 map app]. rewrite !len_cons, IH. lia.
Qed.
Lemma base64_length (b : list N) : len (base64 b) = 4 * ((len b + 2) / 3).
Proof.
  induction b as [|a|a b|a b c r IH] using three_ind; try reflexivity.
  cbn [base64 map app]. rewrite !len_cons, IH. lia.
Qed.

Lemma base32_alphabet (b : list N) : Forall (fun x => x < 256) b -> Forall (fun c => 65 <= c <= 90 \/ 50 <= c <= 55 \/ c = 61) (base32 b).
Proof.
  assert (K : forall v, v < 32 -> 65 <= b32_char v <= 90 \/ 50 <= b32_char v <= 55 \/ b32_char v = 61).
  { intros v L. destruct (b32_char_ok v L) as (_ & _ & [H|H]); auto. }
  assert (Q : 65 <= pad_char <= 90 \/ 50 <= pad_char <= 55 \/ pad_char = 61) by auto.
  induction b as [|a|a b|a b c|a b c d|a b c d e r IH] using five_ind; intros H; bounded H; cbn [base32 map repeat app];
    repeat (constructor; [first [exact Q|apply K; lia]|]); auto.
Qed.

(** ** Naming the files by a rendering of the encoded digests changes nothing else *)
Section Rename.
Variable C : cfg.
Variable k : bytes -> bytes.
Hypothesis K : forall d d', k (c_fname C d) = k (c_fname C d') -> c_fname C d = c_fname C d'.
Definition renamed : cfg := Cfg (c_pp C) (c_ns C) (c_hash C) (fun d => k (c_fname C d)).

(** The same store but for the names of its files. *)
Record same (st st' : state) : Prop := {
  same_kv : kv st' = kv st; same_tree : tree st' = tree st; same_refs : refs st' = refs st;
  same_locked : locked st' = locked st; same_budget : budget st' = budget st;
  same_files : forall d, mget (files st') (k (c_fname C d)) = mget (files st) (c_fname C d);
  same_names : forall x v, mget (files st) x = Some v -> exists d, x = c_fname C d;
  same_names' : forall x v, mget (files st') x = Some v -> exists d, x = k (c_fname C d)
}.

Definition sim {A} (m m' : M A) : Prop :=
  forall st st', same st st' -> fst (m' st') = fst (m st) /\ same (snd (m st)) (snd (m' st')).

Lemma sim_bind {A B} (m m' : M A) (f f' : A -> M B) : sim m m' -> (forall a, sim (f a) (f' a)) -> sim (bindM m f) (bindM m' f').
Proof.
  intros H HF st st' S. destruct (H st st' S) as [E S1]. unfold bindM. destruct (m st) as [r s], (m' st') as [r' s']. cbn [fst snd] in E, S1. subst r'.
  destruct r; auto. apply HF. auto.
Qed.
Lemma sim_ret {A} (a : A) : sim (ret a) (ret a).
Proof. intros st st' S. auto. Qed.
Lemma sim_fail {A} : sim (@fail A) fail.
Proof. intros st st' S. auto. Qed.
Lemma sim_lift {A} (r : res A) : sim (lift r) (lift r).
Proof. intros st st' S. auto. Qed.
Lemma sim_gets {A} (f : state -> A) : (forall st st', same st st' -> f st' = f st) -> sim (gets f) (gets f).
Proof. intros H st st' S. cbn. rewrite (H st st' S). auto. Qed.
Lemma sim_kv {A} (f : bmap bytes -> A) : sim (gets (fun st => f (kv st))) (gets (fun st => f (kv st))).
Proof. apply sim_gets. intros st st' S. rewrite (same_kv _ _ S). auto. Qed.
Lemma sim_tree : sim (gets tree) (gets tree).
Proof. apply sim_gets. intros st st' S. apply (same_tree _ _ S). Qed.
Lemma sim_refs {A} (f : bmap N -> A) : sim (gets (fun st => f (refs st))) (gets (fun st => f (refs st))).
Proof. apply sim_gets. intros st st' S. rewrite (same_refs _ _ S). auto. Qed.
Lemma sim_upd f f' : (forall st st', same st st' -> same (f st) (f' st')) -> sim (fun st => (Ok tt, f st)) (fun st => (Ok tt, f' st)).
Proof. intros H st st' S. cbn. auto. Qed.
Lemma sim_durable f f' : (forall st st', same st st' -> same (f st) (f' st')) -> sim (durable f) (durable f').
Proof.
  intros H st st' S. unfold durable. rewrite (same_budget _ _ S). destruct (budget st) as [[|n]|]; cbn [fst snd]; auto.
  split; auto. destruct (H st st' S). constructor; auto.
Qed.
Lemma same_set_kv f st st' : same st st' -> same (set_kv f st) (set_kv f st').
Proof. intros []. constructor; cbn; auto. congruence. Qed.
Lemma same_set_tree f st st' : same st st' -> same (set_tree f st) (set_tree f st').
Proof. intros []. constructor; cbn; auto. congruence. Qed.
Lemma same_set_refs f st st' : same st st' -> same (set_refs f st) (set_refs f st').
Proof. intros []. constructor; cbn; auto. congruence. Qed.
Lemma same_set_locked b st st' : same st st' -> same (set_locked b st) (set_locked b st').
Proof. intros []. constructor; cbn; auto. Qed.
Lemma k_beqb d d' : beqb (k (c_fname C d)) (k (c_fname C d')) = beqb (c_fname C d) (c_fname C d').
Proof.
  destruct (beqb_spec (c_fname C d) (c_fname C d')) as [->|N]; [apply beqb_refl|].
  apply beqb_neq. intros E. apply N, K, E.
Qed.

Lemma sim_payload_Set b : sim (payload_Set C b) (payload_Set renamed b).
Proof.
  unfold payload_Set. cbv zeta. apply sim_bind; [|intros; apply sim_ret]. apply sim_durable. intros st st' [].
  constructor; cbn; auto.
  - intros d. rewrite !mget_mset, k_beqb. destruct (beqb _ _); auto.
  - intros x v. rewrite mget_mset. destruct (beqb_spec x (c_fname C (c_hash C b))) as [->|N]; eauto.
  - intros x v. rewrite mget_mset. destruct (beqb_spec x (k (c_fname C (c_hash C b)))) as [->|N]; eauto.
Qed.
Lemma sim_payload_Erase d : sim (payload_Erase C d) (payload_Erase renamed d).
Proof.
  unfold payload_Erase. apply sim_durable. intros st st' []. constructor; cbn; auto.
  - intros d'. rewrite !mget_mdel, k_beqb. destruct (beqb _ _); auto.
  - intros x v. rewrite mget_mdel. destruct (beqb x (c_fname C d)); [discriminate|eauto].
  - intros x v. rewrite mget_mdel. destruct (beqb x (k (c_fname C d))); [discriminate|eauto].
Qed.
Lemma sim_payload_Get d : sim (payload_Get C d) (payload_Get renamed d).
Proof.
  unfold payload_Get. apply sim_bind.
  - intros st st' S. cbn. rewrite (same_files _ _ S). auto.
  - intros [b|]; [apply sim_ret|apply sim_fail].
Qed.
Lemma sim_Increment d : sim (ref_Increment d) (ref_Increment d).
Proof.
  unfold ref_Increment. apply sim_bind; [apply (sim_refs (fun m => mget m d))|]. intros o. cbv zeta.
  apply sim_bind; [|intros; apply sim_ret]. apply sim_durable. intros. apply same_set_refs; auto.
Qed.
Lemma sim_Decrement d : sim (ref_Decrement d) (ref_Decrement d).
Proof.
  unfold ref_Decrement. apply sim_bind; [apply (sim_refs (fun m => mget m d))|]. intros [c|]; [|apply sim_fail]. cbv zeta.
  apply sim_bind; [|intros; apply sim_ret]. apply sim_durable. intros. apply same_set_refs; auto.
Qed.
Lemma sim_Count d : sim (ref_Count d) (ref_Count d).
Proof. unfold ref_Count. apply sim_bind; [apply (sim_refs (fun m => mget m d))|]. intros [c|]; [apply sim_ret|apply sim_fail]. Qed.
Lemma sim_storage_Get s0 s1 p : sim (storage_Get C s0 s1 p) (storage_Get renamed s0 s1 p).
Proof.
  unfold storage_Get. apply sim_bind; [apply sim_lift|]. intros e. apply sim_bind; [apply sim_tree|]. intros t.
  destruct (query t _) as [|n [|]]; [apply sim_ret|apply sim_ret|apply sim_lift].
Qed.
Lemma sim_driver_Get s0 s1 p : sim (driver_Get_at C s0 s1 p) (driver_Get_at renamed s0 s1 p).
Proof.
  unfold driver_Get_at. apply sim_bind; [apply sim_storage_Get|]. intros [n|]; [|apply sim_ret].
  apply sim_bind; [apply (sim_kv (fun m => mget m (EncodeKey (node_pos n) (c_pp C))))|]. intros [b|]; [|apply sim_fail].
  apply sim_bind; [apply sim_lift|]. intros w. apply sim_ret.
Qed.
Lemma sim_driver_Insert x : sim (driver_Insert C x) (driver_Insert renamed x).
Proof.
  unfold driver_Insert. destruct x as [e a]. cbv zeta. apply sim_bind; [apply sim_durable; intros; apply same_set_kv; auto|]. intros _.
  apply sim_bind; [apply sim_tree|]. intros t. destruct (existsb _ t); [apply sim_fail|]. apply sim_upd. intros. apply same_set_tree; auto.
Qed.
Lemma sim_driver_Delete e : sim (driver_Delete C e) (driver_Delete renamed e).
Proof.
  unfold driver_Delete. apply sim_bind; [apply sim_durable; intros; apply same_set_kv; auto|]. intros _.
  apply sim_upd. intros. apply same_set_tree; auto.
Qed.
Lemma sim_DriverPrefixesOf s p : sim (DriverPrefixesOf C s p) (DriverPrefixesOf renamed s p).
Proof.
  unfold DriverPrefixesOf. cbv zeta. apply sim_bind; [apply sim_lift|]. intros ps. apply sim_bind; [apply sim_tree|]. intros t.
  replace (prefix_queries renamed s ps t) with (prefix_queries C s ps t); [apply sim_lift|].
  induction ps as [|q ps IH]; [reflexivity|]. cbn [prefix_queries]. rewrite IH. reflexivity.
Qed.
Lemma sim_PrefixedBy s p : sim (PrefixedBy C s p) (PrefixedBy renamed s p).
Proof.
  unfold PrefixedBy. cbv zeta. apply sim_bind; [apply sim_lift|]. intros start. apply sim_bind; [apply sim_lift|]. intros e.
  apply sim_bind; [apply sim_upd; intros; apply same_set_tree; auto|]. intros _. apply sim_bind; [apply sim_tree|]. intros t. apply sim_ret.
Qed.
Lemma sim_prunable_loop t cands : sim (prunable_loop C t cands) (prunable_loop renamed t cands).
Proof.
  induction cands as [|n cands IH]; cbn [prunable_loop]; [apply sim_ret|]. destruct (n_time n <? t); [|exact IH].
  apply sim_bind; [apply sim_upd; intros; apply same_set_tree; auto|]. intros _.
  apply sim_bind; [apply sim_driver_Get|]. intros [x|]; [|apply sim_fail]. apply sim_bind; [exact IH|]. intros r. apply sim_ret.
Qed.
Lemma sim_prune_loop xs : sim (prune_loop C xs) (prune_loop renamed xs).
Proof.
  induction xs as [|[e a] xs IH]; cbn [prune_loop]; [apply sim_ret|]. apply sim_bind; [apply sim_driver_Delete|]. intros _.
  apply sim_bind; [apply sim_Decrement|]. intros c. apply sim_bind; [destruct (c =? 0); [apply sim_payload_Erase|apply sim_ret]|]. intros _.
  apply sim_bind; [exact IH|]. intros r. apply sim_ret.
Qed.
Lemma sim_InsertEntry e token : sim (InsertEntry C e token) (InsertEntry renamed e token).
Proof.
  unfold InsertEntry. apply sim_bind; [apply sim_payload_Set|]. intros a. apply sim_bind; [apply sim_driver_Insert|]. intros _.
  apply sim_bind; [apply sim_Increment|]. intros _. apply sim_bind; [|intros xs; apply sim_prune_loop].
  unfold PrunableEntries. apply sim_bind; [apply sim_PrefixedBy|]. intros r. apply sim_prunable_loop.
Qed.
Lemma sim_unlock : sim unlock unlock.
Proof. apply (sim_upd (set_locked false) (set_locked false)). intros. apply same_set_locked; auto. Qed.
Lemma sim_replace_other e x : sim (replace_other C e x) (replace_other renamed e x).
Proof.
  unfold replace_other. destruct x as [o auth]. destruct (_ =? 0)%Z; [|apply sim_ret]. destruct (e_time e <=? e_time o).
  - apply sim_bind; [apply sim_unlock|]. intros _. apply sim_ret.
  - apply sim_bind; [apply sim_driver_Delete|]. intros _. apply sim_bind; [apply sim_payload_Erase|]. intros _.
    apply sim_bind; [|intros; apply sim_ret]. destruct (negb _); [|apply sim_ret].
    apply sim_bind; [apply sim_Decrement|]. intros c. destruct (c =? 0); [apply sim_payload_Erase|apply sim_ret].
Qed.
Lemma sim_IngestEntry e token : sim (IngestEntry C e token) (IngestEntry renamed e token).
Proof.
  unfold IngestEntry. apply sim_bind.
  { intros st st' S. unfold lock. rewrite (same_locked _ _ S). destruct (locked st); cbn; auto. split; auto. apply same_set_locked; auto. }
  intros _. assert (U : forall A, sim (unlock ;; @fail A) (unlock ;; @fail A)).
  { intros A. apply sim_bind; [apply sim_unlock|]. intros. apply sim_fail. }
  change (c_ns renamed) with (c_ns C). destruct (negb (ns_equal _ _)); [apply U|]. destruct (negb (IsAuthoriseWrite _ _)); [apply U|].
  apply sim_bind; [apply sim_DriverPrefixesOf|]. intros ps. destruct (existsb _ ps); [apply U|].
  apply sim_bind; [apply sim_driver_Get|]. intros o. apply sim_bind; [destruct o; [apply sim_replace_other|apply sim_ret]|]. intros go.
  destruct (negb go); [apply sim_fail|]. apply sim_bind; [apply sim_InsertEntry|]. intros pr. apply sim_bind; [apply sim_unlock|]. intros _. apply sim_ret.
Qed.
Lemma sim_Set i auth now : sim (Set_ C i auth now) (Set_ renamed i auth now).
Proof.
  unfold Set_. cbv zeta. apply sim_bind; [apply sim_payload_Set|]. intros dl. apply sim_bind; [apply sim_lift|]. intros token.
  apply sim_bind; [apply sim_IngestEntry|]. intros pr. apply sim_bind; [apply sim_Count|]. intros c.
  apply sim_bind; [destruct (c =? 0); [apply sim_payload_Erase|apply sim_ret]|]. intros _. apply sim_ret.
Qed.
Lemma sim_GetPayload p : sim (GetPayload C p) (GetPayload renamed p).
Proof.
  unfold GetPayload. apply sim_bind; [apply (sim_kv (fun m => mget m (EncodeKey p (c_pp C))))|]. intros [b|]; [|apply sim_fail].
  apply sim_bind; [apply sim_lift|]. intros w. apply sim_payload_Get.
Qed.
Lemma load_renamed m : load_nodes renamed m = load_nodes C m.
Proof. induction m as [|x m IH]; [reflexivity|]. cbn [load_nodes]. rewrite IH. reflexivity. Qed.
Lemma sim_step o : sim (step C o) (step renamed o).
Proof.
  destruct o as [i auth now|e token|]; cbn [step]; [apply sim_Set|apply sim_IngestEntry|].
  intros st st' S. cbn [step]. unfold reopen. rewrite load_renamed, (same_kv _ _ S).
  destruct (load_nodes C (kv st)); cbn [bind fst snd]; auto. split; auto. destruct S. constructor; cbn; auto.
Qed.
Lemma sim_run ops : forall st st', same st st' ->
  match run C ops st, run renamed ops st' with
  | Some s, Some s' => same s s'
  | None, None => True
  | _, _ => False
  end.
Proof.
  induction ops as [|o ops IH]; intros st st' S; cbn [run]; auto.
  destruct (sim_step o st st' S) as [E S1]. destruct (step C o st) as [r s], (step renamed o st') as [r' s']. cbn [fst snd] in E, S1. subst r'.
  destruct r; try exact I; apply IH; exact S1.
Qed.
Lemma same_empty : same empty_store empty_store.
Proof. constructor; auto; cbn; discriminate. Qed.
End Rename.
