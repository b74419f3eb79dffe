(** Rules for programs whose calls may fail (M_Fault.v), and what they keep. *)
From Verif Require Import Base M_Order M_Encoding M_Paths M_Successor M_Ranges M_Keys M_Entry M_Map M_Store M_Fault
  S_Order S_Store P_Order P_Encoding P_Paths P_Ranges P_Successor P_Keys P_Map P_Store.
Local Open Scope N_scope.

(** From states with [P], whatever the outcomes: [Q] when the program returns, [E] when it returns an error, [X] when it does not
    return. *)
Definition ends {A} (P : state -> Prop) (m : F A) (Q : A -> state -> Prop) (E X : state -> Prop) : Prop :=
  forall st os, P st ->
    match m (st, os) with
    | (Ok a, (st', _)) => Q a st'
    | (Err, (st', _)) => E st'
    | (_, (st', _)) => X st'
    end.
Lemma ends_bind {A B} P (m : F A) (f : A -> F B) Q1 Q E X :
  ends P m Q1 E X -> (forall a, ends (Q1 a) (f a) Q E X) -> ends P (bindF m f) Q E X.
Proof.
  intros H1 H2 st os HP. specialize (H1 st os HP). unfold bindF. destruct (m (st, os)) as [[a| | | |] [st' os']]; try exact H1.
  apply (H2 a st' os' H1).
Qed.
Lemma ends_ret {A} (P : state -> Prop) (a : A) (Q : A -> state -> Prop) E X : (forall st, P st -> Q a st) -> ends P (retF a) Q E X.
Proof. intros H st os HP. apply H. exact HP. Qed.
Lemma ends_fail {A} (P : state -> Prop) (Q : A -> state -> Prop) (E X : state -> Prop) : (forall st, P st -> E st) -> ends P failF Q E X.
Proof. intros H st os HP. apply H. exact HP. Qed.
Lemma ends_io (P : state -> Prop) E X : ends P io (fun _ => P) E X.
Proof. intros st os HP. unfold io. cbn [snd]. destruct os; exact HP. Qed.
Lemma ends_upd (P : state -> Prop) f (Q : unit -> state -> Prop) E X : (forall st, P st -> Q tt (f st)) -> ends P (upd f) Q E X.
Proof. intros H st os HP. apply H. exact HP. Qed.
Lemma ends_ignore {A} P (m : F A) (Q : state -> Prop) E X : ends P m (fun _ => Q) Q X -> ends P (ignore m) (fun _ => Q) E X.
Proof. intros H st os HP. specialize (H st os HP). unfold ignore. destruct (m (st, os)) as [[a| | | |] [st' os']]; exact H. Qed.
Lemma ends_mem {A} (P : state -> Prop) (m : M A) (Q : A -> state -> Prop) (E X : state -> Prop) :
  (forall st, P st -> match m st with (Ok a, st') => Q a st' | (Err, st') => E st' | (_, st') => X st' end) -> ends P (mem m) Q E X.
Proof. intros H st os HP. specialize (H st HP). unfold mem. cbn [fst snd]. destruct (m st) as [[a| | | |] st']; exact H. Qed.
Lemma ends_weaken {A} (P P' : state -> Prop) (m : F A) (Q Q' : A -> state -> Prop) (E E' X X' : state -> Prop) :
  ends P' m Q' E' X' -> (forall st, P st -> P' st) -> (forall a st, Q' a st -> Q a st) -> (forall st, E' st -> E st) -> (forall st, X' st -> X st) ->
  ends P m Q E X.
Proof. intros H H1 H2 H3 H4 st os HP. specialize (H st os (H1 st HP)). destruct (m (st, os)) as [[a| | | |] [st' os']]; auto. Qed.
(** A value the program reads. *)
Lemma ends_pure {A} (P : state -> Prop) (R : Prop) (m : F A) (Q : A -> state -> Prop) (E X : state -> Prop) :
  (R -> ends P m Q E X) -> ends (fun st => R /\ P st) m Q E X.
Proof. intros H st os [HR HP]. apply (H HR st os HP). Qed.

Section Keep.
Variable C : cfg.
Notation pp := (c_pp C).

(** Reading and writing a database. *)
Lemma ends_get {A} (P : state -> Prop) (f : state -> option A) (Q : option A -> state -> Prop) E X :
  (forall st, P st -> E st /\ Q (f st) st) -> ends P (db_get f) Q E X.
Proof.
  intros H. unfold db_get. eapply ends_bind; [apply ends_io|]. intros []; [|apply ends_fail; intros st HP; apply (H st HP)..].
  apply ends_mem. intros st HP. cbn [gets]. apply (H st HP).
Qed.
Lemma ends_write (P : state -> Prop) f (Q : unit -> state -> Prop) E X :
  (forall st, P st -> E st /\ Q tt (f st)) -> ends P (db_write f) Q E X.
Proof.
  intros H. unfold db_write. eapply ends_bind; [apply ends_io|]. intros []; [|apply ends_fail; intros st HP; apply (H st HP)..].
  apply ends_upd. intros st HP. apply (H st HP).
Qed.

(** Programs that keep a property of the state, whatever happens. *)
Definition keeps {A} (P : state -> Prop) (m : F A) : Prop := ends P m (fun _ => P) P P.
Lemma keeps_bind {A B} P (m : F A) (f : A -> F B) : keeps P m -> (forall a, keeps P (f a)) -> keeps P (bindF m f).
Proof. intros H1 H2. eapply ends_bind; [exact H1|exact H2]. Qed.
Lemma keeps_ret {A} P (a : A) : keeps P (retF a).
Proof. apply ends_ret. auto. Qed.
Lemma keeps_fail {A} P : keeps P (@failF A).
Proof. apply ends_fail. auto. Qed.
Lemma keeps_io P : keeps P io.
Proof. apply ends_io. Qed.
Lemma keeps_ignore {A} P (m : F A) : keeps P m -> keeps P (ignore m).
Proof. intros H. apply ends_ignore. exact H. Qed.
Lemma keeps_upd (P : state -> Prop) f : (forall st, P st -> P (f st)) -> keeps P (upd f).
Proof. intros H. apply ends_upd. exact H. Qed.
Lemma keeps_get {A} P (f : state -> option A) : keeps P (db_get f).
Proof. apply ends_get. auto. Qed.
Lemma keeps_write (P : state -> Prop) f : (forall st, P st -> P (f st)) -> keeps P (db_write f).
Proof. intros H. apply ends_write. auto. Qed.
Lemma keeps_mem {A} (P : state -> Prop) (m : M A) : (forall st, P st -> P (snd (m st))) -> keeps P (mem m).
Proof. intros H. apply ends_mem. intros st HP. specialize (H st HP). destruct (m st) as [[a| | | |] st']; exact H. Qed.
(** Programs that leave the state alone. *)
Lemma still_gets {A} (f : state -> A) st : snd (gets f st) = st.
Proof. reflexivity. Qed.
Lemma still_lift {A} (r : res A) st : snd (lift r st) = st.
Proof. reflexivity. Qed.
Lemma still_bind {A B} (m : M A) (f : A -> M B) st : snd (m st) = st -> (forall a, snd (f a st) = st) -> snd (bindM m f st) = st.
Proof. intros H1 H2. unfold bindM. destruct (m st) as [[a| | | |] st'] eqn:E; cbn [snd] in *; subst; auto. Qed.
Lemma still_storage_Get s0 s1 p st : snd (storage_Get C s0 s1 p st) = st.
Proof.
  unfold storage_Get. apply still_bind; [apply still_lift|]. intros e. apply still_bind; [apply still_gets|]. intros t.
  destruct (query _ _) as [|n [|]]; reflexivity.
Qed.
Lemma still_prefixes s p st : snd (DriverPrefixesOf C s p st) = st.
Proof.
  unfold DriverPrefixesOf. apply still_bind; [apply still_lift|]. intros e. apply still_bind; [apply still_gets|]. intros t. reflexivity.
Qed.
Lemma keeps_still {A} P (m : M A) : (forall st, snd (m st) = st) -> keeps P (mem m).
Proof. intros H. apply keeps_mem. intros st. rewrite H. auto. Qed.
(** PrefixedBy changes the tree only. *)
Lemma PrefixedBy_tree s p st : exists t, snd (PrefixedBy C s p st) = set_tree t st \/ snd (PrefixedBy C s p st) = st.
Proof.
  unfold PrefixedBy, bindM, lift, gets, ret. destruct (SuccessorPath p pp) as [start| | | |]; try (exists (fun t => t); right; reflexivity).
  destruct (SuccessorPrefix p pp) as [e| | | |]; try (exists (fun t => t); right; reflexivity).
  eexists. left. reflexivity.
Qed.

(** What is kept by all writes to the tree, the counts, the files and the lock is kept by every operation, as long as it is kept by the
    writes to the database of entries. *)
Section All.
Variable P : state -> Prop.
Hypothesis HT : forall f st, P st -> P (set_tree f st).
Hypothesis HR : forall f st, P st -> P (set_refs f st).
(** What may be written to files. *)
Variable W : bytes -> Prop.
Hypothesis HW : forall b n st, W b -> P st -> P (set_files (fun m => mset m (c_fname C (c_hash C b)) (firstn n b)) st).
Hypothesis HF : forall k st, P st -> P (set_files (fun m => mdel m k) st).
Hypothesis HL : forall b st, P st -> P (set_locked b st).
Hypothesis HD : forall k st, P st -> P (set_kv (fun m => mdel m k) st).

Lemma k_payload_Set b : W b -> keeps P (f_payload_Set C b).
Proof.
  intros HB. unfold f_payload_Set. apply keeps_bind; [apply keeps_io|]. intros o. apply keeps_bind; [|intros; apply keeps_ret].
  destruct o; [|apply keeps_ret|apply keeps_upd; auto]. apply keeps_upd. intros st HP. pose proof (HW b (length b) st HB HP) as K. rewrite firstn_all in K. exact K.
Qed.
Lemma k_payload_Erase d : keeps P (f_payload_Erase C d).
Proof.
  unfold f_payload_Erase. apply keeps_bind; [apply keeps_io|]. intros []; [|apply keeps_fail..].
  apply keeps_bind; [apply keeps_still; reflexivity|]. intros []; [apply keeps_upd; auto|apply keeps_fail].
Qed.
Lemma k_Increment d : keeps P (f_Increment d).
Proof.
  unfold f_Increment. apply keeps_bind; [apply keeps_get|]. intros o. cbv zeta. apply keeps_bind; [|intros; apply keeps_ret].
  apply keeps_ignore, keeps_write. auto.
Qed.
Lemma k_Decrement d : keeps P (f_Decrement d).
Proof.
  unfold f_Decrement. apply keeps_bind; [apply keeps_get|]. intros [c|]; [|apply keeps_fail]. cbv zeta.
  apply keeps_bind; [|intros; apply keeps_ret]. apply keeps_ignore, keeps_write. auto.
Qed.
Lemma k_Count d : keeps P (f_Count d).
Proof. unfold f_Count. apply keeps_bind; [apply keeps_get|]. intros [c|]; [apply keeps_ret|apply keeps_fail]. Qed.
Lemma k_driver_Get s0 s1 p : keeps P (f_driver_Get_at C s0 s1 p).
Proof.
  unfold f_driver_Get_at. apply keeps_bind; [apply keeps_still, still_storage_Get|]. intros [n|]; [|apply keeps_ret].
  apply keeps_bind; [apply keeps_get|]. intros [b|]; [|apply keeps_fail]. apply keeps_bind; [apply keeps_still; reflexivity|]. intros w. apply keeps_ret.
Qed.
Lemma k_driver_Delete e : keeps P (f_driver_Delete C e).
Proof.
  unfold f_driver_Delete. apply keeps_bind; [apply keeps_write; auto|]. intros _. apply keeps_bind; [apply keeps_still; reflexivity|]. intros t.
  destruct (existsb _ t); [apply keeps_upd; auto|apply keeps_fail].
Qed.
Lemma k_prunable_loop t cands : keeps P (f_prunable_loop C t cands).
Proof.
  induction cands as [|n cands IH]; cbn [f_prunable_loop]; [apply keeps_ret|]. destruct (n_time n <? t); [|exact IH].
  apply keeps_bind; [apply keeps_upd; auto|]. intros _. apply keeps_bind; [apply k_driver_Get|]. intros [x|]; [|apply keeps_fail].
  apply keeps_bind; [exact IH|]. intros r. apply keeps_ret.
Qed.
Lemma k_PrunableEntries s p t : keeps P (f_PrunableEntries C s p t).
Proof.
  unfold f_PrunableEntries. apply keeps_bind; [|intros r; apply k_prunable_loop]. apply keeps_mem. intros st HP.
  destruct (PrefixedBy_tree s p st) as (f & [-> | ->]); auto.
Qed.
Lemma k_prune_loop xs : keeps P (f_prune_loop C xs).
Proof.
  induction xs as [|[e a] xs IH]; cbn [f_prune_loop]; [apply keeps_ret|].
  apply keeps_bind; [apply keeps_ignore, k_driver_Delete|]. intros _. apply keeps_bind; [apply k_Decrement|]. intros c.
  apply keeps_bind; [destruct (c =? 0); [apply keeps_ignore, k_payload_Erase|apply keeps_ret]|]. intros _.
  apply keeps_bind; [exact IH|]. intros r. apply keeps_ret.
Qed.
Lemma k_replace_other e x : keeps P (f_replace_other C e x).
Proof.
  unfold f_replace_other. destruct x as [o auth]. destruct (_ =? 0)%Z; [|apply keeps_ret]. destruct (e_time e <=? e_time o).
  - apply keeps_bind; [apply keeps_mem; cbn [unlock snd]; auto|]. intros _. apply keeps_ret.
  - apply keeps_bind; [apply keeps_ignore, k_driver_Delete|]. intros _. apply keeps_bind; [apply keeps_ignore, k_payload_Erase|]. intros _.
    apply keeps_bind; [|intros; apply keeps_ret]. destruct (negb _); [|apply keeps_ret].
    apply keeps_bind; [apply k_Decrement|]. intros c. destruct (c =? 0); [apply keeps_ignore, k_payload_Erase|apply keeps_ret].
Qed.
Lemma k_driver_Insert e a :
  (forall st, P st -> P (set_kv (fun m => mset m (EncodeKey (EntryPosition e) pp) (EncodeValues (Values (e_length e) (e_digest e) a))) st)) ->
  keeps P (f_driver_Insert C (e, a)).
Proof.
  intros HI. unfold f_driver_Insert. apply keeps_bind; [apply keeps_write; auto|]. intros _. apply keeps_bind; [apply keeps_still; reflexivity|]. intros t.
  destruct (existsb _ t); [apply keeps_fail|apply keeps_upd; auto].
Qed.
Definition written (e : entry) (st : state) : state :=
  set_kv (fun m => mset m (EncodeKey (EntryPosition e) pp) (EncodeValues (Values (e_length e) (e_digest e) (c_hash C (e_subspace e))))) st.
Lemma payload_Set_result b st os : fst (f_payload_Set C b (st, os)) = Ok (c_hash C b, len b).
Proof. unfold f_payload_Set, bindF, io. cbn [snd]. destruct os as [|[]]; reflexivity. Qed.
Lemma k_InsertEntry e token : e_namespace e = c_ns C -> token = e_subspace e -> W token ->
  (forall st, P st -> P (written e st)) -> keeps P (f_InsertEntry C e token).
Proof.
  intros EN ET WT HI. unfold f_InsertEntry. apply (ends_bind P _ _ (fun a st => fst a = c_hash C token /\ P st)).
  { intros st os HP. pose proof (k_payload_Set token WT st os HP) as K. pose proof (payload_Set_result token st os) as R.
    destruct (f_payload_Set C token (st, os)) as [r [st' os']]. cbn [fst] in R. subst r. auto. }
  intros a. apply ends_pure. intros ->.
  apply keeps_bind.
  { apply k_driver_Insert. intros st HP. specialize (HI st HP). unfold written in HI. subst token. exact HI. }
  intros _. apply keeps_bind; [apply keeps_ignore, k_Increment|]. intros _. apply keeps_bind; [apply k_PrunableEntries|]. intros xs. apply k_prune_loop.
Qed.
Lemma k_IngestEntry e token : (e_namespace e = c_ns C -> token = e_subspace e -> W token /\ forall st, P st -> P (written e st)) ->
  keeps P (f_IngestEntry C e token).
Proof.
  intros HI. unfold f_IngestEntry. apply keeps_bind.
  { apply keeps_mem. intros st HP. unfold lock. destruct (locked st); cbn [snd]; auto. }
  assert (U : forall A, keeps P (let! _ := mem unlock in @failF A)).
  { intros A. apply keeps_bind; [apply keeps_mem; cbn [unlock snd]; auto|]. intros. apply keeps_fail. }
  intros _. destruct (negb (ns_equal _ _)) eqn:G1; [apply U|]. destruct (negb (IsAuthoriseWrite e token)) eqn:G2; [apply U|].
  apply keeps_bind; [apply keeps_still, still_prefixes|]. intros ps. destruct (existsb _ ps); [apply U|].
  apply keeps_bind; [apply k_driver_Get|]. intros o. apply keeps_bind; [destruct o; [apply k_replace_other|apply keeps_ret]|]. intros go.
  destruct (negb go); [apply keeps_fail|]. apply keeps_bind; [|intros pr; apply keeps_bind; [apply keeps_mem; cbn [unlock snd]; auto|intros; apply keeps_ret]].
  unfold ns_equal, IsAuthoriseWrite in *. destruct (beqb_spec (c_ns C) (e_namespace e)); [|discriminate]. destruct (beqb_spec (e_subspace e) token); [|discriminate].
  apply k_InsertEntry; auto; apply HI; auto.
Qed.
Lemma k_Set i auth now : W (i_payload i) -> (auth = i_sub i -> W (i_sub i) /\ forall st, P st -> P (written (set_entry C i now) st)) ->
  keeps P (f_Set C i auth now).
Proof.
  intros WP HI. unfold f_Set. cbv zeta. apply (ends_bind P _ _ (fun a st => a = (c_hash C (i_payload i), len (i_payload i)) /\ P st)).
  { intros st os HP. pose proof (k_payload_Set (i_payload i) WP st os HP) as K. pose proof (payload_Set_result (i_payload i) st os) as R.
    destruct (f_payload_Set C (i_payload i) (st, os)) as [r [st' os']]. cbn [fst] in R. subst r. auto. }
  intros a. apply ends_pure. intros ->. cbn [fst snd]. fold (set_entry C i now).
  apply (ends_bind P _ _ (fun _ st => auth = i_sub i /\ P st)).
  { apply ends_mem. intros st HP. unfold lift, Authorise, set_entry. cbn [e_subspace]. destruct (beqb_spec (i_sub i) auth); auto. }
  intros token. apply ends_pure. intros EA.
  apply keeps_bind; [apply k_IngestEntry; intros _ ->; apply HI, EA|]. intros pr. apply keeps_bind; [apply k_Count|]. intros c.
  apply keeps_bind; [|intros; apply keeps_ret]. destruct (c =? 0); [apply keeps_ignore, k_payload_Erase|apply keeps_ret].
Qed.
Hypothesis HO : forall t st, P st -> P (State (kv st) t (refs st) (files st) false None).
Lemma k_values m : keeps P (f_values m).
Proof.
  induction m as [|[k v] m IH]; cbn [f_values]; [apply keeps_ret|]. apply keeps_bind; [apply keeps_get|]. intros [b|]; [|apply keeps_fail].
  apply keeps_bind; [exact IH|]. intros. apply keeps_ret.
Qed.
Lemma k_ListAllValues : keeps P f_ListAllValues.
Proof.
  unfold f_ListAllValues. apply keeps_bind; [apply keeps_io|]. intros o.
  assert (H : keeps P (let! m := mem (gets kv) in
      fun s =>
        let '(r, s') := f_values (match o with Torn n => firstn n m | _ => m end) s in
        (let! c := io in
         match o, c with Fine, Fine => (fun s => (r, s)) | _, _ => mem (lift Fatal) end) s')).
  { apply keeps_bind; [apply keeps_still; reflexivity|]. intros m st os HP.
    pose proof (k_values (match o with Torn n => firstn n m | _ => m end) st os HP) as K.
    destruct (f_values _ (st, os)) as [r [st' os']]. assert (HP' : P st') by (destruct r; exact K).
    unfold bindF, io. cbn [snd fst]. destruct o, os' as [|[] os']; try exact HP'; destruct r; exact HP'. }
  destruct o; [exact H|apply keeps_fail|exact H].
Qed.
Lemma k_reopen : keeps P (f_reopen C).
Proof.
  unfold f_reopen. apply keeps_bind; [apply keeps_io|]. intros []; [|apply keeps_still; reflexivity..].
  apply keeps_bind; [apply keeps_io|]. intros []; [|apply keeps_still; reflexivity..].
  intros st os HP. pose proof (k_ListAllValues st os HP) as K. destruct (f_ListAllValues (st, os)) as [[m| | | |] [st' os']]; auto.
  destruct (load_nodes C m); auto.
Qed.
Lemma k_step o : (forall i auth now, o = OpSet i auth now -> W (i_payload i)) ->
  (forall e, offer C o = Some (e, e_subspace e) -> e_namespace e = c_ns C -> W (e_subspace e) /\ forall st, P st -> P (written e st)) -> keeps P (f_step C o).
Proof.
  intros HS HI. destruct o as [i auth now|e token|]; cbn [f_step].
  - apply k_Set; [apply (HS i auth now eq_refl)|]. intros ->. apply (HI (set_entry C i now)); reflexivity.
  - apply k_IngestEntry. intros H1 ->. apply HI; auto.
  - apply keeps_bind; [apply k_reopen|]. intros. apply keeps_ret.
Qed.
End All.

(** ** The entry of an operation that succeeds *)
Section Good.
Variable e : entry.
Hypothesis PP : store_params pp.
Hypothesis HT : e_time e < 2 ^ 64.
Definition ekeyv : bytes * bytes :=
  (EncodeKey (EntryPosition e) pp, EncodeValues (Values (e_length e) (e_digest e) (c_hash C (e_subspace e)))).
Definition enode : node := Node (e_subspace e) (e_path e) (e_time e) [] false.
Definition good (st : state) : Prop :=
  mget (kv st) (fst ekeyv) = Some (snd ekeyv) /\ (strict_path pp (e_path e) -> In enode (tree st)).

Lemma older_key x : e_time x < e_time e -> EncodeKey (EntryPosition x) pp <> EncodeKey (EntryPosition e) pp.
Proof.
  intros L E. pose proof (BigIntToBytes_lt (e_time x) (e_time e) L HT) as B.
  unfold EncodeKey in E. cbn [pos_time pos_path pos_subspace EntryPosition] in E.
  assert (H : forall a b c d : bytes, len a = len c -> a ++ b = c ++ d -> a = c).
  { induction a as [|x0 a IH]; intros b0 [|y c] d EL EA; auto; try (rewrite len_cons, len_nil in EL; lia).
    rewrite !len_cons in EL. cbn [app] in EA. injection EA as -> EA. f_equal. eapply IH; eauto. lia. }
  apply H in E; [|rewrite !BigIntToBytes_len; reflexivity]. rewrite E in B. eapply bytes_lt_irrefl, B.
Qed.
Lemma good_refs f st : good st -> good (set_refs f st).
Proof. auto. Qed.
Lemma good_files f st : good st -> good (set_files f st).
Proof. auto. Qed.
Lemma good_locked b st : good st -> good (set_locked b st).
Proof. auto. Qed.
Lemma good_delete x : e_time x < e_time e -> keeps good (f_driver_Delete C x).
Proof.
  intros L. unfold f_driver_Delete. apply keeps_bind.
  { apply keeps_write. intros st [G1 G2]. split; [|exact G2]. cbn [set_kv kv ekeyv fst snd] in *. rewrite mget_mdel.
    destruct (beqb_spec (EncodeKey (EntryPosition e) pp) (EncodeKey (EntryPosition x) pp)) as [E|]; [|exact G1].
    exfalso. apply (older_key x L). auto. }
  intros _. apply keeps_bind; [apply keeps_still; reflexivity|]. intros t. destruct (existsb _ t); [|apply keeps_fail].
  apply keeps_upd. intros st [G1 G2]. split; [exact G1|]. intros S. specialize (G2 S). cbn [set_tree tree].
  induction (tree st) as [|m l IH]; [destruct G2|]. cbn [remove_first].
  destruct (node_is_spec (e_subspace x) (e_path x) (e_time x) m) as [E|N].
  - destruct G2 as [->|G2]; [|exact G2]. exfalso. unfold enode, node_pos in E. cbn in E. injection E as _ _ E. lia.
  - destruct G2 as [->|G2]; [left; reflexivity|right; auto].
Qed.
Lemma good_prune xs : Forall (fun x : ext => e_time (fst x) < e_time e) xs -> keeps good (f_prune_loop C xs).
Proof.
  induction 1 as [|[x a] xs H _ IH]; cbn [f_prune_loop]; [apply keeps_ret|].
  apply keeps_bind; [apply keeps_ignore, good_delete, H|]. intros _. apply keeps_bind; [apply k_Decrement; auto using good_refs|]. intros c.
  apply keeps_bind; [destruct (c =? 0); [apply keeps_ignore, k_payload_Erase; auto using good_files|apply keeps_ret]|]. intros _.
  apply keeps_bind; [exact IH|]. intros r. apply keeps_ret.
Qed.
Lemma good_PrefixedBy : keeps good (mem (PrefixedBy C (e_subspace e) (e_path e))).
Proof.
  apply keeps_mem. intros st [G1 G2]. unfold PrefixedBy, bindM, lift, gets, ret.
  destruct (SuccessorPath (e_path e) pp) as [start| | | |]; try (split; assumption).
  destruct (SuccessorPrefix (e_path e) pp) as [q| | | |]; try (split; assumption). cbn [snd].
  split; [exact G1|]. intros S. specialize (G2 S). cbn [set_tree tree]. destruct (tree st) as [|m l]; [destruct G2|].
  destruct G2 as [->|G2]; [left|right; exact G2]. unfold enode. cbn [n_sub n_time n_fp n_shared]. f_equal.
  destruct S as [S1 S2]. destruct (exists_last S1) as (pre & c & E). rewrite E in *. apply (strict_SuccessorPrefix C PP). split; [exact S1|exact S2].
Qed.
(** What PrunableEntries finds is older. *)
Lemma SuccessorPath_lt p q : SuccessorPath p pp = Ok (Some q) -> path_lt p q.
Proof.
  assert (L : forall n, (n <= length p)%nat -> successor_path_loop pp p n = Ok (Some q) -> path_lt p q).
  { induction n as [|i IH]; cbn [successor_path_loop]; intros HL H; [discriminate|].
    destruct (TryAppendZeroByte (nth i p []) pp) as [c'|] eqn:E1.
    - destruct (PathAppend (firstn i p) c' pp) as [r| | | |] eqn:E2; cbn [bind] in H; try discriminate. inversion H; subst.
      apply PathAppend_ok in E2. subst. apply TryAppendZeroByte_some in E1. subst c'.
      rewrite (split_nth i p [] HL) at 1. apply lex_app_l. apply lex_head. apply bytes_lt_append_zero.
    - destruct (SuccessorBytesFixedWidth (nth i p [])) as [c'|]; [|apply IH; [lia|exact H]].
      destruct (PathAppend p c' pp) as [r| | | |] eqn:E2; cbn [bind] in H; try discriminate. inversion H; subst.
      apply PathAppend_ok in E2. subst. apply lex_prefix. }
  unfold SuccessorPath. destruct p as [|c p]; [intros H; inversion H; constructor|].
  destruct (_ <? _); [|apply L; lia]. destruct (PathAppend (c :: p) [] pp) as [r| | | |] eqn:E2; cbn [bind]; intros H; try discriminate.
  inversion H; subst. apply PathAppend_ok in E2. subst. apply lex_prefix.
Qed.
Lemma clobber_below n : bytes_lt (clobber C n) (SuccessorSubspaceId (n_sub n)).
Proof.
  unfold SuccessorSubspaceId, clobber. destruct (_ && _ && _); [|apply bytes_lt_append_zero].
  destruct (n_sub n) as [|x r]; [constructor|]. cbn [app]. destruct (N.eq_dec x 0) as [->|]; [apply lex_tail, bytes_lt_append_zero|apply lex_head; lia].
Qed.
Lemma clobber_twice n : clobber_node C (clobber_node C n) = clobber_node C n.
Proof.
  unfold clobber_node. cbn [n_sub n_path n_time n_fp n_shared]. f_equal. unfold clobber at 1. cbn [n_sub n_path n_shared].
  destruct (n_shared n && negb (toT pp (len (n_path n)) <? max_component_count pp)
     && match TryAppendZeroByte (last (n_path n) []) pp with Some _ => true | None => false end) eqn:E; [|reflexivity].
  unfold clobber. rewrite E. destruct (n_sub n); reflexivity.
Qed.
Definition near (n : node) (st : state) : Prop := In n (tree st) \/ In (clobber_node C n) (tree st).
Definition clobbering (n m : node) : node := if node_is (n_sub n) (n_path n) (n_time n) m && n_shared n then clobber_node C m else m.
Lemma clobbering_or n x : clobbering n x = x \/ clobbering n x = clobber_node C x.
Proof. unfold clobbering. destruct (_ && _); auto. Qed.
Lemma near_map n x st : near x st -> near x (set_tree (map (clobbering n)) st).
Proof.
  intros [H|H]; apply (in_map (clobbering n)) in H; unfold near; cbn [set_tree tree].
  - destruct (clobbering_or n x) as [E|E]; rewrite E in H; auto.
  - destruct (clobbering_or n (clobber_node C x)) as [E|E]; rewrite E, ?clobber_twice in H; auto.
Qed.
Lemma near_self n st : near n st -> In (clobber_node C n) (tree (set_tree (map (clobbering n)) st)).
Proof.
  intros [H|H]; apply (in_map (clobbering n)) in H; cbn [set_tree tree].
  - assert (EQ : clobbering n n = clobber_node C n); [|rewrite <- EQ; exact H]. unfold clobbering.
    destruct (node_is_spec (n_sub n) (n_path n) (n_time n) n) as [_|N]; [|exfalso; apply N; reflexivity]. cbn [andb].
    destruct (n_shared n) eqn:E; [reflexivity|]. unfold clobber_node, clobber. rewrite E. cbn [andb]. destruct n; cbn in *; congruence.
  - destruct (clobbering_or n (clobber_node C n)) as [E|E]; rewrite E, ?clobber_twice in H; auto.
Qed.
Lemma storage_Get_self n st m : In (clobber_node C n) (tree st) ->
  fst (storage_Get C (clobber C n) (SuccessorSubspaceId (n_sub n)) (n_path n) st) = Ok (Some m) -> m = clobber_node C n.
Proof.
  intros Hin. unfold storage_Get, bindM, lift, gets. destruct (SuccessorPath (n_path n) pp) as [q| | | |] eqn:E; try discriminate.
  destruct (query (tree st) _) as [|x [|]] eqn:Q; cbn [fst ret]; try discriminate. intros H. inversion H; subst x.
  destruct q as [q|].
  - assert (I : In (clobber_node C n) (query (tree st) (path_window (clobber C n) (SuccessorSubspaceId (n_sub n)) (n_path n) (Some q)))).
    { apply filter_In. split; [exact Hin|]. rewrite IsIncluded3d_spec. unfold in_range3d, path_window, in_range.
      cbn [subspace_range path_range time_range node_pos pos_subspace pos_path pos_time r_start r_end r_open clobber_node n_sub n_path n_time].
      split; [split; [apply bytes_lt_irrefl|right; apply clobber_below]|]. split; [split; [apply path_lt_irrefl|right; apply SuccessorPath_lt, E]|].
      split; [lia|auto]. }
    rewrite Q in I. destruct I as [I|[]]. exact I.
  - exfalso. assert (I : In m (query (tree st) (path_window (clobber C n) (SuccessorSubspaceId (n_sub n)) (n_path n) None))) by (rewrite Q; left; reflexivity).
    apply filter_In in I as [_ I]. rewrite IsIncluded3d_spec in I. destruct I as (_ & [_ [I|I]] & _); cbn in I; [discriminate|]. inversion I.
Qed.
Definition older (t : N) (xs : list ext) : Prop := Forall (fun x : ext => e_time (fst x) < t) xs.
Lemma good_prunable_loop t cands :
  ends (fun st => good st /\ Forall (fun n => near n st) cands) (f_prunable_loop C t cands) (fun xs st => older t xs /\ good st) good good.
Proof.
  induction cands as [|n cands IH]; cbn [f_prunable_loop]; [apply ends_ret; intros st [G _]; split; [constructor|exact G]|].
  destruct (n_time n <? t) eqn:LT.
  2:{ eapply ends_weaken; [exact IH|..]; auto. intros st [G H]. inversion H; auto. }
  apply N.ltb_lt in LT. fold (clobbering n).
  apply (ends_bind _ _ _ (fun _ st => (good st /\ Forall (fun n => near n st) cands) /\ In (clobber_node C n) (tree st))).
  { apply ends_upd. intros st [[G1 G2] H]. inversion H as [|? ? H1 H2]; subst. split; [split|].
    - split; [exact G1|]. intros S. specialize (G2 S). cbn [set_tree tree].
      apply in_map_iff. exists enode. split; [|exact G2]. unfold clobbering. destruct (_ && _); [|reflexivity].
      unfold clobber_node, clobber, enode. cbn [n_shared n_path n_sub n_time n_fp andb]. reflexivity.
    - eapply Forall_impl; [|exact H2]. intros x. apply near_map.
    - apply near_self, H1. }
  intros _. apply (ends_bind _ _ _ (fun o st => (forall x, o = Some x -> e_time (fst x) < t) /\ good st /\ Forall (fun n => near n st) cands)).
  { unfold f_driver_Get_at.
    apply (ends_bind _ _ _ (fun o st => (forall m, o = Some m -> n_time m < t) /\ good st /\ Forall (fun n => near n st) cands)).
    { apply ends_mem. intros st [[G H] I]. pose proof (still_storage_Get (clobber C n) (SuccessorSubspaceId (n_sub n)) (n_path n) st) as ST.
      pose proof (fun m => storage_Get_self n st m I) as SG.
      destruct (storage_Get C _ _ _ st) as [[o| | | |] st']; cbn [fst snd] in *; subst st'; auto.
      split; [|split; auto]. intros m ->. rewrite (SG m eq_refl). exact LT. }
    intros [m|]; [|apply ends_ret; intros st (_ & G); split; [discriminate|exact G]].
    apply ends_pure. intros Hm. specialize (Hm m eq_refl).
    apply (ends_bind _ _ _ (fun _ st => good st /\ Forall (fun n => near n st) cands)); [apply ends_get; intros st [G H]; auto|].
    intros [b|]; [|apply ends_fail; intros st [G _]; exact G].
    apply (ends_bind _ _ _ (fun _ st => good st /\ Forall (fun n => near n st) cands)).
    { apply ends_mem. intros st [G H]. unfold lift. destruct (DecodeValues b); auto. }
    intros w. apply ends_ret. intros st H. split; [|exact H]. intros x E. inversion E; subst. exact Hm. }
  intros [x|]; [|apply ends_fail; intros st (_ & G & _); exact G]. apply ends_pure. intros Hx. specialize (Hx x eq_refl).
  eapply ends_bind; [exact IH|]. intros r. apply ends_ret. intros st [O G]. split; [constructor; auto|exact G].
Qed.
Lemma good_PrunableEntries t :
  ends good (f_PrunableEntries C (e_subspace e) (e_path e) t) (fun xs st => older t xs /\ good st) good good.
Proof.
  unfold f_PrunableEntries. apply (ends_bind _ _ _ (fun r st => good st /\ Forall (fun n => near n st) (fst r))).
  { intros st os G. pose proof (good_PrefixedBy st os G) as K. unfold mem in *. cbn [fst snd] in *.
    destruct (PrefixedBy C (e_subspace e) (e_path e) st) as [r st'] eqn:E. destruct r as [r| | | |]; auto. split; [exact K|].
    unfold PrefixedBy, bindM, lift, gets, ret in E. destruct (SuccessorPath (e_path e) pp) as [q| | | |]; try discriminate.
    destruct (SuccessorPrefix (e_path e) pp) as [q'| | | |]; try discriminate. inversion E; subst. cbn [fst].
    apply Forall_forall. intros n Hn. left. apply filter_In in Hn as [Hn _]. exact Hn. }
  intros r. apply good_prunable_loop.
Qed.

Lemma good_driver_Insert token : token = e_subspace e ->
  ends (fun _ => True) (f_driver_Insert C (Entry (c_ns C) (e_subspace e) (e_digest e) (e_path e) (e_time e) (e_length e), c_hash C token))
    (fun _ => good) (fun _ => True) (fun _ => True).
Proof.
  intros ->. unfold f_driver_Insert.
  eapply (ends_bind _ _ _ (fun _ st => mget (kv st) (fst ekeyv) = Some (snd ekeyv))).
  { apply ends_write. intros st _. split; [exact I|]. cbn [set_kv kv]. rewrite mget_mset. unfold EntryPosition.
    cbn [e_subspace e_path e_time e_length e_digest ekeyv fst snd]. unfold EntryPosition. rewrite beqb_refl. reflexivity. }
  intros _. eapply (ends_bind _ _ _ (fun _ st => mget (kv st) (fst ekeyv) = Some (snd ekeyv))); [apply ends_mem; cbn [gets]; auto|].
  intros t. cbn [e_subspace e_path e_time]. destruct (existsb _ t); [apply ends_fail; auto|]. apply ends_upd. intros st H. split; [exact H|]. intros _. left. reflexivity.
Qed.
Lemma good_InsertEntry token : token = e_subspace e ->
  ends (fun _ => True) (f_InsertEntry C e token) (fun _ => good) (fun _ => True) (fun _ => True).
Proof.
  intros ET. unfold f_InsertEntry. apply (ends_bind _ _ _ (fun a st => fst a = c_hash C token /\ True)).
  { intros st os _. pose proof (payload_Set_result token st os) as R. destruct (f_payload_Set C token (st, os)) as [r [st' os']]. cbn [fst] in R. subst r. auto. }
  intros a. apply ends_pure. intros ->. eapply ends_bind; [apply good_driver_Insert, ET|]. intros []. cbv beta.
  assert (K : forall A (m : F A), keeps good m -> ends good m (fun _ => good) (fun _ => True) (fun _ => True)).
  { intros A m H. eapply ends_weaken; [exact H|..]; auto. }
  eapply ends_bind; [apply K, keeps_ignore, k_Increment; auto using good_refs|]. intros []. cbv beta.
  apply (ends_bind _ _ _ (fun xs st => older (e_time e) xs /\ good st)); [eapply ends_weaken; [apply good_PrunableEntries|..]; auto|].
  intros xs. cbv beta. apply ends_pure. intros O. apply K, good_prune, O.
Qed.
Lemma good_IngestEntry token :
  ends (fun _ => True) (f_IngestEntry C e token)
    (fun _ st => (e_namespace e = c_ns C /\ token = e_subspace e) /\ good st /\ locked st = false) (fun _ => True) (fun _ => True).
Proof.
  unfold f_IngestEntry. assert (T : forall A (m : F A), ends (fun _ => True) m (fun _ _ => True) (fun _ => True) (fun _ => True)).
  { intros A m st os _. destruct (m (st, os)) as [[] []]; exact I. }
  eapply ends_bind; [apply T|]. intros []. cbv beta. assert (U : forall A Q, ends (fun _ => True) (let! _ := mem unlock in @failF A) Q (fun _ => True) (fun _ => True)).
  { intros A Q st os _. exact I. }
  destruct (negb (ns_equal _ _)) eqn:G1; [apply U|]. destruct (negb (IsAuthoriseWrite e token)) eqn:G2; [apply U|].
  unfold IsAuthoriseWrite, ns_equal in *. destruct (beqb_spec (e_subspace e) token) as [ET|]; [|discriminate].
  destruct (beqb_spec (c_ns C) (e_namespace e)) as [EN|]; [|discriminate].
  eapply ends_bind; [apply T|]. intros ps. cbv beta. destruct (existsb _ ps); [apply U|].
  eapply ends_bind; [apply T|]. intros o. cbv beta. eapply ends_bind; [apply T|]. intros go. cbv beta. destruct (negb go); [apply ends_fail; auto|].
  eapply ends_bind; [apply good_InsertEntry; auto|]. intros pr. cbv beta.
  eapply (ends_bind _ _ _ (fun _ st => good st /\ locked st = false)); [apply ends_mem; intros st G; cbn [unlock]; split; [exact G|reflexivity]|].
  intros _. apply ends_ret. auto.
Qed.
Lemma good_Set i auth now : e = set_entry C i now ->
  ends (fun _ => True) (f_Set C i auth now) (fun _ st => auth = e_subspace e /\ good st /\ locked st = false) (fun _ => True) (fun _ => True).
Proof.
  intros EI. unfold f_Set. cbv zeta. apply (ends_bind _ _ _ (fun a st => a = (c_hash C (i_payload i), len (i_payload i)) /\ True)).
  { intros st os HP. pose proof (payload_Set_result (i_payload i) st os) as R.
    destruct (f_payload_Set C (i_payload i) (st, os)) as [r [st' os']]. cbn [fst] in R. subst r. auto. }
  intros a. apply ends_pure. intros ->. cbn [fst snd]. fold (set_entry C i now). rewrite <- EI.
  eapply (ends_bind _ _ _ (fun _ _ => auth = e_subspace e /\ True)).
  { apply ends_mem. intros. unfold lift, Authorise. destruct (beqb_spec (e_subspace e) auth); auto. }
  intros token. apply ends_pure. intros EA.
  apply (ends_bind _ _ _ (fun _ st => good st /\ locked st = false)); [eapply ends_weaken; [apply good_IngestEntry|..]; auto; intros ? ? (_ & H); exact H|].
  intros pr.
  assert (K : forall A (m : F A), keeps (fun st => good st /\ locked st = false) m ->
            ends (fun st => good st /\ locked st = false) m (fun _ st => good st /\ locked st = false) (fun _ => True) (fun _ => True)).
  { intros A m H. eapply ends_weaken; [exact H|..]; auto. }
  eapply ends_bind; [apply K, k_Count|]. intros c. cbv beta. eapply ends_bind; [apply K|intros; apply ends_ret; auto].
  destruct (c =? 0); [|apply keeps_ret]. apply keeps_ignore, k_payload_Erase. intros f st [G L]. split; [apply good_files, G|exact L].
Qed.
End Good.

(** ** The lock *)
Definition held (st : state) : Prop := locked st = true.
Lemma locked_IngestEntry e token st : locked st = false ->
  ends (fun s => s = st) (f_IngestEntry C e token) (fun _ s => locked s = false) (fun s => s = st \/ held s) held.
Proof.
  intros L0. assert (B : set_locked false (set_locked true st) = st) by (destruct st; cbn in *; subst; reflexivity).
  set (s1 := set_locked true st) in *. assert (H1 : held s1) by reflexivity.
  assert (W : forall A (m : F A), keeps held m -> ends held m (fun _ => held) (fun s => s = st \/ held s) held).
  { intros A m H. eapply ends_weaken; [exact H|..]; auto. }
  assert (W1 : forall A (m : F A), keeps (fun s => s = s1) m -> ends (fun s => s = s1) m (fun _ s => s = s1) (fun s => s = st \/ held s) held).
  { intros A m H. eapply ends_weaken; [exact H|..]; auto; intros ? ->; auto. }
  unfold f_IngestEntry. apply (ends_bind _ _ _ (fun _ s => s = s1)).
  { apply ends_mem. intros s ->. unfold lock. rewrite L0. reflexivity. }
  intros _. assert (U : forall A Q, ends (fun s => s = s1) (let! _ := mem unlock in @failF A) Q (fun s => s = st \/ held s) held).
  { intros A Q s os ->. cbn. left. exact B. }
  destruct (negb (ns_equal _ _)); [apply U|]. destruct (negb (IsAuthoriseWrite e token)); [apply U|].
  eapply ends_bind; [apply W1, keeps_still, still_prefixes|]. intros ps. cbv beta. destruct (existsb _ ps); [apply U|].
  eapply ends_bind; [apply W1|]. { apply k_driver_Get. }
  intros o. cbv beta.
  apply (ends_bind _ _ _ (fun go s => if go : bool then held s else s = st)).
  - destruct o as [x|]; [|apply ends_ret; intros s ->; exact H1]. unfold f_replace_other. destruct x as [o auth].
    destruct (_ =? 0)%Z; [|apply ends_ret; intros s ->; exact H1]. destruct (e_time e <=? e_time o).
    + eapply (ends_bind _ _ _ (fun _ s => s = st)); [apply ends_mem; intros s ->; cbn [unlock]; exact B|]. intros _. apply ends_ret. auto.
    + eapply (ends_bind _ _ _ (fun _ => held)).
      { eapply ends_weaken; [apply W, keeps_ignore, k_driver_Delete|..]; auto; try (intros; exact H). intros s ->; exact H1. }
      intros _. eapply ends_bind; [apply W, keeps_ignore, k_payload_Erase; auto|]. intros u. cbv beta.
      eapply (ends_bind _ _ _ (fun _ => held)); [|intros; apply ends_ret; auto].
      destruct (negb _); [|apply ends_ret; auto]. eapply ends_bind; [apply W, k_Decrement; auto|]. intros c. cbv beta.
      destruct (c =? 0); [apply W, keeps_ignore, k_payload_Erase; auto|apply ends_ret; auto].
  - intros [|]; cbn [negb]; [|apply ends_fail; auto].
    apply (ends_bind _ _ _ (fun _ => held)).
    { apply W. unfold f_InsertEntry. apply keeps_bind; [apply (k_payload_Set held (fun _ => True)); auto|]. intros a.
      apply keeps_bind; [apply k_driver_Insert; auto|]. intros _. apply keeps_bind; [apply keeps_ignore, k_Increment; auto|]. intros _.
      apply keeps_bind; [apply k_PrunableEntries; auto|]. intros xs. apply k_prune_loop; auto. }
    intros pr. eapply (ends_bind _ _ _ (fun _ s => locked s = false)); [apply ends_mem; reflexivity|]. intros _. apply ends_ret. auto.
Qed.
Lemma hang_IngestEntry e token st os : locked st = true -> f_IngestEntry C e token (st, os) = (Hang, (st, os)).
Proof. intros L. unfold f_IngestEntry, bindF, mem, lock. cbn [fst snd]. rewrite L. reflexivity. Qed.

(** ** No fault *)
Definition fine (os : list outcome) : Prop := Forall (eq Fine) os.
(** The program with faults does what the one without does. *)
Definition agrees {A} (P : state -> Prop) (m : M A) (f : F A) : Prop :=
  forall st os, P st -> budget st = None -> fine os ->
    exists os', fine os' /\ f (st, os) = (fst (m st), (snd (m st), os')) /\ budget (snd (m st)) = None /\ P (snd (m st)).
Lemma agrees_bind {A B} P (m : M A) (f : A -> M B) (m' : F A) (f' : A -> F B) :
  agrees P m m' -> (forall a, agrees P (f a) (f' a)) -> agrees P (bindM m f) (bindF m' f').
Proof.
  intros H1 H2 st os HP HB HF. destruct (H1 st os HP HB HF) as (os1 & F1 & E1 & B1 & P1). unfold bindM, bindF. rewrite E1.
  destruct (m st) as [[a| | | |] st'] eqn:Em; cbn [fst snd] in *; [apply H2; auto|exists os1; auto..].
Qed.
Lemma agrees_ret {A} P (a : A) : agrees P (ret a) (retF a).
Proof. intros st os HP HB HF. exists os. cbn. auto. Qed.
Lemma agrees_fail {A} P : agrees P (@fail A) failF.
Proof. intros st os HP HB HF. exists os. cbn. auto. Qed.
Lemma agrees_mem {A} (P : state -> Prop) (m : M A) :
  (forall st, P st -> P (snd (m st))) -> (forall st, budget (snd (m st)) = budget st) -> agrees P m (mem m).
Proof.
  intros H1 H2 st os HP HB HF. exists os. unfold mem. cbn [fst snd]. destruct (m st) as [r st'] eqn:E. cbn [fst snd].
  specialize (H1 st HP). specialize (H2 st). rewrite E in *. cbn [snd] in *. rewrite H2. auto.
Qed.

Lemma mdel_absent {A} (m : bmap A) k : mget m k = None -> mdel m k = m.
Proof.
  intros H. apply mget_None in H. unfold mdel. apply filter_all. intros [k' v] Hin. cbn [fst].
  destruct (beqb_spec k k') as [<-|]; [|reflexivity]. exfalso. apply H. apply (in_map fst) in Hin. exact Hin.
Qed.
Lemma remove_first_none f (t : list node) : existsb f t = false -> remove_first f t = t.
Proof.
  induction t as [|n t IH]; cbn [existsb remove_first]; [reflexivity|]. destruct (f n); cbn [orb]; [discriminate|]. intros H. rewrite IH; auto.
Qed.
Definition ord (st : state) : Prop := msorted (kv st).
Lemma io_fine st os : fine os -> exists os', fine os' /\ io (st, os) = (Ok Fine, (st, os')).
Proof.
  intros H. unfold io. cbn [fst snd]. destruct H as [|o os <- H]; [exists []; split; [constructor|reflexivity]|exists os; auto].
Qed.
Lemma agrees_get {A} P (f : state -> option A) : agrees P (gets f) (db_get f).
Proof.
  intros st os HP HB HF. destruct (io_fine st os HF) as (os1 & F1 & E1). exists os1. unfold db_get, bindF. rewrite E1.
  unfold mem, gets. cbn [fst snd]. auto.
Qed.
Lemma agrees_durable (P : state -> Prop) f : (forall st, P st -> P (f st)) -> (forall st, budget (f st) = budget st) -> agrees P (durable f) (db_write f).
Proof.
  intros H1 H2 st os HP HB HF. destruct (io_fine st os HF) as (os1 & F1 & E1). exists os1. unfold db_write, bindF, durable, upd. rewrite E1, HB.
  cbn [fst snd]. rewrite H2. auto.
Qed.
Lemma agrees_ignore {A B} P (m : M A) (m' : F A) (k : M B) (k' : F B) :
  agrees P m m' -> (forall st, fst (m st) <> Err) -> agrees P k k' -> agrees P (m ;; k) (let! _ := ignore m' in k').
Proof.
  intros H1 H2 H3 st os HP HB HF. destruct (H1 st os HP HB HF) as (os1 & F1 & E1 & B1 & P1). specialize (H2 st). unfold bindM, bindF, ignore. rewrite E1.
  destruct (m st) as [[a| | | |] st'] eqn:Em; cbn [fst snd] in *; [apply H3; auto|congruence|exists os1; auto..].
Qed.
Lemma durable_Err f st : fst (durable f st) <> Err.
Proof. unfold durable. destruct (budget st) as [[|]|]; discriminate. Qed.
Lemma a_payload_Set b : agrees ord (payload_Set C b) (f_payload_Set C b).
Proof.
  intros st os HP HB HF. destruct (io_fine st os HF) as (os1 & F1 & E1). exists os1. unfold f_payload_Set, payload_Set, bindF, bindM, durable.
  rewrite E1, HB. cbn. auto.
Qed.
Lemma a_payload_Erase d : agrees ord (payload_Erase C d) (ignore (f_payload_Erase C d)).
Proof.
  intros st os HP HB HF. destruct (io_fine st os HF) as (os1 & F1 & E1). exists os1. unfold f_payload_Erase, payload_Erase, bindF, bindM, durable, ignore.
  rewrite E1, HB. unfold mem, gets. cbn [fst snd]. destruct (mget (files st) (c_fname C d)) eqn:E; cbn [fst snd].
  - cbn. auto.
  - unfold failF. unfold set_files. rewrite (mdel_absent _ _ E). destruct st; cbn in *; auto.
Qed.
Lemma a_Increment d : agrees ord (ref_Increment d) (f_Increment d).
Proof.
  unfold ref_Increment, f_Increment. apply agrees_bind; [apply agrees_get|]. intros o. cbv zeta. apply agrees_ignore; [|apply durable_Err|apply agrees_ret].
  apply agrees_durable; auto.
Qed.
Lemma a_Decrement d : agrees ord (ref_Decrement d) (f_Decrement d).
Proof.
  unfold ref_Decrement, f_Decrement. apply agrees_bind; [apply agrees_get|]. intros [c|]; [|apply agrees_fail]. cbv zeta.
  apply agrees_ignore; [|apply durable_Err|apply agrees_ret]. apply agrees_durable; auto.
Qed.
Lemma a_Count d : agrees ord (ref_Count d) (f_Count d).
Proof. unfold ref_Count, f_Count. apply agrees_bind; [apply agrees_get|]. intros [c|]; [apply agrees_ret|apply agrees_fail]. Qed.
Lemma agrees_still {A} P (m : M A) : (forall st, snd (m st) = st) -> agrees P m (mem m).
Proof. intros H. apply agrees_mem; intros st; rewrite H; auto. Qed.
Lemma a_driver_Get s0 s1 p : agrees ord (driver_Get_at C s0 s1 p) (f_driver_Get_at C s0 s1 p).
Proof.
  unfold driver_Get_at, f_driver_Get_at. apply agrees_bind; [apply agrees_still, still_storage_Get|]. intros [n|]; [|apply agrees_ret].
  apply agrees_bind; [apply agrees_get|]. intros [b|]; [|apply agrees_fail]. apply agrees_bind; [apply agrees_still; reflexivity|]. intros w. apply agrees_ret.
Qed.
Lemma agrees_upd (P : state -> Prop) f : (forall st, P st -> P (f st)) -> (forall st, budget (f st) = budget st) -> agrees P (fun st => (Ok tt, f st)) (upd f).
Proof. intros H1 H2 st os HP HB HF. exists os. unfold upd. cbn [fst snd]. rewrite H2. auto. Qed.
Lemma a_driver_Insert x : agrees ord (driver_Insert C x) (f_driver_Insert C x).
Proof.
  destruct x as [e a]. unfold driver_Insert, f_driver_Insert. cbv zeta. apply agrees_bind; [apply agrees_durable; auto; intros st; apply mset_sorted|].
  intros _. apply agrees_bind; [apply agrees_still; reflexivity|]. intros t. destruct (existsb _ t); [apply agrees_fail|]. apply agrees_upd; auto.
Qed.
Lemma a_driver_Delete e : agrees ord (driver_Delete C e) (ignore (f_driver_Delete C e)).
Proof.
  intros st os HP HB HF. destruct (io_fine st os HF) as (os1 & F1 & E1). exists os1. unfold f_driver_Delete, driver_Delete, db_write, bindF, bindM, durable, ignore.
  rewrite E1, HB. unfold mem, gets, upd, failF. cbn [fst snd set_kv tree].
  destruct (existsb (node_is (e_subspace e) (e_path e) (e_time e)) (tree st)) eqn:E; cbn [fst snd].
  - split; [exact F1|]. split; [reflexivity|]. split; [exact HB|]. apply mdel_sorted, HP.
  - split; [exact F1|]. unfold set_tree. cbn [kv tree refs files locked budget set_kv]. rewrite (remove_first_none _ _ E). split; [reflexivity|].
    split; [exact HB|]. apply mdel_sorted, HP.
Qed.
Lemma a_prunable_loop t cands : agrees ord (prunable_loop C t cands) (f_prunable_loop C t cands).
Proof.
  induction cands as [|n cands IH]; cbn [prunable_loop f_prunable_loop]; [apply agrees_ret|]. destruct (n_time n <? t); [|exact IH].
  apply agrees_bind; [apply agrees_upd; auto|]. intros _. apply agrees_bind; [apply a_driver_Get|]. intros [x|]; [|apply agrees_fail].
  apply agrees_bind; [exact IH|]. intros r. apply agrees_ret.
Qed.
Lemma a_PrunableEntries s p t : agrees ord (PrunableEntries C s p t) (f_PrunableEntries C s p t).
Proof.
  unfold PrunableEntries, f_PrunableEntries. apply agrees_bind; [|intros r; apply a_prunable_loop]. apply agrees_mem; intros st; [intros HP|];
    destruct (PrefixedBy_tree s p st) as (f & [-> | ->]); auto.
Qed.
Lemma a_prune_loop xs : agrees ord (prune_loop C xs) (f_prune_loop C xs).
Proof.
  induction xs as [|[e a] xs IH]; cbn [prune_loop f_prune_loop]; [apply agrees_ret|].
  apply agrees_bind; [apply a_driver_Delete|]. intros _. apply agrees_bind; [apply a_Decrement|]. intros c.
  apply agrees_bind; [destruct (c =? 0); [apply a_payload_Erase|apply agrees_ret]|]. intros _.
  apply agrees_bind; [exact IH|]. intros r. apply agrees_ret.
Qed.
Lemma ref_Increment_Err d st : fst (ref_Increment d st) <> Err.
Proof. unfold ref_Increment, bindM, gets, durable. destruct (budget st) as [[|]|]; discriminate. Qed.
Lemma a_InsertEntry e token : agrees ord (InsertEntry C e token) (f_InsertEntry C e token).
Proof.
  unfold InsertEntry, f_InsertEntry. apply agrees_bind; [apply a_payload_Set|]. intros a. apply agrees_bind; [apply a_driver_Insert|]. intros _.
  apply agrees_ignore; [apply a_Increment|apply ref_Increment_Err|]. apply agrees_bind; [apply a_PrunableEntries|]. intros xs. apply a_prune_loop.
Qed.
Lemma a_unlock : agrees ord unlock (mem unlock).
Proof. apply agrees_mem; reflexivity || auto. Qed.
Lemma a_replace_other e x : agrees ord (replace_other C e x) (f_replace_other C e x).
Proof.
  unfold replace_other, f_replace_other. destruct x as [o auth]. destruct (_ =? 0)%Z; [|apply agrees_ret]. destruct (e_time e <=? e_time o).
  - apply agrees_bind; [apply a_unlock|]. intros _. apply agrees_ret.
  - apply agrees_bind; [apply a_driver_Delete|]. intros _. apply agrees_bind; [apply a_payload_Erase|]. intros _.
    apply agrees_bind; [|intros; apply agrees_ret]. destruct (negb _); [|apply agrees_ret].
    apply agrees_bind; [apply a_Decrement|]. intros c. destruct (c =? 0); [apply a_payload_Erase|apply agrees_ret].
Qed.
Lemma a_IngestEntry e token : agrees ord (IngestEntry C e token) (f_IngestEntry C e token).
Proof.
  unfold IngestEntry, f_IngestEntry. apply agrees_bind.
  { apply agrees_mem; intros st; unfold lock; destruct (locked st); auto. }
  assert (U : forall A, agrees ord (unlock ;; @fail A) (let! _ := mem unlock in @failF A)).
  { intros A. apply agrees_bind; [apply a_unlock|]. intros. apply agrees_fail. }
  intros _. destruct (negb (ns_equal _ _)); [apply U|]. destruct (negb (IsAuthoriseWrite e token)); [apply U|].
  apply agrees_bind; [apply agrees_still, still_prefixes|]. intros ps. destruct (existsb _ ps); [apply U|].
  apply agrees_bind; [apply a_driver_Get|]. intros o. apply agrees_bind; [destruct o; [apply a_replace_other|apply agrees_ret]|]. intros go.
  destruct (negb go); [apply agrees_fail|]. apply agrees_bind; [apply a_InsertEntry|]. intros pr. apply agrees_bind; [apply a_unlock|]. intros. apply agrees_ret.
Qed.
Lemma a_Set i auth now : agrees ord (Set_ C i auth now) (f_Set C i auth now).
Proof.
  unfold Set_, f_Set. cbv zeta. apply agrees_bind; [apply a_payload_Set|]. intros dl. apply agrees_bind; [apply agrees_still; reflexivity|]. intros token.
  apply agrees_bind; [apply a_IngestEntry|]. intros pr. apply agrees_bind; [apply a_Count|]. intros c.
  apply agrees_bind; [|intros; apply agrees_ret]. destruct (c =? 0); [apply a_payload_Erase|apply agrees_ret].
Qed.
Lemma a_payload_Get d : agrees ord (payload_Get C d) (f_payload_Get C d).
Proof.
  intros st os HP HB HF. destruct (io_fine st os HF) as (os1 & F1 & E1). unfold f_payload_Get, payload_Get, bindF, bindM, gets, mem. rewrite E1.
  cbn [fst snd]. destruct (mget (files st) (c_fname C d)) as [b|]; [|exists os1; auto].
  destruct (io_fine st os1 F1) as (os2 & F2 & E2). rewrite E2. exists os2. unfold retF. cbn. auto.
Qed.
Lemma a_GetPayload p : agrees ord (GetPayload C p) (f_GetPayload C p).
Proof.
  unfold GetPayload, f_GetPayload. apply agrees_bind; [apply agrees_get|]. intros [b|]; [|apply agrees_fail].
  apply agrees_bind; [apply agrees_still; reflexivity|]. intros w. apply a_payload_Get.
Qed.
Lemma values_fine m st os : fine os -> NoDup (mkeys (kv st)) -> (forall x, In x m -> In x (kv st)) ->
  exists os', fine os' /\ f_values m (st, os) = (Ok m, (st, os')).
Proof.
  revert os. induction m as [|[k v] m IH]; intros os HF ND HI; cbn [f_values]; [exists os; auto|].
  destruct (io_fine st os HF) as (os1 & F1 & E1). unfold bindF at 1, db_get, bindF at 1. rewrite E1. unfold mem, gets. cbn [fst snd].
  rewrite (mget_NoDup (kv st) k v ND (HI _ (or_introl eq_refl))). destruct (IH os1 F1 ND) as (os2 & F2 & E2); [intros; apply HI; right; auto|].
  exists os2. split; [exact F2|]. unfold bindF. rewrite E2. reflexivity.
Qed.
Lemma a_reopen : agrees ord (fun st => match reopen C st with Ok st' => (Ok tt, st')
                | Err => (Err, st) | Panic => (Panic, st) | Fatal => (Fatal, st) | Hang => (Hang, st) end) (f_reopen C).
Proof.
  intros st os HP HB HF. destruct (io_fine st os HF) as (os1 & F1 & E1). destruct (io_fine st os1 F1) as (os2 & F2 & E2).
  destruct (io_fine st os2 F2) as (os3 & F3 & E3).
  destruct (values_fine (kv st) st os3 F3 (msorted_NoDup _ HP) (fun x H => H)) as (os4 & F4 & E4).
  destruct (io_fine st os4 F4) as (os5 & F5 & E5). exists os5. split; [exact F5|].
  assert (EL : f_ListAllValues (st, os2) = (Ok (kv st), (st, os5))).
  { unfold f_ListAllValues. unfold bindF at 1. rewrite E3. unfold mem, gets. unfold bindF at 1. cbn [fst snd]. rewrite E4. unfold bindF. rewrite E5. reflexivity. }
  unfold f_reopen, bindF. rewrite E1, E2, EL. unfold reopen. destruct (load_nodes C (kv st)); cbn; auto.
Qed.
Lemma a_step o : agrees ord (step C o) (f_step C o).
Proof.
  destruct o as [i auth now|e token|]; cbn [f_step].
  - apply a_Set.
  - apply a_IngestEntry.
  - intros st os HP HB HF. destruct (a_reopen st os HP HB HF) as (os' & F' & E & B & O). exists os'. split; [exact F'|].
    unfold bindF. rewrite E. cbn [step]. destruct (reopen C st); cbn [fst snd] in *; auto.
Qed.
End Keep.
