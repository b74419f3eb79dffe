(** C56: concurrent Set calls. *)
From Coq Require Import Sorting.Permutation.
From Verif Require Import Base M_Order M_Encoding M_Paths M_Successor M_Ranges M_Keys M_Entry M_Map M_Store M_Conc
  S_Order S_Store P_Order P_Encoding P_Paths P_Ranges P_Successor P_Areas P_Keys P_Map P_Store P_History P_Demo
  P_Conc Prop_Store.
From Coq Require Import Lia.
Local Open Scope N_scope.

(** The payload of every live entry is stored. *)
Definition stored (C : cfg) (st : state) : Prop :=
  forall e, live C st e -> exists b, GetPayload C (EntryPosition e) st = (Ok b, st) /\ c_hash C b = e_digest e.

(** A call that has not begun, with a path strictly within the limits. *)
Definition call_ok (C : cfg) (U : bytes -> Prop) (t : thread) : Prop :=
  th_phase t = PStart /\ U (i_payload (th_input t)) /\ entry_ok C U (th_entry C t).

(** The two overlaps that lose payloads do not happen at this step:
    - an ingestion removes no entry whose payload another call has written and
      not ingested yet;
    - a payload is not erased while an entry has it, or another call has written
      it and not ingested it yet. *)
Definition quiet (C : cfg) (t : thread) (st : state) (others : list thread) : Prop :=
  match th_phase t with
  | PWritten =>
      forall x j, live C st x -> same_place x (th_entry C t) \/ prunes (th_entry C t) x ->
        In j others -> th_phase j = PWritten -> e_digest x <> c_hash C (i_payload (th_input j))
  | PCounted c =>
      c = 0 ->
      (forall x, live C st x -> e_digest x <> c_hash C (i_payload (th_input t)))
      /\ (forall j, In j others -> th_phase j = PWritten -> i_payload (th_input j) <> i_payload (th_input t))
  | _ => True
  end.

Section Conc.
Variable C : cfg.
Variable U : bytes -> Prop.
Hypothesis PP : store_params (c_pp C).
Hypothesis HU : universe C U.

(** Ingestions still to come. *)
Fixpoint todo (ths : list thread) : N :=
  match ths with
  | [] => 0
  | t :: ths' => match th_phase t with PStart | PWritten => 1 | _ => 0 end + todo ths'
  end.
Lemma todo_app a b : todo (a ++ b) = todo a + todo b.
Proof. induction a; cbn; auto. rewrite IHa. lia. Qed.

Definition th_ok (t : thread) : Prop := U (i_payload (th_input t)) /\ entry_ok C U (th_entry C t).

Record CInv (n : N) (xs : list entry) (st : state) (ths : list thread) : Prop := {
  ci_inv : Inv C U n xs st;
  ci_bound : n + todo ths + 1 < 2 ^ 64;
  ci_ok : Forall th_ok ths;
  ci_stored : forall x, In x xs -> exists b, file_of C st (e_digest x) = Some b;
  ci_written : forall t, In t ths -> th_phase t = PWritten ->
    file_of C st (c_hash C (i_payload (th_input t))) = Some (i_payload (th_input t))
}.

Lemma stored_files n xs st : Inv C U n xs st ->
  (stored C st <-> forall x, In x xs -> exists b, file_of C st (e_digest x) = Some b).
Proof.
  intros I. pose proof (inv_rep _ _ _ _ _ I) as R. split.
  - intros HS x Hx. destruct (HS x) as (b & G & _); [apply (Rep_live C U PP HU xs st x R); auto|].
    unfold GetPayload, bindM, gets in G. pose proof (Rep_kv_get C U _ st x R Hx) as K. unfold ekey in K. rewrite K in G.
    unfold lift in G. rewrite (eval_decode C U HU x) in G by (eapply Rep_In_ok; eauto). cbn [v_digest] in G.
    unfold payload_Get, bindM, gets in G. unfold file_of. destruct (mget (files st) _); [eauto|discriminate].
  - intros HS e He. apply (Rep_live C U PP HU xs st e R) in He. destruct (HS e He) as (b & Hf).
    pose proof (inv_files _ _ _ _ _ I) as FS. exists b. split.
    + unfold GetPayload, bindM, gets. pose proof (Rep_kv_get C U _ st e R He) as K. unfold ekey in K. rewrite K.
      unfold lift. rewrite (eval_decode C U HU e) by (eapply Rep_In_ok; eauto). cbn [v_digest].
      unfold payload_Get, bindM, gets. unfold file_of in Hf. rewrite Hf. reflexivity.
    + unfold file_of in Hf. apply FS in Hf as [Hb Hf].
      assert (D : digest_ok C U (e_digest e)) by (apply stored_digest; eapply Rep_In_ok; eauto).
      symmetry. eapply (fname_inj C U HU); eauto. exists b; auto.
Qed.

Lemma payload_digest t : th_ok t -> digest_ok C U (c_hash C (i_payload (th_input t))).
Proof. intros [H _]. exists (i_payload (th_input t)); auto. Qed.

(** Every unfinished call can take its next step. *)
Lemma tstep_total n xs st ths t : CInv n xs st ths -> In t ths -> exists p st', tstep C t st = (Ok p, st').
Proof.
  intros CI Ht. pose proof (ci_inv _ _ _ _ CI) as I. pose proof (inv_budget _ _ _ _ _ I) as B.
  assert (Ot : th_ok t) by (pose proof (ci_ok _ _ _ _ CI) as H; rewrite Forall_forall in H; auto).
  assert (Hn : n + 1 < 2 ^ 64) by (pose proof (ci_bound _ _ _ _ CI); lia).
  unfold tstep. destruct (th_phase t) as [| | |c|].
  - unfold payload_Set, bindM, durable. rewrite B. unfold ret. eauto.
  - unfold bindM, lift. destruct (Authorise _ _) eqn:EA; eauto; try (unfold Authorise in EA; destruct (beqb _ _); discriminate).
    destruct (IngestEntry_spec C U PP HU n xs st (th_entry C t) a Hn I (proj2 Ot)) as [(_ & pr & s2 & E & _)|(_ & E)];
      rewrite E; eauto.
  - unfold ref_Count, bindM, gets. destruct (mget _ _); unfold ret, fail; eauto.
  - unfold bindM. destruct (c =? 0); unfold ret; eauto. unfold payload_Erase, durable. rewrite B. eauto.
  - unfold ret. eauto.
Qed.

Lemma in_replace (pre post : list thread) (t t' x : thread) : In x (pre ++ t' :: post) -> x = t' \/ In x (pre ++ post).
Proof. rewrite !in_app_iff. intros [H|[H|H]]; auto. Qed.
Lemma in_keep (pre post : list thread) (t x : thread) : In x (pre ++ post) -> In x (pre ++ t :: post).
Proof. rewrite !in_app_iff. intros [H|H]; auto. right. right. auto. Qed.

(** One quiet step keeps the invariant. *)
Lemma quiet_step n xs st pre t post p st' :
  CInv n xs st (pre ++ t :: post) -> quiet C t st (pre ++ post) -> tstep C t st = (Ok p, st') ->
  exists n' xs', CInv n' xs' st' (pre ++ set_phase t p :: post)
    /\ ((n' = n /\ xs' = xs) \/ (th_phase t = PWritten /\ p = PIngested /\ xs' = after (th_entry C t) xs)).
Proof.
  intros CI Q E. pose proof CI as [I HB HO HS HW]. pose proof (inv_budget _ _ _ _ _ I) as B.
  pose proof (inv_rep _ _ _ _ _ I) as R. pose proof (inv_files _ _ _ _ _ I) as FS.
  assert (Ht : In t (pre ++ t :: post)) by (apply in_or_app; right; left; auto).
  assert (Ot : th_ok t) by (rewrite Forall_forall in HO; auto).
  rewrite todo_app in HB. cbn [todo] in HB.
  assert (HO' : Forall th_ok (pre ++ set_phase t p :: post)).
  { rewrite Forall_app in *. destruct HO as [H1 H2]. split; auto. inversion H2; subst. constructor; auto. }
  unfold tstep in E. destruct (th_phase t) as [| | |c|] eqn:EP.
  - (* write *)
    unfold payload_Set, bindM, durable in E. rewrite B in E. unfold ret in E. injection E as <- <-.
    set (b := i_payload (th_input t)) in *. exists n, xs. split; [|auto]. split.
    + apply Inv_files; auto. apply Ot.
    + rewrite todo_app. cbn [todo set_phase th_phase]. lia.
    + exact HO'.
    + intros x Hx. destruct (HS x Hx) as (b' & Hf). exists b'. apply (file_set_keeps C U HU); auto; [apply Ot|].
      apply stored_digest. eapply Rep_In_ok; eauto.
    + intros u Hu Eu. apply (in_replace pre post t) in Hu as [->|Hu].
      * cbn [set_phase th_input]. apply file_set.
      * assert (Ou : th_ok u) by (rewrite Forall_forall in HO; apply HO, in_keep; auto).
        apply (file_set_keeps C U HU); auto; [apply Ot|apply payload_digest; auto|].
        apply HW; auto. apply in_keep; auto.
  - (* ingestion *)
    assert (Keep : forall p', p' <> PStart -> p' <> PWritten -> CInv n xs st (pre ++ set_phase t p' :: post)).
    { intros p' N1 N2. split; auto.
      - rewrite todo_app. cbn [todo set_phase th_phase]. destruct p'; try congruence; lia.
      - rewrite Forall_app in *. destruct HO as [H1 H2]. split; auto. inversion H2; subst. constructor; auto.
      - intros u Hu Eu. apply (in_replace pre post t) in Hu as [->|Hu]; [cbn in Eu; congruence|].
        apply HW; auto. apply in_keep; auto. }
    unfold bindM, lift in E. destruct (Authorise (th_entry C t) (th_auth t)) as [tok| | | |] eqn:EA; try discriminate.
    2:{ injection E as <- <-. exists n, xs. split; [apply Keep; discriminate|auto]. }
    destruct (IngestEntry C (th_entry C t) tok st) as [[pr| | | |] s2] eqn:EI; try discriminate.
    + injection E as <- <-.
      assert (Hn : n + 1 < 2 ^ 64) by lia.
      destruct (IngestEntry_spec C U PP HU n xs st (th_entry C t) tok Hn I (proj2 Ot))
        as [(A & pr' & s2' & E2 & HP & I2 & K2 & _)|(_ & E2)]; rewrite EI in E2; [|discriminate].
      injection E2 as <- <-. exists (n + 1), (after (th_entry C t) xs). split; [|auto]. split; auto.
      * rewrite todo_app. cbn [todo set_phase th_phase]. lia.
      * intros x Hx. assert (exists b, file_of C st (e_digest x) = Some b) as (b & Hb).
        { apply (after_In (th_entry C t)) in Hx; [|apply (proj2 Ot)]. destruct Hx as [->|[Hx _]]; auto.
          exists (i_payload (th_input t)). apply HW; auto. }
        exists b. apply K2; auto.
      * intros u Hu Eu. apply (in_replace pre post t) in Hu as [->|Hu]; [cbn in Eu; discriminate|].
        assert (Hu' : In u (pre ++ t :: post)) by (apply in_keep; auto).
        assert (Ou : th_ok u) by (rewrite Forall_forall in HO; auto).
        eapply (ingest_keeps C U PP HU n xs st (th_entry C t)); eauto; [apply Ot|apply payload_digest; auto|].
        intros x Hx Hr. unfold quiet in Q. rewrite EP in Q. apply (Q x u); auto.
        apply (Rep_live C U PP HU xs st x R); auto.
    + assert (s2 = st).
      { assert (Hn : n + 1 < 2 ^ 64) by lia.
        destruct (IngestEntry_spec C U PP HU n xs st (th_entry C t) tok Hn I (proj2 Ot))
          as [(A & pr' & s2' & E2 & _)|(_ & E2)]; rewrite EI in E2; congruence. }
      subst s2. injection E as <- <-. exists n, xs. split; [apply Keep; discriminate|auto].
  - (* count *)
    assert (st' = st /\ p <> PStart /\ p <> PWritten) as (-> & N1 & N2).
    { unfold ref_Count, bindM, gets in E. destruct (mget _ _); unfold ret, fail in E; injection E as <- <-; repeat split; discriminate. }
    exists n, xs. split; [|auto]. split; auto.
    + rewrite todo_app. cbn [todo set_phase th_phase]. destruct p; try congruence; lia.
    + intros u Hu Eu. apply (in_replace pre post t) in Hu as [->|Hu]; [cbn in Eu; congruence|].
      apply HW; auto. apply in_keep; auto.
  - (* erase *)
    unfold quiet in Q. rewrite EP in Q. unfold bindM in E. destruct (N.eqb_spec c 0) as [Ec|Ec].
    + destruct (Q Ec) as [Q1 Q2]. unfold payload_Erase, durable in E. rewrite B in E. unfold ret in E. injection E as <- <-.
      change (e_digest (th_entry C t)) with (c_hash C (i_payload (th_input t))).
      exists n, xs. split; [|auto]. split.
      * split; auto; [apply (Rep_same _ _ _ st); auto|apply I|apply Files_erase; auto|apply I].
      * rewrite todo_app. cbn [todo set_phase th_phase]. lia.
      * exact HO'.
      * intros x Hx. destruct (HS x Hx) as (b & Hb). exists b. rewrite (file_erase_other C U HU); auto.
        -- apply stored_digest. eapply Rep_In_ok; eauto.
        -- apply payload_digest; auto.
        -- apply Q1. apply (Rep_live C U PP HU xs st x R); auto.
      * intros u Hu Eu. apply (in_replace pre post t) in Hu as [->|Hu]; [cbn in Eu; discriminate|].
        assert (Hu' : In u (pre ++ t :: post)) by (apply in_keep; auto).
        assert (Ou : th_ok u) by (rewrite Forall_forall in HO; auto).
        rewrite (file_erase_other C U HU); auto; try (apply payload_digest; auto).
        intros Eh. apply (Q2 u Hu Eu). destruct HU as [HI _]. apply HI; [apply Ou|apply Ot|congruence].
    + unfold ret in E. injection E as <- <-. exists n, xs. split; [|auto]. split; auto.
      * rewrite todo_app. cbn [todo set_phase th_phase]. lia.
      * intros u Hu Eu. apply (in_replace pre post t) in Hu as [->|Hu]; [cbn in Eu; discriminate|].
        apply HW; auto. apply in_keep; auto.
  - (* done *)
    unfold ret in E. injection E as <- <-. exists n, xs. split; [|auto]. split; auto.
    + rewrite todo_app. cbn [todo set_phase th_phase]. lia.
    + intros u Hu Eu. apply (in_replace pre post t) in Hu as [->|Hu]; [cbn in Eu; discriminate|].
      apply HW; auto. apply in_keep; auto.
Qed.

Lemma todo_start ths : Forall (call_ok C U) ths -> todo ths = len ths.
Proof.
  induction 1 as [|t ths [H _] _ IH]; [reflexivity|]. cbn [todo]. rewrite H, IH. unfold len. cbn [length]. lia.
Qed.

Lemma CInv_start ops st0 ths : reached C U ops st0 -> stored C st0 -> Forall (call_ok C U) ths ->
  len ops + len ths + 1 < 2 ^ 64 -> exists n xs, CInv n xs st0 ths.
Proof.
  intros HR HS HT HL. destruct (reached_runs C U PP HU _ st0 HR) as (n & xs & R).
  destruct (runs_Inv _ _ _ _ _ _ R) as (I & Hn & _). exists n, xs. split; auto.
  - rewrite (todo_start ths HT). lia.
  - rewrite Forall_forall in *. intros t Ht. apply HT in Ht as (_ & H). exact H.
  - apply (stored_files n xs st0 I). auto.
  - intros t Ht Et. rewrite Forall_forall in HT. apply HT in Ht as (H & _). congruence.
Qed.
End Conc.

(** In an interleaving without the two overlaps of [quiet], the payload of every
    live entry remains stored, and no call is ever blocked or ends the process.

    Missing: the overlaps do happen, see below. *)
Theorem C56_only_races_partial C U ops st0 ths st ths' :
  reached C U ops st0 -> stored C st0 -> Forall (call_ok C U) ths -> len ops + len ths + 1 < 2 ^ 64 ->
  crun C (quiet C) (st0, ths) (st, ths') ->
  stored C st /\ forall t, In t ths' -> exists p st', tstep C t st = (Ok p, st').
Proof.
  intros HR HS HT HL HC. pose proof HR as [(PP & HU & _) _].
  destruct (CInv_start C U PP HU ops st0 ths HR HS HT HL) as (n0 & xs0 & CI0).
  assert (exists n xs, CInv C U n xs st ths') as (n & xs & CI).
  { remember (st0, ths) as s0 eqn:E0. remember (st, ths') as s1 eqn:E1. revert st ths' E1.
    induction HC as [s|s1 s2 s3 HC IH H1]; intros st ths' E1.
    - subst. injection E1 as -> ->. eauto.
    - subst. inversion H1 as [a st' t p pre post ND Q E Ea Eb]. subst.
      destruct (IH eq_refl a (pre ++ t :: post) eq_refl) as (n & xs & CI).
      destruct (quiet_step C U PP HU n xs a pre t post p st CI Q E) as (n' & xs' & CI' & _). eauto. }
  split.
  - apply (stored_files C U PP HU n xs st (ci_inv _ _ _ _ _ _ CI)). apply CI.
  - intros t Ht. eapply tstep_total; eauto.
Qed.
Print Assumptions C56_only_races_partial.

(** In particular: calls whose payloads are pairwise different, and different
    from the payloads in the store, can be interleaved in any way. *)
Theorem C56_unshared_partial C U ops st0 ths st ths' :
  reached C U ops st0 -> stored C st0 -> Forall (call_ok C U) ths -> len ops + len ths + 1 < 2 ^ 64 ->
  NoDup (map (fun t => i_payload (th_input t)) ths) ->
  (forall x t, live C st0 x -> In t ths -> e_digest x <> c_hash C (i_payload (th_input t))) ->
  crun C (fun _ _ _ => True) (st0, ths) (st, ths') ->
  stored C st /\ forall t, In t ths' -> exists p st', tstep C t st = (Ok p, st').
Proof.
  intros HR HS HT HL ND HX HC. pose proof HR as [(PP & HU & _) _].
  destruct (CInv_start C U PP HU ops st0 ths HR HS HT HL) as (n0 & xs0 & CI0).
  (* an entry with the payload of a call exists only after the call's ingestion,
     and not after its count was found to be 0 *)
  set (J := fun (xs : list entry) (th : list thread) =>
    NoDup (map (fun t => i_payload (th_input t)) th) /\
    forall x t, In x xs -> In t th -> e_digest x = c_hash C (i_payload (th_input t)) ->
      match th_phase t with PStart | PWritten => False | PCounted c => c <> 0 | _ => True end).
  assert (J0 : J xs0 ths).
  { split; auto. intros x t Hx Ht Ed. exfalso. apply (HX x t); auto.
    apply (Rep_live C U PP HU xs0 st0 x (inv_rep _ _ _ _ _ (ci_inv _ _ _ _ _ _ CI0))). auto. }
  assert (exists n xs, CInv C U n xs st ths' /\ J xs ths') as (n & xs & CI & _).
  { remember (st0, ths) as s0 eqn:E0. remember (st, ths') as s1 eqn:E1. revert st ths' E1.
    induction HC as [s|s1 s2 s3 HC IH H1]; intros st ths' E1.
    - subst. injection E1 as -> ->. eauto.
    - subst. inversion H1 as [a st' t p pre post NDo _ E Ea Eb]. subst.
      destruct (IH eq_refl a (pre ++ t :: post) eq_refl) as (n & xs & CI & JN & J1). clear IH HC H1.
      pose proof (ci_inv _ _ _ _ _ _ CI) as I. pose proof (inv_rep _ _ _ _ _ I) as R.
      assert (Ht : In t (pre ++ t :: post)) by (apply in_or_app; right; left; auto).
      assert (HOk : forall u, In u (pre ++ t :: post) -> th_ok C U u).
      { pose proof (ci_ok _ _ _ _ _ _ CI) as HO. rewrite Forall_forall in HO. auto. }
      assert (Other : forall u, In u (pre ++ post) -> i_payload (th_input u) <> i_payload (th_input t)).
      { intros u Hu Eu. rewrite map_app in JN. cbn [map] in JN. apply NoDup_remove_2 in JN. apply JN.
        rewrite <- map_app, <- Eu. apply in_map_iff. eauto. }
      assert (Hash : forall u v, th_ok C U u -> th_ok C U v ->
        c_hash C (i_payload (th_input u)) = c_hash C (i_payload (th_input v)) -> i_payload (th_input u) = i_payload (th_input v)).
      { intros u v [U1 _] [U2 _] Eh. destruct HU as [HI _]. apply HI; auto. congruence. }
      assert (Q : quiet C t a (pre ++ post)).
      { unfold quiet. destruct (th_phase t) as [| | |c|] eqn:EP; auto.
        - intros x j Hx Hr Hj Ej Ed. apply (Rep_live C U PP HU xs a x R) in Hx.
          specialize (J1 x j Hx (in_keep pre post t j Hj) Ed). rewrite Ej in J1. auto.
        - intros ->. split.
          + intros x Hx Ed. apply (Rep_live C U PP HU xs a x R) in Hx. specialize (J1 x t Hx Ht Ed). rewrite EP in J1. auto.
          + intros j Hj _. apply Other; auto. }
      destruct (quiet_step C U PP HU n xs a pre t post p st CI Q E) as (n' & xs' & CI' & HX').
      exists n', xs'. split; auto. split.
      { rewrite map_app in *. exact JN. }
      intros x u Hx Hu Ed. apply (in_replace pre post t) in Hu as [->|Hu].
      + (* the call itself *)
        cbn [set_phase th_input th_phase] in *. destruct HX' as [[-> ->]|(EP & -> & ->)]; [|auto].
        specialize (J1 x t Hx Ht Ed). unfold tstep in E. destruct (th_phase t) as [| | |c|] eqn:EP; try contradiction.
        * unfold ref_Count, bindM, gets in E.
          pose proof (inv_refs _ _ _ _ _ I (e_digest (th_entry C t))) as [H1 _]. unfold getd in H1.
          assert (0 < cnt (e_digest (th_entry C t)) xs).
          { destruct (N.eq_dec (cnt (e_digest (th_entry C t)) xs) 0) as [Z|]; [|lia].
            exfalso. apply (cnt_zero _ _ Z x Hx). exact Ed. }
          destruct (mget (refs a) _); unfold ret, fail in E; injection E as <- _; auto. lia.
        * unfold bindM in E. destruct (c =? 0); [|unfold ret in E; injection E as <- _; auto].
          unfold payload_Erase, durable in E. rewrite (inv_budget _ _ _ _ _ I) in E. unfold ret in E. injection E as <- _. auto.
      + (* another call *)
        pose proof (in_keep pre post t u Hu) as Hu'. destruct HX' as [[-> ->]|(EP & -> & ->)]; [exact (J1 x u Hx Hu' Ed)|].
        apply (after_In (th_entry C t)) in Hx; [|apply (proj2 (HOk t Ht))]. destruct Hx as [->|[Hx _]]; [|exact (J1 x u Hx Hu' Ed)].
        exfalso. apply (Other u Hu). symmetry. apply Hash; auto. }
  split.
  - apply (stored_files C U PP HU n xs st (ci_inv _ _ _ _ _ _ CI)). apply CI.
  - intros t Ht. eapply tstep_total; eauto.
Qed.
Print Assumptions C56_unshared_partial.

(** ** Interleavings that lose payloads *)

(** A scheduler: the calls step in the order of the list of indices. *)
Fixpoint schedule (C : cfg) (is : list nat) (s : state * list thread) : option (state * list thread) :=
  match is with
  | [] => Some s
  | i :: is' =>
      match nth_error (snd s) i with
      | None => None
      | Some t =>
          match th_phase t with
          | PDone => None
          | _ =>
              match tstep C t (fst s) with
              | (Ok p, st') =>
                  schedule C is' (st', firstn i (snd s) ++ set_phase t p :: skipn (S i) (snd s))
              | _ => None
              end
          end
      end
  end.

Lemma crun_front C ok s1 s2 s3 : cstep C ok s1 s2 -> crun C ok s2 s3 -> crun C ok s1 s3.
Proof.
  intros H HC. induction HC as [s|a b c HC IH H1].
  - econstructor; [constructor|exact H].
  - econstructor; [apply IH; auto|exact H1].
Qed.

Lemma schedule_crun C is s s' : schedule C is s = Some s' -> crun C (fun _ _ _ => True) s s'.
Proof.
  revert s. induction is as [|i is IH]; intros [st ths] H; cbn [schedule fst snd] in H.
  - injection H as <-. constructor.
  - destruct (nth_error ths i) as [t|] eqn:En; [|discriminate].
    destruct (nth_error_split _ _ En) as (pre & post & -> & <-).
    assert (E1 : firstn (length pre) (pre ++ t :: post) = pre).
    { rewrite firstn_app, Nat.sub_diag, firstn_all. cbn. apply app_nil_r. }
    assert (E2 : skipn (S (length pre)) (pre ++ t :: post) = post).
    { rewrite skipn_app, skipn_all2 by lia. replace (S (length pre) - length pre)%nat with 1%nat by lia. reflexivity. }
    rewrite E1, E2 in H.
    assert (ND : th_phase t <> PDone) by (destruct (th_phase t); congruence).
    destruct (tstep C t st) as [[p| | | |] st'] eqn:Es; try (destruct (th_phase t); discriminate).
    assert (H' : schedule C is (st', pre ++ set_phase t p :: post) = Some s') by (destruct (th_phase t); congruence).
    eapply crun_front; [|apply IH; exact H']. constructor; auto.
Qed.

Definition demo_call (p : path) (b : bytes) (t : N) : thread := Thread (Input [115] p b t) [115] 1 PStart.

Lemma demo_calls ths :
  forallb (fun t => match th_phase t with PStart => true | _ => false end
                    && smallb (i_payload (th_input t)) && demo_entry_okb (th_entry demo t)) ths = true ->
  Forall (call_ok demo small) ths.
Proof.
  rewrite forallb_forall, Forall_forall. intros H t Ht. specialize (H t Ht). rewrite !andb_true_iff in H.
  destruct H as [[H1 H2] H3]. split; [destruct (th_phase t); auto; discriminate|].
  split; [apply smallb_spec; auto|apply demo_entry_okb_spec; auto].
Qed.

(** [stored], decided. *)
Definition storedb (C : cfg) (st : state) : bool :=
  forallb (fun kvp =>
    match DecodeKey (fst kvp) (c_pp C), DecodeValues (snd kvp) with
    | Ok q, Ok w =>
        match fst (GetPayload C q st) with Ok b => beqb (c_hash C b) (v_digest w) | _ => false end
    | _, _ => true
    end) (kv st).
Lemma GetPayload_state C q st : snd (GetPayload C q st) = st.
Proof.
  unfold GetPayload, bindM, gets. destruct (mget (kv st) _); [|reflexivity].
  unfold lift. destruct (DecodeValues _); try reflexivity. unfold payload_Get, bindM, gets. destruct (mget _ _); reflexivity.
Qed.
Lemma storedb_spec C st : storedb C st = true -> stored C st.
Proof.
  unfold storedb. rewrite forallb_forall. intros H e (_ & k & v & w & Hi & Hk & Hv & Hd & _).
  specialize (H _ Hi). cbn [fst snd] in H. rewrite Hk, Hv in H.
  change (Position (e_subspace e) (e_path e) (e_time e)) with (EntryPosition e) in H.
  destruct (GetPayload C (EntryPosition e) st) as [r st'] eqn:E. cbn [fst] in H. destruct r as [b| | | |]; try discriminate.
  exists b. split.
  - f_equal. pose proof (GetPayload_state C (EntryPosition e) st) as G. rewrite E in G. exact G.
  - destruct (beqb_spec (c_hash C b) (v_digest w)); [congruence|discriminate].
Qed.

(** A call writes its payload, which another entry also has; a second call
    overwrites that entry and erases the payload; the first call's ingestion
    then leaves a live entry without payload. All calls succeed, and it is not
    repaired when they have returned. *)
Theorem C56_overwrite_refuted :
  exists ops st0 ths st ths' e, reached demo small ops st0 /\ stored demo st0 /\ Forall (call_ok demo small) ths
    /\ crun demo (fun _ _ _ => True) (st0, ths) (st, ths')
    /\ Forall (fun t => th_phase t = PDone) ths'
    /\ live demo st e /\ fst (GetPayload demo (EntryPosition e) st) = Err.
Proof.
  set (ops := [demo_set [[97]] [1] 5]).
  set (ths := [demo_call [[98]] [1] 6; demo_call [[97]] [2] 7]).
  set (s := match schedule demo [0; 1; 1; 0; 0; 0; 1; 1]%nat (after_ops ops, ths) with Some s => s | None => (empty_store, []) end).
  exists ops, (after_ops ops), ths, (fst s), (snd s), (demo_e [[98]] [1] 6).
  split; [split; [apply demo_history; vm_compute; reflexivity|vm_compute; reflexivity]|].
  split; [apply storedb_spec; vm_compute; reflexivity|].
  split; [apply demo_calls; vm_compute; reflexivity|].
  split; [apply (schedule_crun demo [0; 1; 1; 0; 0; 0; 1; 1]%nat); vm_compute; reflexivity|].
  split; [apply Forall_forall; vm_compute; intros t [<-|[<-|[]]]; reflexivity|].
  split; [apply liveb_spec; vm_compute; reflexivity|vm_compute; reflexivity].
Qed.
Print Assumptions C56_overwrite_refuted.

(** A call reads the count of its payload, which is 0 because its entry has
    been overwritten since; a second call sets an entry with that payload; the
    first call then erases it. No payload is shared at the start, and the entry
    that loses its payload was written by a call that began after the first
    entry was gone. *)
Theorem C56_erase_refuted :
  exists ths st ths' e, Forall (call_ok demo small) ths
    /\ crun demo (fun _ _ _ => True) (empty_store, ths) (st, ths')
    /\ Forall (fun t => th_phase t = PDone) ths'
    /\ live demo st e /\ fst (GetPayload demo (EntryPosition e) st) = Err.
Proof.
  set (ths := [demo_call [[97]] [1] 5; demo_call [[97]] [2] 6; demo_call [[98]] [1] 7]).
  set (is := [0; 0; 1; 1; 1; 1; 0; 2; 2; 2; 2; 0]%nat).
  set (s := match schedule demo is (empty_store, ths) with Some s => s | None => (empty_store, []) end).
  exists ths, (fst s), (snd s), (demo_e [[98]] [1] 7).
  split; [apply demo_calls; vm_compute; reflexivity|].
  split; [apply (schedule_crun demo is); vm_compute; reflexivity|].
  split; [apply Forall_forall; vm_compute; intros t [<-|[<-|[<-|[]]]]; reflexivity|].
  split; [apply liveb_spec; vm_compute; reflexivity|vm_compute; reflexivity].
Qed.
Print Assumptions C56_erase_refuted.

(** The hypotheses of the two positive theorems are met: three calls on a store
    with entries, payloads all different, fully interleaved; the second
    prunes the entry of the first and the third overwrites the entry that was
    there. *)
Example C56_instance :
  let ths := [demo_call [[97]; [100]] [11] 20; demo_call [[97]] [12] 21; demo_call [[97]; [98]] [13] 22] in
  reached demo small [demo_set [[97]; [98]] [9] 8] (after_ops [demo_set [[97]; [98]] [9] 8]) /\
  stored demo (after_ops [demo_set [[97]; [98]] [9] 8]) /\
  Forall (call_ok demo small) ths /\ NoDup (map (fun t => i_payload (th_input t)) ths) /\
  (forall x t, live demo (after_ops [demo_set [[97]; [98]] [9] 8]) x -> In t ths ->
     e_digest x <> c_hash demo (i_payload (th_input t))) /\
  exists st ths', crun demo (fun _ _ _ => True) (after_ops [demo_set [[97]; [98]] [9] 8], ths) (st, ths')
    /\ Forall (fun t => th_phase t = PDone) ths'
    /\ live demo st (demo_e [[97]] [12] 21) /\ live demo st (demo_e [[97]; [98]] [13] 22)
    /\ ~ live demo st (demo_e [[97]; [100]] [11] 20) /\ ~ live demo st (demo_e [[97]; [98]] [9] 8).
Proof.
  intros ths.
  split; [split; [apply demo_history; vm_compute; reflexivity|vm_compute; reflexivity]|].
  split; [apply storedb_spec; vm_compute; reflexivity|].
  split; [apply demo_calls; vm_compute; reflexivity|].
  split; [vm_compute; repeat constructor; cbn; intuition discriminate|].
  split.
  { intros x t (_ & k & v & w & Hi & Hk & Hv & Hd & _) Ht Ed.
    vm_compute in Hi. destruct Hi as [Hi|[]]. injection Hi as <- <-.
    vm_compute in Hv. injection Hv as <-. cbn in Hd. rewrite <- Hd in Ed.
    destruct Ht as [<-|[<-|[<-|[]]]]; vm_compute in Ed; discriminate. }
  set (is := [0; 1; 2; 0; 1; 2; 2; 1; 0; 0; 1; 2]%nat).
  set (s := match schedule demo is (after_ops [demo_set [[97]; [98]] [9] 8], ths) with Some s => s | None => (empty_store, []) end).
  exists (fst s), (snd s).
  split; [apply (schedule_crun demo is); vm_compute; reflexivity|].
  split; [apply Forall_forall; vm_compute; intros t [<-|[<-|[<-|[]]]]; reflexivity|].
  rewrite <- !liveb_spec. vm_compute. repeat split; auto; discriminate.
Qed.

(** One call by itself is Set, whichever way its steps are looked at. *)
Lemma alone_steps C i auth now st :
  (forall st' t, crun C (fun _ _ _ => True) (st, [Thread i auth now PStart]) (st', [t]) -> th_phase t = PDone ->
     exists r, Set_ C i auth now st = (r, st') /\ (r = Err \/ exists l, r = Ok l))
  /\ (forall st' r, Set_ C i auth now st = (r, st') -> (r = Err \/ exists l, r = Ok l) ->
     crun C (fun _ _ _ => True) (st, [Thread i auth now PStart]) (st', [Thread i auth now PDone])).
Proof.
  set (t0 := Thread i auth now PStart). set (e := th_entry C t0).
  split.
  - (* what is left to do *)
    assert (H : forall a b, crun C (fun _ _ _ => True) a b -> a = (st, [t0]) ->
      exists s p, b = (s, [Thread i auth now p]) /\
      match p with
      | PStart => s = st
      | PWritten => payload_Set C (i_payload i) st = (Ok (c_hash C (i_payload i), len (i_payload i)), s)
      | PIngested => exists s1 l, payload_Set C (i_payload i) st = (Ok (c_hash C (i_payload i), len (i_payload i)), s1)
          /\ (let* token := lift (Authorise e auth) in IngestEntry C e token) s1 = (Ok l, s)
      | PCounted c => exists s1 s2 l, payload_Set C (i_payload i) st = (Ok (c_hash C (i_payload i), len (i_payload i)), s1)
          /\ (let* token := lift (Authorise e auth) in IngestEntry C e token) s1 = (Ok l, s2)
          /\ ref_Count (c_hash C (i_payload i)) s2 = (Ok c, s)
      | PDone => exists r, Set_ C i auth now st = (r, s) /\ (r = Err \/ exists l, r = Ok l)
      end).
    { intros a b HR. induction HR as [a|a b c HR IH HS]; intros Ea.
      - exists st, PStart. auto.
      - destruct (IH Ea) as (s & p & -> & HP). clear IH HR. remember (s, [Thread i auth now p]) as b0 eqn:Eb0. destruct HS as [s' s'' t p' pre post N _ E]. injection Eb0 as -> EL.
        destruct pre as [|x [|y pre]]; cbn in EL; try discriminate EL.
        injection EL as -> ->. cbn [app set_phase th_input th_auth th_now] in *.
        exists s'', p'. split; [reflexivity|]. unfold tstep in E. cbn [th_phase th_input th_auth th_now] in E, N.
        change (th_entry C (Thread i auth now p)) with e in E.
        destruct p as [| | |c|].
        + subst s. unfold bindM at 1 in E. unfold payload_Set, bindM in E |- *. destruct (durable _ st) as [[[]| | | |] s1]; try discriminate E.
          unfold ret in E |- *. injection E as <- <-. reflexivity.
        + destruct (bindM (lift (Authorise e auth)) (fun token => IngestEntry C e token) s) as [[l| | | |] s1] eqn:EI; try discriminate E; injection E as <- <-.
          * exists s, l. auto.
          * exists Err. split; auto. unfold Set_. unfold bindM at 1. rewrite HP. cbn [fst snd]. fold e.
            change (Entry (c_ns C) (i_sub i) (c_hash C (i_payload i)) (i_path i) (if i_time i =? 0 then now else i_time i) (len (i_payload i))) with e.
            unfold bindM at 1 in EI. unfold bindM at 1. unfold lift in *. destruct (Authorise e auth) as [tok| | | |]; try discriminate EI; [|injection EI as <-; reflexivity].
            unfold bindM at 1. rewrite EI. reflexivity.
        + destruct HP as (s1 & l & E1 & E2). change (e_digest e) with (c_hash C (i_payload i)) in E.
          destruct (ref_Count (c_hash C (i_payload i)) s) as [[c| | | |] s2] eqn:EC; try discriminate E; injection E as <- <-.
          * exists s1, s, l. auto.
          * exists Err. split; auto. unfold Set_. unfold bindM at 1. rewrite E1. cbn [fst snd].
            change (Entry (c_ns C) (i_sub i) (c_hash C (i_payload i)) (i_path i) (if i_time i =? 0 then now else i_time i) (len (i_payload i))) with e.
            unfold bindM at 1 in E2. unfold bindM at 1. unfold lift in *. destruct (Authorise e auth) as [tok| | | |]; try discriminate E2.
            unfold bindM at 1. rewrite E2. unfold bindM at 1. rewrite EC. reflexivity.
        + destruct HP as (s1 & s2 & l & E1 & E2 & E3). change (e_digest e) with (c_hash C (i_payload i)) in E.
          unfold bindM in E. destruct ((if c =? 0 then payload_Erase C (c_hash C (i_payload i)) else ret tt) s) as [[[]| | | |] s3] eqn:EC; try discriminate E.
          unfold ret in E. injection E as <- <-.
          exists (Ok l). split; eauto. unfold Set_. unfold bindM at 1. rewrite E1. cbn [fst snd].
          change (Entry (c_ns C) (i_sub i) (c_hash C (i_payload i)) (i_path i) (if i_time i =? 0 then now else i_time i) (len (i_payload i))) with e.
          unfold bindM at 1 in E2. unfold bindM at 1. unfold lift in *. destruct (Authorise e auth) as [tok| | | |]; try discriminate E2.
          unfold bindM at 1. rewrite E2. unfold bindM at 1. rewrite E3. unfold bindM. rewrite EC. reflexivity.
        + congruence. }
    intros st' t HR HP. destruct (H _ _ HR eq_refl) as (s & p & [= -> ->] & HH). cbn in HP. subst p. exact HH.
  - intros st' r E HR.
    assert (ST : forall s p s' p', p <> PDone -> tstep C (Thread i auth now p) s = (Ok p', s') ->
      crun C (fun _ _ _ => True) (st, [t0]) (s, [Thread i auth now p]) ->
      crun C (fun _ _ _ => True) (st, [t0]) (s', [Thread i auth now p'])).
    { intros s p s' p' N ES HC. eapply crun_step; [exact HC|].
      apply (CStep C (fun _ _ _ => True) s s' (Thread i auth now p) p' [] []); auto. }
    unfold Set_ in E. unfold bindM at 1 in E.
    destruct (payload_Set C (i_payload i) st) as [r1 s1] eqn:E1.
    assert (X1 : r1 = Ok (c_hash C (i_payload i), len (i_payload i)) \/ r1 = Fatal).
    { unfold payload_Set, bindM, durable in E1. destruct (budget st) as [[|n]|]; unfold ret in E1; injection E1 as <- _; auto. }
    destruct X1 as [->| ->]; [|injection E as <- _; destruct HR as [HR|[l HR]]; discriminate].
    assert (C1 : crun C (fun _ _ _ => True) (st, [t0]) (s1, [Thread i auth now PWritten])).
    { eapply (ST st PStart); [discriminate| |constructor]. unfold tstep. cbn [th_phase th_input]. unfold bindM. rewrite E1. reflexivity. }
    cbn [fst snd] in E. change (Entry (c_ns C) (i_sub i) (c_hash C (i_payload i)) (i_path i) (if i_time i =? 0 then now else i_time i) (len (i_payload i))) with e in E.
    assert (EI : exists r2 s2, (let* token := lift (Authorise e auth) in IngestEntry C e token) s1 = (r2, s2)
      /\ (match r2 with Ok pruned => (let* c := ref_Count (c_hash C (i_payload i)) in (if c =? 0 then payload_Erase C (c_hash C (i_payload i)) else ret tt) ;; ret pruned) s2
          | Err => (Err, s2) | Panic => (Panic, s2) | Fatal => (Fatal, s2) | Hang => (Hang, s2) end) = (r, st')).
    { unfold bindM at 1 in E. unfold bindM at 1. unfold lift in *. destruct (Authorise e auth) as [tok| | | |];
        [|eexists _, _; split; [reflexivity|exact E]..].
      unfold bindM at 1 in E. destruct (IngestEntry C e tok s1) as [r2 s2]. exists r2, s2. split; [reflexivity|]. destruct r2; exact E. }
    destruct EI as (r2 & s2 & EI & E2). clear E.
    assert (T2 : forall p, (r2 = Err /\ p = PDone \/ (exists l, r2 = Ok l) /\ p = PIngested) ->
      crun C (fun _ _ _ => True) (st, [t0]) (s2, [Thread i auth now p])).
    { intros p HP. eapply (ST s1 PWritten); [discriminate| |exact C1]. unfold tstep. cbn [th_phase th_auth].
      change (th_entry C (Thread i auth now PWritten)) with e. rewrite EI. destruct HP as [[-> ->]|[[l ->] ->]]; reflexivity. }
    destruct r2 as [l| | | |]; try (injection E2 as <- <-; destruct HR as [HR|[l HR]]; try discriminate; auto; fail).
    specialize (T2 PIngested ltac:(right; eauto)). unfold bindM at 1 in E2.
    destruct (ref_Count (c_hash C (i_payload i)) s2) as [r3 s3] eqn:E3.
    assert (T3 : forall p, (r3 = Err /\ p = PDone \/ exists c, r3 = Ok c /\ p = PCounted c) ->
      crun C (fun _ _ _ => True) (st, [t0]) (s3, [Thread i auth now p])).
    { intros p HP. eapply (ST s2 PIngested); [discriminate| |exact T2]. unfold tstep. cbn [th_phase].
      change (e_digest (th_entry C (Thread i auth now PIngested))) with (c_hash C (i_payload i)). rewrite E3. destruct HP as [[-> ->]|(c & -> & ->)]; reflexivity. }
    destruct r3 as [c| | | |]; try (injection E2 as <- <-; destruct HR as [HR|[l' HR]]; try discriminate; auto; fail).
    specialize (T3 (PCounted c) ltac:(right; eauto)). unfold bindM in E2.
    destruct ((if c =? 0 then payload_Erase C (c_hash C (i_payload i)) else ret tt) s3) as [r4 s4] eqn:E4.
    assert (X4 : r4 = Ok tt \/ r4 = Fatal).
    { destruct (c =? 0); [|injection E4 as <- _; auto]. unfold payload_Erase, durable in E4. destruct (budget s3) as [[|n]|]; injection E4 as <- _; auto. }
    destruct X4 as [-> | ->]; [|injection E2 as <- _; destruct HR as [HR|[l' HR]]; discriminate].
    unfold ret in E2. injection E2 as _ <-. eapply (ST s3 (PCounted c)); [discriminate| |exact T3]. unfold tstep. cbn [th_phase].
    change (e_digest (th_entry C (Thread i auth now (PCounted c)))) with (c_hash C (i_payload i)). unfold bindM. rewrite E4. reflexivity.
Qed.

(** A single call runs through its steps exactly as Set does. *)
Theorem C56_alone C i auth now st st' :
  (exists t, crun C (fun _ _ _ => True) (st, [Thread i auth now PStart]) (st', [t]) /\ th_phase t = PDone)
  <-> (fst (Set_ C i auth now st) = Err \/ exists l, fst (Set_ C i auth now st) = Ok l) /\ snd (Set_ C i auth now st) = st'.
Proof.
  destruct (alone_steps C i auth now st) as [A B]. split.
  - intros (t & HR & HP). destruct (A st' t HR HP) as (r & -> & Hr). auto.
  - intros [Hr <-]. exists (Thread i auth now PDone). split; [|reflexivity]. apply (B _ (fst (Set_ C i auth now st))); [apply surjective_pairing|exact Hr].
Qed.
Print Assumptions C56_alone.

Example C56_instance_alone :
  fst (Set_ demo (Input [115] [[97]; [100]] [6; 7] 0) [115] 12 demo_after) = Ok []
  /\ live demo (snd (Set_ demo (Input [115] [[97]; [100]] [6; 7] 0) [115] 12 demo_after)) (demo_e [[97]; [100]] [6; 7] 12).
Proof. split; [vm_compute; reflexivity|apply liveb_spec; vm_compute; reflexivity]. Qed.
