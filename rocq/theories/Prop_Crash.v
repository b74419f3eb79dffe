(** C32: crashes inside operations.

    [survived C U ops st]: [st] is reached by the operations [ops], any number of
    which were cut short by a crash after an arbitrary number of durable writes
    and followed by a restart. *)
From Coq Require Import Sorting.Permutation.
From Verif Require Import Base M_Order M_Encoding M_Paths M_Keys M_Entry M_Map M_Store
  S_Order S_Store P_Order P_Encoding P_Paths P_Keys P_Map P_Store P_History P_Auth P_Crash P_Demo Prop_Store.
Local Open Scope N_scope.

(** Whatever the crash point, the store opens again. *)
Theorem C32_reopens_partial C U ops st o b r st' :
  survived C U ops st -> op_ok C U o -> step C o (set_budget b st) = (r, st') ->
  exists st'', reopen C st' = Ok st'' /\ survived C U (ops ++ [o]) st''.
Proof.
  intros (PP & HU & HO & HL) Oo E. destruct (lives_Rep C U PP HU ops st HL HO) as (xs & R).
  assert (Rb : Rep C U xs (set_budget b st)) by (eapply Rep_quiet; [|exact R]; split; reflexivity).
  destruct (step_any C U PP HU xs _ o r st' Rb Oo E) as (ys & R' & _).
  destruct (Rep_reopen C U PP HU ys st' R') as (s & E3 & _).
  exists s. split; auto. split; auto. split; auto. split; [apply Forall_app; auto|].
  eapply lives_crash; eauto.
Qed.
Print Assumptions C32_reopens_partial.

Theorem C32_one_live_entry_partial C U ops st x y :
  survived C U ops st -> live C st x -> live C st y ->
  e_subspace x = e_subspace y -> e_path x = e_path y -> x = y.
Proof.
  intros (PP & HU & HO & HL). destruct (lives_Rep C U PP HU ops st HL HO) as (xs & R).
  rewrite !(Rep_live C U PP HU xs st) by auto. intros. eapply place_inj; eauto. apply (rep_place _ _ _ _ R).
Qed.
Print Assumptions C32_one_live_entry_partial.

Theorem C32_index_agrees_partial C U ops st :
  survived C U ops st ->
  Permutation (map (fun n => Ok (node_pos n)) (tree st))
              (map (fun kvp => DecodeKey (fst kvp) (c_pp C)) (kv st)).
Proof.
  intros (PP & HU & HO & HL). destruct (lives_Rep C U PP HU ops st HL HO) as (xs & RP).
  rewrite <- map_map. rewrite (Permutation_map _ (rep_tree _ _ _ _ RP)).
  rewrite (Permutation_map (fun kvp => DecodeKey (fst kvp) (c_pp C)) (rep_kv _ _ _ _ RP)).
  rewrite !map_map. apply Permutation_refl'. apply map_ext_in. intros x Hx. cbn [fst].
  symmetry. apply (ekey_decode C U PP). eapply Rep_In_ok; eauto.
Qed.
Print Assumptions C32_index_agrees_partial.

(** A crash touches nothing but the offered entry, the entry at its place and
    the entries it prunes; a refused offer touches no entry. *)
Theorem C32_damage_partial C U ops st o e token b st'' :
  survived C U ops st -> op_ok C U o -> offer C o = Some (e, token) -> crashed C o b st st'' ->
  (forall x, live C st'' x -> x = e \/ live C st x)
  /\ (forall x, live C st x -> ~ same_place x e -> ~ prunes e x -> live C st'' x)
  /\ (~ acceptable C (live C st) e token -> forall x, live C st'' x <-> live C st x).
Proof.
  intros (PP & HU & HO & HL) Oo Ho (r & st' & E & E2). destruct (lives_Rep C U PP HU ops st HL HO) as (xs & R).
  assert (Rb : Rep C U xs (set_budget b st)) by (eapply Rep_quiet; [|exact R]; split; reflexivity).
  destruct (step_any C U PP HU xs _ o r st' Rb Oo E) as (ys & R' & H). rewrite Ho in H.
  destruct (Rep_reopen C U PP HU ys st' R') as (s & E3 & R3 & _). rewrite E3 in E2. injection E2 as <-.
  pose proof (fun x => Rep_live C U PP HU xs st x R) as L1.
  pose proof (fun x => Rep_live C U PP HU ys s x R3) as L2.
  assert (AC : acceptable C (fun x => In x xs) e token -> acceptable C (live C st) e token).
  { intros (A1 & A2 & A3 & A4). repeat split; auto; intros x Hx; apply L1 in Hx; auto. }
  assert (Se : strict_path (c_pp C) (e_path e)).
  { destruct o; cbn in Ho, Oo; try discriminate; injection Ho as <- <-; apply Oo. }
  assert (KI : forall x, In x xs -> ~ same_place x e -> ~ prunes e x -> In x (kept e (others e xs))).
  { intros x Hx Hs Hp. unfold kept. apply filter_In. split; [apply others_In; auto|].
    destruct (prunesb_spec e x (proj1 Se)) as [Hq|Hq]; [contradiction|reflexivity]. }
  destruct H as [H|(A & [H|(zs & -> & I1 & I2)])].
  - assert (EQ : forall x, live C s x <-> live C st x).
    { intros x. rewrite L1, L2. split; apply Permutation_in; auto. symmetry; auto. }
    split; [intros x Hx; right; apply EQ; auto|]. split; [intros x Hx _ _; apply EQ; auto|auto].
  - split; [|split].
    + intros x Hx. apply L2 in Hx. apply (Permutation_in _ H) in Hx. apply others_In in Hx. right. apply L1. tauto.
    + intros x Hx Hs Hp. apply L2. apply (Permutation_in _ (Permutation_sym H)). apply others_In. split; auto.
      apply L1; auto.
    + intros NA. destruct NA. auto.
  - split; [|split].
    + intros x Hx. apply L2 in Hx as [->|Hx]; auto. apply I1, others_In in Hx. right. apply L1. tauto.
    + intros x Hx Hs Hp. apply L2. right. apply I2, KI; auto. apply L1; auto.
    + intros NA. destruct NA. auto.
Qed.
Print Assumptions C32_damage_partial.

(** If the crash came before the entry was in the database, offering it again
    leads to the live entries of the uninterrupted run. *)
Theorem C32_offer_again_partial C U ops st e token b st'' pruned st0 :
  reached C U ops st -> entry_ok C U e ->
  IngestEntry C e token st = (Ok pruned, st0) ->
  crashed C (OpIngest e token) b st st'' -> ~ live C st'' e ->
  exists pruned' s, IngestEntry C e token st'' = (Ok pruned', s) /\ forall x, live C s x <-> live C st0 x.
Proof.
  intros H Oe E0 (r & st' & E & E2) NL. pose proof H as [(PP & HU & _ & Hlen) _].
  destruct (reached_runs C U PP HU ops st H) as (n & xs & R).
  destruct (runs_Inv _ _ _ _ _ _ R) as (I & Hn).
  assert (Hn' : n + 1 < 2 ^ 64) by lia.
  destruct (IngestEntry_spec C U PP HU n xs st e token Hn' I Oe) as [(A & pr & s' & E4 & _ & I4 & _)|(_ & E4)];
    rewrite E4 in E0; [injection E0 as -> <-|discriminate].
  cbn [step] in E.
  destruct (reingest C U PP HU n xs st e token b r st' st'' Hn' I Oe E E2 NL A) as (pr' & ys & s & E5 & R5 & HP).
  exists pr', s. split; auto. intros x.
  rewrite (Rep_live C U PP HU ys s x R5), (Rep_live C U PP HU _ s' x (inv_rep _ _ _ _ _ I4)).
  split; apply Permutation_in; auto. symmetry; auto.
Qed.
Print Assumptions C32_offer_again_partial.

(** ** Instances *)

(** Two crashes in one history: an overwrite cut after the old entry was
    removed, then a directory write cut before its pruning. *)
Definition crash1 (o : op) (b : nat) (st : state) : state :=
  match reopen demo (snd (step demo o (set_budget (Some b) st))) with Ok s => s | _ => empty_store end.

Definition dset (p : path) (b : bytes) (t : N) : op := demo_set p b t.
Definition h1 : list op := [dset [[97]; [98]] [1; 2] 5; dset [[97]; [99]] [1; 2] 6].
Definition s1 : state := after_ops h1.
Definition s2 : state := crash1 (dset [[97]; [98]] [9] 8) 2 s1.
Definition s3 : state := crash1 (dset [[97]] [7; 7] 9) 3 s2.

Lemma demo_survived_2 : survived demo small (h1 ++ [dset [[97]; [98]] [9] 8]) s2.
Proof.
  destruct (demo_history h1 ltac:(vm_compute; reflexivity) ltac:(vm_compute; reflexivity)) as (PP & HU & HO & _).
  split; auto. split; auto. split; [|].
  - apply (demo_history (h1 ++ [dset [[97]; [98]] [9] 8]) ltac:(vm_compute; reflexivity) ltac:(vm_compute; reflexivity)).
  - eapply (lives_crash demo h1 (dset [[97]; [98]] [9] 8) (Some 2%nat) s1);
      [|apply surjective_pairing|vm_compute; reflexivity].
    change h1 with (([] ++ [dset [[97]; [98]] [1; 2] 5]) ++ [dset [[97]; [99]] [1; 2] 6]).
    eapply lives_step; [eapply lives_step; [apply lives_new| |]| |].
    + vm_compute; reflexivity.
    + right; eauto.
    + vm_compute; reflexivity.
    + right; eauto.
Qed.

Example C32_instance_unique_index :
  survived demo small ((h1 ++ [dset [[97]; [98]] [9] 8]) ++ [dset [[97]] [7; 7] 9]) s3
  /\ live demo s3 (demo_e [[97]; [99]] [1; 2] 6) /\ live demo s3 (demo_e [[97]] [7; 7] 9)
  /\ ~ live demo s3 (demo_e [[97]; [98]] [1; 2] 5) /\ length (tree s3) = 2%nat.
Proof.
  split; [|rewrite <- !liveb_spec; vm_compute; repeat split; auto; discriminate].
  destruct demo_survived_2 as (PP & HU & HO & HL). split; auto. split; auto. split.
  - apply Forall_app; split; auto.
    apply (demo_history [dset [[97]] [7; 7] 9] ltac:(vm_compute; reflexivity) ltac:(vm_compute; reflexivity)).
  - eapply (lives_crash demo _ (dset [[97]] [7; 7] 9) (Some 3%nat) s2);
      [exact HL|apply surjective_pairing|vm_compute; reflexivity].
Qed.

Example C32_instance_damage :
  crashed demo (dset [[97]; [98]] [9] 8) (Some 2%nat) s1 s2
  /\ live demo s1 (demo_e [[97]; [98]] [1; 2] 5) /\ ~ live demo s2 (demo_e [[97]; [98]] [1; 2] 5)
  /\ ~ live demo s2 (demo_e [[97]; [98]] [9] 8) /\ live demo s2 (demo_e [[97]; [99]] [1; 2] 6).
Proof.
  split; [eexists _, _; split; [apply surjective_pairing|vm_compute; reflexivity]|].
  rewrite <- !liveb_spec; vm_compute; repeat split; auto; discriminate.
Qed.

Example C32_instance_again : exists pruned st0 s'',
  reached demo small h1 s1
  /\ IngestEntry demo (demo_e [[97]; [98]] [9] 8) [115] s1 = (Ok pruned, st0)
  /\ crashed demo (OpIngest (demo_e [[97]; [98]] [9] 8) [115]) (Some 1%nat) s1 s''
  /\ ~ live demo s'' (demo_e [[97]; [98]] [9] 8).
Proof.
  do 3 eexists. split; [split; [apply demo_history; vm_compute; reflexivity|vm_compute; reflexivity]|].
  split; [vm_compute; reflexivity|].
  split; [eexists _, _; split; [apply surjective_pairing|vm_compute; reflexivity]|].
  rewrite <- !liveb_spec; vm_compute; discriminate.
Qed.

(** ** What fails *)

(** A crash between the insertion and the pruning: the older entry below stays
    live, and offering the entry again is refused, so it stays for good. *)
Theorem C32_offer_again_refuted :
  exists ops st e token b st'' pruned st0 x,
    reached demo small ops st /\ entry_ok demo small e
    /\ IngestEntry demo e token st = (Ok pruned, st0)
    /\ crashed demo (OpIngest e token) (Some b) st st''
    /\ IngestEntry demo e token st'' = (Err, st'')
    /\ live demo st'' x /\ ~ live demo st0 x /\ prunes e x /\ live demo st'' e.
Proof.
  exists [dset [[97]; [98]] [1; 2] 5], (after_ops [dset [[97]; [98]] [1; 2] 5]), (demo_e [[97]] [7] 9), [115], 2%nat.
  do 3 eexists. exists (demo_e [[97]; [98]] [1; 2] 5).
  split; [split; [apply demo_history; vm_compute; reflexivity|vm_compute; reflexivity]|].
  split; [apply demo_entry_okb_spec; vm_compute; reflexivity|].
  split; [vm_compute; reflexivity|].
  split; [eexists _, _; split; [apply surjective_pairing|vm_compute; reflexivity]|].
  split; [vm_compute; reflexivity|].
  rewrite <- !liveb_spec.
  split; [vm_compute; reflexivity|]. split; [vm_compute; discriminate|]. split; [|vm_compute; reflexivity].
  split; [|cbn; lia]. split; [reflexivity|]. split; [discriminate|exists [98], []; reflexivity].
Qed.
Print Assumptions C32_offer_again_refuted.

(** A live payload is missing after a single crash: the payload happens to equal
    the subspace name, whose file an overwrite removes and writes back. *)
Theorem C32_payload_refuted :
  exists ops st o b st'' e,
    reached demo small ops st /\ op_ok demo small o /\ crashed demo o (Some b) st st''
    /\ live demo st e /\ fst (GetPayload demo (EntryPosition e) st) = Ok [115]
    /\ live demo st'' e /\ fst (GetPayload demo (EntryPosition e) st'') = Err.
Proof.
  exists [dset [[98]] [115] 4; dset [[97]] [1] 5], (after_ops [dset [[98]] [115] 4; dset [[97]] [1] 5]),
    (dset [[97]] [2] 6), 3%nat. eexists. exists (demo_e [[98]] [115] 4).
  split; [split; [apply demo_history; vm_compute; reflexivity|vm_compute; reflexivity]|].
  split; [apply demo_op_okb_spec; vm_compute; reflexivity|].
  split; [eexists _, _; split; [apply surjective_pairing|vm_compute; reflexivity]|].
  rewrite <- !liveb_spec. vm_compute. repeat split; reflexivity.
Qed.
Print Assumptions C32_payload_refuted.

(** A crash between insertion and counting: one more ordinary overwrite later
    the payload of a live entry is erased. *)
Theorem C32_count_refuted :
  exists ops st o b s'' o' pruned st' e,
    reached demo small ops st /\ op_ok demo small o /\ crashed demo o (Some b) st s''
    /\ op_ok demo small o' /\ step demo o' s'' = (Ok pruned, st')
    /\ live demo s'' e /\ fst (GetPayload demo (EntryPosition e) s'') = Ok [1; 2]
    /\ live demo st' e /\ fst (GetPayload demo (EntryPosition e) st') = Err.
Proof.
  exists [dset [[97]] [1; 2] 5], (after_ops [dset [[97]] [1; 2] 5]), (dset [[98]] [1; 2] 6), 3%nat.
  eexists. exists (dset [[97]] [3] 7). do 2 eexists. exists (demo_e [[98]] [1; 2] 6).
  split; [split; [apply demo_history; vm_compute; reflexivity|vm_compute; reflexivity]|].
  split; [apply demo_op_okb_spec; vm_compute; reflexivity|].
  split; [eexists _, _; split; [apply surjective_pairing|vm_compute; reflexivity]|].
  split; [apply demo_op_okb_spec; vm_compute; reflexivity|].
  split; [vm_compute; reflexivity|].
  rewrite <- !liveb_spec. vm_compute. repeat split; reflexivity.
Qed.
Print Assumptions C32_count_refuted.

(** A crash inside an overwrite: the old entry is deleted before the new one is in the database, so the store holds nothing
    where it held one version before and was given another. *)
Theorem C32_both_lost_refuted :
  exists ops st o b st'' x e,
    reached demo small ops st /\ op_ok demo small o /\ offer demo o = Some (e, e_subspace e)
    /\ acceptable demo (live demo st) e (e_subspace e) /\ crashed demo o (Some b) st st''
    /\ live demo st x /\ same_place x e /\ forall y, ~ live demo st'' y.
Proof.
  exists [dset [[97]] [1; 2] 5], (after_ops [dset [[97]] [1; 2] 5]), (dset [[97]] [3] 6), 2%nat.
  eexists. exists (demo_e [[97]] [1; 2] 5), (demo_e [[97]] [3] 6).
  split; [split; [apply demo_history; vm_compute; reflexivity|vm_compute; reflexivity]|].
  split; [apply demo_op_okb_spec; vm_compute; reflexivity|]. split; [reflexivity|].
  split.
  { assert (LV : forall x, live demo (after_ops [dset [[97]] [1; 2] 5]) x -> e_time x = 5).
    { intros x (_ & k & v & w & Hin & Hk & _). vm_compute in Hin. destruct Hin as [Hin|[]]. injection Hin as <- <-.
      vm_compute in Hk. injection Hk as _ _ Ht. exact (eq_sym Ht). }
    split; [reflexivity|]. split; [reflexivity|]. split; intros x Hx _; rewrite (LV x Hx); reflexivity. }
  split; [eexists _, _; split; [apply surjective_pairing|vm_compute; reflexivity]|].
  split; [rewrite <- liveb_spec; vm_compute; reflexivity|]. split; [split; reflexivity|].
  intros y (_ & k & v & w & Hin & _). vm_compute in Hin. exact Hin.
Qed.
Print Assumptions C32_both_lost_refuted.
