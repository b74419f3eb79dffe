(** C89: ingesting a payload when calls of pebble and of the operating system fail. *)
From Verif Require Import Base M_Order M_Encoding M_Paths M_Keys M_Map M_Store M_Payload M_Fault M_Disk M_Ingest
  S_Order P_Order P_Map P_Payload P_Disk Prop_Disk P_Demo.
Local Open Scope N_scope.

Lemma order_same a b : (OrderBytes a b =? 0)%Z = true <-> a = b.
Proof.
  rewrite Z.eqb_eq. destruct (OrderBytes_decides a b) as [[Q L]|[[Q L]|[Q L]]]; rewrite Q; split; intros X; auto; try discriminate X;
    rewrite X in L; exfalso; eapply (sto_irrefl _ bytes_sto); exact L.
Qed.

Lemma went_Get fname d s : exists b s', went (d_Get fname d) s = (Ok b, s') /\ fst s' = fst s
  /\ (b = true -> look (fname d) (fst s) <> Nothing).
Proof.
  unfold went, d_Get, d_open, bindD at 1 2, call. destruct (snd s) as [|o os] eqn:E; unfold bindD, here; cbn [fst].
  - destruct (look (fname d) (fst s)) eqn:L; cbn; [exists false, s|exists true, s|exists true, s]; repeat split; auto; intros; congruence.
  - destruct o; [|exists false, (fst s, os); repeat split; auto; discriminate ..].
    destruct (look (fname d) (fst s)) eqn:L; cbn; [exists false, (fst s, os)|exists true, (fst s, os)|exists true, (fst s, os)]; repeat split; auto; intros; congruence.
Qed.

(** Whatever calls fail, whatever is in the database (no value of which is empty) and on the disk: IngestPayload returns an
    error and has not touched the disk. *)
Theorem C89_never C tmp p payload allowPartial offset db s os : (forall k (v : bytes), In (k, v) db -> v <> []) ->
  exists r os', d_IngestPayload C tmp p payload allowPartial offset db (s, os) = (Ok (r, false), (s, os')) /\ r <> Success.
Proof.
  intros H. unfold d_IngestPayload, bindD.
  assert (X : exists o os', call (s, os) = (Ok o, (s, os'))) by (unfold call; cbn [fst snd]; destruct os; eauto).
  destruct X as (o & os' & ->).
  destruct (mget db (EncodeKey p (c_pp C))) as [[|x v]|] eqn:E.
  - exfalso. apply mget_In in E. eapply H; eauto.
  - destruct o; [exists Failure, os'|exists No_Op, os'|exists No_Op, os']; split; try reflexivity; discriminate.
  - destruct o; exists No_Op, os'; split; try reflexivity; discriminate.
Qed.
Print Assumptions C89_never.

(** A database of a reached store, with the call of the database failing and not. *)
Example C89_instance_never :
  let db := [(EncodeKey (Position [115] [[97]] 5) (c_pp demo), [1])] in
  (forall k (v : bytes), In (k, v) db -> v <> [])
  /\ d_IngestPayload demo [200] (Position [115] [[97]] 5) [1; 2] false 0 db (no_disk, [Fails]) = (Ok (No_Op, false), (no_disk, []))
  /\ d_IngestPayload demo [200] (Position [115] [[97]] 5) [1; 2] false 0 db (no_disk, []) = (Ok (Failure, false), (no_disk, [])).
Proof. split; [|split; vm_compute; reflexivity]. intros k v [[= _ <-]|[]]. discriminate. Qed.

(** With the test of the lookup repaired it would still not store anything, whatever calls fail. *)
Theorem C89_rest_never C tmp value payload allowPartial offset s os w : DecodeValues value = Ok w ->
  exists os', d_ingest_rest C tmp value payload allowPartial offset (s, os) = (Ok (No_Op, false), (s, os')).
Proof.
  intros H. unfold d_ingest_rest. rewrite H. unfold bindD at 1.
  destruct (went_Get (c_fname C) (v_digest w) (s, os)) as (b & [s' os'] & -> & E & _). cbn [fst] in E. subst s'.
  exists os'. destruct b; reflexivity.
Qed.
Print Assumptions C89_rest_never.

Example C89_instance_rest : exists value,
  DecodeValues value = Ok (Values 2 [5; 5] [7])
  /\ d_ingest_rest demo [200] value [1; 2] false 0 (no_disk, [Fine; Fails]) = (Ok (No_Op, false), (no_disk, [Fails])).
Proof. exists (EncodeValues (Values 2 [5; 5] [7])). split; vm_compute; reflexivity. Qed.

(** What comes behind both tests, whatever calls fail. A part is the whole payload, or the beginning of one where that is
    allowed, or refused. Success for a whole payload means that the received bytes are the stored file, or that there was a
    file before, and that what was read back of them has the digest of the entry; any other result leaves either the stored
    payloads as they were or the received bytes as the stored file. The other stored payloads are as they were, and so are
    the other files being received. *)
Theorem C89_received C tmp w payload allowPartial offset s :
  let k := c_fname C (v_digest w) in
  let content := repeat 0 (Z.to_nat offset) ++ payload in
  let total := (offset + Z.of_N (len payload))%Z in
  let right := exists got : N, got <= v_length w
    /\ v_digest w = c_hash C (firstn (N.to_nat got) content ++ repeat 0 (N.to_nat (v_length w - got))) in
  let '(r, s') := d_ingest_received C tmp w payload allowPartial offset s in
  let st := on_disk (fst s) in let st' := on_disk (fst s') in
  (match r with
   | Ok (Success, true) =>
       (total = Z.of_N (v_length w) /\ right /\ p_partial st' = p_partial st
        /\ (mget (p_files st') k = Some content
            \/ p_files st' = p_files st /\ look k (fst s') <> Nothing))
       \/ (allowPartial = true /\ (total < Z.of_N (v_length w))%Z /\ p_files st' = p_files st
           /\ (mget (p_partial st') k = mget (p_partial st) k \/ exists n, mget (p_partial st') k = Some (firstn n content)))
   | Ok (Failure, false) =>
       p_files st' = p_files st /\ p_partial st' = p_partial st
       /\ (total = Z.of_N (v_length w)
             -> exists data, len data = v_length w /\ c_hash C data <> v_digest w)
       /\ ((total < Z.of_N (v_length w))%Z -> allowPartial = false)
   | Ok (No_Op, false) =>
       total = Z.of_N (v_length w) /\ right /\ p_partial st' = p_partial st
       /\ (mget (p_files st') k = Some content \/ p_files st' = p_files st)
   | Panic => p_files st' = p_files st /\ p_partial st' = p_partial st
   | _ => False
   end)
  /\ (forall f, f <> k -> mget (p_files st') f = mget (p_files st) f /\ mget (p_partial st') f = mget (p_partial st) f)
  /\ (forall t, t <> tmp -> mget (p_staging st') t = mget (p_staging st) t).
Proof.
  intros k content total right. unfold d_ingest_received.
  pose proof (C82_panics (c_hash C) (c_fname C) tmp payload offset (v_digest w) s) as HP.
  pose proof (C82_staged (c_hash C) (c_fname C) tmp payload offset (v_digest w) s) as HS.
  unfold bindD at 1. destruct (d_Receive (c_hash C) (c_fname C) tmp payload offset (v_digest w) s) as [r s1] eqn:ER.
  cbn [fst snd] in HP, HS. destruct HS as (S1 & S2 & S3).
  destruct r as [[dg n]| | | |]; try contradiction; [|rewrite S1, S2; auto].
  apply C82_received in ER. fold content in ER. destruct ER as (N1 & _ & N3 & (got & G1 & _ & G2) & _). fold total in N1.
  assert (LC : n <= len content) by (unfold content, total, len in *; rewrite app_length, repeat_length; lia).
  destruct ((v_length w <? n) || (negb allowPartial && negb (v_length w =? n)) || ((n =? v_length w) && negb (OrderBytes dg (v_digest w) =? 0)%Z)) eqn:EC.
  - unfold bindD at 1. destruct (C82_reject tmp s1) as (ok & s2 & -> & R1 & R2 & R3 & _). unfold retD.
    rewrite R1, R2, S1, S2. split; [|split; [auto|intros t Ht; rewrite R3, S3; auto]].
    split; auto. split; auto. split.
    + intros Ht. assert (n = v_length w) by lia. subst n. rewrite N.ltb_irrefl, !N.eqb_refl, andb_false_r in EC. cbn [negb andb orb] in EC.
      apply negb_true_iff in EC. exists (firstn (N.to_nat got) content ++ repeat 0 (N.to_nat (v_length w - got))).
      split; [|intros X; rewrite <- G2 in X; apply order_same in X; congruence].
      unfold len in *. rewrite app_length, firstn_length, repeat_length. lia.
    + intros Ht. destruct (N.ltb_spec (v_length w) n); [lia|]. destruct (N.eqb_spec n (v_length w)); [lia|].
      cbn [orb andb] in EC. rewrite orb_false_r in EC. destruct allowPartial; [discriminate EC|auto].
  - apply orb_false_iff in EC as [EC E3]. apply orb_false_iff in EC as [E1 E2]. apply N.ltb_ge in E1.
    destruct (N.eqb_spec n (v_length w)) as [E|E].
    + cbn [andb] in *. apply negb_false_iff in E3. pose proof (proj1 (order_same _ _) E3) as ED. subst n.
      assert (RT : right) by (exists got; split; [auto|congruence]).
      assert (TT : total = Z.of_N (v_length w)) by lia.
      unfold bindD at 1. destruct (C82_commit (c_fname C) tmp (v_digest w) s1) as (ok & s2 & -> & R1 & R2 & R3 & R4). fold k in R2, R4.
      assert (HF : mget (p_files (on_disk (fst s2))) k = Some content \/ p_files (on_disk (fst s2)) = p_files (on_disk (fst s))).
      { destruct ok; [left|right]. - destruct R4 as (b & B1 & B2 & _). congruence. - rewrite R4. auto. }
      rewrite E3.
      assert (HO : (forall f, f <> k -> mget (p_files (on_disk (fst s2))) f = mget (p_files (on_disk (fst s))) f
          /\ mget (p_partial (on_disk (fst s2))) f = mget (p_partial (on_disk (fst s))) f)
        /\ (forall t, t <> tmp -> mget (p_staging (on_disk (fst s2))) t = mget (p_staging (on_disk (fst s))) t)).
      { split; [intros f Hf; rewrite R1, S2, (R2 f Hf), S1; auto|intros t Ht; rewrite R3, S3; auto]. }
      unfold bindD at 1. destruct (went_Get (c_fname C) (v_digest w) s2) as (b1 & s3 & -> & E4 & L1).
      destruct b1; cbn [negb]; [|unfold retD; rewrite E4; split; [repeat split; auto; congruence|auto]].
      unfold bindD at 1. destruct (went_Get (c_fname C) (v_auth w) s3) as (b2 & s4 & -> & E5 & _).
      destruct b2; cbn [negb]; unfold retD; rewrite E5, E4; (split; [|auto]).
      * left. split; auto. split; auto. split; [congruence|]. destruct HF as [HF|HF]; auto.
      * repeat split; auto; congruence.
    + cbn [andb]. rewrite N.eqb_sym in E2. destruct (N.eqb_spec n (v_length w)) as [?|_]; [contradiction|]. cbn [negb andb] in E2. rewrite andb_true_r in E2.
      apply negb_false_iff in E2. unfold bindD at 1.
      destruct (C82_commit_part (c_fname C) tmp (v_digest w) s1) as (ok & s2 & -> & R1 & R2 & R3 & R4 & _). fold k in R2, R4. unfold retD.
      split; [|split; [intros f Hf; rewrite R1, S1, (R2 f Hf), S2; auto|intros t Ht; rewrite R3, S3; auto]].
      right. split; auto. split; [lia|]. split; [congruence|]. rewrite S2 in R4. destruct R4 as [R4|(b & m & B1 & B2)]; [auto|right].
      exists m. congruence.
Qed.
Print Assumptions C89_received.

(** The right payload with its token there: it is stored; if the file cannot be renamed there is an error and nothing is stored; and
    if the last Lstat fails there is an error although it is stored. *)
Example C89_instance_received :
  let w := Values 2 (hex_encode [1; 2]) (hex_encode [5]) in
  let s := Disk true false false (PDir [([5], [5])] [] []) in
  let with_ f := d_ingest_received demo [200] w [1; 2] false 0 (s, f) in
  let ok (n : nat) := repeat Fine n in
  (fst (with_ []) = Ok (Success, true) /\ p_files (on_disk (fst (snd (with_ [])))) = [([1; 2], [1; 2]); ([5], [5])])
  /\ (fst (with_ (ok 7%nat ++ [Fails])) = Ok (No_Op, false) /\ p_files (on_disk (fst (snd (with_ (ok 7%nat ++ [Fails]))))) = [([5], [5])])
  /\ (fst (with_ (ok 9%nat ++ [Fails])) = Ok (No_Op, false) /\ p_files (on_disk (fst (snd (with_ (ok 9%nat ++ [Fails]))))) = [([1; 2], [1; 2]); ([5], [5])])
  /\ fst (with_ (ok 3%nat ++ [Fails])) = Panic.
Proof. vm_compute. auto 10. Qed.

Lemma incl_nil (l : list outcome) : incl l [] -> l = [].
Proof. destruct l as [|x l]; auto. intros H. destruct (H x (or_introl eq_refl)). Qed.

Local Ltac take :=
  repeat match goal with
    | |- takes call => apply takes_call
    | |- takes (or_panic _) => apply takes_or_panic
    | |- takes (went _) => apply takes_went
    | |- takes (bindD _ _) => apply takes_bind; [|intros ?]
    | |- takes (match ?x with _ => _ end) => destruct x
    | |- takes (if ?x then _ else _) => destruct x
    | |- takes (retD _) => intros ?; apply incl_refl
    | |- takes failD => intros ?; apply incl_refl
    | |- takes panicD => intros ?; apply incl_refl
    | |- takes (here _) => intros ?; apply incl_refl
    | |- takes (change _) => intros ?; apply incl_refl
    | |- takes plain => unfold plain
    | |- takes (d_EnsureDir _) => unfold d_EnsureDir
    | |- takes (d_copy_to_staging _ _) => unfold d_copy_to_staging
    | |- takes (d_create_staging _) => unfold d_create_staging
    | |- takes (d_write_staging _ _ _) => unfold d_write_staging
    end.
Lemma takes_Receive hash fname tmp payload offset d : takes (d_Receive hash fname tmp payload offset d).
Proof. unfold d_Receive, d_Read. take. Qed.
Lemma takes_commit fname tmp d complete : takes (d_commit fname tmp d complete).
Proof. unfold d_commit, d_rename, d_copy_to_partial, d_remove_staging. take. Qed.

Lemma as_went_Get fname d s : tidy s -> fname d <> [] ->
  went (d_Get fname d) (s, []) = (Ok (match pd_Get fname d (on_disk s) with Ok _ => true | _ => false end), (s, [])).
Proof.
  intros T F. unfold went, d_Get, bindD. rewrite (open_tidy s _ T F). unfold pd_Get.
  destruct (fname d) as [|c k]; [contradiction|]. destruct (mget (p_files (on_disk s)) (c :: k)); reflexivity.
Qed.

(** After any calls with any failures, when no call fails any more it is what it is in a directory that was always there
    (C36_received), up to 2^30 bytes. *)
Theorem C89_no_failure C start ops os tmp w payload allowPartial offset :
  empty_disk start -> c_fname C (v_digest w) <> [] -> c_fname C (v_auth w) <> [] -> (offset + Z.of_N (len payload) <= 2 ^ 30)%Z ->
  let s := fst (d_run (c_hash C) (c_fname C) ops (start, os)) in
  runs_as (d_ingest_received C tmp w payload allowPartial offset) s
    (fst (ingest_received C tmp w payload allowPartial offset (on_disk s)))
    (snd (ingest_received C tmp w payload allowPartial offset (on_disk s))).
Proof.
  intros (E1 & E2 & E3) FD FA L s.
  assert (T : tidy s). { apply tidy_run. unfold tidy. cbn [fst]. rewrite E1. repeat split; auto; discriminate. }
  clearbody s. clear E1 E2 E3. unfold runs_as.
  assert (Y : exists s' os', d_ingest_received C tmp w payload allowPartial offset (s, []) = (fst (ingest_received C tmp w payload allowPartial offset (on_disk s)), (s', os'))
    /\ on_disk s' = snd (ingest_received C tmp w payload allowPartial offset (on_disk s))); [|destruct Y as (s' & os' & -> & Y); auto].
  unfold d_ingest_received, ingest_received.
  destruct (as_Receive (c_hash C) (c_fname C) s tmp payload offset (v_digest w) T FD L) as [R1 R2].
  pose proof (tidy_Receive (c_hash C) (c_fname C) tmp payload offset (v_digest w) (s, []) T) as T1.
  pose proof (takes_Receive (c_hash C) (c_fname C) tmp payload offset (v_digest w) (s, [])) as K1.
  pose proof (C82_panics (c_hash C) (c_fname C) tmp payload offset (v_digest w) (s, [])) as HP.
  unfold bindD at 1.
  destruct (d_Receive (c_hash C) (c_fname C) tmp payload offset (v_digest w) (s, [])) as [r [s1 os1]].
  destruct (pd_Receive (c_hash C) (c_fname C) tmp payload offset (v_digest w) (on_disk s)) as [r' st1]. cbn [fst snd] in *. subst r st1.
  apply incl_nil in K1. subst os1. destruct r' as [[dg n]| | | |]; try contradiction; [|cbn [fst snd]; eauto].
  destruct (_ || _ || _).
  - pose proof (as_reject s1 tmp) as [_ J2]. destruct (C82_reject tmp (s1, [])) as (ok & [s2 os2] & E & _).
    unfold bindD, retD. rewrite E in *. cbn [fst snd] in *. eauto.
  - pose proof (as_commit (c_fname C) s1 tmp (v_digest w) (n =? v_length w) T1) as J2.
    pose proof (tidy_commit (c_fname C) tmp (v_digest w) (n =? v_length w) (s1, []) T1) as T2.
    pose proof (takes_commit (c_fname C) tmp (v_digest w) (n =? v_length w) (s1, [])) as K2.
    assert (X : exists ok s2, d_commit (c_fname C) tmp (v_digest w) (n =? v_length w) (s1, []) = (Ok ok, s2)).
    { destruct (n =? v_length w);
        [destruct (C82_commit (c_fname C) tmp (v_digest w) (s1, [])) as (ok & s2 & E & _)
        |destruct (C82_commit_part (c_fname C) tmp (v_digest w) (s1, [])) as (ok & s2 & E & _)]; eauto. }
    destruct X as (ok & [s2 os2] & E). rewrite E in J2, T2, K2. cbn [fst snd] in *. apply incl_nil in K2. subst os2.
    unfold bindD at 1. rewrite E. rewrite <- J2.
    destruct ((n =? v_length w) && (OrderBytes dg (v_digest w) =? 0)%Z); [|do 2 eexists; split; reflexivity].
    unfold bindD. rewrite (as_went_Get _ _ s2 T2 FD).
    assert (GS : forall d, match pd_Get (c_fname C) d (on_disk s2) with Ok _ | Err => True | _ => False end).
    { intros d. unfold pd_Get. destruct (c_fname C d); [exact I|]. destruct (mget _ _); exact I. }
    pose proof (GS (v_digest w)) as G1. pose proof (GS (v_auth w)) as G2.
    destruct (pd_Get (c_fname C) (v_digest w) (on_disk s2)) as [k1| | | |]; try contradiction; cbn [negb]; [|do 2 eexists; split; reflexivity].
    rewrite (as_went_Get _ _ s2 T2 FA).
    destruct (pd_Get (c_fname C) (v_auth w) (on_disk s2)) as [k2| | | |]; try contradiction; (do 2 eexists; split; reflexivity).
Qed.
Print Assumptions C89_no_failure.

Example C89_instance_no_failure :
  let w := Values 2 (hex_encode [1; 2]) (hex_encode [5]) in
  let s := fst (d_run (c_hash demo) (c_fname demo) [DSet [5]] (no_disk, [])) in
  empty_disk no_disk /\ c_fname demo (v_digest w) <> [] /\ c_fname demo (v_auth w) <> []
  /\ fst (d_ingest_received demo [200] w [1; 2] false 0 (s, [])) = Ok (Success, true).
Proof. repeat split; vm_compute; try discriminate; auto. Qed.

(** Success for a beginning of a payload says nothing: the copy of it can fail, the error is dropped (filesystem.go:245-246),
    and the bytes are on the disk nowhere. *)
Theorem C89_part_refuted : exists w payload s os s',
  d_ingest_received demo [200] w payload true 0 (s, os) = (Ok (Success, true), s')
  /\ on_disk (fst s') = on_disk s /\ on_disk s = PDir [] [] [] /\ payload <> [].
Proof.
  exists (Values 3 (hex_encode [1; 2; 3]) (hex_encode [5])), [1; 2], no_disk, (repeat Fine 8 ++ [Fails]). eexists.
  split; [vm_compute; reflexivity|]. repeat split; discriminate.
Qed.
Print Assumptions C89_part_refuted.

(** Nor does an error say that nothing was stored: when the last Lstat fails, a whole payload is stored and the result is an
    error. *)
Theorem C89_error_refuted : exists w payload s os s',
  d_ingest_received demo [200] w payload false 0 (s, os) = (Ok (No_Op, false), s')
  /\ mget (p_files (on_disk s)) (c_fname demo (v_digest w)) = None
  /\ mget (p_files (on_disk (fst s'))) (c_fname demo (v_digest w)) = Some payload.
Proof.
  exists (Values 2 (hex_encode [1; 2]) (hex_encode [5])), [1; 2], (Disk true false false (PDir [([5], [5])] [] [])), (repeat Fine 9 ++ [Fails]). eexists.
  split; [vm_compute; reflexivity|]. split; vm_compute; reflexivity.
Qed.
Print Assumptions C89_error_refuted.
