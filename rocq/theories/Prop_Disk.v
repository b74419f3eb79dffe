(** C82: the payload driver when calls of the operating system fail. *)
From Verif Require Import Base M_Order M_Map M_Store M_Payload M_Fault M_Disk S_Order P_Order P_Map P_Payload P_Disk.
Local Open Scope N_scope.

(** What a driver may find when it starts: no files, and any of the directories. *)
Definition empty_disk (s : disk) : Prop :=
  on_disk s = PDir [] [] [] /\ (has_partial s = true -> has_root s = true) /\ (has_staging s = true -> has_root s = true).

(** After any calls with any failures, when no call fails any more each function does what it does in a directory that was
    always there (M_Payload.v): the directories it needs are made, whichever of them are missing. Receiving is so up to
    2^30 bytes. *)
Theorem C82_no_failure hash fname dirsize start ops os : empty_disk start ->
  let s := fst (d_run hash fname ops (start, os)) in
  (forall b, runs_as (d_Set hash fname b) s (Ok (fst (pd_Set hash fname b (on_disk s)))) (snd (pd_Set hash fname b (on_disk s))))
  /\ (forall d, fname d <> [] ->
        runs_as (d_Get fname d) s (pd_Get fname d (on_disk s)) (on_disk s)
        /\ runs_as (d_Erase fname d) s (fst (pd_Erase fname d (on_disk s))) (snd (pd_Erase fname d (on_disk s))))
  /\ (forall k, k <> [] ->
        runs_as (d_Bytes k) s (Ok (pl_Bytes k (on_disk s))) (on_disk s)
        /\ runs_as (d_Length dirsize k) s (pl_Length k (on_disk s)) (on_disk s)
        /\ forall offset, (forall b, mget (p_files (on_disk s)) k = Some b -> (Z.of_N (len b) - offset <= 2 ^ 48)%Z) ->
             runs_as (d_BytesWithOffset dirsize k offset) s (pl_BytesWithOffset k offset (on_disk s)) (on_disk s))
  /\ (forall tmp payload offset d, fname d <> [] -> (offset + Z.of_N (len payload) <= 2 ^ 30)%Z ->
        runs_as (d_Receive hash fname tmp payload offset d) s
          (fst (pd_Receive hash fname tmp payload offset d (on_disk s))) (snd (pd_Receive hash fname tmp payload offset d (on_disk s))))
  /\ (forall tmp d complete,
        on_disk (fst (snd (d_commit fname tmp d complete (s, [])))) = pd_commit fname tmp d complete (on_disk s))
  /\ (forall tmp, on_disk (fst (snd (d_reject tmp (s, [])))) = pd_reject tmp (on_disk s)).
Proof.
  intros (E1 & E2 & E3) s.
  assert (T : tidy s). { apply tidy_run. unfold tidy. cbn [fst]. rewrite E1. repeat split; auto; discriminate. }
  split; [intros; apply as_Set|]. split; [intros; split; [apply as_Get|apply as_Erase]; auto|].
  split; [intros; split; [apply as_Bytes; auto|split; [apply as_Length; auto|intros; apply as_BytesWithOffset; auto]]|].
  split; [intros; apply as_Receive; auto|]. split; [intros; apply as_commit; auto|]. intros. apply as_reject.
Qed.
Print Assumptions C82_no_failure.

(** Set and then Get before any directory exists; and again after erasing the digest with the empty name has removed the
    payload directory. *)
Example C82_instance : empty_disk no_disk /\
  let h := fun b : bytes => b in
  let s := fst (d_run h h [DSet [1; 2]; DErase [1; 2]; DErase []] (no_disk, [])) in
  has_root s = false /\ runs_as (d_Get h [1; 2]) s Err (PDir [] [] [])
  /\ has_root (fst (snd (d_Set h h [3] (s, [])))) = true
  /\ fst (d_Bytes [3] (snd (d_Set h h [3] (s, [])))) = Ok [3].
Proof. repeat split; discriminate. Qed.

(** Receive never reports an error: a call that fails panics. *)
Theorem C82_panics hash fname tmp payload offset d s :
  match fst (d_Receive hash fname tmp payload offset d s) with Ok _ | Panic => True | _ => False end.
Proof.
  unfold d_Receive. 
  assert (B : forall A B (m : D A) (f : A -> D B) s, (match fst (m s) with Ok _ | Panic => True | _ => False end) ->
            (forall a s, match fst (f a s) with Ok _ | Panic => True | _ => False end) ->
            match fst (bindD m f s) with Ok _ | Panic => True | _ => False end).
  { intros A B m f s0 Hm Hf. unfold bindD. destruct (m s0) as [[a| | | |] s1]; cbn [fst] in Hm; try contradiction; [apply Hf|exact I]. }
  assert (P : forall A (m : D A) s, (match fst (m s) with Fatal | Hang => False | _ => True end) ->
            match fst (or_panic m s) with Ok _ | Panic => True | _ => False end).
  { intros A m s0 Hm. unfold or_panic. destruct (m s0) as [[a| | | |] s1]; cbn in *; auto. }
  assert (W : forall A (m : D A) s, (match fst (m s) with Fatal | Hang => False | _ => True end) ->
            match fst (went m s) with Ok _ | Panic => True | _ => False end).
  { intros A m s0 Hm. unfold went. destruct (m s0) as [[a| | | |] s1]; cbn in *; auto. }
  assert (P1 : forall s, match fst (plain s) with Fatal | Hang => False | _ => True end).
  { intros [s0 [|[| |n] os]]; exact I. }
  assert (P2 : forall x s, match fst (d_EnsureDir x s) with Fatal | Hang => False | _ => True end).
  { intros [x|] [s0 [|[| |n] os]]; exact I. }
  assert (P3 : forall x s, match fst (d_create_staging x s) with Fatal | Hang => False | _ => True end).
  { intros x [[r p [|] st] [|[| |n] os]]; exact I. }
  assert (P4 : forall x f q s, match fst (d_write_staging x f q s) with Fatal | Hang => False | _ => True end).
  { intros x f q [s0 [|[| |n] os]]; exact I. }
  apply B; [apply P, P2|]. intros _ s1. apply B; [apply P, P1|]. intros _ s2. apply B; [|intros _ s3; apply B; [apply P, P3|]].
  { destruct (0 <? offset)%Z; [|exact I]. apply P. unfold d_copy_to_staging.
    assert (C3 : forall (k : D unit), (forall s, match fst (k s) with Fatal | Hang => False | _ => True end) -> forall s,
        match fst (bindD (d_create_staging tmp) (fun _ => k) s) with Fatal | Hang => False | _ => True end).
    { intros k Hk s3. unfold bindD. specialize (P3 tmp s3). destruct (d_create_staging tmp s3) as [[a| | | |] s4]; cbn [fst] in P3; try contradiction; try exact I. apply Hk. }
    unfold bindD at 1. destruct (call s2) as [[o| | | |] s3] eqn:E; try exact I; try (revert E; unfold call; destruct (snd s2); discriminate).
    unfold bindD at 1, here. destruct o; try exact I. destruct (has_partial (fst s3)); [|exact I].
    match goal with |- match fst ((match ?f with Nothing => _ | _ => _ end) s3) with _ => _ end => destruct f end; [exact I| |]; apply C3.
    - intros [s4 [|o os]]; exact I.
    - intros s4. apply P4. }
  intros _ s4. apply B.
  { destruct (0 <? offset)%Z; [|exact I]. apply B; [apply P, P1|]. intros _ s5. apply B; [exact I|]. intros _ s6. apply P, P1. }
  intros _ s5. apply B; [apply P, P4|]. intros _ s6. apply B; [apply W, P1|]. intros back s7.
  match goal with |- context [if ?c then panicD else _] => destruct c; [exact I|] end.
  apply B; [apply P|intros; exact I]. unfold d_Read. unfold bindD.
  destruct (call s7) as [[o| | | |] s8] eqn:E; try exact I; try (revert E; unfold call; destruct (snd s7); discriminate).
  destruct o; try exact I; destruct (Z.to_N _); try exact I; match goal with |- context [match ?g with [] => _ | _ => _ end] => destruct g; exact I end.
Qed.
Print Assumptions C82_panics.

(** ... whichever of its calls it is: opening, copying, creating, truncating, seeking, writing and reading are eleven, or six
    when there is nothing to copy. *)
Theorem C82_fails hash fname tmp payload offset d s i :
  (0 < offset + Z.of_N (len payload))%Z -> (i < if (0 <? offset)%Z then 11 else 6)%nat -> nth_error (snd s) i = Some Fails ->
  fst (d_Receive hash fname tmp payload offset d s) = Panic.
Proof.
  intros Hp Hi Hf. pose proof (Receive_fails hash fname tmp payload offset d s i Hp Hi Hf) as F. pose proof (C82_panics hash fname tmp payload offset d s) as P.
  destruct (fst (d_Receive hash fname tmp payload offset d s)); auto; contradiction.
Qed.
Print Assumptions C82_fails.
Example C82_instance_fails :
  fst (d_Receive (fun b => b) (fun b => b) [9] [1; 2; 3] 0 [5] (no_disk, [Fine; Fine; Fine; Fine; Fails])) = Panic
  /\ exists s, fst (d_Receive (fun b => b) (fun b => b) [9] [1] 2 [5] (s, [])) = Ok ([0; 0; 1], 3)
     /\ fst (d_Receive (fun b => b) (fun b => b) [9] [1] 2 [5] (s, repeat Fine 10 ++ [Fails])) = Panic.
Proof. split; [reflexivity|]. exists (Disk true true false (PDir [] [([5], [7; 7])] [])). split; reflexivity. Qed.

(** The other functions return the error of their first call and change nothing; Bytes gives what it has read so far. *)
Theorem C82_reported fname dirsize d k offset s os o : o <> Fine ->
  d_Get fname d (s, o :: os) = (Err, (s, os)) /\ d_Erase fname d (s, o :: os) = (Err, (s, os))
  /\ d_Length dirsize k (s, o :: os) = (Err, (s, os)) /\ d_BytesWithOffset dirsize k offset (s, o :: os) = (Err, (s, os)).
Proof.
  intros Ho. unfold d_Get, d_Erase, d_Length, d_BytesWithOffset, d_open, bindD, call, here. cbn [fst snd].
  destruct o as [| |n]; [congruence| |]; repeat split; destruct (look k s), (look (fname d) s); reflexivity.
Qed.
Print Assumptions C82_reported.
Theorem C82_bytes k s os :
  exists out os', d_Bytes k (s, os) = (Ok out, (s, os'))
  /\ (out = [] \/ exists b n, mget (p_files (on_disk s)) k = Some b /\ out = firstn n b)
  /\ (nth_error os 0 = Some Fails -> out = []).
Proof.
  unfold d_Bytes, bindD, call, here. destruct os as [|[| |n] os]; cbn [fst snd]; destruct (look k s) as [| |b] eqn:L;
    eexists _, _; (split; [reflexivity|]); (split; [|try discriminate; auto]); auto; right; apply look_file in L as (_ & _ & L).
  - exists b, (length b). rewrite firstn_all. auto.
  - exists b, (length b). rewrite firstn_all. auto.
  - exists b, n. auto.
Qed.
Print Assumptions C82_bytes.
Example C82_instance_bytes :
  fst (d_Bytes [5] (Disk true false false (PDir [([5], [7; 8; 9])] [] []), [Torn 2])) = Ok [7; 8].
Proof. reflexivity. Qed.

(** Set returns the digest and the length whatever happens; a payload directory that cannot be made does no harm when it is
    there already. *)
Theorem C82_set hash fname b s os : exists s', d_Set hash fname b (s, os) = (Ok (hash b, len b), s')
  /\ (has_root s = true -> fname (hash b) <> [] -> match nth_error os 1 with None | Some Fine => True | _ => False end ->
      mget (p_files (on_disk (fst s'))) (fname (hash b)) = Some b).
Proof.
  unfold d_Set. set (k := fname (hash b)).
  assert (W : forall s0, exists u s1, went (d_WriteFile k b) s0 = (Ok u, s1)
            /\ (has_root (fst s0) = true -> k <> [] -> match nth_error (snd s0) 0 with None | Some Fine => True | _ => False end ->
                mget (p_files (on_disk (fst s1))) k = Some b)).
  { intros [s0 os0]. unfold went, d_WriteFile, bindD, call, here, change.
    destruct os0 as [|[| |n] os0]; cbn [fst snd nth_error]; destruct (has_root s0), k as [|c k']; cbn [fst snd];
      eexists _, _; (split; [reflexivity|]); intros; try discriminate; try congruence; try contradiction;
      cbn [fst snd with_files on_disk p_files]; rewrite mget_mset, beqb_refl; auto. }
  unfold bindD at 1, went at 1. destruct (d_EnsureDir None (s, os)) as [r s1] eqn:E. pose proof (EnsureDir_ok _ _ _ _ E) as X.
  assert (S1 : nth_error (snd s1) 0 = nth_error os 1 /\ (has_root s = true -> has_root (fst s1) = true)).
  { revert E. unfold d_EnsureDir, bindD, call. destruct os as [|[| |n] os]; cbn; intros [= <- <-]; cbn; auto; destruct os; auto. }
  destruct S1 as [S1 S2]. destruct (W s1) as (u & s2 & E2 & H2).
  destruct r; try contradiction; unfold bindD; rewrite E2; exists s2; (split; [reflexivity|]); intros; apply H2; auto; rewrite S1; auto.
Qed.
Print Assumptions C82_set.

(** Receiving leaves the stored payloads and the partial ones as they are, and of the files being received all but its own,
    whatever fails. *)
Theorem C82_staged hash fname tmp payload offset d s :
  let s' := snd (d_Receive hash fname tmp payload offset d s) in
  p_files (on_disk (fst s')) = p_files (on_disk (fst s))
  /\ p_partial (on_disk (fst s')) = p_partial (on_disk (fst s))
  /\ forall t, t <> tmp -> mget (p_staging (on_disk (fst s'))) t = mget (p_staging (on_disk (fst s))) t.
Proof. apply (staged_Receive hash fname tmp (fst s) payload offset d s), staged_refl. Qed.
Print Assumptions C82_staged.

(** When Receive returns, the whole part is in its file, after as many zeros as the offset says; the length is offset and
    part together; and the digest is that of the file up to that length if every read gives what was asked for and the
    length is no more than 2^30 bytes. In general bytes at the end are taken for zeros. *)
Theorem C82_received hash fname tmp payload offset d s dg n s' :
  d_Receive hash fname tmp payload offset d s = (Ok (dg, n), s') ->
  let content := repeat 0 (Z.to_nat offset) ++ payload in
  Z.of_N n = (offset + Z.of_N (len payload))%Z /\ n <= 2 ^ 48
  /\ mget (p_staging (on_disk (fst s'))) tmp = Some content
  /\ (exists got : N, got <= n /\ got <= 2 ^ 30
      /\ dg = hash (firstn (N.to_nat got) content ++ repeat 0 (N.to_nat (n - got))))
  /\ ((forall k, ~ In (Torn k) (snd s)) -> n <= 2 ^ 30 -> dg = hash (firstn (N.to_nat n) content))
  /\ ((forall k, ~ In (Torn k) (snd s)) -> 2 ^ 30 < n ->
        dg = hash (firstn (N.to_nat (2 ^ 30)) content ++ repeat 0 (N.to_nat (n - 2 ^ 30)))).
Proof.
  intros H content. apply Receive_inv in H as (H1 & HA & H2 & got & Hg & Ht & Hd). fold content in H2, Hd. unfold read_max in *.
  split; auto. split; auto. split; auto. split; [exists got; split; [lia|split; [lia|auto]]|]. split; intros T L; specialize (Ht T).
  - rewrite N.min_l in Ht by auto. subst got. rewrite N.sub_diag in Hd. cbn [N.to_nat repeat] in Hd. rewrite app_nil_r in Hd. auto.
  - rewrite N.min_r in Ht by lia. subst got. auto.
Qed.
Print Assumptions C82_received.
Example C82_instance_received :
  let h := fun b : bytes => b in
  d_Receive h h [9] [1; 2; 3] 0 [5] (no_disk, [Fine; Fine; Fine; Fine; Fine; Fine; Fails]) =
    (Ok ([1; 2; 3], 3), (Disk true false true (PDir [] [] [([9], [1; 2; 3])]), [Fails])).
Proof. reflexivity. Qed.

(** Committing a complete payload is all or nothing, and what it prints says which: the received file has become the stored
    one, or nothing has changed. *)
Theorem C82_commit fname tmp d s :
  exists ok s', d_commit fname tmp d true s = (Ok ok, s')
  /\ p_partial (on_disk (fst s')) = p_partial (on_disk (fst s))
  /\ (forall k, k <> fname d -> mget (p_files (on_disk (fst s'))) k = mget (p_files (on_disk (fst s))) k)
  /\ (forall t, t <> tmp -> mget (p_staging (on_disk (fst s'))) t = mget (p_staging (on_disk (fst s))) t)
  /\ if ok : bool then
       exists b, mget (p_staging (on_disk (fst s))) tmp = Some b
       /\ mget (p_files (on_disk (fst s'))) (fname d) = Some b /\ mget (p_staging (on_disk (fst s'))) tmp = None
     else on_disk (fst s') = on_disk (fst s).
Proof.
  assert (R : forall s, exists ok s', went (d_rename tmp (fname d)) s = (Ok ok, s')
  /\ p_partial (on_disk (fst s')) = p_partial (on_disk (fst s))
  /\ (forall k, k <> fname d -> mget (p_files (on_disk (fst s'))) k = mget (p_files (on_disk (fst s))) k)
  /\ (forall t, t <> tmp -> mget (p_staging (on_disk (fst s'))) t = mget (p_staging (on_disk (fst s))) t)
  /\ if ok : bool then
       exists b, mget (p_staging (on_disk (fst s))) tmp = Some b
       /\ mget (p_files (on_disk (fst s'))) (fname d) = Some b /\ mget (p_staging (on_disk (fst s'))) tmp = None
     else on_disk (fst s') = on_disk (fst s)).
  { clear s. intros s. unfold went, d_rename, bindD at 1.
    assert (X : exists o s1, call s = (Ok o, s1) /\ fst s1 = fst s) by (unfold call; destruct (snd s); eauto).
    destruct X as (o & s1 & -> & E). unfold bindD at 1, here. destruct o; try solve [exists false, s1; cbn; rewrite E; auto].
    destruct (mget (p_staging (on_disk (fst s1))) tmp) as [b|] eqn:G; [|exists false, s1; cbn; rewrite E; auto].
    destruct (fname d) as [|c k] eqn:K; [exists false, s1; cbn; rewrite E; auto|].
    unfold bindD, change. cbn [fst snd]. eexists true, _. split; [reflexivity|]. cbn [fst snd with_files with_staging on_disk p_files p_partial p_staging]. rewrite <- E.
    split; auto. split; [|split].
    - intros k' Hk. rewrite mget_mset. destruct (beqb_spec k' (c :: k)); [contradiction|auto].
    - intros t Ht. rewrite mget_mdel. destruct (beqb_spec t tmp); [contradiction|auto].
    - exists b. split; auto. rewrite mget_mset, mget_mdel, !beqb_refl. auto. }
  unfold d_commit. unfold bindD at 1, went at 1. destruct (d_EnsureDir (Some Partials) s) as [r s1] eqn:E. apply EnsureDir_ok in E.
  destruct (R s1) as (ok & s' & H & H1 & H2 & H3 & H4).
  assert (Q : on_disk (fst s1) = on_disk (fst s)) by (destruct r; try contradiction; [rewrite E; reflexivity|auto]).
  rewrite Q in *. destruct r; try contradiction; exists ok, s'; auto.
Qed.
Print Assumptions C82_commit.
Example C82_instance_commit :
  let h := fun b : bytes => b in
  let s := snd (d_Receive h h [9] [1; 2; 3] 0 [5] (no_disk, [])) in
  fst (d_commit h [9] [5] true s) = Ok true /\ fst (d_commit h [9] [5] true (fst s, [Fine; Fails])) = Ok false.
Proof. split; reflexivity. Qed.

(** Committing a partial one leaves the stored payloads and those under other names as they are; the file under its name is
    as it was or the beginning of what was received. *)
Theorem C82_commit_part fname tmp d s :
  exists ok s', d_commit fname tmp d false s = (Ok ok, s')
  /\ p_files (on_disk (fst s')) = p_files (on_disk (fst s))
  /\ (forall k, k <> fname d -> mget (p_partial (on_disk (fst s'))) k = mget (p_partial (on_disk (fst s))) k)
  /\ (forall t, t <> tmp -> mget (p_staging (on_disk (fst s'))) t = mget (p_staging (on_disk (fst s))) t)
  /\ (mget (p_partial (on_disk (fst s'))) (fname d) = mget (p_partial (on_disk (fst s))) (fname d)
      \/ exists b n, mget (p_staging (on_disk (fst s))) tmp = Some b
           /\ mget (p_partial (on_disk (fst s'))) (fname d) = Some (firstn n b))
  /\ (if ok : bool then mget (p_staging (on_disk (fst s))) tmp <> None /\ mget (p_staging (on_disk (fst s'))) tmp = None
      else p_staging (on_disk (fst s')) = p_staging (on_disk (fst s))).
Proof.
  set (k := fname d).
  set (P := fun s' : disk => p_files (on_disk s') = p_files (on_disk (fst s))
    /\ (forall k', k' <> k -> mget (p_partial (on_disk s')) k' = mget (p_partial (on_disk (fst s))) k')
    /\ p_staging (on_disk s') = p_staging (on_disk (fst s))
    /\ (mget (p_partial (on_disk s')) k = mget (p_partial (on_disk (fst s))) k
        \/ exists b n, mget (p_staging (on_disk (fst s))) tmp = Some b /\ mget (p_partial (on_disk s')) k = Some (firstn n b))).
  assert (KE : keeps P (d_EnsureDir (Some Partials))) by (unfold d_EnsureDir; keep; auto).
  assert (KC : keeps P (d_copy_to_partial tmp k)).
  { assert (PS : forall b n s', mget (p_staging (on_disk (fst s))) tmp = Some b -> P s' -> P (with_partial (fun m => mset m k (firstn n b)) s')).
    { intros b n s' Hb (A & B & C & E). split; auto. split; [|split; auto].
      - intros k' Hk. cbn. rewrite mget_mset. destruct (beqb_spec k' k); [contradiction|auto].
      - right. exists b, n. split; auto. cbn. rewrite mget_mset, beqb_refl. auto. }
    unfold d_copy_to_partial. apply keeps_bind; [keep|]. intros o. apply keeps_bind_here. intros s0 H.
    destruct o; cbn [fst snd failD]; auto. destruct (has_staging (fst s0)); auto.
    destruct (mget (p_staging (on_disk (fst s0))) tmp) as [b|] eqn:E; auto.
    assert (Hb : mget (p_staging (on_disk (fst s))) tmp = Some b) by (rewrite <- E; f_equal; symmetry; apply H).
    match goal with |- P (fst (snd (?m s0))) => cut (keeps P m); [intros X; apply X; auto|] end.
    specialize (PS b (length b)) as PW. rewrite firstn_all in PW. specialize (PS b 0%nat) as PN. cbn [firstn] in PN.
    keep; intros; auto. }
  unfold d_commit. fold k.
  assert (WE : forall s0, P (fst s0) -> exists u s1, went (d_EnsureDir (Some Partials)) s0 = (Ok u, s1) /\ P (fst s1)).
  { intros s0 H0. specialize (KE s0 H0). unfold went. destruct (d_EnsureDir (Some Partials) s0) as [r s1] eqn:E. apply EnsureDir_ok in E.
    destruct r; try contradiction; eauto. }
  assert (WC : forall s0, P (fst s0) -> exists u s1, went (d_copy_to_partial tmp k) s0 = (Ok u, s1) /\ P (fst s1)).
  { intros s0 H0. specialize (KC s0 H0). unfold went.
    assert (N : match fst (d_copy_to_partial tmp k s0) with Ok _ | Err => True | _ => False end).
    { destruct s0 as [[r p st [fs ps ss]] os]. unfold d_copy_to_partial, bindD, call, here, change. cbn [fst snd].
      destruct os as [|[| |n] os]; cbn; auto.
      - destruct st, (mget ss tmp), p, k; cbn; auto.
      - destruct st, (mget ss tmp); cbn; auto. destruct os as [|[| |n1] os]; cbn; auto; destruct p, k; cbn; auto.
        destruct os as [|[| |n2] os]; cbn; auto. }
    destruct (d_copy_to_partial tmp k s0) as [r s1]; destruct r; cbn in N; try contradiction; eauto. }
  assert (P0 : P (fst s)) by (unfold P; auto).
  destruct (WE s P0) as (u1 & s1 & E1 & P1). rewrite (bind_ok _ _ _ _ _ E1).
  destruct (WE s1 P1) as (u2 & s2 & E2 & P2). rewrite (bind_ok _ _ _ _ _ E2).
  destruct (WC s2 P2) as (u3 & s3 & E3 & P3). rewrite (bind_ok _ _ _ _ _ E3). clear - P3.
  destruct P3 as (A & B & C & E). unfold went, d_remove_staging, bindD at 1.
  assert (X : exists o s4, call s3 = (Ok o, s4) /\ fst s4 = fst s3) by (unfold call; destruct (snd s3); eauto).
  destruct X as (o & s4 & -> & E4). unfold bindD, here. rewrite <- E4, <- ?E4 in *.
  destruct o; try solve [exists false, s4; split; [reflexivity|]; rewrite C; auto].
  destruct (mget (p_staging (on_disk (fst s4))) tmp) as [b|] eqn:G.
  - unfold change. eexists true, _. split; [reflexivity|]. cbn [fst snd with_staging on_disk p_files p_partial p_staging].
    split; auto. split; auto. split; [|split; auto].
    + intros t Ht. rewrite mget_mdel, C. destruct (beqb_spec t tmp); [contradiction|auto].
    + rewrite <- C, G. split; [discriminate|]. rewrite mget_mdel, beqb_refl. auto.
  - exists false, s4. split; [reflexivity|]. rewrite C. auto.
Qed.
Print Assumptions C82_commit_part.
Example C82_instance_partial :
  let h := fun b : bytes => b in
  let s := snd (d_Receive h h [9] [1; 2; 3] 0 [5] (no_disk, [])) in
  mget (p_partial (on_disk (fst (snd (d_commit h [9] [5] false s))))) [5] = Some [1; 2; 3]
  /\ mget (p_partial (on_disk (fst (snd (d_commit h [9] [5] false (fst s, [Fine; Fine; Fine; Fine; Torn 2; Fails])))))) [5] = Some [1; 2].
Proof. split; reflexivity. Qed.

(** Rejecting removes the received file or changes nothing, and says which. *)
Theorem C82_reject tmp s :
  exists ok s', d_reject tmp s = (Ok ok, s')
  /\ p_files (on_disk (fst s')) = p_files (on_disk (fst s)) /\ p_partial (on_disk (fst s')) = p_partial (on_disk (fst s))
  /\ (forall t, t <> tmp -> mget (p_staging (on_disk (fst s'))) t = mget (p_staging (on_disk (fst s))) t)
  /\ if ok : bool then mget (p_staging (on_disk (fst s))) tmp <> None /\ mget (p_staging (on_disk (fst s'))) tmp = None
     else fst s' = fst s.
Proof.
  unfold d_reject, went, d_remove_staging, bindD at 1.
  assert (X : exists o s1, call s = (Ok o, s1) /\ fst s1 = fst s) by (unfold call; destruct (snd s); eauto).
  destruct X as (o & s1 & -> & E). unfold bindD, here. destruct o; try solve [exists false, s1; cbn; rewrite E; auto].
  destruct (mget (p_staging (on_disk (fst s1))) tmp) as [b|] eqn:G; [|exists false, s1; cbn; rewrite E; auto].
  unfold change. eexists true, _. split; [reflexivity|]. cbn [fst snd with_staging on_disk p_files p_partial p_staging]. rewrite E in *.
  split; auto. split; auto. split; [|split; [congruence|]].
  - intros t Ht. rewrite mget_mdel. destruct (beqb_spec t tmp); [contradiction|auto].
  - rewrite mget_mdel, beqb_refl. auto.
Qed.
Print Assumptions C82_reject.

(** Through any calls and failures every file is accounted for: a stored one has the name of the digest of a payload that
    was Set and holds its beginning, or the name of a digest that was committed and holds the beginning of a part received
    after its zeros; a partial one and one being received hold the beginning of such a part. *)
Theorem C82_origin hash fname start ops os : empty_disk start ->
  let s := on_disk (fst (d_run hash fname ops (start, os))) in
  let part c := exists tmp payload offset d n, In (DReceive tmp payload offset d) ops
                  /\ c = firstn n (repeat 0 (Z.to_nat offset) ++ payload) in
  (forall k c, mget (p_files s) k = Some c -> k <> [] /\
     ((exists b n, In (DSet b) ops /\ fname (hash b) = k /\ c = firstn n b)
      \/ (exists tmp d, In (DCommit tmp d true) ops /\ fname d = k) /\ part c))
  /\ (forall k c, mget (p_partial s) k = Some c ->
        k <> [] /\ (exists tmp d, In (DCommit tmp d false) ops /\ fname d = k) /\ part c)
  /\ (forall k c, mget (p_staging s) k = Some c -> part c).
Proof.
  intros (E & _). apply (origin_run hash fname ops ops (start, os)); [apply incl_refl|].
  unfold origin. cbn [fst]. rewrite E. split; [|split]; intros k c; discriminate.
Qed.
Print Assumptions C82_origin.
Example C82_instance_origin :
  let h := fun b : bytes => b in
  on_disk (fst (d_run h h [DSet [1; 2]; DReceive [9] [3; 4] 0 [5]; DCommit [9] [5] true] (no_disk, [Fine; Torn 1])))
  = PDir [([1; 2], [1]); ([5], [3; 4])] [] [].
Proof. reflexivity. Qed.

(** Reading from an offset gives the rest of the file, and never something when there is none or the offset is negative;
    the size is that of the file. *)
Theorem C82_offset dirsize k offset s out s' :
  d_BytesWithOffset dirsize k offset s = (Ok out, s') ->
  (0 <= offset)%Z /\ out <> [] /\ exists b front, mget (p_files (on_disk (fst s))) k = Some b /\ b = front ++ out
    /\ Z.of_N (len front) = offset /\ fst s' = fst s.
Proof.
  intros H. unfold d_BytesWithOffset in H. apply bind_inv in H as (f & s1 & H1 & H).
  assert (F : fst s1 = fst s /\ f = look k (fst s)).
  { unfold d_open, bindD, here in H1. destruct (call s) as [[o| | | |] s2] eqn:C; try discriminate.
    assert (E : fst s2 = fst s) by (revert C; unfold call; destruct (snd s); intros [= _ <-]; auto).
    rewrite E in H1. destruct o; try discriminate. destruct (look k (fst s)) eqn:L; try discriminate; injection H1 as <- <-; rewrite E; auto. }
  destruct F as [E ->].
  apply bind_inv in H as (size & s2 & H2 & H).
  assert (Z2 : fst s2 = fst s1 /\ size = match look k (fst s) with File b => len b | _ => dirsize end).
  { unfold d_size, bindD in H2. destruct (call s1) as [[o| | | |] s3] eqn:C; try discriminate.
    assert (E3 : fst s3 = fst s1) by (revert C; unfold call; destruct (snd s1); intros [= _ <-]; auto).
    destruct o; try discriminate. injection H2 as <- <-. auto. }
  destruct Z2 as [E2 ->].
  match type of H with (if (?x <=? ?y)%Z then _ else _) _ = _ => destruct (Z.leb_spec x y) as [L|L]; [discriminate|] end.
  match type of H with (if ?c then _ else _) _ = _ => destruct c; [discriminate|] end.
  apply bind_inv in H as (o & s3 & H3 & H).
  assert (E3 : fst s3 = fst s2) by (revert H3; unfold call; destruct (snd s2); intros [= _ <-]; auto).
  destruct (look k (fst s)) as [| |b] eqn:F; try discriminate. destruct o; try discriminate.
  destruct (Z.ltb_spec offset 0) as [Ho|Ho]; [discriminate|]. injection H as <- <-.
  apply look_file in F as (_ & _ & F). split; auto. unfold len in L. split.
  - intros X. apply (f_equal (@length N)) in X. rewrite skipn_length in X. cbn in X. lia.
  - exists b, (firstn (Z.to_nat offset) b). split; auto. split; [symmetry; apply firstn_skipn|]. split; [|congruence].
    unfold len. rewrite firstn_length. lia.
Qed.
Print Assumptions C82_offset.
Example C82_instance_offset :
  fst (d_BytesWithOffset 4096 [5] 1 (Disk true false false (PDir [([5], [7; 8; 9])] [] []), [])) = Ok [8; 9].
Proof. reflexivity. Qed.

(** ** What does not hold *)

(** That a failure of the disk is returned as an error: a Stat that fails is a nil dereference, and so is an offset far below
    zero an allocation that panics. *)
Theorem C82_reading_refuted :
  exists s k, fst (d_Length 4096 k (s, [Fine; Fails])) = Panic
  /\ fst (d_BytesWithOffset 4096 k 0 (s, [Fine; Fails])) = Panic
  /\ fst (d_BytesWithOffset 4096 k (-(2 ^ 48)) (s, [])) = Panic
  /\ fst (d_BytesWithOffset 4096 k (-1) (s, [])) = Err.
Proof. exists (Disk true false false (PDir [([5], [7; 8; 9])] [] [])), [5]. vm_compute. auto. Qed.
Print Assumptions C82_reading_refuted.

(** That receiving either returns or leaves nothing behind: when the disk is full the panic leaves a file in "staging", which
    nothing removes. *)
Theorem C82_leftover_refuted :
  exists os payload, let h := fun b : bytes => b in
  let '(r, (s, _)) := d_Receive h h [9] payload 0 [5] (no_disk, os) in
  r = Panic /\ mget (p_staging (on_disk s)) [9] = Some [1].
Proof. exists [Fine; Fine; Fine; Torn 1], [1; 2; 3]. vm_compute. auto. Qed.
Print Assumptions C82_leftover_refuted.

(** That the digest returned is that of what was received: one read may give fewer bytes than asked for, and the rest of
    the buffer is zeros. *)
Theorem C82_digest_refuted :
  exists os payload n s, let h := fun b : bytes => b in
  d_Receive h h [9] payload 0 [5] (no_disk, os) = (Ok ([1; 2; 0], n), s)
  /\ mget (p_staging (on_disk (fst s))) [9] = Some payload /\ payload = [1; 2; 3].
Proof.
  exists [Fine; Fine; Fine; Fine; Fine; Torn 2], [1; 2; 3], 3. eexists. vm_compute. repeat split; reflexivity.
Qed.
Print Assumptions C82_digest_refuted.

(** And with no failure at all it is not when more than 2^30 bytes are received, since one read gives no more. *)
Theorem C82_large_refuted :
  exists payload dg n s, let h := fun b : bytes => b in
  d_Receive h h [9] payload 0 [5] (no_disk, []) = (Ok (dg, n), s) /\ dg <> h payload /\ n = 2 ^ 30 + 1.
Proof.
  assert (X : exists payload : bytes, len payload = 2 ^ 30 + 1 /\ ~ In 0 payload).
  { exists (repeat 1 (N.to_nat (2 ^ 30 + 1))). split; [unfold len; rewrite repeat_length; lia|].
    intros X. apply repeat_spec in X. discriminate. }
  destruct X as (payload & L & Z0). exists payload.
  destruct (receive_some (fun b => b) (fun b => b) [9] payload [5] no_disk) as (dg & s & H); [lia|lia|].
  exists dg, (len payload), s. cbn zeta. split; [exact H|]. split; [|exact L]. intros E.
  apply C82_received in H as (_ & _ & _ & _ & _ & H). specialize (H (fun k X => X)). rewrite L in H. specialize (H ltac:(lia)).
  apply Z0. rewrite <- E, H. apply in_or_app. right. replace (2 ^ 30 + 1 - 2 ^ 30) with 1 by lia. left. reflexivity.
Qed.
Print Assumptions C82_large_refuted.

(** That a partial payload said to be committed is there: the error of the copy is overwritten by that of removing the file
    it was copied from. What was received is lost, and so is what was there before. *)
Theorem C82_lost_refuted :
  exists s os, let h := fun b : bytes => b in
  s = fst (d_run h h [DReceive [8] [6; 6] 0 [5]; DCommit [8] [5] false; DReceive [9] [1; 2; 3] 0 [5]] (no_disk, []))
  /\ mget (p_partial (on_disk s)) [5] = Some [6; 6] /\ mget (p_staging (on_disk s)) [9] = Some [1; 2; 3]
  /\ let '(r, (s', _)) := d_commit h [9] [5] false (s, os) in
     r = Ok true /\ mget (p_partial (on_disk s')) [5] = Some [] /\ mget (p_staging (on_disk s')) [9] = None.
Proof. eexists _, [Fine; Fine; Fine; Fine; Fails]. vm_compute. repeat split. Qed.
Print Assumptions C82_lost_refuted.
