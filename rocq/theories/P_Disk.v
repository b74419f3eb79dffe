(** Lemmas on the payload driver one system call at a time. *)
From Verif Require Import Base M_Order M_Map M_Store M_Payload M_Fault M_Disk S_Order P_Order P_Map P_Payload.
Local Open Scope N_scope.

Lemma mset_twice {V} (m : bmap V) k v w : mset (mset m k v) k w = mset m k w.
Proof.
  induction m as [|[k' v'] m IH]; cbn [mset].
  - rewrite beqb_refl. destruct (OrderBytes k k <? 0)%Z eqn:E; auto.
    exfalso. pose proof (beqb_refl k) as B. unfold beqb in B. lia.
  - destruct (OrderBytes k k' <? 0)%Z eqn:E1.
    + cbn [mset]. rewrite beqb_refl. destruct (OrderBytes k k <? 0)%Z eqn:E; auto.
      exfalso. pose proof (beqb_refl k) as B. unfold beqb in B. lia.
    + destruct (beqb k k') eqn:E2; cbn [mset].
      * rewrite beqb_refl. destruct (OrderBytes k k <? 0)%Z eqn:E; auto.
        exfalso. pose proof (beqb_refl k) as B. unfold beqb in B. lia.
      * rewrite E1, E2, IH. auto.
Qed.
Lemma mdel_none {V} (m : bmap V) k : mget m k = None -> mdel m k = m.
Proof.
  induction m as [|[k' v'] m IH]; cbn; auto. destruct (beqb k k') eqn:E; [discriminate|]. cbn. intros H.
  f_equal. apply IH; auto.
Qed.

(** What holds of the disk before a program holds after it. *)
Definition keeps {A} (P : disk -> Prop) (m : D A) : Prop := forall s, P (fst s) -> P (fst (snd (m s))).
Lemma keeps_ret {A} P (a : A) : keeps P (retD a).
Proof. intros s H; auto. Qed.
Lemma keeps_fail {A} P : keeps P (@failD A).
Proof. intros s H; auto. Qed.
Lemma keeps_panic {A} P : keeps P (@panicD A).
Proof. intros s H; auto. Qed.
Lemma keeps_bind {A B} P (m : D A) (f : A -> D B) : keeps P m -> (forall a, keeps P (f a)) -> keeps P (bindD m f).
Proof. intros Hm Hf s H. unfold bindD. specialize (Hm s H). destruct (m s) as [[a| | | |] s']; cbn in *; auto. apply Hf; auto. Qed.
Lemma keeps_call P : keeps P call.
Proof. intros [s [|o os]] H; auto. Qed.
Lemma keeps_here {A} P (f : disk -> A) : keeps P (here f).
Proof. intros s H; auto. Qed.
(** ... where what is read of the disk is used. *)
Lemma keeps_bind_here {A B} (P : disk -> Prop) (g : disk -> A) (f : A -> D B) :
  (forall s, P (fst s) -> P (fst (snd (f (g (fst s)) s)))) -> keeps P (bindD (here g) f).
Proof. intros Hf s H. unfold bindD, here. apply Hf; auto. Qed.
Lemma keeps_change (P : disk -> Prop) f : (forall s, P s -> P (f s)) -> keeps P (change f).
Proof. intros Hf s H. cbn. auto. Qed.
Lemma keeps_went {A} P (m : D A) : keeps P m -> keeps P (went m).
Proof. intros Hm s H. unfold went. specialize (Hm s H). destruct (m s) as [[a| | | |] s']; auto. Qed.
Lemma keeps_or_panic {A} P (m : D A) : keeps P m -> keeps P (or_panic m).
Proof. intros Hm s H. unfold or_panic. specialize (Hm s H). destruct (m s) as [[a| | | |] s']; auto. Qed.
Lemma keeps_plain P : keeps P plain.
Proof. apply keeps_bind; [apply keeps_call|]. intros [| |n]; auto using keeps_ret, @keeps_fail. Qed.
Ltac keep :=
  repeat match goal with
    | |- keeps _ (retD _) => apply keeps_ret
    | |- keeps _ failD => apply keeps_fail
    | |- keeps _ panicD => apply keeps_panic
    | |- keeps _ call => apply keeps_call
    | |- keeps _ (here _) => apply keeps_here
    | |- keeps _ plain => apply keeps_plain
    | |- keeps _ (change _) => apply keeps_change
    | |- keeps _ (went _) => apply keeps_went
    | |- keeps _ (or_panic _) => apply keeps_or_panic
    | |- keeps _ (bindD _ _) => apply keeps_bind; [|intros ?]
    | |- keeps _ (match ?x with _ => _ end) => destruct x
    | |- keeps _ (if ?x then _ else _) => destruct x
    end.

Section Disk.
Variable hash : bytes -> bytes.
Variable fname : bytes -> bytes.
Variable dirsize : N.

(** Files lie in directories that exist. *)
Definition tidy (s : disk) : Prop :=
  (has_partial s = true -> has_root s = true) /\ (has_staging s = true -> has_root s = true)
  /\ (has_root s = false -> p_files (on_disk s) = [])
  /\ (has_partial s = false -> p_partial (on_disk s) = [])
  /\ (has_staging s = false -> p_staging (on_disk s) = []).

Lemma tidy_mkdir d s : tidy s -> tidy (mkdir d s).
Proof.
  intros (A & B & C & E & G). unfold tidy, mkdir. cbn. repeat split; auto; try discriminate.
  - destruct d as [[|]|]; try discriminate; auto.
  - destruct d as [[|]|]; try discriminate; auto.
Qed.
Lemma tidy_EnsureDir d : keeps tidy (d_EnsureDir d).
Proof. unfold d_EnsureDir. keep; auto using tidy_mkdir. Qed.
Lemma tidy_files f s : has_root s = true -> tidy s -> tidy (with_files f s).
Proof. intros R (A & B & C & E & G). unfold tidy, with_files. cbn. repeat split; auto. congruence. Qed.
Lemma tidy_partial f s : has_partial s = true -> tidy s -> tidy (with_partial f s).
Proof. intros R (A & B & C & E & G). unfold tidy, with_partial. cbn. repeat split; auto. congruence. Qed.
Lemma tidy_staging f s : has_staging s = true -> tidy s -> tidy (with_staging f s).
Proof. intros R (A & B & C & E & G). unfold tidy, with_staging. cbn. repeat split; auto. congruence. Qed.
Lemma tidy_staging_del tmp s : tidy s -> tidy (with_staging (fun m => mdel m tmp) s).
Proof.
  intros H. destruct (has_staging s) eqn:R; [apply tidy_staging; auto|]. destruct H as (A & B & C & E & G).
  unfold tidy, with_staging. cbn. repeat split; auto. intros _. rewrite (G R). reflexivity.
Qed.
Lemma tidy_files_del k s : tidy s -> tidy (with_files (fun m => mdel m k) s).
Proof.
  intros H. destruct (has_root s) eqn:R; [apply tidy_files; auto|]. destruct H as (A & B & C & E & G).
  unfold tidy, with_files. cbn. repeat split; auto. intros _. rewrite (C R). reflexivity.
Qed.

Lemma tidy_WriteFile k b : keeps tidy (d_WriteFile k b).
Proof.
  unfold d_WriteFile. apply keeps_bind; [keep|]. intros o. apply keeps_bind_here. intros [s os] H. cbn [fst] in *.
  destruct (has_root s) eqn:R, k as [|c k], o; cbn; auto using tidy_files.
Qed.
Lemma tidy_Set b : keeps tidy (d_Set hash fname b).
Proof.
  unfold d_Set. apply keeps_bind; [apply keeps_went, tidy_EnsureDir|]. intros _.
  apply keeps_bind; [apply keeps_went, tidy_WriteFile|]. intros _. apply keeps_ret.
Qed.
Lemma look_file k s b : look k s = File b -> has_root s = true /\ k <> [] /\ mget (p_files (on_disk s)) k = Some b.
Proof.
  unfold look. destruct (has_root s); [|discriminate]. destruct k as [|c k]; [discriminate|].
  destruct (mget (p_files (on_disk s)) (c :: k)) eqn:E; [|discriminate]. intros [= <-]. repeat split; auto; discriminate.
Qed.
Lemma tidy_Erase d : keeps tidy (d_Erase fname d).
Proof.
  unfold d_Erase. apply keeps_bind; [keep|]. intros o. apply keeps_bind_here. intros [s os] H. cbn [fst] in *.
  destruct o; cbn; auto. destruct (look (fname d) s) eqn:E; cbn; auto using tidy_files_del.
  destruct (has_partial s) eqn:HP; cbn; auto. destruct (has_staging s) eqn:HS; cbn; auto.
  destruct (p_files (on_disk s)) eqn:HF; cbn; auto. destruct H as (A & B & C & E1 & G). unfold tidy. cbn. repeat split; auto; discriminate.
Qed.

(** Calls that only touch the staging file [tmp], in a directory that exists. *)
Definition staged (tmp : bytes) (s s' : disk) : Prop :=
  p_files (on_disk s') = p_files (on_disk s) /\ p_partial (on_disk s') = p_partial (on_disk s)
  /\ forall t, t <> tmp -> mget (p_staging (on_disk s')) t = mget (p_staging (on_disk s)) t.
Lemma staged_refl tmp s : staged tmp s s.
Proof. repeat split; auto. Qed.
Lemma staged_mkdir tmp s0 d s : staged tmp s0 s -> staged tmp s0 (mkdir d s).
Proof. auto. Qed.
Lemma staged_set tmp s0 c s : staged tmp s0 s -> staged tmp s0 (with_staging (fun m => mset m tmp c) s).
Proof.
  intros (A & B & C). repeat split; auto. intros t Ht. cbn. rewrite mget_mset.
  destruct (beqb_spec t tmp); [contradiction|auto].
Qed.
Lemma staged_Receive tmp s0 payload offset d : keeps (staged tmp s0) (d_Receive hash fname tmp payload offset d).
Proof.
  unfold d_Receive, d_EnsureDir, d_copy_to_staging, d_create_staging, d_write_staging, d_Read.
  keep; intros; auto using staged_set.
Qed.

Definition tidy_s (s : disk) : Prop := tidy s /\ has_staging s = true.
Lemma tidy_s_set f s : tidy_s s -> tidy_s (with_staging f s).
Proof. intros [H R]. split; auto using tidy_staging. Qed.
Lemma EnsureDir_ok d s r s' : d_EnsureDir d s = (r, s') ->
  match r with Ok _ => fst s' = mkdir d (fst s) | Err => on_disk (fst s') = on_disk (fst s) | _ => False end.
Proof.
  unfold d_EnsureDir, bindD, call. destruct s as [s [|[| |n] os]]; cbn; try (intros [= <- <-]; reflexivity).
  destruct d; intros [= <- <-]; reflexivity.
Qed.
Lemma tidy_Receive tmp payload offset d : keeps tidy (d_Receive hash fname tmp payload offset d).
Proof.
  intros s H. unfold d_Receive. unfold bindD at 1, or_panic at 1. destruct (d_EnsureDir (Some Staging) s) as [r s1] eqn:E.
  pose proof (tidy_EnsureDir (Some Staging) s H) as T. rewrite E in T. cbn [fst snd] in T. pose proof (EnsureDir_ok _ _ _ _ E) as X.
  destruct r; try contradiction; auto. assert (S1 : tidy_s (fst s1)) by (split; [auto|rewrite X; reflexivity]).
  match goal with |- tidy (fst (snd (?m s1))) => cut (keeps tidy_s m); [intros K; apply (K s1 S1)|] end.
  unfold d_copy_to_staging, d_create_staging, d_write_staging, d_Read. keep; intros; auto using tidy_s_set.
Qed.
Lemma tidy_copy_to_partial tmp k : keeps tidy (d_copy_to_partial tmp k).
Proof.
  unfold d_copy_to_partial. apply keeps_bind; [keep|]. intros o. apply keeps_bind; [keep|]. intros f.
  destruct o, f as [b|]; auto using @keeps_fail. apply keeps_bind; [keep|]. intros o. apply keeps_bind_here. intros s H.
  destruct o; cbn; auto. destruct (has_partial (fst s)) eqn:R; cbn; auto. destruct k as [|c k]; cbn; auto.
  pose proof (tidy_partial (fun m => mset m (c :: k) []) _ R H) as T. unfold bindD, change, call.
  destruct s as [s [|[| |n] os]]; cbn in *; auto; apply tidy_partial; auto.
Qed.
Lemma tidy_remove_staging tmp : keeps tidy (d_remove_staging tmp).
Proof. unfold d_remove_staging. keep. intros; auto using tidy_staging_del. Qed.
Lemma tidy_rename tmp k : keeps tidy (d_rename tmp k).
Proof.
  unfold d_rename. apply keeps_bind; [keep|]. intros o. apply keeps_bind_here. intros s H.
  destruct o; cbn; auto. destruct (mget (p_staging (on_disk (fst s))) tmp) as [b|] eqn:E; cbn; auto.
  destruct k as [|c k]; cbn; auto. apply tidy_staging_del, tidy_files; auto.
  destruct H as (A & B & C & E1 & G). apply B. destruct (has_staging (fst s)); auto. rewrite G in E by auto. discriminate.
Qed.
Lemma tidy_commit tmp d complete : keeps tidy (d_commit fname tmp d complete).
Proof.
  unfold d_commit. apply keeps_bind; [apply keeps_went, tidy_EnsureDir|]. intros _. destruct complete.
  - apply keeps_went, tidy_rename.
  - apply keeps_bind; [apply keeps_went, tidy_EnsureDir|]. intros _.
    apply keeps_bind; [apply keeps_went, tidy_copy_to_partial|]. intros _. apply keeps_went, tidy_remove_staging.
Qed.
Lemma tidy_step o s : tidy (fst s) -> tidy (fst (d_step hash fname o s)).
Proof.
  intros H. destruct o; cbn [d_step].
  - apply tidy_Set; auto.
  - apply tidy_Erase; auto.
  - apply tidy_Receive; auto.
  - apply tidy_commit; auto.
  - apply (keeps_went tidy (d_remove_staging tmp)); auto using tidy_remove_staging.
Qed.
Lemma tidy_run ops s : tidy (fst s) -> tidy (fst (d_run hash fname ops s)).
Proof. revert s. induction ops as [|o ops IH]; intros s H; cbn; auto. apply IH, tidy_step; auto. Qed.
Lemma tidy_none : tidy no_disk.
Proof. repeat split; auto; discriminate. Qed.

(** Where the contents of files come from. *)
Definition received (ops : list d_op) (c : bytes) : Prop :=
  exists tmp payload offset d n, In (DReceive tmp payload offset d) ops
    /\ c = firstn n (repeat 0 (Z.to_nat offset) ++ payload).
Definition stored (ops : list d_op) (k c : bytes) : Prop :=
  (exists b n, In (DSet b) ops /\ fname (hash b) = k /\ c = firstn n b)
  \/ (exists tmp d, In (DCommit tmp d true) ops /\ fname d = k) /\ received ops c.
Definition origin (ops : list d_op) (s : disk) : Prop :=
  (forall k c, mget (p_files (on_disk s)) k = Some c -> k <> [] /\ stored ops k c)
  /\ (forall k c, mget (p_partial (on_disk s)) k = Some c ->
        k <> [] /\ (exists tmp d, In (DCommit tmp d false) ops /\ fname d = k) /\ received ops c)
  /\ (forall k c, mget (p_staging (on_disk s)) k = Some c -> received ops c).
Lemma received_firstn ops c n : received ops c -> received ops (firstn n c).
Proof. intros (tmp & p & off & d & m & H & ->). exists tmp, p, off, d, (Nat.min n m). rewrite firstn_firstn. auto. Qed.
Lemma received_nil ops c : received ops c -> received ops [].
Proof. apply (received_firstn ops c 0). Qed.
Lemma origin_files ops k b s : k <> [] -> stored ops k b -> origin ops s -> origin ops (with_files (fun m => mset m k b) s).
Proof.
  intros Hk Hb (A & B & C). split; [|auto]. intros k' c. cbn. rewrite mget_mset. destruct (beqb_spec k' k); [|apply A].
  intros [= <-]. subst; auto.
Qed.
Lemma origin_partial ops k b s : k <> [] -> (exists tmp d, In (DCommit tmp d false) ops /\ fname d = k) -> received ops b ->
  origin ops s -> origin ops (with_partial (fun m => mset m k b) s).
Proof.
  intros Hk Hd Hb (A & B & C). split; [auto|]. split; [|auto]. intros k' c. cbn. rewrite mget_mset.
  destruct (beqb_spec k' k); [|apply B]. intros [= <-]. subst; auto.
Qed.
Lemma origin_staging ops k b s : received ops b -> origin ops s -> origin ops (with_staging (fun m => mset m k b) s).
Proof.
  intros Hb (A & B & C). split; [auto|]. split; [auto|]. intros k' c. cbn. rewrite mget_mset.
  destruct (beqb_spec k' k); [|apply C]. intros [= <-]. auto.
Qed.
Lemma origin_files_del ops k s : origin ops s -> origin ops (with_files (fun m => mdel m k) s).
Proof. intros (A & B & C). split; [|auto]. intros k' c. cbn. rewrite mget_mdel. destruct (beqb k' k); [discriminate|apply A]. Qed.
Lemma origin_staging_del ops k s : origin ops s -> origin ops (with_staging (fun m => mdel m k) s).
Proof.
  intros (A & B & C). split; [auto|]. split; [auto|]. intros k' c. cbn. rewrite mget_mdel. destruct (beqb k' k); [discriminate|apply C].
Qed.
Lemma origin_EnsureDir ops d : keeps (origin ops) (d_EnsureDir d).
Proof. unfold d_EnsureDir. keep; auto. Qed.
Lemma origin_WriteFile ops k b : (forall n, stored ops k (firstn n b)) -> keeps (origin ops) (d_WriteFile k b).
Proof.
  intros Hb. unfold d_WriteFile. apply keeps_bind; [keep|]. intros o. apply keeps_bind; [keep|]. intros r.
  destruct r, k as [|c k]; auto using @keeps_fail. specialize (Hb (length b)) as Hw. rewrite firstn_all in Hw.
  destruct o; keep; intros s; apply origin_files; auto; discriminate.
Qed.
Lemma origin_Set ops b : In (DSet b) ops -> keeps (origin ops) (d_Set hash fname b).
Proof.
  intros Hi. unfold d_Set. apply keeps_bind; [apply keeps_went, origin_EnsureDir|]. intros _.
  apply keeps_bind; [apply keeps_went, origin_WriteFile|intros; keep]. intros n. left; exists b, n; auto.
Qed.
Lemma origin_Erase ops d : keeps (origin ops) (d_Erase fname d).
Proof. unfold d_Erase. keep; intros; auto using origin_files_del. Qed.
Lemma origin_create ops tmp : received ops [] -> keeps (origin ops) (d_create_staging tmp).
Proof. intros H. unfold d_create_staging. keep. intros. apply origin_staging; auto. Qed.
Lemma origin_write ops tmp front payload : (forall n, received ops (front ++ firstn n payload)) ->
  keeps (origin ops) (d_write_staging tmp front payload).
Proof.
  intros H. specialize (H (length payload)) as Hw. rewrite firstn_all in Hw.
  unfold d_write_staging. keep; intros; apply origin_staging; auto.
Qed.
Lemma origin_Receive ops tmp payload offset d : In (DReceive tmp payload offset d) ops ->
  keeps (origin ops) (d_Receive hash fname tmp payload offset d).
Proof.
  intros Hi.
  assert (W : received ops (repeat 0 (Z.to_nat offset) ++ payload)).
  { exists tmp, payload, offset, d, (length (repeat 0 (Z.to_nat offset) ++ payload)). rewrite firstn_all. auto. }
  assert (F : forall n, received ops (repeat 0 (Z.to_nat offset) ++ firstn n payload)).
  { intros n. exists tmp, payload, offset, d, (Z.to_nat offset + n)%nat. split; auto.
    pose proof (repeat_length (0 : N) (Z.to_nat offset)) as L. unfold bytes in *. rewrite firstn_app, L.
    replace (Z.to_nat offset + n - Z.to_nat offset)%nat with n by lia. rewrite (firstn_all2 (repeat 0 (Z.to_nat offset))) by (rewrite L; lia). reflexivity. }
  pose proof (received_nil _ _ W) as N0. specialize (F 0%nat) as F0. cbn [firstn] in F0. rewrite app_nil_r in F0.
  unfold d_Receive. apply keeps_bind; [apply keeps_or_panic, origin_EnsureDir|]. intros _.
  apply keeps_bind; [keep|]. intros _. apply keeps_bind; [|intros _].
  { destruct (0 <? offset)%Z; [|keep]. apply keeps_or_panic. unfold d_copy_to_staging. apply keeps_bind; [keep|]. intros o.
    apply keeps_bind_here. intros s H. destruct o; cbn [fst snd failD]; auto.
    destruct (has_partial (fst s)); [|auto].
    match goal with |- origin ops (fst (snd ((match ?f with Nothing => _ | _ => _ end) s))) => destruct f as [| |b] eqn:E end; auto.
    - apply (keeps_bind (origin ops) (d_create_staging tmp)); auto using origin_create. intros _. keep.
    - assert (R : received ops b).
      { destruct (fname d) as [|c k]; [discriminate|]. destruct (mget (p_partial (on_disk (fst s))) (c :: k)) as [b'|] eqn:G; [|discriminate].
        injection E as ->. apply (proj1 (proj2 H) _ _ G). }
      apply (keeps_bind (origin ops)); auto using origin_create. intros _. apply origin_write. intros n. cbn [app]. apply received_firstn; auto. }
  apply keeps_bind; [apply keeps_or_panic, origin_create; auto|]. intros _.
  apply keeps_bind; [keep; intros; apply origin_staging; auto|]. intros _.
  apply keeps_bind; [apply keeps_or_panic, origin_write; auto|]. intros _. unfold d_Read. keep.
Qed.
Lemma origin_remove ops tmp : keeps (origin ops) (d_remove_staging tmp).
Proof. unfold d_remove_staging. keep. intros; auto using origin_staging_del. Qed.
Lemma origin_rename ops tmp d : In (DCommit tmp d true) ops -> keeps (origin ops) (d_rename tmp (fname d)).
Proof.
  intros Hi. unfold d_rename. apply keeps_bind; [keep|]. intros o. apply keeps_bind_here. intros s H.
  destruct o; cbn; auto. destruct (mget (p_staging (on_disk (fst s))) tmp) as [b|] eqn:E; cbn; auto.
  destruct (fname d) as [|c k] eqn:K; cbn; auto. apply origin_staging_del, origin_files; auto; [discriminate|].
  right. split; [exists tmp, d; auto|]. apply (proj2 (proj2 H) _ _ E).
Qed.
Lemma origin_copy ops tmp d : In (DCommit tmp d false) ops -> keeps (origin ops) (d_copy_to_partial tmp (fname d)).
Proof.
  intros Hi. unfold d_copy_to_partial. apply keeps_bind; [keep|]. intros o. apply keeps_bind_here. intros s H.
  destruct o; cbn [fst snd failD]; auto. destruct (has_staging (fst s)); auto.
  destruct (mget (p_staging (on_disk (fst s))) tmp) as [b|] eqn:E; auto.
  assert (R : received ops b) by apply (proj2 (proj2 H) _ _ E). assert (K : exists t d', In (DCommit t d' false) ops /\ fname d' = fname d) by eauto.
  revert s H E. match goal with |- forall s, _ -> _ -> origin ops (fst (snd (?m s))) => cut (keeps (origin ops) m); [intros X s H _; apply X; auto|] end.
  apply keeps_bind; [keep|]. intros o. apply keeps_bind; [keep|]. intros r. destruct o, r; auto using @keeps_fail.
  destruct (fname d) as [|c k]; auto using @keeps_fail.
  keep; intros; apply origin_partial; auto using received_firstn; try discriminate. eapply received_nil; eauto.
Qed.
Lemma origin_commit ops tmp d complete : In (DCommit tmp d complete) ops -> keeps (origin ops) (d_commit fname tmp d complete).
Proof.
  intros Hi. unfold d_commit. apply keeps_bind; [apply keeps_went, origin_EnsureDir|]. intros _. destruct complete.
  - apply keeps_went, origin_rename; auto.
  - apply keeps_bind; [apply keeps_went, origin_EnsureDir|]. intros _.
    apply keeps_bind; [apply keeps_went, origin_copy; auto|]. intros _. apply keeps_went, origin_remove.
Qed.
Lemma origin_step ops o s : In o ops -> origin ops (fst s) -> origin ops (fst (d_step hash fname o s)).
Proof.
  intros Hi H. destruct o; cbn [d_step].
  - apply origin_Set; auto.
  - apply origin_Erase; auto.
  - apply origin_Receive; auto.
  - apply origin_commit; auto.
  - apply (keeps_went (origin ops) (d_remove_staging tmp)); auto using origin_remove.
Qed.
Lemma origin_run ops0 ops s : incl ops ops0 -> origin ops0 (fst s) -> origin ops0 (fst (d_run hash fname ops s)).
Proof.
  revert s. induction ops as [|o ops IH]; intros s Hi H; cbn; auto. apply IH; [intros x Hx; apply Hi; right; auto|].
  apply origin_step; auto. apply Hi; left; auto.
Qed.
End Disk.
Section Lemmas.
Variable hash : bytes -> bytes.
Variable fname : bytes -> bytes.
Variable dirsize : N.
Lemma reach_tidy ops os : tidy (fst (d_run hash fname ops (no_disk, os))).
Proof. apply tidy_run, tidy_none. Qed.

Definition runs_as {A} (m : D A) (s : disk) (r : res A) (st : pdir) : Prop :=
  fst (m (s, [])) = r /\ on_disk (fst (snd (m (s, [])))) = st.

Lemma as_Set s b : runs_as (d_Set hash fname b) s (Ok (fst (pd_Set hash fname b (on_disk s)))) (snd (pd_Set hash fname b (on_disk s))).
Proof.
  unfold runs_as, d_Set, pd_Set, went, bindD, d_EnsureDir, d_WriteFile, bindD, call, here, change, mkdir, failD, retD. cbn [fst snd has_root].
  destruct (fname (hash b)) as [|c k]; cbn; auto.
Qed.
Lemma look_tidy s k : tidy s -> k <> [] -> look k s = match mget (p_files (on_disk s)) k with Some b => File b | None => Nothing end.
Proof.
  intros (A & B & C & E & G) Hk. unfold look. destruct (has_root s); [destruct k; congruence|]. rewrite C by auto. reflexivity.
Qed.
Lemma open_tidy s k : tidy s -> k <> [] ->
  d_open k (s, []) = (match mget (p_files (on_disk s)) k with Some b => Ok (File b) | None => Err end, (s, [])).
Proof.
  intros T Hk. unfold d_open, bindD, call, here. cbn [fst snd]. rewrite look_tidy by auto.
  destruct (mget (p_files (on_disk s)) k); reflexivity.
Qed.
Lemma as_Get s d : tidy s -> fname d <> [] -> runs_as (d_Get fname d) s (pd_Get fname d (on_disk s)) (on_disk s).
Proof.
  intros T Hk. unfold runs_as, d_Get, pd_Get, bindD. rewrite open_tidy by auto.
  destruct (fname d) as [|c k]; [congruence|]. destruct (mget (p_files (on_disk s)) (c :: k)); auto.
Qed.
Lemma as_Bytes s k : tidy s -> k <> [] -> runs_as (d_Bytes k) s (Ok (pl_Bytes k (on_disk s))) (on_disk s).
Proof.
  intros T Hk. unfold runs_as, d_Bytes, pl_Bytes, bindD, call, here. cbn [fst snd]. rewrite look_tidy by auto.
  destruct k as [|c k]; [congruence|]. destruct (mget (p_files (on_disk s)) (c :: k)); auto.
Qed.
Lemma as_Length s k : tidy s -> k <> [] -> runs_as (d_Length dirsize k) s (pl_Length k (on_disk s)) (on_disk s).
Proof.
  intros T Hk. unfold runs_as, d_Length, pl_Length. unfold bindD at 1 2. rewrite open_tidy by auto.
  destruct (mget (p_files (on_disk s)) k); auto.
Qed.
Lemma bind_ok {A B} (m : D A) (f : A -> D B) s a s' : m s = (Ok a, s') -> bindD m f s = f a s'.
Proof. intros H. unfold bindD. rewrite H. reflexivity. Qed.
Lemma bind_panic {A B} (m : D A) (f : A -> D B) s s' : m s = (Panic, s') -> bindD m f s = (Panic, s').
Proof. intros H. unfold bindD. rewrite H. reflexivity. Qed.
Lemma as_BytesWithOffset s k offset : tidy s -> k <> [] ->
  (forall b, mget (p_files (on_disk s)) k = Some b -> (Z.of_N (len b) - offset <= 2 ^ 48)%Z) ->
  runs_as (d_BytesWithOffset dirsize k offset) s (pl_BytesWithOffset k offset (on_disk s)) (on_disk s).
Proof.
  intros T Hk Hs. cut (d_BytesWithOffset dirsize k offset (s, []) = (pl_BytesWithOffset k offset (on_disk s), (s, []))).
  { intros X. unfold runs_as. rewrite X. auto. }
  pose proof (open_tidy s k T Hk) as O. unfold d_BytesWithOffset, pl_BytesWithOffset.
  destruct k as [|c k]; [congruence|]. destruct (mget (p_files (on_disk s)) (c :: k)) as [b|] eqn:E.
  2: { unfold bindD at 1. rewrite O. reflexivity. }
  specialize (Hs b eq_refl). erewrite bind_ok by exact O. erewrite bind_ok by reflexivity. cbn iota.
  destruct (Z.leb_spec (Z.of_N (len b)) offset); [reflexivity|].
  unfold alloc_max. destruct (Z.ltb_spec (2 ^ 48)%Z (Z.of_N (len b) - offset)%Z); [lia|].
  erewrite bind_ok by reflexivity. cbn iota. destruct (Z.ltb_spec offset 0); [reflexivity|].
  replace (Z.to_N offset) with (N.of_nat (Z.to_nat offset)) by lia. rewrite skipn_slice_from; auto. unfold len in *. lia.
Qed.
Lemma as_Erase s d : tidy s -> fname d <> [] ->
  runs_as (d_Erase fname d) s (fst (pd_Erase fname d (on_disk s))) (snd (pd_Erase fname d (on_disk s))).
Proof.
  intros T Hk. unfold runs_as, d_Erase, pd_Erase, bindD, call, here. cbn [fst snd]. rewrite look_tidy by auto.
  destruct (fname d) as [|c k] eqn:K; [congruence|]. destruct (mget (p_files (on_disk s)) (c :: k)); auto.
Qed.
Lemma as_reject s tmp : runs_as (d_reject tmp) s
  (Ok (match mget (p_staging (on_disk s)) tmp with Some _ => true | None => false end)) (pd_reject tmp (on_disk s)).
Proof.
  unfold runs_as, d_reject, pd_reject, went, d_remove_staging, bindD, call, here. cbn [fst snd].
  destruct (mget (p_staging (on_disk s)) tmp) eqn:E; cbn; auto. rewrite mdel_none by auto. destruct s as [? ? ? [? ? ?]]; auto.
Qed.
Lemma as_commit s tmp d complete : tidy s -> on_disk (fst (snd (d_commit fname tmp d complete (s, [])))) = pd_commit fname tmp d complete (on_disk s).
Proof.
  intros (A & B & C & E & G). destruct s as [r p st [fs ps ss]]. cbn in *. unfold d_commit, pd_commit. cbn [p_staging p_files p_partial].
  unfold went at 1, bindD at 1. cbn. destruct complete.
  - unfold went, d_rename, bindD, call, here, mkdir. cbn. destruct (mget ss tmp); cbn; auto. destruct (fname d); cbn; auto.
  - unfold went at 1, bindD at 1. cbn. unfold d_copy_to_partial, bindD at 1, went at 1. cbn.
    destruct st.
    + destruct (mget ss tmp) as [b|] eqn:S.
      * destruct (fname d) as [|c k]; cbn.
        -- unfold bindD, went, d_remove_staging, bindD. cbn. rewrite S. reflexivity.
        -- unfold bindD, went, d_remove_staging, bindD. cbn. rewrite S. cbn. rewrite mset_twice. reflexivity.
      * unfold bindD, went, d_remove_staging, bindD. cbn. rewrite S. reflexivity.
    + rewrite G by auto. reflexivity.
Qed.
Lemma Read_whole b pos size s os : 
  d_Read b pos size (s, os) =
  match d_Read b pos size (s, os) with (r, (_, os')) => (r, (s, os')) end.
Proof.
  unfold d_Read, bindD, call. destruct os as [|[| |n] os]; cbn [fst snd]; auto; destruct size; auto;
    match goal with |- context [match ?g with [] => _ | _ => _ end] => destruct g; auto end.
Qed.
Lemma copy_fine s k tmp b : has_partial s = true -> has_staging s = true -> k <> [] -> mget (p_partial (on_disk s)) k = Some b ->
  d_copy_to_staging k tmp (s, []) =
  (Ok tt, (with_staging (fun m => mset m tmp b) (with_staging (fun m => mset m tmp []) s), [])).
Proof.
  intros Hp Hs Hk Hb. unfold d_copy_to_staging, bindD at 1, call at 1, bindD at 1, here at 1. cbn [fst snd]. rewrite Hp, Hb.
  destruct k; [congruence|]. unfold bindD, d_create_staging, d_write_staging, bindD, call, here. cbn [fst snd]. rewrite Hs. reflexivity.
Qed.
Lemma as_Receive s tmp payload offset d : tidy s -> fname d <> [] -> (offset + Z.of_N (len payload) <= 2 ^ 30)%Z ->
  runs_as (d_Receive hash fname tmp payload offset d) s
    (fst (pd_Receive hash fname tmp payload offset d (on_disk s))) (snd (pd_Receive hash fname tmp payload offset d (on_disk s))).
Proof.
  intros (A & B & C & E & G) Hk Hm. destruct s as [r p st [fs ps ss]]. cbn in A, B, C, E, G. cbn [on_disk].
  unfold pd_Receive. cbn [p_files p_partial p_staging].
  set (content := repeat 0 (Z.to_nat offset) ++ payload).
  assert (HR : forall s0, 0 <= Z.to_N (offset + Z.of_N (len payload)) -> (0 <= offset + Z.of_N (len payload))%Z ->
     d_Read content 0 (Z.to_N (offset + Z.of_N (len payload))) (s0, []) = (Ok (firstn (Z.to_nat (offset + Z.of_N (len payload))) content), (s0, []))).
  { intros s0 _ Hp. unfold d_Read, bindD, call. cbn [snd skipn N.to_nat]. set (n := Z.to_N (offset + Z.of_N (len payload))).
    rewrite N.min_l by (unfold read_max, n; lia). cbn [skipn N.to_nat].
    replace (Z.to_nat (offset + Z.of_N (len payload))) with (N.to_nat n) by (unfold n; lia).
    assert (L : (N.to_nat n <= length content)%nat) by (unfold content; rewrite app_length, repeat_length; unfold n, len; lia).
    destruct n as [|pn] eqn:En; [reflexivity|]. rewrite <- En in *.
    assert (LF : length (firstn (N.to_nat n) content) = N.to_nat n) by (rewrite firstn_length; lia).
    destruct (firstn (N.to_nat n) content) as [|x l] eqn:EF; [cbn in LF; lia|]. rewrite <- EF in *.
    replace (n - len (firstn (N.to_nat n) content)) with 0 by (unfold len; rewrite LF; lia). cbn [N.to_nat repeat]. rewrite app_nil_r.
    rewrite EF. destruct n; [discriminate|]. reflexivity. }
  assert (Tail : forall s0 : disk, on_disk s0 = PDir fs ps (mset ss tmp content) ->
     let m := (if (offset + Z.of_N (len payload) <? 0)%Z || (alloc_max <? offset + Z.of_N (len payload))%Z then panicD
               else let^ data := or_panic (d_Read content 0 (Z.to_N (offset + Z.of_N (len payload)))) in
                    retD (hash data, Z.to_N (offset + Z.of_N (len payload)))) in
     m (s0, []) = (if (offset + Z.of_N (len payload) <? 0)%Z then Panic
                   else Ok (hash (firstn (Z.to_nat (offset + Z.of_N (len payload))) content), Z.to_N (offset + Z.of_N (len payload))), (s0, []))).
  { intros s0 _. cbn zeta. unfold alloc_max. destruct (Z.ltb_spec (2 ^ 48)%Z (offset + Z.of_N (len payload))); [lia|]. rewrite orb_false_r.
    destruct (Z.ltb_spec (offset + Z.of_N (len payload)) 0); [reflexivity|].
    erewrite bind_ok; [reflexivity|]. unfold or_panic. rewrite HR by lia. reflexivity. }
  unfold runs_as.
  assert (Shape : forall s0 : disk, on_disk s0 = PDir fs ps (mset ss tmp content) ->
     d_Receive hash fname tmp payload offset d (Disk r p st (PDir fs ps ss), []) =
       (if (offset + Z.of_N (len payload) <? 0)%Z then Panic
        else Ok (hash (firstn (Z.to_nat (offset + Z.of_N (len payload))) content), Z.to_N (offset + Z.of_N (len payload))), (s0, [])) ->
     fst (d_Receive hash fname tmp payload offset d (Disk r p st (PDir fs ps ss), [])) =
     fst (if (offset + Z.of_N (len payload) <? 0)%Z then (Panic, PDir fs ps (mset ss tmp content))
          else (Ok (hash (firstn (Z.to_nat (offset + Z.of_N (len payload))) content), Z.to_N (offset + Z.of_N (len payload))), PDir fs ps (mset ss tmp content)))
     /\ on_disk (fst (snd (d_Receive hash fname tmp payload offset d (Disk r p st (PDir fs ps ss), [])))) =
     snd (if (offset + Z.of_N (len payload) <? 0)%Z then (Panic, PDir fs ps (mset ss tmp content))
          else (Ok (hash (firstn (Z.to_nat (offset + Z.of_N (len payload))) content), Z.to_N (offset + Z.of_N (len payload))), PDir fs ps (mset ss tmp content)))).
  { intros s0 H0 ->. destruct (offset + Z.of_N (len payload) <? 0)%Z; cbn [fst snd]; auto. }
  destruct (Z.ltb_spec 0 offset) as [Ho|Ho]; cbn [andb].
  - destruct (mget ps (fname d)) as [b|] eqn:P.
    + assert (Hp : p = true) by (destruct p; auto; rewrite E in P by auto; discriminate). subst p.
      apply (Shape (Disk true true true (PDir fs ps (mset ss tmp content)))); [reflexivity|]. unfold d_Receive.
      destruct (Z.ltb_spec 0 offset); [|lia].
      erewrite bind_ok by reflexivity. erewrite bind_ok by reflexivity.
      erewrite bind_ok; [|unfold or_panic; rewrite (copy_fine _ _ _ b); [reflexivity|reflexivity|reflexivity|exact Hk|exact P]].
      erewrite bind_ok by reflexivity. erewrite bind_ok by reflexivity. erewrite bind_ok by reflexivity.
      cbn zeta. erewrite bind_ok by reflexivity. cbn iota. fold content.
      unfold with_staging. cbn [fst snd has_root has_partial has_staging on_disk p_files p_partial p_staging mkdir]. rewrite !mset_twice.
      fold content. apply Tail. reflexivity.
    + cut (d_Receive hash fname tmp payload offset d (Disk r p st (PDir fs ps ss), [])
            = (Panic, (mkdir (Some Staging) (Disk r p st (PDir fs ps ss)), []))); [intros ->; cbn; auto|].
      unfold d_Receive. destruct (Z.ltb_spec 0 offset); [|lia].
      erewrite bind_ok by reflexivity. erewrite bind_ok by reflexivity. apply bind_panic.
      unfold or_panic, d_copy_to_staging, bindD at 1, call at 1, bindD at 1, here at 1. cbn [has_partial mkdir on_disk p_partial fst snd].
      destruct p; [|reflexivity]. destruct (fname d) as [|c k]; [congruence|]. rewrite P. reflexivity.
  - apply (Shape (Disk true p true (PDir fs ps (mset ss tmp content)))); [reflexivity|]. unfold d_Receive.
    destruct (Z.ltb_spec 0 offset); [lia|].
    erewrite bind_ok by reflexivity. erewrite bind_ok by reflexivity. erewrite bind_ok by reflexivity. erewrite bind_ok by reflexivity.
    erewrite bind_ok by reflexivity. erewrite bind_ok by reflexivity. cbn zeta. erewrite bind_ok by reflexivity. cbn iota. fold content.
    unfold with_staging. cbn [fst snd has_root has_partial has_staging on_disk p_files p_partial p_staging mkdir]. rewrite !mset_twice.
    fold content. apply Tail. reflexivity.
Qed.

Lemma bind_inv {A B} (m : D A) (f : A -> D B) s b s' : bindD m f s = (Ok b, s') ->
  exists a s1, m s = (Ok a, s1) /\ f a s1 = (Ok b, s').
Proof. unfold bindD. destruct (m s) as [[a| | | |] s1]; intros H; try discriminate. eauto. Qed.
Lemma or_panic_inv {A} (m : D A) s a s' : or_panic m s = (Ok a, s') -> m s = (Ok a, s').
Proof. unfold or_panic. destruct (m s) as [[x| | | |] s1]; intros H; try discriminate. auto. Qed.

(** The outcomes left are among those there were. *)
Definition takes {A} (m : D A) : Prop := forall s, incl (snd (snd (m s))) (snd s).
Lemma takes_call : takes call.
Proof. intros [s [|o os]]; cbn; [apply incl_refl|apply incl_tl, incl_refl]. Qed.
Lemma takes_bind {A B} (m : D A) (f : A -> D B) : takes m -> (forall a, takes (f a)) -> takes (bindD m f).
Proof.
  intros Hm Hf s. unfold bindD. specialize (Hm s). destruct (m s) as [[a| | | |] s']; cbn in *; auto.
  eapply incl_tran; [apply Hf|auto].
Qed.
Lemma takes_or_panic {A} (m : D A) : takes m -> takes (or_panic m).
Proof. intros Hm s. unfold or_panic. specialize (Hm s). destruct (m s) as [[a| | | |] s']; auto. Qed.
Lemma takes_went {A} (m : D A) : takes m -> takes (went m).
Proof. intros Hm s. unfold went. specialize (Hm s). destruct (m s) as [[a| | | |] s']; auto. Qed.
Ltac take :=
  repeat match goal with
    | |- takes call => apply takes_call
    | |- takes (or_panic _) => apply takes_or_panic
    | |- takes (went _) => apply takes_went
    | |- takes (bindD _ _) => apply takes_bind; [|intros ?]
    | |- takes (match ?x with _ => _ end) => destruct x
    | |- takes (if ?x then _ else _) => destruct x
    | |- takes (retD _) => intros ?; apply incl_refl
    | |- takes failD => intros ?; apply incl_refl
    | |- takes panicD => intros ?; apply incl_refl
    | |- takes (here _) => intros ?; apply incl_refl
    | |- takes (change _) => intros ?; apply incl_refl
    | |- takes plain => unfold plain
    | |- takes (d_EnsureDir _) => unfold d_EnsureDir
    | |- takes (d_copy_to_staging _ _) => unfold d_copy_to_staging
    | |- takes (d_create_staging _) => unfold d_create_staging
    | |- takes (d_write_staging _ _ _) => unfold d_write_staging
    end.
Lemma takes_of {A} (m : D A) s r s' : takes m -> m s = (r, s') -> incl (snd s') (snd s).
Proof. intros T E. specialize (T s). rewrite E in T. auto. Qed.
Lemma write_inv tmp front payload s u s' : d_write_staging tmp front payload s = (Ok u, s') ->
  fst s' = with_staging (fun m => mset m tmp (front ++ payload)) (fst s).
Proof.
  unfold d_write_staging. intros H. apply bind_inv in H as (o & s1 & H1 & H2).
  assert (E : fst s1 = fst s) by (revert H1; unfold call; destruct (snd s); intros [= _ <-]; auto).
  destruct o; [|discriminate|discriminate]. injection H2 as <- <-. cbn. rewrite E. auto.
Qed.
Lemma Read_inv b pos size s data s' : d_Read b pos size s = (Ok data, s') ->
  fst s' = fst s /\ incl (snd s') (snd s) /\ exists got : N, got <= N.min size read_max
    /\ (size = 0 \/ firstn (N.to_nat got) (skipn (N.to_nat pos) b) <> [])
    /\ ((forall n, ~ In (Torn n) (snd s)) -> got = N.min size read_max)
    /\ data = firstn (N.to_nat got) (skipn (N.to_nat pos) b) ++ repeat 0 (N.to_nat (size - len (firstn (N.to_nat got) (skipn (N.to_nat pos) b)))).
Proof.
  unfold d_Read. intros H. apply bind_inv in H as (o & s1 & H1 & H2).
  assert (E : fst s1 = fst s /\ incl (snd s1) (snd s) /\ (In o (snd s) \/ o = Fine)).
  { revert H1; unfold call; destruct (snd s) as [|o' os] eqn:Q; intros [= <- <-]; cbn; rewrite ?Q; auto using incl_refl.
    split; auto. split; [apply incl_tl, incl_refl|]. left; left; auto. }
  destruct E as (E1 & E2 & E3).
  assert (Go : forall got n, got = firstn (N.to_nat n) (skipn (N.to_nat pos) b) -> n <= N.min size read_max ->
     ((forall n, ~ In (Torn n) (snd s)) -> n = N.min size read_max) ->
     match size, got with 0, _ => retD [] | _, [] => failD | _, _ => retD (got ++ repeat 0 (N.to_nat (size - len got))) end s1 = (Ok data, s') ->
     fst s' = fst s /\ incl (snd s') (snd s) /\ exists got : N, got <= N.min size read_max
       /\ (size = 0 \/ firstn (N.to_nat got) (skipn (N.to_nat pos) b) <> [])
       /\ ((forall n, ~ In (Torn n) (snd s)) -> got = N.min size read_max)
       /\ data = firstn (N.to_nat got) (skipn (N.to_nat pos) b) ++ repeat 0 (N.to_nat (size - len (firstn (N.to_nat got) (skipn (N.to_nat pos) b))))).
  { intros got n -> Hn Ht. destruct size as [|z].
    - intros [= <- <-]. split; auto. split; auto. exists n. assert (n = 0) as -> by lia. repeat split; auto.
    - destruct (firstn (N.to_nat n) (skipn (N.to_nat pos) b)) as [|x l] eqn:F; [discriminate|].
      intros [= <- <-]. split; auto. split; auto. exists n. rewrite F. repeat split; auto. right; discriminate. }
  destruct o as [| |n].
  - apply (Go _ (N.min size read_max)) in H2; auto. lia.
  - discriminate.
  - rewrite firstn_firstn in H2. apply (Go _ (N.min (N.of_nat n) (N.min size read_max))) in H2; auto.
    + rewrite (N2Nat.inj_min (N.of_nat n)), Nat2N.id. auto.
    + lia.
    + intros X. destruct E3 as [E3|E3]; [destruct (X n E3)|discriminate].
Qed.
Lemma Receive_inv tmp payload offset d s dg n s' : d_Receive hash fname tmp payload offset d s = (Ok (dg, n), s') ->
  let content := repeat 0 (Z.to_nat offset) ++ payload in
  Z.of_N n = (offset + Z.of_N (len payload))%Z /\ n <= 2 ^ 48
  /\ mget (p_staging (on_disk (fst s'))) tmp = Some content
  /\ exists got : N, got <= N.min n read_max
     /\ ((forall k, ~ In (Torn k) (snd s)) -> got = N.min n read_max)
     /\ dg = hash (firstn (N.to_nat got) content ++ repeat 0 (N.to_nat (n - got))).
Proof.
  intros H content. unfold d_Receive in H. cbn zeta in H. fold content in H.
  apply bind_inv in H as (u1 & s1 & H1 & H). apply takes_of in H1; [|take].
  apply bind_inv in H as (u2 & s2 & H2 & H). apply takes_of in H2; [|take].
  apply bind_inv in H as (u3 & s3 & H3 & H). apply takes_of in H3; [|take].
  apply bind_inv in H as (u4 & s4 & H4 & H). apply takes_of in H4; [|take].
  apply bind_inv in H as (u5 & s5 & H5 & H). apply takes_of in H5; [|take].
  apply bind_inv in H as (u6 & s6 & H6 & H). pose proof H6 as T6. apply takes_of in T6; [|take].
  apply or_panic_inv, write_inv in H6.
  apply bind_inv in H as (back & s7 & H7 & H). pose proof H7 as T7. apply takes_of in T7; [|take].
  assert (E7 : fst s7 = fst s6).
  { revert H7. unfold went, plain, bindD, call. destruct s6 as [? [|[| |?] ?]]; cbn; intros [= _ <-]; auto. }
  destruct ((offset + Z.of_N (len payload) <? 0)%Z || (alloc_max <? offset + Z.of_N (len payload))%Z) eqn:G; [discriminate|].
  apply orb_false_iff in G as [G GA]. apply Z.ltb_ge in G, GA. unfold alloc_max in GA.
  apply bind_inv in H as (data & s8 & H8 & H). apply or_panic_inv, Read_inv in H8 as (E8 & T8 & got & L & Ne & Ht & ->).
  injection H as <- <- <-. split; [lia|]. split; [lia|]. split.
  { rewrite E8, E7, H6. cbn. rewrite mget_mset, beqb_refl. reflexivity. }
  assert (LC : (Z.to_nat (offset + Z.of_N (len payload)) <= length content)%nat).
  { unfold content. rewrite app_length, repeat_length. unfold len. lia. }
  exists got. split; auto. split.
  { intros X. apply Ht. intros k Hk. apply (X k). repeat (first [apply Hk | apply H1 | apply H2 | apply H3 | apply H4 | apply H5 | apply T6 | apply T7 ]). }
  set (n := Z.to_N (offset + Z.of_N (len payload))) in *.
  f_equal. destruct back.
  - cbn [skipn N.to_nat]. f_equal. f_equal. f_equal. f_equal. unfold len. rewrite firstn_length. unfold n. lia.
  - unfold len in Ne. rewrite Nat2N.id, skipn_all in Ne. rewrite firstn_nil in Ne. destruct Ne as [Ne|Ne]; [|congruence].
    rewrite Ne in *. assert (got = 0) as -> by lia. reflexivity.
Qed.
Lemma receive_some tmp payload d s : 0 < len payload -> len payload <= 2 ^ 48 ->
  exists dg s', d_Receive hash fname tmp payload 0 d (s, []) = (Ok (dg, len payload), s').
Proof.
  intros L U. unfold d_Receive. change (0 <? 0)%Z with false. cbn iota.
  do 7 (erewrite bind_ok by reflexivity). cbn zeta. cbn iota. change (Z.to_nat 0) with 0%nat. cbn [repeat app].
  rewrite Z.add_0_l, N2Z.id. unfold alloc_max.
  destruct (Z.ltb_spec (Z.of_N (len payload)) 0); [lia|]. destruct (Z.ltb_spec (2 ^ 48)%Z (Z.of_N (len payload))); [lia|]. cbn [orb].
  assert (R : forall s0, snd s0 = [] -> exists data, or_panic (d_Read payload 0 (len payload)) s0 = (Ok data, s0)).
  { intros [s0 os0] E0. cbn in E0. subst os0. unfold or_panic, d_Read, bindD, call. cbn [snd fst]. change (N.to_nat 0) with 0%nat. cbn [skipn].
    destruct (len payload) as [|p] eqn:E; [lia|]. rewrite <- E in *.
    destruct (firstn (N.to_nat (N.min (len payload) read_max)) payload) eqn:F; [|rewrite E; eexists; reflexivity].
    exfalso. apply (f_equal (@length N)) in F. rewrite firstn_length in F. unfold read_max, len in *. cbn [length] in F. lia. }
  match goal with |- context [bindD _ _ ?s0] => destruct (R s0 eq_refl) as (data & Hd) end.
  rewrite (bind_ok _ _ _ _ _ Hd). eexists _, _. reflexivity.
Qed.

(** A call that succeeded has taken one outcome, which was not a failure. *)
Definition one {A} (m : D A) : Prop :=
  forall s a s', m s = (Ok a, s') -> snd s' = skipn 1 (snd s) /\ nth_error (snd s) 0 <> Some Fails.
Lemma one_plain : one plain.
Proof. intros [s [|[| |n] os]] a s'; cbn; intros H; try discriminate; injection H as _ <-; split; auto; discriminate. Qed.
Lemma one_EnsureDir d : one (d_EnsureDir d).
Proof.
  intros [s [|[| |n] os]] a s'; cbn; intros H; try discriminate; try (injection H as _ <-; split; auto; discriminate).
  destruct d; discriminate.
Qed.
Lemma one_create tmp : one (d_create_staging tmp).
Proof.
  intros [s [|[| |n] os]] a s'; unfold d_create_staging, bindD, call, here; cbn; destruct (has_staging s); intros H; try discriminate;
    injection H as _ <-; split; auto; discriminate.
Qed.
Lemma one_write tmp front payload : one (d_write_staging tmp front payload).
Proof. intros [s [|[| |n] os]] a s'; cbn; intros H; try discriminate; injection H as _ <-; split; auto; discriminate. Qed.
Lemma one_Read b pos size : one (d_Read b pos size).
Proof.
  intros [s [|[| |n] os]] a s'; unfold d_Read, bindD, call; cbn [fst snd]; intros H; try discriminate; destruct size;
    try (injection H as _ <-; split; auto; discriminate);
    match type of H with context [match ?g with [] => _ | _ => _ end] => destruct g; [discriminate|] end;
    injection H as _ <-; split; auto; discriminate.
Qed.
Lemma one_or_panic {A} (m : D A) : one m -> one (or_panic m).
Proof. intros Hm s a s' H. apply or_panic_inv in H. eauto. Qed.
Lemma nth_skip {A} (l : list A) i j : nth_error (skipn i l) j = nth_error l (i + j).
Proof. revert l; induction i as [|i IH]; intros [|x l]; cbn; auto. destruct j; auto. Qed.
Lemma skip_skip {A} (l : list A) i j : skipn i (skipn j l) = skipn (j + i) l.
Proof. revert l; induction j as [|j IH]; intros [|x l]; cbn; auto using skipn_nil. Qed.
Lemma copy_takes k tmp s u s' : d_copy_to_staging k tmp s = (Ok u, s') ->
  snd s' = skipn 3 (snd s) /\ forall i, (i < 3)%nat -> nth_error (snd s) i <> Some Fails.
Proof.
  unfold d_copy_to_staging. intros H. apply bind_inv in H as (o & s1 & H1 & H). apply bind_inv in H as (f & s2 & H2 & H).
  assert (s2 = s1) as -> by (injection H2; auto). clear H2.
  assert (C : snd s1 = skipn 1 (snd s) /\ (o = Fine -> nth_error (snd s) 0 <> Some Fails)).
  { revert H1. unfold call. destruct s as [s0 [|o' os]]; cbn; intros [= <- <-]; split; auto; try discriminate. intros ->. discriminate. }
  destruct C as [C1 C2]. destruct o; try (destruct f; discriminate). specialize (C2 eq_refl). destruct f as [| |b]; [discriminate| |].
  - apply bind_inv in H as (u1 & s3 & H3 & H). apply bind_inv in H as (u4 & s4 & H4 & H). discriminate.
  - apply bind_inv in H as (u1 & s3 & H3 & H). apply one_create in H3 as [A1 A2]. apply one_write in H as [B1 B2].
    rewrite A1 in B1, B2. rewrite C1 in B1, B2, A2. rewrite !skip_skip in *. rewrite nth_skip in A2, B2. split; auto.
    intros i Hi. destruct i as [|[|[|i]]]; auto. lia.
Qed.
Lemma Receive_fails tmp payload offset d s i :
  (0 < offset + Z.of_N (len payload))%Z -> (i < if (0 <? offset)%Z then 11 else 6)%nat -> nth_error (snd s) i = Some Fails ->
  match fst (d_Receive hash fname tmp payload offset d s) with Ok _ => False | _ => True end.
Proof.
  intros Hp Hi Hf. destruct (d_Receive hash fname tmp payload offset d s) as [[[dg n]| | | |] s'] eqn:H; cbn; auto.
  unfold d_Receive in H. cbn zeta in H.
  apply bind_inv in H as (u1 & s1 & H1 & H). apply (one_or_panic _ (one_EnsureDir _)) in H1 as [A1 B1].
  apply bind_inv in H as (u2 & s2 & H2 & H). apply (one_or_panic _ one_plain) in H2 as [A2 B2]. rewrite A1 in A2, B2.
  rewrite skip_skip in A2. rewrite nth_skip in B2.
  apply bind_inv in H as (u3 & s3 & H3 & H).
  assert (C3 : snd s3 = skipn (if (0 <? offset)%Z then 5 else 2) (snd s)
             /\ forall j, (j < if (0 <? offset)%Z then 5 else 2)%nat -> nth_error (snd s) j <> Some Fails).
  { destruct (0 <? offset)%Z.
    - apply or_panic_inv, copy_takes in H3 as [A3 B3]. rewrite A2 in A3, B3. rewrite skip_skip in A3. split; auto.
      intros j Hj. destruct j as [|[|j]]; auto. specialize (B3 j). rewrite nth_skip in B3. apply B3. lia.
    - injection H3 as _ <-. split; auto. intros j Hj. destruct j as [|[|j]]; auto. lia. }
  clear H3. destruct C3 as [A3 B3].
  apply bind_inv in H as (u4 & s4 & H4 & H). apply (one_or_panic _ (one_create _)) in H4 as [A4 B4]. rewrite A3 in A4, B4.
  rewrite skip_skip in A4. rewrite nth_skip in B4.
  apply bind_inv in H as (u5 & s5 & H5 & H).
  assert (C5 : snd s5 = skipn (if (0 <? offset)%Z then 8 else 3) (snd s)
             /\ forall j, (j < if (0 <? offset)%Z then 8 else 3)%nat -> nth_error (snd s) j <> Some Fails).
  { destruct (0 <? offset)%Z.
    - apply bind_inv in H5 as (v1 & t1 & G1 & H5). apply (one_or_panic _ one_plain) in G1 as [E1 F1].
      apply bind_inv in H5 as (v2 & t2 & G2 & H5). injection G2 as _ <-. apply (one_or_panic _ one_plain) in H5 as [E2 F2].
      cbn [snd] in E2, F2. rewrite E1 in E2, F2. rewrite A4 in E2, F2, F1. rewrite !skip_skip in *. rewrite !nth_skip in *. split; auto.
      intros j Hj. destruct (Nat.lt_ge_cases j 5) as [L|L]; [auto|].
      assert (j = 5 \/ j = 6 \/ j = 7)%nat as [-> | [-> | ->]] by lia; auto.
    - injection H5 as _ <-. split; auto. intros j Hj. destruct (Nat.lt_ge_cases j 2) as [L|L]; [auto|]. assert (j = 2)%nat as -> by lia; auto. }
  clear H5. destruct C5 as [A5 B5].
  apply bind_inv in H as (u6 & s6 & H6 & H). apply (one_or_panic _ (one_write _ _ _)) in H6 as [A6 B6]. rewrite A5 in A6, B6.
  rewrite skip_skip in A6. rewrite nth_skip in B6.
  apply bind_inv in H as (back & s7 & H7 & H).
  assert (C7 : snd s7 = skipn 1 (snd s6) /\ (back = true -> nth_error (snd s6) 0 <> Some Fails)).
  { revert H7. unfold went, plain, bindD, call. destruct s6 as [q [|[| |m] os]]; cbn; intros [= <- <-]; split; auto; discriminate. }
  destruct C7 as [A7 B7]. rewrite A6 in A7, B7. rewrite skip_skip in A7. rewrite nth_skip in B7.
  match type of H with (if ?c then _ else _) _ = _ => destruct c eqn:G; [discriminate|] end.
  apply bind_inv in H as (data & s8 & H8 & H). apply or_panic_inv in H8. pose proof (Read_inv _ _ _ _ _ _ H8) as (_ & _ & got & _ & Ne & _).
  apply one_Read in H8 as [_ B8]. rewrite A7 in B8. rewrite nth_skip in B8.
  assert (back = true).
  { destruct back; auto. exfalso. unfold len at 2 in Ne. rewrite Nat2N.id, skipn_all, firstn_nil in Ne. destruct Ne as [Ne|Ne]; [lia|congruence]. }
  specialize (B7 H0). clear - Hi Hf B5 B6 B7 B8.
  destruct (0 <? offset)%Z; cbn [Nat.add] in *.
  - destruct (Nat.lt_ge_cases i 8) as [L|L]; [eapply B5; eauto|]. assert (i = 8 \/ i = 9 \/ i = 10)%nat as [-> | [-> | ->]] by lia; auto.
  - destruct (Nat.lt_ge_cases i 3) as [L|L]; [eapply B5; eauto|]. assert (i = 3 \/ i = 4 \/ i = 5)%nat as [-> | [-> | ->]] by lia; auto.
Qed.
End Lemmas.
