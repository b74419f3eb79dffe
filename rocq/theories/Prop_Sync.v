(** C52: range-based reconciliation. *)
From Coq Require Import Sorting.Permutation.
From Verif Require Import Base M_Order M_Encoding M_Paths M_Successor M_Ranges M_Areas M_Keys M_Entry M_Map M_Store
  M_Query M_Transport M_Sync S_Order S_Store S_Query P_Order P_Encoding P_Paths P_Ranges P_Keys P_Map
  P_Store P_History P_Auth P_Crash P_Demo P_Query Prop_Store Prop_Query.
From Coq Require Import Lia.
Local Open Scope N_scope.

(** A tree holds an entry at position [p]. *)
Definition holds (t : list node) (p : position) : Prop := exists n, In n t /\ node_pos n = p.

(** A summary that counts the entries of the range. *)
Definition counts (summary : list node -> range3d -> res (bytes * N)) (t : list node) : Prop :=
  forall r, exists f, summary t r = Ok (f, len (query t r)).

(** Fingerprints that are found equal come from the same entries. *)
Definition separates (summary : list node -> range3d -> res (bytes * N)) (finalise : bytes -> bytes)
  (isEqual : bytes -> bytes -> bool) (t1 t2 : list node) : Prop :=
  forall r f1 n1 f2 n2, summary t1 r = Ok (f1, n1) -> summary t2 r = Ok (f2, n2) ->
    isEqual (finalise f1) (finalise f2) = true ->
    forall p, in_range3d r p -> (holds t1 p <-> holds t2 p).

(** At most four entries of the range have the same timestamp. *)
Definition few_ties (t : list node) (r : range3d) : Prop :=
  forall m, len (filter (fun n => n_time n =? m) (query t r)) <= 4.

Definition one_only (tA tB : list node) (p : position) : Prop :=
  (holds tA p /\ ~ holds tB p) \/ (holds tB p /\ ~ holds tA p).

Definition within (r' r : range3d) : Prop := forall p, in_range3d r' p -> in_range3d r p.

Lemma query_In t r n : In n (query t r) <-> In n t /\ in_range3d r (node_pos n).
Proof. unfold query. rewrite filter_In, IsIncluded3d_spec. tauto. Qed.

Lemma filter_split {A} (f g h : A -> bool) l :
  (forall x, f x = g x || h x) -> (forall x, g x && h x = false) ->
  length (filter f l) = (length (filter g l) + length (filter h l))%nat.
Proof.
  intros H1 H2. induction l as [|x l IH]; cbn; auto. rewrite H1. specialize (H2 x).
  destruct (g x), (h x); cbn in *; try discriminate; lia.
Qed.

Lemma split_sum t t' r l rr : SplitRange t r = Ok (l, rr) ->
  length (query t' r) = (length (query t' l) + length (query t' rr))%nat.
Proof.
  intros H. apply filter_split; intros n; destruct (C38_split_partition t r l rr (node_pos n) H) as [HP HN];
    rewrite <- (IsIncluded3d_spec r), <- (IsIncluded3d_spec l), <- (IsIncluded3d_spec rr) in HP;
    rewrite <- (IsIncluded3d_spec l), <- (IsIncluded3d_spec rr) in HN; revert HP HN;
    destruct (IsIncluded3d OrderSubspace r (node_pos n)), (IsIncluded3d OrderSubspace l (node_pos n)),
      (IsIncluded3d OrderSubspace rr (node_pos n)); cbn; intros; auto; exfalso; intuition congruence.
Qed.

(** A prefix of a sorted list below a bound that equals the element after it. *)
Lemma ascending_first ts : ascending ts -> forall i m, nth_error ts i = Some m ->
  (forall x, In x ts -> m <= x) -> (i < length (filter (fun x => N.eqb x m) ts))%nat.
Proof.
  induction ts as [|x ts IH]; intros H i m E HA; [destruct i; discriminate|]. destruct H as [H1 H2].
  assert (Em : m <= x) by (apply HA; left; auto). destruct i as [|i]; cbn in E.
  - injection E as ->. cbn. rewrite N.eqb_refl. cbn; auto with arith.
  - assert (x = m). { pose proof (H1 m (nth_error_In _ _ E)). lia. } subst.
    cbn. rewrite N.eqb_refl. cbn [length]. apply -> Nat.succ_lt_mono. apply IH; auto with datatypes.
Qed.

(** Splitting a range of nine or more entries, few of them tied, leaves some on
    both sides. *)
Lemma split_both t r l rr : SplitRange t r = Ok (l, rr) -> few_ties t r -> 8 < len (query t r) ->
  (0 < length (query t l))%nat /\ (0 < length (query t rr))%nat.
Proof.
  intros H HT HL. pose proof (split_left_half _ _ _ _ H) as HH. pose proof (split_sum t t r l rr H) as HS.
  assert (len (query t r) / 2 < len (query t r)) by (apply N.div_lt; lia).
  assert (HR : (0 < length (query t rr))%nat) by (unfold len in *; lia). split; auto.
  destruct (query t l) as [|? ?] eqn:EL; [|cbn; lia]. exfalso.
  apply SplitRange_inv in H as (m & n & Hn & Hin & En & E & -> & ->).
  unfold index in E. destruct (nth_error _ _) as [m'|] eqn:E2 in E; [|discriminate]. injection E as ->.
  pose proof (ascending_first _ (sort_times_asc _) _ _ E2) as HF.
  assert (HA : forall x, In x (sort_times (map n_time (query t r))) -> m <= x).
  { intros x Hx. apply (Permutation_in _ (sort_times_perm _)) in Hx. apply in_map_iff in Hx as (y & <- & Hy).
    destruct (N.le_gt_cases m (n_time y)) as [|Hlt]; auto. exfalso.
    apply query_In in Hy as [Hy1 (A & B & T1 & T2)].
    assert (In y []).
    { rewrite <- EL. apply query_In. split; auto. split; [exact A|split; [exact B|split; [exact T1|right; exact Hlt]]]. }
    destruct H. }
  specialize (HF HA). rewrite (filter_length_perm _ _ _ (sort_times_perm _)), filter_map_length in HF.
  specialize (HT m). unfold len in *.
  assert (4 <= N.of_nat (length (query t r)) / 2) by (apply N.div_le_lower_bound; lia). lia.
Qed.

Section Good.
Variables (summary : list node -> range3d -> res (bytes * N)) (finalise : bytes -> bytes)
  (isEqual : bytes -> bytes -> bool) (tA tB : list node) (r0 : range3d).
Hypotheses (CA : counts summary tA) (CB : counts summary tB)
  (SAB : separates summary finalise isEqual tA tB) (SBA : separates summary finalise isEqual tB tA)
  (TA : few_ties tA r0) (TB : few_ties tB r0).

Let respond := Respond_with summary finalise isEqual.
Let tr := tree_of tA tB.

Lemma tr_counts a : counts summary (tr a). Proof. destruct a; auto. Qed.
Lemma tr_separates a : separates summary finalise isEqual (tr (negb a)) (tr a). Proof. destruct a; auto. Qed.
Lemma tr_ties a : few_ties (tr a) r0. Proof. destruct a; auto. Qed.

Lemma filter_length_sub {A} (f g : A -> bool) l : (forall x, f x = true -> g x = true) ->
  (length (filter f l) <= length (filter g l))%nat.
Proof.
  intros H. induction l as [|x l IH]; cbn; auto. specialize (H x).
  destruct (f x) eqn:E; [rewrite H by auto; cbn; lia|]. destruct (g x); cbn; lia.
Qed.
Lemma filter_filter {A} (f g : A -> bool) l : filter f (filter g l) = filter (fun x => f x && g x) l.
Proof. induction l as [|x l IH]; cbn; auto. destruct (g x) eqn:E; cbn; destruct (f x); cbn; rewrite ?IH; auto. Qed.

Lemma ties_within t r : few_ties t r0 -> within r r0 -> few_ties t r.
Proof.
  intros H HW m. specialize (H m). unfold few_ties, query in *. rewrite filter_filter in *.
  eapply N.le_trans; [|exact H]. unfold len.
  pose proof (filter_length_sub (fun x => (n_time x =? m) && IsIncluded3d OrderSubspace r (node_pos x))
    (fun x => (n_time x =? m) && IsIncluded3d OrderSubspace r0 (node_pos x)) t) as HL.
  enough (forall x, (n_time x =? m) && IsIncluded3d OrderSubspace r (node_pos x) = true ->
    (n_time x =? m) && IsIncluded3d OrderSubspace r0 (node_pos x) = true) by (specialize (HL H0); lia).
  intros x. rewrite !andb_true_iff, !IsIncluded3d_spec. intros [? ?]; split; auto.
Qed.

(** Weight of a range: an upper bound on the messages still to come. *)
Definition size (r : range3d) : nat := length (query tA r) + length (query tB r).
Definition weight (r : range3d) : nat := Nat.max 1 (2 * size r - 1).
Definition total (l : list xmsg) : nat := fold_right (fun m n => (weight (x_range m) + n)%nat) 0%nat l.

Lemma total_app l l' : total (l ++ l') = (total l + total l')%nat.
Proof. induction l as [|m l IH]; [reflexivity|]. change (total ((m :: l) ++ l')) with (weight (x_range m) + total (l ++ l'))%nat. change (total (m :: l)) with (weight (x_range m) + total l)%nat. rewrite IH. lia. Qed.

Record good (s : xstate) : Prop := Good {
  g_pending : forall m, In m (x_pending s) -> within (x_range m) r0
    /\ exists f n, summary (tr (negb (x_to m))) (x_range m) = Ok (f, n) /\ x_fp m = finalise f;
  g_covered : forall p, in_range3d r0 p -> one_only tA tB p ->
    (exists m, In m (x_pending s) /\ in_range3d (x_range m) p)
    \/ (exists a r, In (a, r) (x_announced s) /\ in_range3d r p);
  g_announced : forall a r, In (a, r) (x_announced s) -> within r r0 }.

(** Every message gets an answer, and what the answer is. *)
Lemma respond_ok to r fp c : within r r0 ->
  (exists f n, summary (tr (negb to)) r = Ok (f, n) /\ fp = finalise f) ->
  exists a, respond (tr to) r fp c = Ok a /\
    match a with
    | Nothing => forall p, in_range3d r p -> ~ one_only tA tB p
    | Announce r' => r' = r
    | Split l fl rr fr _ =>
        SplitRange (tr to) r = Ok (l, rr) /\ 8 < len (query (tr to) r)
        /\ (exists f n, summary (tr to) l = Ok (f, n) /\ fl = finalise f)
        /\ (exists f n, summary (tr to) rr = Ok (f, n) /\ fr = finalise f)
    end.
Proof.
  intros HW (f & n & Es & ->). destruct (tr_counts to r) as (g & Eg).
  unfold respond, Respond_with. fold tr. rewrite Eg. cbn [bind fst snd].
  destruct (isEqual (finalise f) (finalise g)) eqn:EQ.
  - eexists. split; [reflexivity|]. cbn. intros p Hp.
    pose proof (tr_separates to r f n g (len (query (tr to) r)) Es Eg EQ p Hp) as H.
    unfold one_only. destruct to; cbn in H; tauto.
  - destruct (N.leb_spec (len (query (tr to) r)) SEND_ENTRIES_THRESHOLD) as [HL|HL].
    + eexists. split; [reflexivity|]. reflexivity.
    + unfold SEND_ENTRIES_THRESHOLD in HL.
      assert (HN : exists x, In x (query (tr to) r)).
      { destruct (query (tr to) r) as [|x q]; [cbn in HL; lia|]. exists x; left; auto. }
      destruct HN as (x & Hx). apply query_In in Hx as [Hx1 Hx2].
      destruct (SplitRange_total _ _ _ Hx1 Hx2) as ([l rr] & ES). rewrite ES. cbn [bind fst snd].
      destruct (tr_counts to l) as (fl & El). destruct (tr_counts to rr) as (fr & Er).
      rewrite El. cbn [bind fst snd]. rewrite Er. cbn [bind fst snd].
      eexists. split; [reflexivity|]. repeat split; eauto.
Qed.

Lemma step_good s s' : good s -> xstep respond tA tB s s' ->
  good s' /\ (total (x_pending s') < total (x_pending s))%nat.
Proof.
  intros HG HS. destruct HS as [pre to r fp post ann c a E]. fold tr in E.
  destruct (g_pending _ HG (XMsg to r fp)) as (HW & HF); [cbn; apply in_or_app; right; left; auto|].
  cbn [x_range x_fp x_to] in *. destruct (respond_ok to r fp c HW HF) as (a' & E' & HA).
  rewrite E in E'. injection E' as <-. split.
  - split; cbn [x_pending x_announced].
    + intros m Hm. rewrite !in_app_iff in Hm. destruct Hm as [Hm|[Hm|Hm]];
        [apply (g_pending _ HG); cbn; apply in_or_app; auto
        |apply (g_pending _ HG); cbn; apply in_or_app; right; right; auto|].
      destruct a as [| |l fl rr fr ?]; cbn in Hm; [contradiction|contradiction|].
      destruct HA as (ES & _ & H1 & H2).
      assert (HP := fun p => C38_split_partition _ _ _ _ p ES).
      destruct Hm as [<-|[<-|[]]]; cbn [x_range x_to x_fp]; rewrite negb_involutive; (split; [|auto]);
        intros p Hp; apply HW, HP; auto.
    + intros p Hp Hd. destruct (g_covered _ HG p Hp Hd) as [(m & Hm & Hr)|(b & r' & Hb & Hr)];
        [|right; exists b, r'; split; auto; apply in_or_app; auto].
      cbn in Hm. rewrite in_app_iff in Hm. destruct Hm as [Hm|[<-|Hm]];
        [left; exists m; split; auto; apply in_or_app; auto| |left; exists m; split; auto; rewrite !in_app_iff; auto].
      cbn [x_range] in Hr. destruct a as [|r'|l fl rr fr ?]; cbn in HA.
      * exfalso. eapply HA; eauto.
      * right. subst r'. exists to, r. split; auto. apply in_or_app. right. left. auto.
      * destruct HA as (ES & _). apply (C38_split_partition _ _ _ _ p ES) in Hr as [Hr|Hr];
          left; [exists (XMsg (negb to) l fl)|exists (XMsg (negb to) rr fr)]; (split; [|exact Hr]);
          rewrite !in_app_iff; right; right; cbn; auto.
    + intros b r' Hb. apply in_app_or in Hb as [Hb|Hb]; [eapply (g_announced _ HG); eauto|].
      destruct a as [|r''|]; cbn in Hb; try contradiction. destruct Hb as [[= <- <-]|[]]. subst. auto.
  - cbn [x_pending]. rewrite !total_app. cbn [total fold_right x_range]. fold (total post).
    enough (total (replies to a) < weight r)%nat by lia.
    destruct a as [|r'|l fl rr fr ?]; cbn [replies total fold_right x_range]; [unfold weight; lia|unfold weight; lia|].
    destruct HA as (ES & HL & _).
    destruct (split_both _ _ _ _ ES (ties_within _ _ (tr_ties to) HW) HL) as [P1 P2].
    pose proof (split_sum _ tA _ _ _ ES) as SA. pose proof (split_sum _ tB _ _ _ ES) as SB.
    unfold weight, size. unfold tr, tree_of in P1, P2. destruct to; cbv iota in P1, P2; lia.
Qed.

Lemma steps_good k s s' : good s -> xsteps respond tA tB k s s' ->
  good s' /\ (k + total (x_pending s') <= total (x_pending s))%nat.
Proof.
  intros HG HS. induction HS as [s|k s1 s2 s3 HS IH H1]; [split; auto; lia|].
  destruct (IH HG) as [G2 L2]. destruct (step_good _ _ G2 H1) as [G3 L3]. split; auto. lia.
Qed.
End Good.

(** With a summary that works and few tied timestamps: the exchange over a range,
    with messages delivered in any order, ends after at most twice as many steps
    as there are entries; every message is answered; and when none is in flight,
    every entry that one peer lacks is in a range that was announced.

    Missing: the summary of the code does not separate anything, and ties occur
    (see the refutations below). *)
Theorem C52_covered_partial summary finalise isEqual (tA tB : list node) (r0 : range3d) (a : bool) f n k s :
  counts summary tA -> counts summary tB ->
  separates summary finalise isEqual tA tB -> separates summary finalise isEqual tB tA ->
  few_ties tA r0 -> few_ties tB r0 ->
  summary (if a then tA else tB) r0 = Ok (f, n) ->
  xsteps (Respond_with summary finalise isEqual) tA tB k (XState [XMsg (negb a) r0 (finalise f)] []) s ->
  N.of_nat k <= N.max 1 (2 * (len (query tA r0) + len (query tB r0)))
  /\ (forall pre m post, x_pending s = pre ++ m :: post ->
        exists s', xstep (Respond_with summary finalise isEqual) tA tB s s'
          /\ exists new, x_pending s' = pre ++ post ++ new)
  /\ (x_pending s = [] -> forall p, in_range3d r0 p -> (holds tA p /\ ~ holds tB p) \/ (holds tB p /\ ~ holds tA p) ->
        exists b r, In (b, r) (x_announced s) /\ in_range3d r p)
  /\ (forall b r p, In (b, r) (x_announced s) -> in_range3d r p -> in_range3d r0 p).
Proof.
  intros CA CB SAB SBA TA TB Es HS.
  assert (G0 : good summary finalise tA tB r0 (XState [XMsg (negb a) r0 (finalise f)] [])).
  { split; cbn [x_pending x_announced].
    - intros m [<-|[]]. cbn [x_range x_to x_fp]. split; [intros p; auto|]. rewrite negb_involutive.
      exists f, n. split; auto.
    - intros p Hp _. left. exists (XMsg (negb a) r0 (finalise f)). split; [left; auto|auto].
    - intros ? ? []. }
  destruct (steps_good summary finalise isEqual tA tB r0 CA CB SAB SBA TA TB k _ _ G0 HS) as [G1 L].
  split; [|split; [|split]].
  - cbn [x_pending total fold_right x_range] in L. unfold weight, size in L. unfold len. lia.
  - intros pre [to r fp] post E. destruct s as [pend ann]. cbn in E. subst.
    destruct (g_pending _ _ _ _ _ _ G1 (XMsg to r fp)) as (HW & HF); [cbn; apply in_or_app; right; left; auto|].
    destruct (respond_ok summary finalise isEqual tA tB r0 CA CB SAB SBA to r fp 0 HW HF) as (x & E & _).
    eexists. split; [apply XStep with (counter := 0); exact E|]. cbn [x_pending]. eauto.
  - intros E p Hp Hd. destruct (g_covered _ _ _ _ _ _ G1 p Hp) as [(m & Hm & _)|H].
    + exact Hd.
    + rewrite E in Hm. destruct Hm.
    + exact H.
  - intros b r p Hb Hp. eapply (g_announced _ _ _ _ _ _ G1); eauto.
Qed.
Print Assumptions C52_covered_partial.

(** Running an exchange in order, for the instances. *)
Definition xnext (respond : list node -> range3d -> bytes -> N -> res answer) (tA tB : list node) (s : xstate) : option xstate :=
  match x_pending s with
  | [] => None
  | m :: post =>
      match respond (tree_of tA tB (x_to m)) (x_range m) (x_fp m) 0 with
      | Ok a => Some (XState (post ++ replies (x_to m) a) (x_announced s ++ announces (x_to m) a))
      | _ => None
      end
  end.
Lemma xnext_step respond tA tB s s' : xnext respond tA tB s = Some s' -> xstep respond tA tB s s'.
Proof.
  unfold xnext. destruct s as [[|[to r fp] post] ann]; cbn [x_pending x_to x_range x_fp x_announced]; [discriminate|].
  destruct (respond _ _ _ _) as [a| | | |] eqn:E; try discriminate. intros [= <-].
  apply (XStep respond tA tB [] to r fp post ann 0 a E).
Qed.

(** A summary that works: the timestamps, on stores in which a timestamp
    determines the entry. *)
Definition times_summary (t : list node) (r : range3d) : res (bytes * N) := Ok (map n_time (query t r), len (query t r)).
Definition timed (n : node) : bool := beqb (n_sub n) [115] && peqb (n_path n) [[97; n_time n]].
Lemma times_separate t1 t2 : forallb timed t1 = true -> forallb timed t2 = true ->
  separates times_summary (fun f => f) beqb t1 t2.
Proof.
  intros H1 H2. rewrite forallb_forall in H1, H2.
  assert (HP : forall n, timed n = true -> node_pos n = Position [115] [[97; n_time n]] (n_time n)).
  { intros n. unfold timed, node_pos. rewrite andb_true_iff.
    destruct (beqb_spec (n_sub n) [115]) as [->|]; [|intros [? _]; discriminate].
    destruct (peqb_spec (n_path n) [[97; n_time n]]) as [->|]; [|intros [_ ?]; discriminate]. reflexivity. }
  assert (HH : forall ta tb r, (forall n, In n ta -> timed n = true) -> (forall n, In n tb -> timed n = true) ->
    map n_time (query ta r) = map n_time (query tb r) -> forall p, in_range3d r p -> holds ta p -> holds tb p).
  { intros ta tb r Ha Hb E p Hp (n & Hn & <-).
    assert (Hq : In (n_time n) (map n_time (query ta r))) by (apply in_map, query_In; auto).
    rewrite E in Hq. apply in_map_iff in Hq as (m & Em & Hm). apply query_In in Hm as [Hm _].
    exists m. split; auto. rewrite (HP n), (HP m), Em; auto. }
  intros r f1 n1 f2 n2 E1 E2 EQ p Hp. injection E1 as <- <-. injection E2 as <- <-.
  destruct (beqb_spec (map n_time (query t1 r)) (map n_time (query t2 r))) as [E|]; [|discriminate].
  split; eapply HH; eauto.
Qed.

Definition timed_sets (times : list N) : list op := map (fun i => demo_set [[97; i]] [i] i) times.
Definition everything : range3d := Range3d (Range [] [] true) (Range [] [] true) (Range 0 0 true).

Example C52_instance_covered :
  let tA := tree (after_ops (timed_sets [1;2;3;4;5;6;7;8;9;10])) in
  let tB := tree (after_ops (timed_sets [1;2;3;4;5;6;7;8;9;11])) in
  reached demo small (timed_sets [1;2;3;4;5;6;7;8;9;10]) (after_ops (timed_sets [1;2;3;4;5;6;7;8;9;10]))
  /\ reached demo small (timed_sets [1;2;3;4;5;6;7;8;9;11]) (after_ops (timed_sets [1;2;3;4;5;6;7;8;9;11]))
  /\ counts times_summary tA /\ counts times_summary tB
  /\ separates times_summary (fun f => f) beqb tA tB /\ separates times_summary (fun f => f) beqb tB tA
  /\ few_ties tA everything /\ few_ties tB everything
  /\ exists s, xsteps (Respond_with times_summary (fun f => f) beqb) tA tB 3
       (XState [XMsg false everything (map n_time (query tA everything))] []) s
     /\ x_pending s = [] /\ map fst (x_announced s) = [true].
Proof.
  cbv zeta.
  split; [split; [apply demo_history; vm_compute; reflexivity|vm_compute; reflexivity]|].
  split; [split; [apply demo_history; vm_compute; reflexivity|vm_compute; reflexivity]|].
  split; [intros r; eexists; reflexivity|]. split; [intros r; eexists; reflexivity|].
  split; [apply times_separate; vm_compute; reflexivity|]. split; [apply times_separate; vm_compute; reflexivity|].
  assert (HT : forall t, NoDup (map n_time t) -> few_ties t everything).
  { intros t ND m. assert (HL : (length (filter (fun n => (n_time n =? m)%N) (query t everything)) <= 1)%nat).
    { unfold query. rewrite filter_filter. induction t as [|x t IH]; cbn [filter length]; [lia|].
      cbn [map] in ND. apply NoDup_cons_iff in ND as [N1 N2].
      destruct (N.eqb_spec (n_time x) m) as [E|E]; [|apply IH; auto].
      destruct (IsIncluded3d _ _ _); [|apply IH; auto]. cbn [andb]. rewrite filter_none; [cbn; lia|].
      intros y Hy. destruct (N.eqb_spec (n_time y) m) as [E'|]; [|reflexivity]. exfalso. apply N1. rewrite E, <- E'.
      apply in_map; auto. }
    unfold len. lia. }
  assert (ND : forall l, (forallb (fun i => (length (filter (N.eqb i) l) =? 1)%nat) l) = true -> NoDup l).
  { intros l. rewrite forallb_forall. intros H. apply (NoDup_count_occ' N.eq_dec). intros x Hx.
    specialize (H x Hx). apply Nat.eqb_eq in H. rewrite <- H. clear.
    induction l as [|y l IH]; cbn; auto. destruct (N.eq_dec y x), (N.eqb_spec x y); try congruence; cbn; auto. }
  split; [apply HT, ND; vm_compute; reflexivity|]. split; [apply HT, ND; vm_compute; reflexivity|].
  eexists. split.
  - eapply xs_step; [eapply xs_step; [eapply xs_step; [apply xs_refl|]|]|].
    all: apply xnext_step; vm_compute; reflexivity.
  - split; reflexivity.
Qed.

(** With the summary of the code nothing is ever announced, whatever the two
    stores hold (stores that have not been reopened): the fingerprint sent is
    empty and every store finds it equal to its own. *)
Theorem C52_nothing_refuted C U opsA opsB stA stB r (a : bool) k s :
  reached C U opsA stA -> ~ In OpReopen opsA -> len (tree stA) < 2 ^ 64 ->
  reached C U opsB stB -> ~ In OpReopen opsB -> len (tree stB) < 2 ^ 64 ->
  exists f n, Summarise (if a then tree stA else tree stB) r = Ok (f, n)
    /\ (xsteps Respond (tree stA) (tree stB) k (XState [XMsg (negb a) r f] []) s ->
        (k <= 1)%nat /\ x_announced s = []).
Proof.
  intros RA NA LA RB NB LB.
  assert (HA : forall b, exists n, Summarise (tree_of (tree stA) (tree stB) b) r = Ok ([], n)).
  { intros [|]; cbn [tree_of].
    - destruct (C38_count_partial C U opsA stA r RA NA LA) as (xs & E & _). eauto.
    - destruct (C38_count_partial C U opsB stB r RB NB LB) as (xs & E & _). eauto. }
  destruct (HA a) as (n & E). exists [], n. split; [exact E|]. clear E. intros HS.
  assert (HR : forall b c, Respond (tree_of (tree stA) (tree stB) b) r [] c = Ok Nothing).
  { intros b c. destruct (HA b) as (m & E). unfold Respond, Respond_with. rewrite E. reflexivity. }
  assert (H : (k = 0%nat /\ s = XState [XMsg (negb a) r []] []) \/ (k = 1%nat /\ s = XState [] [])).
  { remember (XState [XMsg (negb a) r []] []) as s0 eqn:E0.
    induction HS as [s1|k s1 s2 s3 HS IH H1]; [left; auto|]. destruct (IH E0) as [[-> ->]|[-> ->]].
    - right. split; auto. subst s1. inversion H1 as [pre to r' fp post ann c x E EP]. destruct pre as [|? [|? ?]]; cbn in EP; try discriminate.
      injection EP as E1 E2 E3 E4. subst. rewrite HR in E. injection E as <-. reflexivity.
    - exfalso. inversion H1 as [pre to r' fp post ann c x E EP]. destruct pre; discriminate. }
  destruct H as [[-> ->]|[-> ->]]; split; auto.
Qed.
Print Assumptions C52_nothing_refuted.

Example C52_instance_nothing :
  exists e, live demo (after_ops [demo_set [[97]] [1] 5]) e /\ ~ live demo (after_ops [demo_set [[98]] [2] 6]) e
    /\ in_range3d everything (pos_of e)
    /\ reached demo small [demo_set [[97]] [1] 5] (after_ops [demo_set [[97]] [1] 5])
    /\ reached demo small [demo_set [[98]] [2] 6] (after_ops [demo_set [[98]] [2] 6])
    /\ exists s, xsteps Respond (tree (after_ops [demo_set [[97]] [1] 5])) (tree (after_ops [demo_set [[98]] [2] 6])) 1
         (XState [XMsg false everything []] []) s /\ s = XState [] [].
Proof.
  exists (demo_e [[97]] [1] 5). rewrite <- !liveb_spec. split; [vm_compute; reflexivity|]. split; [vm_compute; discriminate|].
  split; [apply IsIncluded3d_spec; vm_compute; reflexivity|].
  split; [split; [apply demo_history; vm_compute; reflexivity|vm_compute; reflexivity]|].
  split; [split; [apply demo_history; vm_compute; reflexivity|vm_compute; reflexivity]|].
  eexists. split; [eapply xs_step; [apply xs_refl|apply xnext_step; vm_compute; reflexivity]|reflexivity].
Qed.

(** After a restart, answering a fingerprint of a range with entries ends the
    process. *)
Theorem C52_restart_refuted :
  exists ops st r, reached demo small ops st /\ forall fp c, Respond (tree st) r fp c = Fatal.
Proof.
  exists [demo_set [[97]] [1] 5; OpReopen], (after_ops [demo_set [[97]] [1] 5; OpReopen]), everything.
  split; [split; [apply demo_history; vm_compute; reflexivity|vm_compute; reflexivity]|]. intros fp c.
  unfold Respond, Respond_with.
  replace (Summarise (tree (after_ops [demo_set [[97]] [1] 5; OpReopen])) everything) with (@Fatal (bytes * N))
    by (vm_compute; reflexivity). reflexivity.
Qed.
Print Assumptions C52_restart_refuted.

(** ** Ties: with any summary that works, two stores of nine entries of the same
    timestamp exchange fingerprints forever and no entry is ever announced. *)
Definition tied_sets (x : N) : list op := map (fun i => demo_set [[x; i]] [x; i] 5) [1;2;3;4;5;6;7;8;9].
Definition from5 : range3d := Range3d (Range [] [] true) (Range [] [] true) (Range 5 0 true).
Definition nothing5 : range3d := Range3d (Range [] [] true) (Range [] [] true) (Range 5 5 false).

Lemma nothing5_empty p : ~ in_range3d nothing5 p.
Proof. intros (_ & _ & A & [B|B]); cbn in *; [discriminate|]. lia. Qed.

Theorem C52_ties_refuted :
  exists opsA opsB stA stB r, reached demo small opsA stA /\ reached demo small opsB stB /\
    (exists p, in_range3d r p /\ holds (tree stA) p /\ ~ holds (tree stB) p) /\
    forall summary finalise isEqual,
      counts summary (tree stA) -> counts summary (tree stB) ->
      separates summary finalise isEqual (tree stA) (tree stB) -> separates summary finalise isEqual (tree stB) (tree stA) ->
      forall f n k s, summary (tree stA) r = Ok (f, n) ->
      xsteps (Respond_with summary finalise isEqual) (tree stA) (tree stB) k (XState [XMsg false r (finalise f)] []) s ->
      (exists s', xstep (Respond_with summary finalise isEqual) (tree stA) (tree stB) s s')
      /\ forall b r' p, In (b, r') (x_announced s) -> ~ in_range3d r' p.
Proof.
  set (A := after_ops (tied_sets 97)). set (B := after_ops (tied_sets 98)).
  exists (tied_sets 97), (tied_sets 98), A, B, from5.
  split; [split; [apply demo_history; vm_compute; reflexivity|vm_compute; reflexivity]|].
  split; [split; [apply demo_history; vm_compute; reflexivity|vm_compute; reflexivity]|].
  assert (HP : forall t, (t = tree A \/ t = tree B) ->
    SplitRange t from5 = Ok (nothing5, from5) /\ len (query t from5) = 9).
  { intros t [->| ->]; vm_compute; auto. }
  assert (HD : holds (tree A) (Position [115] [[97; 1]] 5) /\ ~ holds (tree B) (Position [115] [[97; 1]] 5)).
  { split.
    - assert (HX : existsb (fun n => beqb (n_sub n) [115] && peqb (n_path n) [[97; 1]] && (n_time n =? 5)) (tree A) = true)
        by (vm_compute; reflexivity).
      clearbody A B. apply existsb_exists in HX as (n & Hn & HX). exists n. split; [exact Hn|]. rewrite !andb_true_iff, N.eqb_eq in HX.
      destruct HX as [[H1 H2] H3]. destruct (beqb_spec (n_sub n) [115]); [|discriminate].
      destruct (peqb_spec (n_path n) [[97; 1]]); [|discriminate]. unfold node_pos. congruence.
    - intros (n & Hn & E).
      assert (HX : forallb (fun n => negb (peqb (n_path n) [[97; 1]])) (tree B) = true) by (vm_compute; reflexivity).
      clearbody A B. rewrite forallb_forall in HX. specialize (HX n Hn). unfold node_pos in E. injection E as _ E _.
      rewrite E in HX. discriminate. }
  clearbody A B.
  assert (HI : in_range3d from5 (Position [115] [[97; 1]] 5)) by (apply IsIncluded3d_spec; vm_compute; reflexivity).
  split; [exists (Position [115] [[97; 1]] 5); tauto|].
  intros summary finalise isEqual CA CB SAB SBA f n k s Ef HS.
  destruct (CB from5) as (g & Eg).
  set (fp_of := fun b : bool => finalise (if b then f else g)).
  assert (HR : forall b c, exists fl, Respond_with summary finalise isEqual (tree_of (tree A) (tree B) b) from5 (fp_of (negb b)) c
    = Ok (Split nothing5 fl from5 (fp_of b) c)).
  { intros b c. destruct (HP (tree_of (tree A) (tree B) b)) as [ES EN]; [destruct b; auto|].
    assert (ESum : summary (tree_of (tree A) (tree B) b) from5 = Ok (if b then f else g, len (query (tree_of (tree A) (tree B) b) from5))).
    { destruct b; cbn [tree_of]; auto. destruct (CA from5) as (f' & Ef'). rewrite Ef in Ef'. injection Ef' as <- ->. auto. }
    assert (HE : isEqual (fp_of (negb b)) (finalise (if b then f else g)) = false).
    { destruct (isEqual _ _) eqn:EQ; auto. exfalso. unfold fp_of in EQ. destruct b; cbn [negb] in EQ.
      - pose proof (SBA from5 _ _ _ _ Eg Ef EQ _ HI). tauto.
      - pose proof (SAB from5 _ _ _ _ Ef Eg EQ _ HI). tauto. }
    unfold Respond_with. rewrite ESum. cbn [bind fst snd]. rewrite HE, EN. cbn [N.leb N.compare SEND_ENTRIES_THRESHOLD].
    change (9 <=? SEND_ENTRIES_THRESHOLD) with false. cbv iota. rewrite ES. cbn [bind fst snd].
    assert (CC : counts summary (tree_of (tree A) (tree B) b)) by (destruct b; auto).
    destruct (CC nothing5) as (fl & El). rewrite El. cbn [bind fst snd]. rewrite ESum. cbn [bind fst snd].
    eexists. reflexivity. }
  assert (HE : forall b fp c a, Respond_with summary finalise isEqual (tree_of (tree A) (tree B) b) nothing5 fp c = Ok a ->
    a = Nothing \/ a = Announce nothing5).
  { intros b fp c a. assert (CC : counts summary (tree_of (tree A) (tree B) b)) by (destruct b; auto).
    destruct (CC nothing5) as (fl & El). unfold Respond_with. rewrite El. cbn [bind fst snd].
    destruct (isEqual _ _); [intros [= <-]; auto|].
    replace (query (tree_of (tree A) (tree B) b) nothing5) with (@nil node).
    - intros [= <-]; auto.
    - symmetry. apply filter_none. intros m _. apply inb_false, nothing5_empty. }
  assert (INV : (forall m, In m (x_pending s) -> x_range m = nothing5 \/ (x_range m = from5 /\ x_fp m = fp_of (negb (x_to m))))
    /\ (exists m, In m (x_pending s) /\ x_range m = from5)
    /\ forall b r', In (b, r') (x_announced s) -> r' = nothing5).
  { remember (XState [XMsg false from5 (finalise f)] []) as s0 eqn:E0.
    induction HS as [s1|k s1 s2 s3 HS IH H1].
    - subst. split; [intros m [<-|[]]; right; auto|]. split; [|intros ? ? []].
      exists (XMsg false from5 (finalise f)). split; [left|]; auto.
    - destruct (IH E0) as (I1 & (m0 & I2 & I3) & I4). clear IH HS.
      destruct H1 as [pre to r' fp post ann c a E].
      cbn [x_pending x_announced] in *.
      destruct (I1 (XMsg to r' fp)) as [Er|[Er Efp]]; [apply in_or_app; right; left; auto| |]; cbn [x_range x_fp x_to] in *; subst.
      + apply HE in E. assert (replies to a = [] /\ forall b r', In (b, r') (announces to a) -> r' = nothing5) as [-> HA].
        { destruct E as [->| ->]; split; auto; cbn; [intros ? ? []|]. intros b r' [[= <- <-]|[]]; auto. }
        rewrite app_nil_r. split; [|split].
        * intros m Hm. apply I1. apply in_app_or in Hm. apply in_or_app. destruct Hm; auto. right; right; auto.
        * exists m0. split; auto. apply in_app_or in I2. apply in_or_app.
          destruct I2 as [|[<-|]]; auto. cbn in I3. discriminate.
        * intros b r' Hb. apply in_app_or in Hb as [Hb|Hb]; eauto.
      + destruct (HR to c) as (fl & E'). rewrite E in E'. injection E' as ->. cbn [replies announces]. rewrite app_nil_r.
        split; [|split; auto].
        * intros m Hm. rewrite !in_app_iff in Hm. destruct Hm as [Hm|[Hm|[<-|[<-|[]]]]]; cbn [x_range x_fp x_to]; auto;
            [apply I1, in_or_app; auto|apply I1, in_or_app; right; right; auto|].
          right. split; auto. rewrite negb_involutive. auto.
        * exists (XMsg (negb to) from5 (fp_of to)). split; auto. rewrite !in_app_iff. right. right. right. left. auto. }
  destruct INV as (I1 & (m & I2 & I3) & I4). split.
  - destruct s as [pend ann]. cbn [x_pending x_announced] in *. apply in_split in I2 as (pre & post & ->).
    destruct m as [to r' fp]. cbn in I3. subst r'.
    destruct (I1 (XMsg to from5 fp)) as [Er|[_ Efp]]; [apply in_or_app; right; left; auto|discriminate|].
    cbn in Efp. subst fp. destruct (HR to 0) as (fl & E). eexists. apply XStep with (counter := 0). exact E.
  - intros b r' p Hb. rewrite (I4 b r' Hb). apply nothing5_empty.
Qed.
Print Assumptions C52_ties_refuted.

(** ** The messenger *)

(** The acceptor answers with nothing, or panics, or stops where the store does: it panics
    whenever it has ranges to send back, or entries whose payloads it can look for. *)
Theorem C52_acceptor C gob_entry gob_range r fp st :
  match Respond (tree st) r fp 0 with
  | Ok Nothing => HandleMsgReconciliationAcceptor C gob_entry gob_range r fp st = (Ok [], st)
  | Ok (Split _ _ _ _ _) => HandleMsgReconciliationAcceptor C gob_entry gob_range r fp st = (Panic, st)
  | Ok (Announce r') =>
      match driver_Query C r' st with
      | (Ok [], st1) => HandleMsgReconciliationAcceptor C gob_entry gob_range r fp st = (Ok [], st1)
      | (Ok ((e, _) :: _), st1) =>
          fst (GetPayload C (EntryPosition e) st1) = Err \/ (exists b, fst (GetPayload C (EntryPosition e) st1) = Ok b) ->
          HandleMsgReconciliationAcceptor C gob_entry gob_range r fp st = (Panic, snd (GetPayload C (EntryPosition e) st1))
      | (Err, st1) | (Fatal, st1) => HandleMsgReconciliationAcceptor C gob_entry gob_range r fp st = (Fatal, st1)
      | (Panic, st1) => HandleMsgReconciliationAcceptor C gob_entry gob_range r fp st = (Panic, st1)
      | (Hang, st1) => HandleMsgReconciliationAcceptor C gob_entry gob_range r fp st = (Hang, st1)
      end
  | Err => HandleMsgReconciliationAcceptor C gob_entry gob_range r fp st = (Err, st)
  | Panic => HandleMsgReconciliationAcceptor C gob_entry gob_range r fp st = (Panic, st)
  | Fatal => HandleMsgReconciliationAcceptor C gob_entry gob_range r fp st = (Fatal, st)
  | Hang => HandleMsgReconciliationAcceptor C gob_entry gob_range r fp st = (Hang, st)
  end.
Proof.
  unfold HandleMsgReconciliationAcceptor, bindM, gets, lift, ret. cbv beta iota.
  destruct (Respond (tree st) r fp 0) as [[| |]| | | |]; auto.
  - destruct (driver_Query C r0 st) as [[[|[e t] xs]| | | |] s2]; auto.
    cbn [send_entries]. unfold bindM, lift. destruct (GetPayload C (EntryPosition e) s2) as [[b| | | |] s3]; cbn [fst snd];
      intros [H|[b' H]]; try discriminate H; reflexivity.
Qed.
Print Assumptions C52_acceptor.

(** The acceptor never sends anything: writing the length into a nil slice
    panics. *)
Theorem C52_acceptor_refuted C gob_entry gob_range r fp st out st' :
  HandleMsgReconciliationAcceptor C gob_entry gob_range r fp st = (Ok out, st') -> out = [].
Proof.
  assert (HS : forall xs s o s', send_entries C gob_entry xs s = (Ok o, s') -> o = []).
  { intros [|[e t] xs] s o s'; cbn [send_entries]; unfold ret; [intros [= <- _]; auto|].
    unfold bindM, lift. destruct (GetPayload C (EntryPosition e) s) as [[b| | | |] s2]; discriminate. }
  unfold HandleMsgReconciliationAcceptor, bindM, gets, lift, ret.
  destruct (Respond (tree st) r fp 0) as [[| |]| | | |]; try discriminate.
  - intros [= <- _]. auto.
  - destruct (driver_Query C r0 st) as [[xs| | | |] s2]; try discriminate. apply HS.
Qed.
Print Assumptions C52_acceptor_refuted.

(** It panics as soon as there is an entry to send. *)
Example C52_instance_acceptor :
  fst (HandleMsgReconciliationAcceptor demo (fun _ _ => []) (fun _ => []) everything [1] (after_ops [demo_set [[97]] [1] 5])) = Panic
  /\ fst (HandleMsgReconciliationAcceptor demo (fun _ _ => []) (fun _ => []) everything [] (after_ops [demo_set [[97]] [1] 5])) = Ok [].
Proof. split; vm_compute; reflexivity. Qed.

(** The initiator sends nothing about its entries: whatever the store holds and
    whichever the range is, the same bytes go out. *)
Theorem C52_initiator_refuted gob_type t1 r1 t2 r2 q q1 q2 :
  HandleMsgReconciliationInitiator gob_type t1 r1 q = Ok q1 ->
  HandleMsgReconciliationInitiator gob_type t2 r2 q = Ok q2 -> q1 = q2.
Proof.
  unfold HandleMsgReconciliationInitiator, EncodeSummary.
  destruct (Summarise t1 r1); cbn [bind]; try discriminate. destruct (Summarise t2 r2); cbn [bind]; try discriminate. congruence.
Qed.
Print Assumptions C52_initiator_refuted.

Example C52_instance_initiator :
  HandleMsgReconciliationInitiator [7; 7] (tree (after_ops [demo_set [[97]] [1] 5])) everything (Initiate NewQuicTransport)
  = HandleMsgReconciliationInitiator [7; 7] [] everything (Initiate NewQuicTransport)
  /\ exists q, HandleMsgReconciliationInitiator [7; 7] [] everything (Initiate NewQuicTransport) = Ok q.
Proof. split; [vm_compute; reflexivity|]. eexists. vm_compute. reflexivity. Qed.

(** ** Starting *)

(** When NewReconciler returns for Alfie, the queued fingerprint is the summary
    of exactly the positions common to the two ranges. *)
Theorem C52_start pp t ours theirs x :
  NewReconciler pp t true ours theirs = Ok x ->
  exists r1 r2 r f n, x = Some (r, f) /\ Summarise t r = Ok (f, n)
    /\ AreaOfInterestToRange pp ours = Ok r1 /\ AreaOfInterestToRange pp theirs = Ok r2
    /\ forall p, in_range3d r p <-> in_range3d r1 p /\ in_range3d r2 p.
Proof.
  unfold NewReconciler. destruct (AreaOfInterestToRange pp ours) as [r1| | | |]; cbn [bind]; try discriminate.
  destruct (AreaOfInterestToRange pp theirs) as [r2| | | |]; cbn [bind]; try discriminate.
  pose proof (IntersectRange3d_spec r1 r2) as H. destruct (IntersectRange3d OrderSubspace r1 r2) as [r|]; [|discriminate].
  destruct (Summarise t r) as [[f n]| | | |] eqn:E; cbn [bind]; try discriminate. intros [= <-].
  exists r1, r2, r, f, n. auto.
Qed.
Print Assumptions C52_start.

Definition aoi_of (p : path) : area_of_interest := AOI (Area [115] p (Range 0 0 true) false) 0 0.

Example C52_instance_start :
  exists r, NewReconciler shipped_params (tree (after_ops [demo_set [[97]] [1] 5])) true (aoi_of [[97]]) (aoi_of [[97]; [98]])
    = Ok (Some (r, [])).
Proof. eexists. vm_compute. reflexivity. Qed.

(** It never returns when the two ranges have nothing in common. *)
Theorem C52_start_refuted :
  exists ours theirs, forall t, NewReconciler shipped_params t true ours theirs = Hang.
Proof. exists (aoi_of [[97]]), (aoi_of [[99]]). intros t. vm_compute. reflexivity. Qed.
Print Assumptions C52_start_refuted.
