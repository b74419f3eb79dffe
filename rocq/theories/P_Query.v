(** Proofs about M_Query and M_KdTree. *)
From Coq Require Import Sorting.Permutation.
From Verif Require Import Base M_Order M_Encoding M_Paths M_Successor M_Ranges M_Areas M_Keys M_Entry M_Map M_Store
  M_Query M_KdTree S_Order S_Store S_Query P_Order P_Encoding P_Paths P_Ranges P_Successor P_Areas P_Keys P_Map
  P_Store P_History.
Local Open Scope N_scope.

(** ** The k-d tree *)

Lemma dim_cases (d : nat) : (d < 3)%nat -> d = 0%nat \/ d = 1%nat \/ d = 2%nat.
Proof. lia. Qed.

Lemma coord_trichotomy d a b :
  (order_dim a b d = -1 /\ coord_lt d a b)%Z \/ (order_dim a b d = 0 /\ coord_eq d a b)%Z
  \/ (order_dim a b d = 1 /\ coord_lt d b a)%Z.
Proof.
  destruct d as [|[|d]]; cbn [order_dim coord_lt coord_eq].
  - apply OrderTimestamp_total.
  - apply OrderBytes_total.
  - apply OrderPath_total.
Qed.

Lemma coord_irrefl d a b : coord_eq d a b -> ~ coord_lt d a b /\ ~ coord_lt d b a.
Proof.
  destruct d as [|[|d]]; cbn; intros ->.
  - split; apply N.lt_irrefl.
  - split; apply OrderBytes_total.
  - split; apply OrderPath_total.
Qed.

Lemma Key_Order_decides d : (d < 3)%nat -> forall a b,
  (Key_Order a b d = -1 /\ cyclic_lt d a b)%Z \/ (Key_Order a b d = 0 /\ node_pos a = node_pos b)%Z
  \/ (Key_Order a b d = 1 /\ cyclic_lt d b a)%Z.
Proof.
  intros Hd a b. unfold Key_Order, cyclic_lt. cbn [order_loop].
  change (Nat.modulo (d + 1) 3) with (next d). change (Nat.modulo (next d + 1) 3) with (next (next d)).
  assert (SY : forall e, coord_eq e a b -> coord_eq e b a) by (intros [|[|]]; cbn; auto).
  destruct (coord_trichotomy d a b) as [[-> H1]|[[-> H1]|[-> H1]]]; cbn [Z.eqb Pos.eqb].
  { left. auto. }
  2:{ right; right. auto. }
  pose proof (SY _ H1) as H1'.
  destruct (coord_trichotomy (next d) a b) as [[-> H2]|[[-> H2]|[-> H2]]]; cbn [Z.eqb Pos.eqb].
  { left. auto 6. }
  2:{ right; right. auto 6. }
  pose proof (SY _ H2) as H2'.
  destruct (coord_trichotomy (next (next d)) a b) as [[-> H3]|[[-> H3]|[-> H3]]]; cbn [Z.eqb Pos.eqb].
  { left. auto 8. }
  2:{ right; right. auto 8. }
  right; left. split; auto. unfold node_pos.
  destruct (dim_cases d Hd) as [->|[->| ->]]; cbn in H1, H2, H3; congruence.
Qed.

(** Not before in the cyclic order: not before in the leading coordinate. *)
Lemma cyclic_coord d a b : ~ cyclic_lt d a b -> ~ coord_lt d a b.
Proof. unfold cyclic_lt. tauto. Qed.

Lemma position_in_spec {A} (lt : A -> A -> Prop) order (TO : total_order lt order) (r : range A) v :
  match position_in order r v with
  | BeforeRange => lt v (r_start r)
  | InRange => in_range lt r v
  | AfterRange => r_open r = false /\ ~ lt v (r_end r)
  end.
Proof.
  unfold position_in, in_range.
  destruct (order v (r_start r) >=? 0)%Z eqn:E1.
  - apply (order_ge0 _ _ TO) in E1. destruct (r_open r) eqn:E2; cbn [orb]; auto.
    destruct (order v (r_end r) <? 0)%Z eqn:E3.
    + apply (order_lt0 _ _ TO) in E3. auto.
    + split; auto. intros H. apply (order_lt0 _ _ TO) in H. congruence.
  - destruct (lt_dec lt order TO v (r_start r)) as [H|H]; auto.
    apply (order_ge0 _ _ TO) in H. congruence.
Qed.

Lemma before_out {A} (lt : A -> A -> Prop) order (TO : total_order lt order) (r : range A) v x :
  lt v (r_start r) -> ~ lt v x -> ~ in_range lt r x.
Proof.
  intros H1 H2 [H3 _]. apply H3. pose proof TO as [[_ HT HC] _].
  destruct (HC v x) as [H|[->|H]]; auto; [contradiction|]. eapply HT; eauto.
Qed.
Lemma after_out {A} (lt : A -> A -> Prop) order (TO : total_order lt order) (r : range A) v x :
  r_open r = false -> ~ lt v (r_end r) -> ~ lt x v -> ~ in_range lt r x.
Proof.
  intros H0 H1 H2 [_ [H3|H3]]; [congruence|]. apply H1. pose proof TO as [[_ HT HC] _].
  destruct (HC x v) as [H|[->|H]]; auto; [contradiction|]. eapply HT; eauto.
Qed.

Lemma isInRange_before d r v x : isInRange r v (Some d) = BeforeRange ->
  ~ coord_lt d v x -> ~ in_range3d r (node_pos x).
Proof.
  destruct d as [|[|d]]; cbn [isInRange coord_lt]; intros E H (R1 & R2 & R3); cbn [node_pos pos_subspace pos_path pos_time] in *.
  - pose proof (position_in_spec _ _ OrderTimestamp_total (time_range r) (n_time v)) as P. rewrite E in P.
    eapply (before_out _ _ OrderTimestamp_total); eauto.
  - pose proof (position_in_spec _ _ OrderBytes_total (subspace_range r) (n_sub v)) as P. rewrite E in P.
    eapply (before_out _ _ OrderBytes_total); eauto.
  - pose proof (position_in_spec _ _ OrderPath_total (path_range r) (n_path v)) as P. rewrite E in P.
    eapply (before_out _ _ OrderPath_total); eauto.
Qed.

Lemma isInRange_after d r v x : isInRange r v (Some d) = AfterRange ->
  ~ coord_lt d x v -> ~ in_range3d r (node_pos x).
Proof.
  destruct d as [|[|d]]; cbn [isInRange coord_lt]; intros E H (R1 & R2 & R3); cbn [node_pos pos_subspace pos_path pos_time] in *.
  - pose proof (position_in_spec _ _ OrderTimestamp_total (time_range r) (n_time v)) as P. rewrite E in P.
    destruct P. eapply (after_out _ _ OrderTimestamp_total); eauto.
  - pose proof (position_in_spec _ _ OrderBytes_total (subspace_range r) (n_sub v)) as P. rewrite E in P.
    destruct P. eapply (after_out _ _ OrderBytes_total); eauto.
  - pose proof (position_in_spec _ _ OrderPath_total (path_range r) (n_path v)) as P. rewrite E in P.
    destruct P. eapply (after_out _ _ OrderPath_total); eauto.
Qed.

Definition inb (r : range3d) (n : node) : bool := IsIncluded3d OrderSubspace r (node_pos n).
Lemma inb_false r n : ~ in_range3d r (node_pos n) -> inb r n = false.
Proof. intros H. unfold inb. destruct (IsIncluded3d OrderSubspace r (node_pos n)) eqn:E; auto. apply IsIncluded3d_spec in E. contradiction. Qed.

Lemma kd_query_spec r t : forall d, kd_ordered t d ->
  kd_query (isInRange r) t d = filter (inb r) (kd_nodes t).
Proof.
  induction t as [|l IHl v rt IHr]; intros d; cbn [kd_ordered kd_query kd_nodes]; auto.
  intros (HL & HR & OL & OR). change (Nat.modulo (d + 1) 3) with (next d).
  rewrite filter_app. cbn [filter].
  destruct (isInRange r v (Some d)) eqn:E.
  - rewrite (filter_none (inb r) (kd_nodes l)), inb_false; cbn [app]; auto.
    + eapply isInRange_before; eauto. intros H. apply (coord_irrefl d v v) in H; auto. destruct d as [|[|]]; cbn; auto.
    + intros x Hx. apply inb_false. eapply isInRange_before; eauto. apply cyclic_coord; auto.
  - rewrite IHl, IHr by auto. f_equal. unfold isInRange at 1.
    change (IsIncluded3d OrderSubspace r (node_pos v)) with (inb r v). destruct (inb r v); reflexivity.
  - rewrite (filter_none (inb r) (kd_nodes rt)), inb_false.
    + rewrite app_nil_r; auto.
    + eapply isInRange_after; eauto. intros H. apply (coord_irrefl d v v) in H; auto. destruct d as [|[|]]; cbn; auto.
    + intros x Hx. apply inb_false. eapply isInRange_after; eauto. apply cyclic_coord; auto.
Qed.

(** ** Listing *)

Section Listing.
Variable C : cfg.
Notation pp := (c_pp C).
Variable U : bytes -> Prop.
Hypothesis PP : store_params pp.
Hypothesis HU : universe C U.

Variable aoi : area_of_interest.
Let a := aoi_area aoi.

Definition listedb (x : entry) : bool :=
  (e_time x <=? r_end (area_times a)) && beqb (e_subspace x) (area_subspace a)
  && (len (area_path a) <=? len (e_path x))
  && (OrderPath (firstn (length (area_path a)) (e_path x)) (area_path a) =? 0)%Z.

(** What the loop takes from the matching entries. *)
Fixpoint greedy (plen n : N) (l : list entry) : list entry :=
  match l with
  | [] => []
  | x :: l' =>
      if (0 <? aoi_max_count aoi) && ge_int n (aoi_max_count aoi) then []
      else if e_time x <? r_start (area_times a) then []
      else
        let plen' := add64 plen (e_length x) in
        if (0 <? aoi_max_size aoi) && (aoi_max_size aoi <=? plen') then []
        else x :: greedy plen' (n + 1) l'
  end.

Lemma slice_0_firstn {A} (l : list A) n : (n <= length l)%nat -> slice l 0 (N.of_nat n) = Ok (firstn n l).
Proof.
  intros H. rewrite <- (firstn_skipn n l) at 1. rewrite slice_0_app; auto.
  unfold len. rewrite firstn_length_le; auto.
Qed.

Lemma list_loop_spec ys : Forall (stored_ok C U) ys -> forall plen acc,
  list_loop C aoi (map (fun x => (ekey C x, eval_ C x)) ys) plen acc
  = Ok (acc ++ greedy plen (len acc) (filter listedb ys)).
Proof.
  induction 1 as [|y ys Hy _ IH]; intros plen acc; cbn [map list_loop filter].
  { rewrite app_nil_r; auto. }
  fold a. rewrite (ekey_decode C U PP y Hy). cbn [bind EntryPosition pos_time pos_subspace pos_path].
  unfold listedb at 1. fold a.
  assert (OE : forall x z, (OrderSubspace x z =? 0)%Z = beqb x z).
  { intros x z. apply eq_true_iff_eq. unfold beqb.
    rewrite (order_eqb0 _ _ OrderSubspace_total), (order_eqb0 _ _ OrderBytes_total). reflexivity. }
  rewrite OE. unfold beqb.
  rewrite N.leb_antisym. destruct (N.ltb_spec (r_end (area_times a)) (e_time y)); cbn [negb andb orb]; [apply IH|].
  destruct (OrderBytes (e_subspace y) (area_subspace a) =? 0)%Z eqn:ES; cbn [negb andb orb]; [|apply IH].
  rewrite (N.leb_antisym (len (e_path y))).
  destruct (N.ltb_spec (len (e_path y)) (len (area_path a))) as [HL|HL]; cbn [negb andb orb]; [apply IH|].
  unfold len at 1. rewrite slice_0_firstn by (unfold len in HL; lia). cbn [bind].
  destruct (OrderPath _ _ =? 0)%Z eqn:EP; cbn [negb andb]; [|apply IH].
  cbn [greedy]. fold a.
  destruct ((0 <? aoi_max_count aoi) && ge_int (len acc) (aoi_max_count aoi)); cbn [orb]; [rewrite app_nil_r; auto|].
  destruct (e_time y <? r_start (area_times a)); [rewrite app_nil_r; auto|].
  rewrite (eval_decode C U HU y Hy). cbn [bind v_length v_digest].
  destruct ((0 <? aoi_max_size aoi) && _); [rewrite app_nil_r; auto|].
  rewrite IH, len_app, <- app_assoc. cbn [app]. 
  assert (Ey : Entry (c_ns C) (e_subspace y) (e_digest y) (e_path y) (e_time y) (e_length y) = y).
  { destruct Hy as [_ Hn]. destruct y; cbn in *; subst; auto. }
  rewrite Ey. reflexivity.
Qed.

Lemma listedb_spec x : area_any a = false -> (r_open (area_times a) = true -> e_time x <= r_end (area_times a)) ->
  listedb x && negb (e_time x <? r_start (area_times a)) = true <-> in_area (with_end a) (pos_of x).
Proof.
  intros HA HO. unfold listedb, in_area, with_end, in_range. cbn [area_any area_subspace area_times area_path r_start r_end r_open pos_of pos_subspace pos_path pos_time].
  rewrite HA, !andb_true_iff, negb_true_iff, !N.leb_le, N.ltb_ge, (order_eqb0 _ _ OrderPath_total).
  destruct (beqb_spec (e_subspace x) (area_subspace a)) as [ES|ES].
  - split.
    + intros [[[[H1 _] H2] H3] H4]. split; [auto|]. split; [split; [lia|right; lia]|].
      exists (skipn (length (area_path a)) (e_path x)). rewrite <- H3 at 1. symmetry. apply firstn_skipn.
    + intros (_ & [H1 H2] & s & H3). rewrite H3, len_app.
      split; [|lia]. split; [split; [split; [|reflexivity]|lia]|].
      * destruct H2 as [H2|H2]; [auto|lia].
      * rewrite firstn_app, Nat.sub_diag, firstn_all, app_nil_r. reflexivity.
  - split; [intros [[[[_ H] _] _] _]; discriminate|]. intros ([H|H] & _); [discriminate|congruence].
Qed.

(** The taken part is a longest prefix of the entries not older than the start. *)
Definition started (x : entry) : bool := negb (e_time x <? r_start (area_times a)).

Lemma newest_started l : newest_first l -> filter started l = l \/
  exists l1 y l2, l = l1 ++ y :: l2 /\ filter started l = l1 /\ started y = false.
Proof.
  induction l as [|x l IH]; cbn [newest_first filter]; auto. intros [H1 H2].
  destruct (started x) eqn:E.
  - destruct (IH H2) as [->|(l1 & y & l2 & -> & E1 & E2)]; auto.
    right. exists (x :: l1), y, l2. rewrite E1. auto.
  - right. exists [], x, l. split; auto. split; auto.
    apply filter_none. intros y Hy. specialize (H1 y Hy). unfold started in *.
    apply negb_false_iff in E. apply N.ltb_lt in E. apply negb_false_iff, N.ltb_lt. lia.
Qed.

Lemma greedy_started l plen n : newest_first l -> greedy plen n l = greedy plen n (filter started l).
Proof.
  revert plen n. induction l as [|x l IH]; intros plen n; cbn [newest_first filter]; auto. intros [H1 H2].
  destruct (started x) eqn:E.
  - cbn [greedy]. fold a. rewrite <- IH by auto. reflexivity.
  - rewrite filter_none.
    + cbn [greedy]. fold a. unfold started in E. apply negb_false_iff in E. rewrite E.
      destruct (_ && _); reflexivity.
    + intros y Hy. specialize (H1 y Hy). unfold started in *.
      apply negb_false_iff in E. apply N.ltb_lt in E. apply negb_false_iff, N.ltb_lt. lia.
Qed.

Lemma greedy_longest l : (forall x, In x l -> started x = true) -> aoi_max_count aoi < 2 ^ 63 -> forall pre,
  sum_lengths (pre ++ l) < 2 ^ 64 -> respects_strictly aoi pre ->
  longest_prefix (respects_strictly aoi) (pre ++ l) (pre ++ greedy (sum_lengths pre) (len pre) l).
Proof.
  intros HS HC. induction l as [|x l IH]; intros pre HB HR; cbn [greedy].
  { exists []. rewrite !app_nil_r. auto. }
  fold a.
  assert (SA : forall l1 l2, sum_lengths (l1 ++ l2) = sum_lengths l1 + sum_lengths l2).
  { intros l1 l2. unfold sum_lengths. induction l1; cbn; auto. rewrite IHl1. lia. }
  assert (HX : started x = true) by (apply HS; left; auto).
  unfold started in HX. apply negb_true_iff in HX. rewrite HX.
  assert (HB' := HB). rewrite SA in HB'. cbn in HB'.
  change (fold_right (fun e n => e_length e + n) 0 l) with (sum_lengths l) in HB'.
  rewrite add64_small by lia.
  destruct ((0 <? aoi_max_count aoi) && ge_int (len pre) (aoi_max_count aoi)) eqn:E1.
  { rewrite app_nil_r. exists (x :: l). split; auto. split; auto. right. exists x, l. split; auto.
    apply andb_true_iff in E1 as [E1 E2]. apply N.ltb_lt in E1. unfold ge_int in E2.
    apply orb_true_iff in E2 as [E2|E2]; apply N.leb_le in E2; [lia|].
    intros [[H|H] _]; [lia|]. rewrite len_app in H. change (len [x]) with 1 in H. lia. }
  destruct ((0 <? aoi_max_size aoi) && (aoi_max_size aoi <=? sum_lengths pre + e_length x)) eqn:E2.
  { rewrite app_nil_r. exists (x :: l). split; auto. split; auto. right. exists x, l. split; auto.
    apply andb_true_iff in E2 as [E2 E3]. apply N.ltb_lt in E2. apply N.leb_le in E3.
    intros [_ [H|H]]; [lia|]. rewrite SA in H. cbn in H. lia. }
  assert (R' : respects_strictly aoi (pre ++ [x])).
  { split.
    - rewrite len_app. change (len [x]) with 1. destruct HR as [[HR|HR] _]; auto.
      destruct (N.eq_dec (aoi_max_count aoi) 0) as [Z|Z]; auto. right.
      apply andb_false_iff in E1 as [E1|E1]; [apply N.ltb_ge in E1; lia|].
      unfold ge_int in E1. apply orb_false_iff in E1 as [_ E1]. apply N.leb_gt in E1. lia.
    - rewrite SA. cbn. destruct (N.eq_dec (aoi_max_size aoi) 0) as [Z|Z]; auto. right.
      apply andb_false_iff in E2 as [E2|E2]; [apply N.ltb_ge in E2; lia|]. apply N.leb_gt in E2. lia. }
  specialize (IH (fun y Hy => HS y (or_intror Hy)) (pre ++ [x])).
  rewrite <- !app_assoc, len_app in IH. cbn [app] in IH. change (len [x]) with 1 in IH.
  replace (sum_lengths (pre ++ [x])) with (sum_lengths pre + e_length x) in IH by (rewrite SA; cbn; lia).
  apply IH; auto.
Qed.
End Listing.

Lemma newest_filter f l : newest_first l -> newest_first (filter f l).
Proof.
  induction l as [|x l IH]; cbn; auto. intros [H1 H2]. destruct (f x); auto. cbn. split; auto.
  intros y Hy. apply filter_In in Hy. apply H1. tauto.
Qed.
Lemma newest_snoc l x : newest_first l -> (forall y, In y l -> e_time x <= e_time y) -> newest_first (l ++ [x]).
Proof.
  induction l as [|z l IH]; cbn; auto.
  - intros _ _. split; auto. intros ? [].
  - intros [H1 H2] H. split; auto. intros y Hy. apply in_app_or in Hy as [Hy|[<-|[]]]; auto.
Qed.

(** The database read backwards is a newest-first list of the entries. *)
Lemma Rep_list C U (PP : store_params (c_pp C)) xs st : Rep C U xs st -> exists ys,
  rev (kv st) = map (fun x => (ekey C x, eval_ C x)) ys /\ Rep C U ys st /\ newest_first ys.
Proof.
  intros R. pose proof (rep_kv _ _ _ _ R) as HK.
  apply Permutation_map_inv in HK as (ys & EK & HP).
  exists (rev ys). split; [rewrite EK, map_rev; auto|].
  split; [eapply Rep_perm; [|exact R]; rewrite HP; apply Permutation_rev|].
  pose proof (rep_sorted _ _ _ _ R) as HS. rewrite EK in HS.
  pose proof (rep_ok _ _ _ _ (Rep_perm _ _ _ _ _ HP R)) as HO. clear - HS HO PP.
  induction ys as [|y ys IH]; cbn; auto. inversion HO as [|? ? Oy HO']; subst.
  cbn [map] in HS. inversion HS as [|? ? HS' HF]; subst. apply newest_snoc.
  - apply IH; auto.
  - intros z Hz. apply in_rev in Hz.
    destruct (N.le_gt_cases (e_time y) (e_time z)) as [|Hlt]; auto. exfalso.
    rewrite Forall_forall in HF. specialize (HF (ekey C z, eval_ C z)). cbn [fst] in HF.
    assert (Hin : In (ekey C z, eval_ C z) (map (fun x => (ekey C x, eval_ C x)) ys)).
    { apply in_map_iff. exists z. auto. }
    specialize (HF Hin).
    assert (HG : bytes_lt (ekey C z) (ekey C y)).
    { apply EncodeKey_time_order; cbn; auto. apply Oy. }
    pose proof OrderBytes_total as [[Hi Ht _] _]. apply (Hi (ekey C y)). eapply Ht; eauto.
Qed.

(** ** Splitting and summarising *)

Lemma insert_time_perm x l : Permutation (insert_time x l) (x :: l).
Proof.
  induction l as [|y l IH]; cbn; auto. destruct (x <=? y); auto.
  rewrite IH. apply perm_swap.
Qed.
Lemma sort_times_perm l : Permutation (sort_times l) l.
Proof. induction l; cbn; auto. rewrite insert_time_perm. auto. Qed.

Fixpoint ascending (l : list N) : Prop :=
  match l with [] => True | x :: l' => (forall y, In y l' -> x <= y) /\ ascending l' end.
Lemma insert_time_asc x l : ascending l -> ascending (insert_time x l).
Proof.
  induction l as [|y l IH]; cbn.
  - intros _; split; auto. intros ? [].
  - intros [H1 H2]. destruct (N.leb_spec x y); cbn.
    + split; auto. intros z [<-|Hz]; auto. specialize (H1 z Hz). lia.
    + split; auto. intros z Hz. apply (Permutation_in _ (insert_time_perm x l)) in Hz as [<-|Hz]; [lia|auto].
Qed.
Lemma sort_times_asc l : ascending (sort_times l).
Proof. induction l; cbn; auto. apply insert_time_asc; auto. Qed.

Lemma summarise_empty_fp ns size : (forall n, In n ns -> n_fp n = []) -> size + len ns < 2 ^ 64 ->
  summarise_loop ns [] size = Ok ([], size + len ns).
Proof.
  revert size. induction ns as [|n ns IH]; intros size H HB; cbn [summarise_loop].
  - rewrite N.add_0_r; auto.
  - rewrite (H n (or_introl eq_refl)). cbn [xorStrings len length bind combine map negb N.eqb].
    change (len (n :: ns)) with (N.of_nat (S (length ns))) in *. unfold len in *.
    unfold xorStrings. cbn [len length N.of_nat N.eqb negb combine map bind].
    rewrite add64_small by lia. rewrite IH; [f_equal; f_equal; unfold len; lia| |unfold len; lia].
    intros m Hm; apply H; right; auto.
Qed.

Lemma N2Nat_le a b : le (N.to_nat a) (N.to_nat b) <-> a <= b.
Proof. lia. Qed.

Lemma index_In {A} (l : list A) i x : index l i = Ok x -> In x l.
Proof.
  unfold index. destruct (nth_error l (N.to_nat i)) eqn:E; intros H; inversion H; subst.
  eapply nth_error_In; eauto.
Qed.

Lemma SplitRange_inv t r l rr : SplitRange t r = Ok (l, rr) -> exists m n,
  In n t /\ in_range3d r (node_pos n) /\ n_time n = m
  /\ index (sort_times (map n_time (query t r))) (len (query t r) / 2) = Ok m
  /\ l = Range3d (subspace_range r) (path_range r) (Range (r_start (time_range r)) m false)
  /\ rr = Range3d (subspace_range r) (path_range r) (Range m (r_end (time_range r)) (r_open (time_range r))).
Proof.
  unfold SplitRange. set (ts := sort_times _).
  assert (EL : len ts = len (query t r)).
  { unfold len, ts. rewrite (Permutation_length (sort_times_perm _)), map_length. reflexivity. }
  destruct (index ts (len ts / 2)) as [m| | | |] eqn:E; cbn [bind]; try discriminate.
  intros H. injection H as <- <-. pose proof (index_In _ _ _ E) as Hin.
  apply (Permutation_in _ (sort_times_perm _)) in Hin. apply in_map_iff in Hin as (n & E1 & Hn).
  apply filter_In in Hn as [Hn1 Hn2]. apply IsIncluded3d_spec in Hn2.
  exists m, n. rewrite EL in E. auto 8.
Qed.

Lemma SplitRange_total t r n : In n t -> in_range3d r (node_pos n) -> exists x, SplitRange t r = Ok x.
Proof.
  intros Hn Hr. unfold SplitRange. set (ts := sort_times _).
  assert (HL : (0 < length ts)%nat).
  { unfold ts. rewrite (Permutation_length (sort_times_perm _)), map_length.
    assert (In n (query t r)) by (apply filter_In; split; auto; apply IsIncluded3d_spec; auto).
    destruct (query t r); [inversion H|cbn; lia]. }
  unfold index. assert (HI : (N.to_nat (len ts / 2) < length ts)%nat).
  { assert (len ts / 2 < len ts) by (apply N.div_lt; unfold len; lia). unfold len in *. lia. }
  apply nth_error_Some in HI. destruct (nth_error ts _); [|congruence]. cbn [bind]. eauto.
Qed.

(** Sorted lists: at most i elements are below the element at index i. *)
Lemma ascending_below ts : ascending ts -> forall i m, nth_error ts i = Some m ->
  le (length (filter (fun t => t <? m) ts)) i.
Proof.
  induction ts as [|x ts IH]; intros H i m E; [destruct i; discriminate|]. destruct H as [H1 H2].
  destruct i as [|i]; cbn in E.
  - injection E as ->. rewrite filter_none; [cbn; lia|]. intros y [<-|Hy]; apply N.ltb_ge; [lia|auto].
  - cbn [filter]. specialize (IH H2 i m E). destruct (x <? m); cbn; lia.
Qed.

Lemma filter_length_perm {A} (f : A -> bool) l l' : Permutation l l' -> length (filter f l) = length (filter f l').
Proof. intros H. apply Permutation_length, filter_perm; auto. Qed.

Lemma filter_map_length {A B} (g : A -> B) (f : B -> bool) l :
  length (filter f (map g l)) = length (filter (fun x => f (g x)) l).
Proof. induction l; cbn; auto. destruct (f (g a)); cbn; auto. Qed.

Lemma split_left_half t r l rr : SplitRange t r = Ok (l, rr) -> len (query t l) <= len (query t r) / 2.
Proof.
  intros H. apply SplitRange_inv in H as (m & n & _ & _ & _ & E & -> & _).
  unfold index in E. destruct (nth_error _ _) as [m'|] eqn:E2 in E; [|discriminate]. injection E as ->.
  pose proof (ascending_below _ (sort_times_asc _) _ _ E2) as HB.
  rewrite (filter_length_perm _ _ _ (sort_times_perm _)), filter_map_length in HB.
  assert (EQ : query t (Range3d (subspace_range r) (path_range r) (Range (r_start (time_range r)) m false))
    = filter (fun x => (n_time x <? m) && IsIncluded3d OrderSubspace
         (Range3d (subspace_range r) (path_range r) (Range (r_start (time_range r)) m false)) (node_pos x)) t).
  { apply filter_ext. intros x. destruct (IsIncluded3d _ _ (node_pos x)) eqn:E; [|rewrite andb_false_r; auto].
    apply IsIncluded3d_spec in E as (_ & _ & [_ [E|E]]); cbn in E; [discriminate|].
    apply N.ltb_lt in E. rewrite E. reflexivity. }
  assert (LE : le (length (query t (Range3d (subspace_range r) (path_range r) (Range (r_start (time_range r)) m false))))
    (length (filter (fun x => n_time x <? m) (query t r)))).
  { unfold query. clear - E2.
    assert (Hm : in_range N.lt (time_range r) m).
    { apply nth_error_In in E2. apply (Permutation_in _ (sort_times_perm _)) in E2.
      apply in_map_iff in E2 as (n & <- & Hn). apply filter_In in Hn as [_ Hn].
      apply IsIncluded3d_spec in Hn as (_ & _ & Hn). exact Hn. }
    clear E2. induction t as [|x t IH]; [cbn; lia|]. cbn [filter].
    destruct (IsIncluded3d OrderSubspace (Range3d (subspace_range r) (path_range r) (Range (r_start (time_range r)) m false)) (node_pos x)) eqn:E.
    - assert (E3 : IsIncluded3d OrderSubspace r (node_pos x) = true).
      { apply IsIncluded3d_spec in E as (A1 & A2 & [A3 A4]). apply IsIncluded3d_spec. split; auto. split; auto.
        cbn in A3, A4. destruct A4 as [A4|A4]; [discriminate|]. split; auto.
        destruct Hm as [_ [Hm|Hm]]; auto. right. eapply N.lt_trans; [exact A4|exact Hm]. }
      rewrite E3. cbn [filter].
      apply IsIncluded3d_spec in E as (_ & _ & [_ [E|E]]); cbn in E; [discriminate|].
      apply N.ltb_lt in E. rewrite E. cbn [length]. lia.
    - destruct (IsIncluded3d OrderSubspace r (node_pos x)); cbn [filter]; auto.
      destruct (n_time x <? m); cbn [length]; lia. }
  cbv beta in HB. pose proof (Nat.le_trans _ _ _ LE HB) as HC. clear - HC.
  unfold len at 1. apply (proj1 (N2Nat_le _ _)). rewrite Nat2N.id. exact HC.
Qed.

Lemma query_loop_spec C U (PP : store_params (c_pp C)) (HU : universe C U) xs st ns : Rep C U xs st ->
  (forall n, In n ns -> In n (tree st)) ->
  exists ys, query_loop C ns st = (Ok (map (fun x => (x, c_hash C (e_subspace x))) ys), st)
    /\ map EntryPosition ys = map node_pos ns /\ (forall y, In y ys -> In y xs).
Proof.
  intros R. induction ns as [|n ns IH]; intros H; cbn [query_loop].
  - exists []. repeat split; auto. intros y [].
  - destruct IH as (ys & E & EP & HY); [intros; apply H; right; auto|].
    assert (Hn : exists y, In y xs /\ EntryPosition y = node_pos n).
    { assert (Hin : In (node_pos n) (map EntryPosition xs)).
      { eapply Permutation_in; [apply (rep_tree _ _ _ _ R)|]. apply in_map, H. left; auto. }
      apply in_map_iff in Hin as (y & E1 & Hy). exists y; auto. }
    destruct Hn as (y & Hy & E1).
    pose proof (Rep_In_ok _ _ _ _ _ R Hy) as Oy.
    exists (y :: ys). split; [|split].
    + unfold bindM at 1, gets. rewrite <- E1. fold (ekey C y). rewrite (Rep_kv_get C U xs st y R Hy).
      unfold bindM at 1, lift. rewrite (eval_decode C U HU y Oy).
      unfold bindM. rewrite E. unfold ret. cbn [map v_digest v_length v_auth]. 
      destruct Oy as [_ On]. clear - E1 On. destruct y, n; cbn in *. unfold EntryPosition, node_pos in E1. cbn in E1.
      injection E1 as -> -> ->. subst. reflexivity.
    + cbn [map]. congruence.
    + intros z [<-|Hz]; auto.
Qed.

(** Nodes inserted by the running process carry the empty fingerprint. *)
Definition blank (st : state) : Prop := forall n, In n (tree st) -> n_fp n = [].
Definition keepsT {A} (m : M A) : Prop := forall st r st', m st = (r, st') -> blank st -> blank st'.

Lemma keepsT_same {A} (m : M A) : (forall st, tree (snd (m st)) = tree st) -> keepsT m.
Proof. intros H st r st' E HF. specialize (H st). rewrite E in H. cbn in H. unfold blank. rewrite H. auto. Qed.
Lemma keepsT_tree {A} (a : A) f : (forall t, (forall n, In n t -> n_fp n = []) -> forall n, In n (f t) -> n_fp n = []) ->
  keepsT (fun st => (Ok a, set_tree f st)).
Proof. intros H st r st' E HF. injection E as Er Es. rewrite <- Es. intros n. cbn [tree set_tree]. apply H. auto. Qed.
Lemma keepsT_bind {A B} (m : M A) (f : A -> M B) : keepsT m -> (forall a, keepsT (f a)) -> keepsT (bindM m f).
Proof.
  intros H1 H2 st r st' E HP. unfold bindM in E. destruct (m st) as [r1 s1] eqn:E1.
  specialize (H1 _ _ _ E1 HP). destruct r1; try (injection E as Er Es; rewrite <- Es; auto; fail). eapply H2; eauto.
Qed.
Lemma keepsT_if {A} (b : bool) (m1 m2 : M A) : keepsT m1 -> keepsT m2 -> keepsT (if b then m1 else m2).
Proof. destruct b; auto. Qed.
Lemma keepsT_durable f : (forall st, tree (f st) = tree st) -> keepsT (durable f).
Proof.
  intros H st r st' E HP. unfold durable in E.
  destruct (budget st) as [[|n]|]; injection E as Er Es; rewrite <- Es; auto; intros z; cbn [tree]; rewrite H; apply HP.
Qed.
Ltac kt1 :=
  first
    [ apply keepsT_if
    | apply keepsT_bind; [|intros ?]
    | match goal with
      | |- keepsT (match ?x with _ => _ end) => destruct x
      end
    | apply keepsT_durable; reflexivity
    | apply keepsT_same; reflexivity ].

Lemma keepsT_Erase C d : keepsT (payload_Erase C d).  Proof. unfold payload_Erase. repeat kt1. Qed.
Lemma keepsT_PSet C b : keepsT (payload_Set C b).  Proof. unfold payload_Set. repeat kt1. Qed.
Lemma keepsT_lock : keepsT lock.
Proof. apply keepsT_same. intros st. unfold lock. destruct (locked st); reflexivity. Qed.
Lemma keepsT_Decr d : keepsT (ref_Decrement d).  Proof. unfold ref_Decrement. repeat kt1. Qed.
Lemma keepsT_Incr d : keepsT (ref_Increment d).  Proof. unfold ref_Increment. repeat kt1. Qed.
Lemma remove_first_In f t n : In n (remove_first f t) -> In n t.
Proof. induction t as [|x t IH]; cbn; auto. destruct (f x); cbn; intuition. Qed.
Lemma keepsT_Delete C e : keepsT (driver_Delete C e).
Proof. unfold driver_Delete. kt1; [kt1|]. apply keepsT_tree. intros t H n Hn. apply H. eapply remove_first_In; eauto. Qed.
Lemma keepsT_DInsert C x : keepsT (driver_Insert C x).
Proof.
  unfold driver_Insert. destruct x. kt1; [kt1|]. kt1; [kt1|]. kt1; [kt1|].
  apply keepsT_tree. intros t H n [<-|Hn]; auto.
Qed.
Lemma keepsT_Get C s0 s1 p : keepsT (driver_Get_at C s0 s1 p).
Proof. unfold driver_Get_at, storage_Get. repeat kt1. Qed.
Lemma keepsT_prunable C t cands : keepsT (prunable_loop C t cands).
Proof.
  induction cands; cbn [prunable_loop]; [repeat kt1|]. apply keepsT_if; auto.
  apply keepsT_bind; [|intros; repeat first [exact IHcands|apply keepsT_Get|kt1]].
  apply keepsT_tree. intros l H n Hn. apply in_map_iff in Hn as (m & <- & Hm). destruct (_ && _); cbn; auto.
Qed.
Lemma keepsT_prune C xs : keepsT (prune_loop C xs).
Proof.
  induction xs as [|[e a] xs IH]; cbn [prune_loop];
    repeat first [exact IH|apply keepsT_Delete|apply keepsT_Decr|apply keepsT_Erase|kt1].
Qed.
Lemma keepsT_PrefixedBy C s p : keepsT (PrefixedBy C s p).
Proof.
  unfold PrefixedBy. kt1; [kt1|]. kt1; [kt1|]. kt1; [|repeat kt1].
  apply keepsT_tree. intros [|x t] H n; [intros []|]. intros [<-|Hn]; [cbn; apply H; left; auto|apply H; right; auto].
Qed.
Lemma keepsT_Ingest C e token : keepsT (IngestEntry C e token).
Proof.
  unfold IngestEntry.
  apply keepsT_bind; [apply keepsT_lock|intros _].
  apply keepsT_if; [repeat kt1|]. apply keepsT_if; [repeat kt1|].
  apply keepsT_bind; [unfold DriverPrefixesOf; repeat kt1|intros ns].
  apply keepsT_if; [repeat kt1|].
  apply keepsT_bind; [apply keepsT_Get|intros o].
  apply keepsT_bind; [destruct o as [p|]; [|repeat kt1]|intros go].
  - unfold replace_other. destruct p.
    repeat first [apply keepsT_Delete|apply keepsT_Decr|apply keepsT_Erase|kt1].
  - apply keepsT_if; [repeat kt1|]. apply keepsT_bind; [|intros; repeat kt1].
    unfold InsertEntry, PrunableEntries.
    repeat first [apply keepsT_PSet|apply keepsT_DInsert|apply keepsT_Incr|apply keepsT_prunable
      |apply keepsT_prune|apply keepsT_PrefixedBy|kt1].
Qed.
Lemma keepsT_Set C i auth now : keepsT (Set_ C i auth now).
Proof.
  unfold Set_, ref_Count. repeat first [apply keepsT_PSet|apply keepsT_Ingest|apply keepsT_Erase|kt1].
Qed.

Lemma run_blank C ops : ~ In OpReopen ops -> forall st st', run C ops st = Some st' -> blank st -> blank st'.
Proof.
  induction ops as [|o ops IH]; intros HN st st' E HB; cbn [run] in E.
  - injection E as <-; auto.
  - destruct (step C o st) as [r s] eqn:ES.
    assert (HB' : blank s).
    { destruct o as [i auth now|e token|]; cbn [step] in ES.
      - eapply keepsT_Set; eauto.
      - eapply keepsT_Ingest; eauto.
      - exfalso. apply HN. left; auto. }
    assert (HN' : ~ In OpReopen ops) by (intros H; apply HN; right; auto).
    destruct r; try discriminate; eapply IH; eauto.
Qed.

Lemma filter_length_le' {A} (f : A -> bool) l : le (length (filter f l)) (length l).
Proof. induction l; cbn; auto. destruct (f a); cbn; lia. Qed.
