(** C33, C34, C38: listing, range queries, splitting and summarising. *)
From Coq Require Import Sorting.Permutation.
From Verif Require Import Base M_Order M_Encoding M_Paths M_Successor M_Ranges M_Areas M_Keys M_Entry M_Map M_Store
  M_Query M_KdTree S_Order S_Store S_Query P_Order P_Encoding P_Paths P_Ranges P_Successor P_Areas P_Keys P_Map
  P_Store P_History P_Auth P_Crash P_Demo P_Query Prop_Store.
Local Open Scope N_scope.

(** * C33 *)

(** For an area of one subspace (and, if its time range is open, an end that no
    live timestamp exceeds): the longest prefix, within the limits, of the
    newest-first list of exactly the live entries in the area. The code counts
    the end of the time range in, and stops when the size limit is reached. *)
Theorem C33_list_partial C U ops st aoi :
  survived C U ops st -> area_any (aoi_area aoi) = false ->
  (r_open (area_times (aoi_area aoi)) = true ->
     forall e, live C st e -> e_time e <= r_end (area_times (aoi_area aoi))) ->
  aoi_max_count aoi < 2 ^ 63 ->
  exists all res, ListWithAOI C aoi st = (Ok res, st)
    /\ (forall e, In e all <-> live C st e /\ in_area (with_end (aoi_area aoi)) (pos_of e))
    /\ NoDup all /\ newest_first all
    /\ (sum_lengths all < 2 ^ 64 -> longest_prefix (respects_strictly aoi) all res).
Proof.
  intros (PP & HU & HO & HL) HA HOp HC. destruct (lives_Rep C U PP HU ops st HL HO) as (xs & R).
  destruct (Rep_list C U PP xs st R) as (ys & EK & RY & NF).
  exists (filter (started aoi) (filter (listedb aoi) ys)).
  eexists. split; [|split; [|split; [|split]]].
  - unfold ListWithAOI. rewrite EK.
    rewrite (list_loop_spec C U PP HU aoi ys (rep_ok _ _ _ _ RY)). cbn [app len length N.of_nat]. reflexivity.
  - intros e. rewrite !filter_In, (Rep_live C U PP HU ys st e RY).
    split.
    + intros [[H1 H2] H3]. split; auto. apply listedb_spec; auto.
      * intros Ho. apply HOp; auto. apply (Rep_live C U PP HU ys st e RY); auto.
      * unfold started in H3. rewrite H2, H3. reflexivity.
    + intros [H1 H2]. apply listedb_spec in H2; auto.
      * apply andb_true_iff in H2 as [H2 H3]. auto.
      * intros Ho. apply HOp; auto. apply (Rep_live C U PP HU ys st e RY); auto.
  - apply NoDup_filter, NoDup_filter. eapply NoDup_map_inv. apply (rep_place _ _ _ _ RY).
  - apply newest_filter, newest_filter; auto.
  - intros HB. rewrite greedy_started by (apply newest_filter; auto).
    apply (greedy_longest aoi _ (fun x Hx => proj2 (proj1 (filter_In _ _ _) Hx)) HC []); auto.
    split; [right; cbn; lia|].
    destruct (N.eq_dec (aoi_max_size aoi) 0); auto. right. cbn. lia.
Qed.
Print Assumptions C33_list_partial.

(** Without a size limit, and when no live entry carries the very end of the
    time range: the property as stated. *)
Theorem C33_exact_partial C U ops st aoi :
  survived C U ops st -> area_any (aoi_area aoi) = false ->
  (forall e, live C st e -> if r_open (area_times (aoi_area aoi))
     then e_time e <= r_end (area_times (aoi_area aoi)) else e_time e <> r_end (area_times (aoi_area aoi))) ->
  aoi_max_count aoi < 2 ^ 63 -> aoi_max_size aoi = 0 ->
  exists all res, ListWithAOI C aoi st = (Ok res, st)
    /\ (forall e, In e all <-> live C st e /\ in_area (aoi_area aoi) (pos_of e))
    /\ NoDup all /\ newest_first all
    /\ (sum_lengths all < 2 ^ 64 -> longest_prefix (respects aoi) all res).
Proof.
  intros HS HA HE HC HZ.
  destruct (C33_list_partial C U ops st aoi HS HA) as (all & res & E & HI & HN & HF & HP); auto.
  { intros Ho e He. specialize (HE e He). rewrite Ho in HE. auto. }
  exists all, res. split; auto. split; [|split; [auto|split; [auto|]]].
  - intros e. rewrite HI. split; intros [H1 H2]; split; auto; specialize (HE e H1).
    + destruct H2 as (A & [T1 T2] & P). split; auto. split; auto. split; auto.
      cbn [with_end area_times r_open r_end r_start pos_of pos_time] in *.
      destruct (r_open (area_times (aoi_area aoi))); auto. right. destruct T2; [discriminate|lia].
    + destruct H2 as (A & [T1 T2] & P). split; auto. split; auto. split; auto.
      cbn [with_end area_times r_open r_end r_start pos_of pos_time] in *.
      destruct T2 as [T2|T2]; auto. right. lia.
  - intros HB. destruct (HP HB) as (rest & E1 & [R1 _] & E2). exists rest. split; auto. split; [split; auto|].
    destruct E2 as [E2|(x & rest' & E2 & E3)]; auto. right. exists x, rest'. split; auto.
    intros [Q1 Q2]. apply E3. split; auto.
Qed.
Print Assumptions C33_exact_partial.

Definition demo_aoi (any : bool) (s e : N) (open : bool) (n size : N) : area_of_interest :=
  AOI (Area [115] [[97]] (Range s e open) any) n size.

Lemma demo_survived : survived demo small demo_ops demo_after.
Proof.
  destruct demo_reached as [(PP & HU & HO & _) HR]. split; auto. split; auto. split; auto.
  apply run_lives; auto.
Qed.

Example C33_instance :
  survived demo small demo_ops demo_after
  /\ ListWithAOI demo (demo_aoi false 6 20 false 0 0) demo_after
     = (Ok [demo_e [[97]; [98]] [9] 8; demo_e [[97]] [5; 5] 7], demo_after)
  /\ ListWithAOI demo (demo_aoi false 6 20 false 1 0) demo_after = (Ok [demo_e [[97]; [98]] [9] 8], demo_after)
  /\ ListWithAOI demo (demo_aoi false 6 20 false 0 3) demo_after = (Ok [demo_e [[97]; [98]] [9] 8], demo_after)
  /\ (forall e, live demo demo_after e -> e_time e <> 20).
Proof.
  split; [exact demo_survived|]. split; [vm_compute; reflexivity|]. split; [vm_compute; reflexivity|].
  split; [vm_compute; reflexivity|].
  intros e (_ & k & v & w & Hin & Hk & _) Et.
  assert (HF : forallb (fun kvp => match DecodeKey (fst kvp) (c_pp demo) with
     | Ok q => negb (pos_time q =? 20) | _ => true end) (kv demo_after) = true) by (vm_compute; reflexivity).
  rewrite forallb_forall in HF. specialize (HF _ Hin). cbn [fst] in HF. rewrite Hk, Et in HF. discriminate.
Qed.

(** A count limit of 2^63 or more is a negative number when it is compared: nothing at all is listed, whatever is there. *)
Theorem C33_large_count_refuted C U ops st aoi :
  survived C U ops st -> 2 ^ 63 <= aoi_max_count aoi -> ListWithAOI C aoi st = (Ok [], st).
Proof.
  intros (PP & HU & HO & HL) HC. destruct (lives_Rep C U PP HU ops st HL HO) as (xs & R).
  destruct (Rep_list C U PP xs st R) as (ys & EK & RY & NF).
  unfold ListWithAOI. rewrite EK. rewrite (list_loop_spec C U PP HU aoi ys (rep_ok _ _ _ _ RY)). cbn [app].
  destruct (filter (listedb aoi) ys) as [|x l]; cbn [greedy]; [reflexivity|].
  rewrite (proj2 (N.ltb_lt 0 (aoi_max_count aoi))) by lia. unfold ge_int. rewrite (proj2 (N.leb_le (2 ^ 63) _)) by exact HC. reflexivity.
Qed.
Print Assumptions C33_large_count_refuted.

Example C33_instance_large :
  ListWithAOI demo (demo_aoi false 6 20 false (2 ^ 63) 0) demo_after = (Ok [], demo_after)
  /\ ListWithAOI demo (demo_aoi false 6 20 false (2 ^ 63 - 1) 0) demo_after
     = (Ok [demo_e [[97]; [98]] [9] 8; demo_e [[97]] [5; 5] 7], demo_after).
Proof. split; vm_compute; reflexivity. Qed.

(** An area open in time lists nothing unless its ignored end is large enough;
    an any-subspace area lists only the entries of the empty subspace; the end
    of a closed time range is counted in; and an entry that makes the total
    reach the size limit exactly is left out. *)
Theorem C33_open_end_refuted :
  exists aoi e, area_any (aoi_area aoi) = false /\ r_open (area_times (aoi_area aoi)) = true
    /\ live demo demo_after e /\ in_area (aoi_area aoi) (pos_of e)
    /\ ListWithAOI demo aoi demo_after = (Ok [], demo_after) /\ aoi_max_count aoi = 0 /\ aoi_max_size aoi = 0.
Proof.
  exists (demo_aoi false 0 0 true 0 0), (demo_e [[97]] [5; 5] 7).
  split; [reflexivity|]. split; [reflexivity|]. split; [apply liveb_spec; vm_compute; reflexivity|].
  split; [|split; [vm_compute; reflexivity|split; reflexivity]].
  split; [right; reflexivity|]. split; [split; [cbn; lia|left; reflexivity]|exists []; reflexivity].
Qed.
Print Assumptions C33_open_end_refuted.

Theorem C33_any_subspace_refuted :
  exists aoi e, area_any (aoi_area aoi) = true
    /\ live demo demo_after e /\ in_area (aoi_area aoi) (pos_of e)
    /\ ListWithAOI demo aoi demo_after = (Ok [], demo_after) /\ aoi_max_count aoi = 0 /\ aoi_max_size aoi = 0.
Proof.
  exists (AOI (Area [] [[97]] (Range 0 20 false) true) 0 0), (demo_e [[97]] [5; 5] 7).
  split; [reflexivity|]. split; [apply liveb_spec; vm_compute; reflexivity|].
  split; [|split; [vm_compute; reflexivity|split; reflexivity]].
  split; [left; reflexivity|]. split; [split; [cbn; lia|right; cbn; lia]|exists []; reflexivity].
Qed.
Print Assumptions C33_any_subspace_refuted.

Theorem C33_closed_end_refuted :
  exists aoi e res, ListWithAOI demo aoi demo_after = (Ok res, demo_after)
    /\ In e res /\ ~ in_area (aoi_area aoi) (pos_of e).
Proof.
  exists (demo_aoi false 0 7 false 0 0), (demo_e [[97]] [5; 5] 7). eexists.
  split; [vm_compute; reflexivity|]. split; [left; reflexivity|].
  intros (_ & [_ [H|H]] & _); cbn in H; [discriminate|lia].
Qed.
Print Assumptions C33_closed_end_refuted.

Theorem C33_size_refuted :
  exists aoi e, live demo demo_after e /\ in_area (aoi_area aoi) (pos_of e) /\ respects aoi [e]
    /\ ListWithAOI demo aoi demo_after = (Ok [], demo_after)
    /\ forall e', live demo demo_after e' -> in_area (aoi_area aoi) (pos_of e') -> e_time e' <= e_time e.
Proof.
  exists (demo_aoi false 0 9 false 0 1), (demo_e [[97]; [98]] [9] 8).
  split; [apply liveb_spec; vm_compute; reflexivity|].
  split; [split; [right; reflexivity|]; split; [split; [cbn; lia|right; cbn; lia]|exists [[98]]; reflexivity]|].
  split; [split; [left; reflexivity|right; cbn; lia]|]. split; [vm_compute; reflexivity|].
  intros e' _ (_ & [_ [H|H]] & _); cbn in *; [discriminate|lia].
Qed.
Print Assumptions C33_size_refuted.

(** * C34 *)

(** The comparison of keys is the cyclic lexicographic order of positions. *)
Theorem C34_key_order d a b : (d < 3)%nat ->
  (Key_Order a b d = -1 /\ cyclic_lt d a b)%Z \/ (Key_Order a b d = 0 /\ node_pos a = node_pos b)%Z
  \/ (Key_Order a b d = 1 /\ cyclic_lt d b a)%Z.
Proof. intros H. apply Key_Order_decides; auto. Qed.
Print Assumptions C34_key_order.

(** Whatever the shape of a tree ordered that way, Query splits its nodes into
    those in the range, returned once each, and the others. *)
Theorem C34_query_exact t r : kd_ordered t 0 ->
  exists rest, Permutation (kd_nodes t) (kd_Query t r ++ rest)
    /\ (forall n, In n (kd_Query t r) -> in_range3d r (node_pos n))
    /\ (forall n, In n rest -> ~ in_range3d r (node_pos n)).
Proof.
  intros H. unfold kd_Query. rewrite (kd_query_spec r t 0%nat H).
  exists (filter (fun n => negb (inb r n)) (kd_nodes t)). split; [apply filter_partition|]. split.
  - intros n Hn. apply filter_In in Hn as [_ Hn]. apply IsIncluded3d_spec; auto.
  - intros n Hn Hr. apply filter_In in Hn as [_ Hn]. apply IsIncluded3d_spec in Hr. unfold inb in Hn.
    rewrite Hr in Hn. discriminate.
Qed.
Print Assumptions C34_query_exact.

(** In a store: any tree with the nodes of the index answers with exactly the
    positions of the live entries in the range. *)
Theorem C34_live_partial C U ops st t r p :
  survived C U ops st -> kd_ordered t 0 -> Permutation (kd_nodes t) (tree st) ->
  In p (map node_pos (kd_Query t r)) <-> exists e, live C st e /\ pos_of e = p /\ in_range3d r p.
Proof.
  intros (PP & HU & HO & HL) HT HP. destruct (lives_Rep C U PP HU ops st HL HO) as (xs & R).
  unfold kd_Query. rewrite (kd_query_spec r t 0%nat HT).
  assert (HI : forall q, In q (map node_pos (tree st)) <-> exists e, In e xs /\ pos_of e = q).
  { intros q. pose proof (rep_tree _ _ _ _ R) as RT. split.
    - intros H. apply (Permutation_in _ RT) in H. apply in_map_iff in H as (e & E & He). exists e; auto.
    - intros (e & He & E). apply (Permutation_in _ (Permutation_sym RT)). apply in_map_iff. exists e; auto. }
  split.
  - intros H. apply in_map_iff in H as (n & <- & Hn). apply filter_In in Hn as [Hn Hr].
    apply IsIncluded3d_spec in Hr. apply (Permutation_in _ HP) in Hn.
    destruct (proj1 (HI (node_pos n))) as (e & He & E); [apply in_map; auto|].
    exists e. split; [apply (Rep_live C U PP HU xs st e R); auto|auto].
  - intros (e & He & E & Hr). apply (Rep_live C U PP HU xs st e R) in He.
    assert (Hq : In p (map node_pos (tree st))) by (apply HI; eauto).
    apply in_map_iff in Hq as (n & En & Hn). apply in_map_iff. exists n. split; auto.
    apply filter_In. split; [apply (Permutation_in _ (Permutation_sym HP)); auto|].
    apply IsIncluded3d_spec. congruence.
Qed.
Print Assumptions C34_live_partial.

(** EntryDriver.Query: after as many empty entries as results, exactly the live
    entries in the range, each once and with the digest of its token. *)
Theorem C34_driver_partial C U ops st r :
  survived C U ops st ->
  exists xs, driver_Query C r st = (Ok (repeat (Entry [] [] [] [] 0 0, [] : bytes) (length xs) ++ xs), st)
    /\ (forall e t, In (e, t) xs -> t = c_hash C (e_subspace e))
    /\ NoDup (map fst xs) /\ (forall e, In e (map fst xs) <-> live C st e /\ in_range3d r (pos_of e)).
Proof.
  intros (PP & HU & HO & HL). destruct (lives_Rep C U PP HU ops st HL HO) as (zs & R).
  destruct (query_loop_spec C U PP HU zs st (query (tree st) r) R) as (ys & E & EP & HY).
  { intros n Hn. apply filter_In in Hn. tauto. }
  exists (map (fun x => (x, c_hash C (e_subspace x))) ys).
  assert (EF : map fst (map (fun x => (x, c_hash C (e_subspace x))) ys) = ys).
  { rewrite map_map. cbn. apply map_id. }
  rewrite EF. split; [|split; [|split]].
  2: { intros e t H. apply in_map_iff in H as (x & [= -> <-] & _). reflexivity. }
  - unfold driver_Query, zero_ext, bindM, gets, ret. rewrite E. rewrite map_length.
    f_equal. f_equal. f_equal. f_equal. rewrite <- (map_length EntryPosition ys), EP, map_length. reflexivity.
  - apply (NoDup_map_inv EntryPosition). rewrite EP.
    assert (ND : NoDup (map node_pos (tree st))).
    { eapply Permutation_NoDup; [symmetry; apply (rep_tree _ _ _ _ R)|].
      apply (NoDup_map_inv (fun q => (pos_subspace q, pos_path q))). rewrite map_map. apply (rep_place _ _ _ _ R). }
    clear - ND. unfold query. induction (tree st) as [|n t IH]; cbn; [constructor|].
    cbn in ND. inversion ND as [|? ? H1 H2]; subst. specialize (IH H2).
    destruct (IsIncluded3d _ _ _); auto. cbn. constructor; auto.
    intros H. apply in_map_iff in H as (m & E & Hm). apply filter_In in Hm as [Hm _].
    apply H1. rewrite <- E. apply in_map; auto.
  - intros e. rewrite (Rep_live C U PP HU zs st e R). split.
    + intros He. split; auto.
      assert (Hin : In (pos_of e) (map node_pos (query (tree st) r))) by (rewrite <- EP; apply (in_map EntryPosition); auto).
      apply in_map_iff in Hin as (n & En & Hn). apply filter_In in Hn as [_ Hn]. rewrite En in Hn.
      apply IsIncluded3d_spec; auto.
    + intros [He Hr].
      assert (Hq : In (pos_of e) (map node_pos (tree st))).
      { eapply Permutation_in; [symmetry; apply (rep_tree _ _ _ _ R)|]. apply (in_map EntryPosition); auto. }
      apply in_map_iff in Hq as (n & En & Hn).
      assert (Hm : In (pos_of e) (map EntryPosition ys)).
      { rewrite EP. rewrite <- En. apply in_map. apply filter_In. split; auto. rewrite En. apply IsIncluded3d_spec; auto. }
      apply in_map_iff in Hm as (y & Ey & Hy). specialize (HY y Hy).
      assert (y = e); [|subst; auto].
      eapply place_inj; [apply (rep_place _ _ _ _ R)| | | |]; auto; unfold EntryPosition, pos_of in Ey; congruence.
Qed.
Print Assumptions C34_driver_partial.

(** So a caller sees entries that are not live. *)
Theorem C34_driver_refuted :
  exists r xs x, driver_Query demo r demo_after = (Ok xs, demo_after) /\ In x xs /\ ~ live demo demo_after (fst x)
    /\ length xs = 4%nat.
Proof.
  exists (Range3d (Range [115] [] true) (Range [] [] true) (Range 7 9 false)). do 2 eexists.
  split; [vm_compute; reflexivity|]. split; [left; reflexivity|]. split; [|reflexivity].
  rewrite <- liveb_spec. vm_compute. discriminate.
Qed.
Print Assumptions C34_driver_refuted.

(** A tree of the three nodes of the demonstration store. *)
Definition demo_kd : kdtree :=
  Tree (Tree Leaf (Node [116] [[97]] 3 [] false) Leaf) (Node [115] [[97]] 7 [] false)
       (Tree Leaf (Node [115] [[97]; [98]] 8 [] true) Leaf).
Definition demo_range : range3d := Range3d (Range [115] [116] false) (Range [[97]] [[98]] false) (Range 0 8 false).

Example C34_instance :
  kd_ordered demo_kd 0 /\ Permutation (map node_pos (kd_nodes demo_kd)) (map node_pos (tree demo_after))
  /\ map node_pos (kd_Query demo_kd demo_range) = [Position [115] [[97]] 7].
Proof.
  split; [|split].
  - cbn. repeat split; auto; intros x [<-|[]]; unfold cyclic_lt; cbn;
      intros [H|[H _]]; try lia; try discriminate.
  - replace (map node_pos (tree demo_after)) with
      [Position [115] [[97]] 7; Position [116] [[97]] 3; Position [115] [[97]; [98]] 8] by (vm_compute; reflexivity).
    apply perm_swap.
  - vm_compute. reflexivity.
Qed.

(** The keys in the tree are changed in place (C83_loaded): when the path of a loaded node with as many components as
    allowed is looked up, its subspace changes and the tree is out of order. Then Query misses a node that is in the tree,
    unchanged, and in the range. *)
Fixpoint kd_map (f : node -> node) (t : kdtree) : kdtree :=
  match t with Leaf => Leaf | Tree l v r => Tree (kd_map f l) (f v) (kd_map f r) end.
Theorem C34_rewritten_refuted :
  exists C t x n r, kd_ordered t 0 /\ In x (kd_nodes t) /\ n_shared x = true
    /\ let t' := kd_map (fun m => if node_is (n_sub x) (n_path x) (n_time x) m then clobber_node C m else m) t in
       In n (kd_nodes t) /\ In n (kd_nodes t') /\ in_range3d r (node_pos n)
       /\ kd_Query t r = [n] /\ kd_Query t' r = [].
Proof.
  exists (Cfg (PathParams 64 2 9 9) [] (fun b => b) (fun b => b)),
    (Tree (Tree (Tree Leaf (Node [3] [[97]] 2 [] true) Leaf) (Node [5; 5] [[97]; [98]] 3 [] true) Leaf) (Node [7] [[97]] 8 [] true) Leaf),
    (Node [5; 5] [[97]; [98]] 3 [] true), (Node [3] [[97]] 2 [] true),
    (Range3d (Range [3] [3; 0] false) (Range [[97]] [[97]; []] false) (Range 0 2 true)).
  split; [|split; [right; left; reflexivity|split; [reflexivity|]]].
  - cbn. repeat split; auto; intros x H; repeat destruct H as [<-|H]; try contradiction; unfold cyclic_lt; cbn;
      intros [H'|[H' _]]; try lia; try discriminate; try (inversion H'; subst; lia).
  - cbn zeta. split; [left; reflexivity|]. split; [vm_compute; left; reflexivity|].
    split; [apply IsIncluded3d_spec; vm_compute; reflexivity|]. split; vm_compute; reflexivity.
Qed.
Print Assumptions C34_rewritten_refuted.

(** * C38 *)

(** Splitting: every position of the range is in exactly one half, and the
    halves contain nothing else. *)
Theorem C38_split_partition t r l rr p :
  SplitRange t r = Ok (l, rr) ->
  (in_range3d r p <-> in_range3d l p \/ in_range3d rr p) /\ ~ (in_range3d l p /\ in_range3d rr p).
Proof.
  intros H. apply SplitRange_inv in H as (m & n & _ & (_ & _ & Hm) & En & _ & -> & ->).
  unfold in_range3d, in_range in *. cbn [subspace_range path_range time_range r_start r_end r_open] in *.
  cbn [node_pos pos_time] in Hm. rewrite En in Hm. destruct Hm as [M1 M2]. split.
  - split.
    + intros (A & B & T1 & T2). destruct (N.lt_ge_cases (pos_time p) m).
      * left. repeat split; auto; tauto.
      * right. repeat split; auto; try tauto. lia.
    + intros [(A & B & T1 & [T2|T2])|(A & B & T1 & T2)]; [discriminate| |]; repeat split; auto; try tauto.
      * destruct M2; auto. right. lia.
      * lia.
  - intros [(_ & _ & _ & [T|T]) (_ & _ & T' & _)]; [discriminate|lia].
Qed.
Print Assumptions C38_split_partition.

(** It succeeds whenever the range contains an entry, and panics otherwise. *)
Theorem C38_split_total t r :
  ((exists n, In n t /\ in_range3d r (node_pos n)) -> exists x, SplitRange t r = Ok x)
  /\ (~ (exists n, In n t /\ in_range3d r (node_pos n)) -> SplitRange t r = Panic).
Proof.
  split.
  - intros (n & Hn & Hr). eapply SplitRange_total; eauto.
  - intros H. unfold SplitRange. replace (query t r) with (@nil node); [reflexivity|].
    symmetry. apply filter_none. intros n Hn. apply inb_false. intros Hr. apply H. eauto.
Qed.
Print Assumptions C38_split_total.

(** The older half holds at most half of the entries. *)
Theorem C38_split_half t r l rr :
  SplitRange t r = Ok (l, rr) -> len (query t l) <= len (query t r) / 2.
Proof. apply split_left_half. Qed.
Print Assumptions C38_split_half.

Example C38_instance_split :
  exists l rr, SplitRange (tree demo_after) (Range3d (Range [] [] true) (Range [] [] true) (Range 0 100 false)) = Ok (l, rr)
    /\ time_range l = Range 0 7 false /\ time_range rr = Range 7 100 false
    /\ len (query (tree demo_after) l) = 1 /\ len (query (tree demo_after) rr) = 2.
Proof. do 2 eexists. split; [vm_compute; reflexivity|]. vm_compute. repeat split; reflexivity. Qed.

(** With equal timestamps the newer half is the whole range again: splitting
    makes no progress. *)
Theorem C38_split_progress_refuted :
  exists ops st r l rr, reached demo small ops st /\ SplitRange (tree st) r = Ok (l, rr)
    /\ len (query (tree st) r) = 2 /\ query (tree st) rr = query (tree st) r.
Proof.
  exists [demo_set [[97]] [1] 5; demo_set [[98]] [2] 5], (after_ops [demo_set [[97]] [1] 5; demo_set [[98]] [2] 5]),
    (Range3d (Range [] [] true) (Range [] [] true) (Range 0 100 false)). do 2 eexists.
  split; [split; [apply demo_history; vm_compute; reflexivity|vm_compute; reflexivity]|].
  split; [vm_compute; reflexivity|]. vm_compute. split; reflexivity.
Qed.
Print Assumptions C38_split_progress_refuted.

(** Summarise counts the live entries in the range, in a store that has not been
    reopened; the fingerprint is then always empty. *)
Theorem C38_count_partial C U ops st r :
  reached C U ops st -> ~ In OpReopen ops -> len (tree st) < 2 ^ 64 ->
  exists xs, Summarise (tree st) r = Ok ([], len xs)
    /\ NoDup xs /\ (forall e, In e xs <-> live C st e /\ in_range3d r (pos_of e)).
Proof.
  intros H HN HB. pose proof H as [(PP & HU & HO & _) HR].
  assert (HS : survived C U ops st).
  { split; auto. split; auto. split; auto. apply run_lives; auto. }
  destruct (C34_driver_partial C U ops st r HS) as (xs & E & _ & ND & HI).
  exists (map fst xs). split; auto.
  assert (EL : length xs = length (query (tree st) r)).
  { unfold driver_Query, bindM, gets, ret in E.
    destruct (query_loop C (query (tree st) r) st) as [q s] eqn:EQ. destruct q as [ys| | | |]; try discriminate.
    injection E as E1 E2. apply (f_equal (@length _)) in E1. rewrite !app_length, !repeat_length in E1.
    assert (EY : length ys = length (query (tree st) r)).
    { clear - EQ. revert ys s EQ. induction (query (tree st) r) as [|n ns IH]; cbn [query_loop]; intros ys s EQ.
      - injection EQ as <- _. reflexivity.
      - unfold bindM, gets, lift, ret, fail in EQ. destruct (mget _ _); [|discriminate].
        destruct (DecodeValues _); try discriminate. destruct (query_loop C ns st) as [q2 s2] eqn:E2.
        destruct q2; try discriminate. injection EQ as <- _. cbn. erewrite IH; eauto. }
    lia. }
  unfold Summarise. rewrite summarise_empty_fp.
  - cbn [N.add]. unfold len. do 3 f_equal. rewrite map_length. symmetry. exact EL.
  - intros n Hn. apply filter_In in Hn as [Hn _].
    eapply (run_blank C ops HN empty_store st HR); auto. intros ? [].
  - cbn [N.add]. assert (length (query (tree st) r) <= length (tree st))%nat.
    { unfold query. apply filter_length_le'. }
    unfold len in *. lia.
Qed.
Print Assumptions C38_count_partial.

Example C38_instance_count :
  ~ In OpReopen [demo_set [[97]] [1] 5; demo_set [[98]] [2] 5]
  /\ Summarise (tree (after_ops [demo_set [[97]] [1] 5; demo_set [[98]] [2] 5]))
       (Range3d (Range [] [] true) (Range [] [] true) (Range 0 100 false)) = Ok ([], 2).
Proof. split; [intros [H|[H|[]]]; discriminate|vm_compute; reflexivity]. Qed.

(** Combining two fingerprints of equal length can be undone and does not depend on the order;
    fingerprints of different lengths end the process. *)
Theorem C38_xor a b :
  (length a = length b -> exists c, xorStrings a b = Ok c /\ length c = length a /\ xorStrings b a = Ok c /\ xorStrings c b = Ok a)
  /\ (length a <> length b -> xorStrings a b = Fatal).
Proof.
  assert (Z : forall x y : bytes, xorStrings x y = if (length x =? length y)%nat then Ok (map (fun p => N.lxor (fst p) (snd p)) (combine x y)) else Fatal).
  { intros x y. unfold xorStrings, len. destruct (Nat.eqb_spec (length x) (length y)) as [E|E]; [rewrite E, N.eqb_refl; reflexivity|].
    destruct (N.eqb_spec (N.of_nat (length x)) (N.of_nat (length y))); [lia|reflexivity]. }
  split; intros H.
  - assert (G : exists c, map (fun p => N.lxor (fst p) (snd p)) (combine a b) = c /\ length c = length a
        /\ map (fun p => N.lxor (fst p) (snd p)) (combine b a) = c /\ map (fun p => N.lxor (fst p) (snd p)) (combine c b) = a).
    { revert b H. induction a as [|x a IH]; intros [|y b] H; try discriminate H; [exists []; repeat split|].
      injection H as H. destruct (IH b H) as (c & <- & G2 & G3 & G4). eexists. cbn [combine map fst snd length].
      split; [reflexivity|]. cbn [length]. split; [lia|]. split; [rewrite G3; f_equal; apply N.lxor_comm|].
      cbn [combine map fst snd]. rewrite G4. f_equal. rewrite N.lxor_assoc, N.lxor_nilpotent. apply N.lxor_0_r. }
    destruct G as (c & G1 & G2 & G3 & G4). exists c. rewrite !Z, G1, G3, G4, G2, H, Nat.eqb_refl. auto.
  - rewrite Z. destruct (Nat.eqb_spec (length a) (length b)); [contradiction|reflexivity].
Qed.
Print Assumptions C38_xor.
Example C38_instance_xor : xorStrings [1; 255] [3; 15] = Ok [2; 240] /\ xorStrings [2; 240] [3; 15] = Ok [1; 255] /\ xorStrings [] [1] = Fatal.
Proof. vm_compute. auto. Qed.

(** After a restart, summarising any non-empty range ends the process. *)
Theorem C38_summarise_refuted :
  exists ops st r, reached demo small ops st /\ Summarise (tree st) r = Fatal.
Proof.
  exists [demo_set [[97]] [1] 5; OpReopen], (after_ops [demo_set [[97]] [1] 5; OpReopen]),
    (Range3d (Range [] [] true) (Range [] [] true) (Range 0 100 false)).
  split; [split; [apply demo_history; vm_compute; reflexivity|vm_compute; reflexivity]|]. vm_compute. reflexivity.
Qed.
Print Assumptions C38_summarise_refuted.

(** The fingerprint does not tell different sets of entries apart. *)
Theorem C38_fingerprint_refuted :
  exists ops1 ops2 st1 st2 r s e, reached demo small ops1 st1 /\ reached demo small ops2 st2
    /\ Summarise (tree st1) r = Ok s /\ Summarise (tree st2) r = Ok s
    /\ in_range3d r (pos_of e) /\ live demo st1 e /\ ~ live demo st2 e.
Proof.
  exists [demo_set [[97]] [1] 5], [demo_set [[98]] [2] 6], (after_ops [demo_set [[97]] [1] 5]),
    (after_ops [demo_set [[98]] [2] 6]), (Range3d (Range [] [] true) (Range [] [] true) (Range 0 100 false)).
  eexists. exists (demo_e [[97]] [1] 5).
  split; [split; [apply demo_history; vm_compute; reflexivity|vm_compute; reflexivity]|].
  split; [split; [apply demo_history; vm_compute; reflexivity|vm_compute; reflexivity]|].
  split; [vm_compute; reflexivity|]. split; [vm_compute; reflexivity|].
  split; [apply IsIncluded3d_spec; vm_compute; reflexivity|]. rewrite <- !liveb_spec. vm_compute. split; [reflexivity|discriminate].
Qed.
Print Assumptions C38_fingerprint_refuted.
