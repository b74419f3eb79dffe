(** The store refines a list of entries. *)
From Coq Require Import Sorting.Permutation.
From Verif Require Import Base M_Order M_Encoding M_Paths M_Successor M_Ranges M_Keys M_Entry M_Map M_Store
  S_Order S_Store P_Order P_Encoding P_Paths P_Ranges P_Successor P_Areas P_Keys P_Map.
Local Open Scope N_scope.

(** ** Booleans for the specification's relations *)
Definition peqb (a b : path) : bool := (OrderPath a b =? 0)%Z.
Lemma peqb_spec a b : reflect (a = b) (peqb a b).
Proof.
  unfold peqb. apply iff_reflect. pose proof (order_eqb0 _ _ OrderPath_total a b). symmetry. auto.
Qed.
Lemma peqb_refl a : peqb a a = true.
Proof. destruct (peqb_spec a a); auto. Qed.

Definition ppfx (a b : path) : bool := IsPathPrefixed a b && negb (peqb a b).
Lemma ppfx_spec a b : reflect (proper_prefix_of a b) (ppfx a b).
Proof.
  apply iff_reflect. unfold ppfx. rewrite proper_prefix_spec, andb_true_iff, IsPathPrefixed_spec.
  destruct (peqb_spec a b); cbn; intuition congruence.
Qed.

(** ** Windows on the path dimension *)

Lemma window_exact (p q : path) : in_range path_lt (Range p (p ++ [[]]) false) q <-> q = p.
Proof.
  unfold in_range; cbn. rewrite <- path_le_lt. split.
  - intros [[H|H] [H2|H2]]; try discriminate; auto.
    apply append_empty_least in H. apply path_le_lt in H. tauto.
  - intros ->. split; [right; auto|right]. apply lex_prefix.
Qed.

Lemma window_ext (pre q : path) (c : bytes) :
  in_range path_lt (Range ((pre ++ [c]) ++ [[]]) (pre ++ [c ++ [0]]) false) q
  <-> proper_prefix_of (pre ++ [c]) q.
Proof.
  unfold in_range; cbn [r_start r_end r_open]. rewrite <- path_le_lt. split.
  - intros [H [H2|H2]]; [discriminate|]. rewrite <- app_assoc in H. cbn in H.
    destruct (between_prefix pre [c; []] [c ++ [0]] q) as (w & -> & H3 & H4); auto.
    destruct w as [|x w]; [destruct H3 as [H3|H3]; [inversion H3|discriminate]|].
    apply path_le_cons in H3. apply lex_cons_inv in H4 as [H4|[_ H4]]; [|inversion H4].
    destruct H3 as [H3|[-> H3]].
    + apply append_zero_least in H3. apply bytes_le_lt in H3. tauto.
    + destruct w as [|y w]; [destruct H3 as [H3|H3]; [inversion H3|discriminate]|].
      exists y, w. rewrite <- app_assoc. reflexivity.
  - intros (x & s & ->). split.
    + assert (G : path_lt (pre ++ [c]) ((pre ++ [c]) ++ x :: s)) by apply lex_prefix.
      apply append_empty_least in G. exact G.
    + right. rewrite <- app_assoc. cbn. apply lex_app_l. apply lex_head. apply bytes_lt_append_zero.
Qed.

Section Store.
Variable C : cfg.
Notation pp := (c_pp C).
Variable U : bytes -> Prop.
Hypothesis PP : store_params pp.
Hypothesis HU : universe C U.

Lemma strict_SuccessorPath p : strict_path pp p -> SuccessorPath p pp = Ok (Some (p ++ [[]])).
Proof.
  intros (H1 & H2 & H3 & H4). destruct PP as ((P1 & P2 & P3) & _).
  unfold SuccessorPath. destruct p as [|c p]; [congruence|]. set (q := c :: p) in *.
  rewrite toT_small by lia. destruct (N.ltb_spec (len q) (max_component_count pp)); [|lia].
  unfold PathAppend. rewrite toT_small by lia.
  destruct (N.ltb_spec (max_component_count pp) (len q + 1)); [lia|].
  change (len ([] : bytes)) with 0. rewrite toT_small by lia.
  destruct (N.ltb_spec (max_path_length pp) (0 + total_length q)); [lia|]. reflexivity.
Qed.

Lemma strict_last p : p <> [] -> exists pre (c : bytes), p = pre ++ [c].
Proof. intros H. destruct (exists_last H) as (a & b & ->). eauto. Qed.

Lemma strict_SuccessorPrefix pre c : strict_path pp (pre ++ [c]) ->
  SuccessorPrefix (pre ++ [c]) pp = Ok (Some (pre ++ [c ++ [0]]))
  /\ SuccessorPrefix_caller (pre ++ [c]) pp = pre ++ [c].
Proof.
  intros (H1 & H2 & H3 & H4). destruct PP as ((P1 & P2 & P3) & _).
  unfold SuccessorPrefix, SuccessorPrefix_caller, SuccessorPrefix_full.
  rewrite app_length. cbn [length]. rewrite Nat.add_1_r. cbn [successor_prefix_loop].
  rewrite app_nth2, Nat.sub_diag by lia. cbn [nth].
  apply Forall_app in H3 as [_ H3]. inversion H3 as [|? ? H5 _]; subst.
  unfold TryAppendZeroByte. rewrite toT_small by lia.
  destruct (N.eqb_spec (len c) (max_component_length pp)); [lia|]. cbn [fst snd].
  rewrite firstn_app, Nat.sub_diag, firstn_all. cbn [firstn]. rewrite app_nil_r.
  split; auto. unfold PathAppend. rewrite len_app in H2. rewrite total_length_app in H4.
  change (len [c]) with 1 in H2. change (total_length [c]) with (len c + 0) in H4.
  rewrite toT_small by lia.
  destruct (N.ltb_spec (max_component_count pp) (len pre + 1)); [lia|].
  rewrite len_app. change (len [0]) with 1. rewrite toT_small by lia.
  destruct (N.ltb_spec (max_path_length pp) (len c + 1 + total_length pre)); [lia|]. reflexivity.
Qed.

Lemma strict_codec p : strict_path pp p -> codec_path pp p.
Proof.
  intros (H1 & H2 & H3 & H4). split; [lia|]. eapply Forall_impl; [|exact H3]. cbn; intros; lia.
Qed.

Lemma strict_prefix p q : strict_path pp q -> prefix_of p q -> p <> [] -> strict_path pp p.
Proof.
  intros (H1 & H2 & H3 & H4) [s ->] Hp. rewrite len_app in H2. rewrite total_length_app in H4.
  apply Forall_app in H3. repeat split; auto; try tauto; lia.
Qed.

Lemma store_codec : codec_params pp.
Proof. destruct PP as (H1 & H2 & H3). split; auto. Qed.

(** ** Queries *)

Lemma window_single (n : node) s p :
  IsIncluded3d OrderSubspace (path_window s (SuccessorSubspaceId s) p (Some (p ++ [[]]))) (node_pos n)
  = beqb (n_sub n) s && peqb (n_path n) p.
Proof.
  apply eq_true_iff_eq. rewrite IsIncluded3d_spec. unfold in_range3d, path_window.
  cbn [subspace_range path_range time_range node_pos pos_subspace pos_path pos_time].
  rewrite subspace_singleton, window_exact, andb_true_iff.
  destruct (beqb_spec (n_sub n) s), (peqb_spec (n_path n) p);
    intuition (try congruence); unfold in_range; cbn; split; auto; lia.
Qed.

Lemma window_below (n : node) s pre c :
  IsIncluded3d OrderSubspace
    (path_window s (SuccessorSubspaceId s) ((pre ++ [c]) ++ [[]]) (Some (pre ++ [c ++ [0]]))) (node_pos n)
  = beqb (n_sub n) s && ppfx (pre ++ [c]) (n_path n).
Proof.
  apply eq_true_iff_eq. rewrite IsIncluded3d_spec. unfold in_range3d, path_window.
  cbn [subspace_range path_range time_range node_pos pos_subspace pos_path pos_time].
  rewrite subspace_singleton, window_ext, andb_true_iff.
  destruct (beqb_spec (n_sub n) s), (ppfx_spec (pre ++ [c]) (n_path n));
    intuition (try congruence); unfold in_range; cbn; split; auto; lia.
Qed.

(** ** Representation *)

Definition ekey (x : entry) : bytes := EncodeKey (EntryPosition x) pp.
Definition eval_ (x : entry) : bytes :=
  EncodeValues (Values (e_length x) (e_digest x) (c_hash C (e_subspace x))).
Definition place (x : entry) : bytes * path := (e_subspace x, e_path x).

Definition stored_ok (x : entry) : Prop := entry_ok C U x /\ e_namespace x = c_ns C.

Record Rep (xs : list entry) (st : state) : Prop := {
  rep_sorted : msorted (kv st);
  rep_kv : Permutation (kv st) (map (fun x => (ekey x, eval_ x)) xs);
  rep_tree : Permutation (map node_pos (tree st)) (map EntryPosition xs);
  rep_ok : Forall stored_ok xs;
  rep_place : NoDup (map place xs)
}.

Lemma Rep_perm xs ys st : Permutation xs ys -> Rep xs st -> Rep ys st.
Proof.
  intros HP [H1 H2 H3 H4 H5]. split; auto.
  - etransitivity; [exact H2|apply Permutation_map; auto].
  - etransitivity; [exact H3|apply Permutation_map; auto].
  - rewrite Forall_forall in *. intros x Hx. apply H4. eapply Permutation_in; [symmetry; eauto|auto].
  - eapply Permutation_NoDup; [apply Permutation_map; eauto|auto].
Qed.

Lemma place_inj xs x y : NoDup (map place xs) -> In x xs -> In y xs ->
  e_subspace x = e_subspace y -> e_path x = e_path y -> x = y.
Proof.
  intros HN Hx Hy E1 E2. assert (E : place x = place y) by (unfold place; congruence). clear E1 E2.
  induction xs as [|a xs IH]; [inversion Hx|]. cbn in HN. inversion HN as [|? ? Ha HN']; subst.
  destruct Hx as [->|Hx], Hy as [->|Hy]; auto; exfalso; apply Ha.
  - rewrite E. apply in_map; auto.
  - rewrite <- E. apply in_map; auto.
Qed.

Lemma ok_codec x : stored_ok x -> codec_path pp (e_path x) /\ e_time x < 2 ^ 64.
Proof. intros [(H1 & H2 & _) _]. split; auto. apply strict_codec; auto. Qed.

Lemma ekey_decode x : stored_ok x -> DecodeKey (ekey x) pp = Ok (EntryPosition x).
Proof.
  intros H. apply ok_codec in H as [H1 H2]. unfold ekey.
  apply (DecodeKey_EncodeKey pp (EntryPosition x) store_codec H1 H2).
Qed.

Lemma ekey_inj x y : stored_ok x -> stored_ok y -> ekey x = ekey y -> EntryPosition x = EntryPosition y.
Proof.
  intros Hx Hy E. apply ekey_decode in Hx, Hy. rewrite E in Hx. congruence.
Qed.

Lemma ok_values x : stored_ok x -> values_ok (Values (e_length x) (e_digest x) (c_hash C (e_subspace x))).
Proof.
  intros [(_ & _ & H3 & (b & Hb & H4) & H5) _]. destruct HU as [_ HL].
  repeat split; cbn; auto; [rewrite H4|]; apply HL; auto.
Qed.

Lemma eval_decode x : stored_ok x ->
  DecodeValues (eval_ x) = Ok (Values (e_length x) (e_digest x) (c_hash C (e_subspace x))).
Proof.
  intros H. unfold eval_. rewrite <- (app_nil_r (EncodeValues _)). apply DecodeValues_EncodeValues, ok_values; auto.
Qed.

Lemma Rep_In_ok xs st x : Rep xs st -> In x xs -> stored_ok x.
Proof. intros R. pose proof (rep_ok _ _ R) as H. rewrite Forall_forall in H. auto. Qed.

Lemma Rep_keys_nodup xs st : Rep xs st -> NoDup (mkeys (kv st)).
Proof. intros R. apply msorted_NoDup, (rep_sorted _ _ R). Qed.

Lemma Rep_kv_get xs st x : Rep xs st -> In x xs -> mget (kv st) (ekey x) = Some (eval_ x).
Proof.
  intros R Hx. apply mget_NoDup; [eapply Rep_keys_nodup; eauto|].
  eapply Permutation_in; [symmetry; apply (rep_kv _ _ R)|].
  apply in_map_iff. exists x. auto.
Qed.

Lemma Rep_live xs st x : Rep xs st -> live C st x <-> In x xs.
Proof.
  intros R. split.
  - intros (Hn & k & v & w & Hin & Hk & Hv & Hd & Hl).
    eapply Permutation_in in Hin; [|apply (rep_kv _ _ R)].
    apply in_map_iff in Hin as (y & E & Hy). inversion E; subst.
    pose proof (Rep_In_ok _ _ _ R Hy) as Oy.
    rewrite ekey_decode in Hk by auto. rewrite eval_decode in Hv by auto.
    inversion Hv; subst. cbn in Hd, Hl. unfold EntryPosition in Hk. inversion Hk.
    destruct Oy as [_ Oy]. destruct x, y; cbn in *; subst; auto.
  - intros Hx. pose proof (Rep_In_ok _ _ _ R Hx) as Ox. split; [apply Ox|].
    exists (ekey x), (eval_ x), (Values (e_length x) (e_digest x) (c_hash C (e_subspace x))).
    rewrite ekey_decode, eval_decode by auto. repeat split; auto.
    eapply Permutation_in; [symmetry; apply (rep_kv _ _ R)|]. apply in_map_iff. eauto.
Qed.

Lemma Rep_node xs st n : Rep xs st -> In n (tree st) ->
  exists x, In x xs /\ node_pos n = EntryPosition x.
Proof.
  intros R H. apply (in_map node_pos) in H. eapply Permutation_in in H; [|apply (rep_tree _ _ R)].
  apply in_map_iff in H as (x & E & Hx). eauto.
Qed.

Lemma Rep_node_inv xs st x : Rep xs st -> In x xs ->
  exists n, In n (tree st) /\ node_pos n = EntryPosition x.
Proof.
  intros R H. apply (in_map EntryPosition) in H.
  eapply Permutation_in in H; [|symmetry; apply (rep_tree _ _ R)].
  apply in_map_iff in H as (n & E & Hn). eauto.
Qed.

Lemma pos_fields n x : node_pos n = EntryPosition x ->
  n_sub n = e_subspace x /\ n_path n = e_path x /\ n_time n = e_time x.
Proof. unfold node_pos, EntryPosition. intros H; inversion H; auto. Qed.

(** Queries on the tree are queries on the entries. *)
Lemma query_perm xs st r : Rep xs st ->
  Permutation (map node_pos (query (tree st) r))
    (map EntryPosition (filter (fun x => IsIncluded3d OrderSubspace r (EntryPosition x)) xs)).
Proof.
  intros R. pose proof (rep_tree _ _ R) as H. unfold query.
  assert (F : forall (A : Type) (f : A -> position) g (l : list A),
    map f (filter (fun a => g (f a)) l) = filter g (map f l)).
  { induction l as [|a l IH]; cbn; auto. destruct (g (f a)); cbn; congruence. }
  rewrite (F _ node_pos (IsIncluded3d OrderSubspace r)).
  rewrite (F _ EntryPosition (IsIncluded3d OrderSubspace r)).
  apply filter_perm; auto.
Qed.

(** ** Entry driver *)

Lemma nodup_place_filter xs s p : NoDup (map place xs) ->
  filter (fun x => beqb (e_subspace x) s && peqb (e_path x) p) xs = []
    /\ (forall x, In x xs -> e_subspace x = s -> e_path x = p -> False)
  \/ exists x, filter (fun x => beqb (e_subspace x) s && peqb (e_path x) p) xs = [x]
    /\ In x xs /\ e_subspace x = s /\ e_path x = p.
Proof.
  intros HN. induction xs as [|a xs IH]; cbn; [left; split; auto|].
  inversion HN as [|? ? Ha HN']; subst. specialize (IH HN').
  destruct (beqb_spec (e_subspace a) s), (peqb_spec (e_path a) p); cbn.
  - right. exists a. subst. split; auto. destruct IH as [[-> _]|(x & E & Hx & E1 & E2)]; auto.
    exfalso. apply Ha. apply in_map_iff. exists x. unfold place. split; congruence.
  - destruct IH as [[-> H]|(x & -> & Hx & E1 & E2)]; [left|right; exists x; auto].
    split; auto. intros x [->|Hx] ? ?; eauto.
  - destruct IH as [[-> H]|(x & -> & Hx & E1 & E2)]; [left|right; exists x; auto].
    split; auto. intros x [->|Hx] ? ?; eauto.
  - destruct IH as [[-> H]|(x & -> & Hx & E1 & E2)]; [left|right; exists x; auto].
    split; auto. intros x [->|Hx] ? ?; eauto.
Qed.

Lemma filter_ext_In {A} (f g : A -> bool) l : (forall a, f a = g a) -> filter f l = filter g l.
Proof. intros H. apply filter_ext. auto. Qed.

Lemma perm_singleton {A B} (f : A -> B) l b : Permutation (map f l) [b] -> exists a, l = [a] /\ f a = b.
Proof.
  intros H. apply Permutation_sym, Permutation_length_1_inv in H.
  destruct l as [|a [|? ?]]; inversion H; subst; eauto.
Qed.

Lemma storage_Get_spec xs st s p : Rep xs st -> strict_path pp p ->
  (storage_Get C s (SuccessorSubspaceId s) p st = (Ok None, st)
     /\ forall x, In x xs -> e_subspace x = s -> e_path x = p -> False)
  \/ exists x n, storage_Get C s (SuccessorSubspaceId s) p st = (Ok (Some n), st)
     /\ In x xs /\ e_subspace x = s /\ e_path x = p /\ node_pos n = EntryPosition x /\ In n (tree st).
Proof.
  intros R HS. unfold storage_Get, bindM, lift, gets, ret.
  rewrite strict_SuccessorPath by auto.
  pose proof (query_perm xs st (path_window s (SuccessorSubspaceId s) p (Some (p ++ [[]]))) R) as HQ.
  rewrite (filter_ext _ (fun x => beqb (e_subspace x) s && peqb (e_path x) p)) in HQ
    by (intros x; apply (window_single (Node (e_subspace x) (e_path x) (e_time x) [] false))).
  destruct (nodup_place_filter xs s p (rep_place _ _ R)) as [[E H]|(x & E & Hx & E1 & E2)]; rewrite E in HQ.
  - left. cbn in HQ. apply Permutation_sym, Permutation_nil, map_eq_nil in HQ. rewrite HQ. auto.
  - right. apply perm_singleton in HQ as (n & Hn & En). rewrite Hn. exists x, n. repeat split; auto.
    assert (Hi : In n (query (tree st) (path_window s (SuccessorSubspaceId s) p (Some (p ++ [[]]))))).
    { rewrite Hn. left; auto. }
    unfold query in Hi. apply filter_In in Hi. tauto.
Qed.

Lemma driver_Get_spec xs st s p : Rep xs st -> strict_path pp p ->
  (driver_Get C s p st = (Ok None, st)
     /\ forall x, In x xs -> e_subspace x = s -> e_path x = p -> False)
  \/ exists x, driver_Get C s p st = (Ok (Some (x, c_hash C (e_subspace x))), st)
     /\ In x xs /\ e_subspace x = s /\ e_path x = p.
Proof.
  intros R HS. unfold driver_Get, driver_Get_at, bindM.
  destruct (storage_Get_spec xs st s p R HS) as [[-> H]|(x & n & -> & Hx & E1 & E2 & En & Hn)].
  - left. auto.
  - right. exists x. unfold gets, lift, ret. rewrite En. fold (ekey x). rewrite (Rep_kv_get _ _ _ R Hx).
    pose proof (Rep_In_ok _ _ _ R Hx) as Ox. rewrite eval_decode by auto. cbn [v_digest v_length v_auth].
    apply pos_fields in En as (? & ? & En). rewrite En. repeat split; auto.
    destruct Ox as [_ Ox]. destruct x; cbn in *; subst; auto.
Qed.

(** Deleting a stored entry. *)
Lemma node_is_spec s p t n : reflect (node_pos n = Position s p t) (node_is s p t n).
Proof.
  apply iff_reflect. unfold node_is, node_pos. rewrite !andb_true_iff.
  rewrite (order_eqb0 _ _ OrderTimestamp_total).
  destruct (beqb_spec (n_sub n) s), (peqb_spec (n_path n) p) as [E|E]; unfold peqb in *; subst.
  - rewrite (order_refl _ _ OrderPath_total). split; [intros H; inversion H; auto|intros [[-> _] _]; auto].
  - split; [intros H; inversion H; congruence|]. intros [_ H].
    apply (order_eqb0 _ _ OrderPath_total) in H. congruence.
  - split; [intros H; inversion H; congruence|]. intros [[_ H] _]. discriminate.
  - split; [intros H; inversion H; congruence|]. intros [[_ H] _]. discriminate.
Qed.

Lemma remove_first_perm (f : node -> bool) t q l :
  (forall n, f n = true <-> node_pos n = q) ->
  Permutation (map node_pos t) (q :: l) -> Permutation (map node_pos (remove_first f t)) l.
Proof.
  intros Hf. revert l. induction t as [|n t IH]; intros l HP.
  - apply Permutation_nil in HP. discriminate.
  - cbn. destruct (f n) eqn:E.
    + apply Hf in E. cbn in HP. rewrite E in HP. apply Permutation_cons_inv in HP. auto.
    + cbn in *. assert (Hin : In q (map node_pos t)).
      { assert (Hq : In q (node_pos n :: map node_pos t)) by (eapply Permutation_in; [symmetry; exact HP|left; auto]).
        destruct Hq as [Hq|Hq]; auto. apply Hf in Hq. congruence. }
      assert (Hin2 : In (node_pos n) l).
      { assert (Hq : In (node_pos n) (q :: l)) by (eapply Permutation_in; [exact HP|left; auto]).
        destruct Hq as [Hq|Hq]; auto. symmetry in Hq. apply Hf in Hq. congruence. }
      apply in_split in Hin2 as (l1 & l2 & ->).
      apply Permutation_cons_app. apply IH.
      apply Permutation_cons_app_inv with (a := node_pos n) (l1 := q :: l1). exact HP.
Qed.

Lemma driver_Delete_spec x xs st : budget st = None -> Rep (x :: xs) st ->
  exists st', driver_Delete C x st = (Ok tt, st') /\ Rep xs st' /\ refs st' = refs st /\ files st' = files st
    /\ locked st' = locked st /\ budget st' = None.
Proof.
  intros B R. unfold driver_Delete, bindM, durable. rewrite B.
  eexists. split; [reflexivity|]. split; [|cbn; auto].
  destruct R as [R1 R2 R3 R4 R5]. split; cbn [kv tree set_kv set_tree].
  - apply mdel_sorted; auto.
  - eapply mdel_perm; [apply msorted_NoDup; auto|exact R2].
  - eapply remove_first_perm; [|exact R3]. intros n.
    destruct (node_is_spec (e_subspace x) (e_path x) (e_time x) n); split; auto; congruence.
  - inversion R4; auto.
  - inversion R5; auto.
Qed.

(** Inserting a new entry. *)
Lemma driver_Insert_spec x xs st : budget st = None -> Rep xs st -> stored_ok x ->
  (forall y, In y xs -> e_subspace y = e_subspace x -> e_path y = e_path x -> False) ->
  exists st', driver_Insert C (x, c_hash C (e_subspace x)) st = (Ok tt, st') /\ Rep (x :: xs) st'
    /\ refs st' = refs st /\ files st' = files st /\ locked st' = locked st /\ budget st' = None
    /\ tree st' = Node (e_subspace x) (e_path x) (e_time x) [] false :: tree st.
Proof.
  intros B R Ox HN. unfold driver_Insert, bindM, durable. rewrite B. unfold gets. cbn [tree set_kv].
  destruct (existsb (node_is (e_subspace x) (e_path x) (e_time x)) (tree st)) eqn:E.
  - exfalso. apply existsb_exists in E as (n & Hn & E).
    destruct (node_is_spec (e_subspace x) (e_path x) (e_time x) n) as [E'|]; [|discriminate].
    destruct (Rep_node _ _ _ R Hn) as (y & Hy & Ey). rewrite Ey in E'. unfold EntryPosition in E'.
    inversion E'. eapply HN; eauto.
  - eexists. split; [reflexivity|]. split; [|cbn; auto].
    pose proof R as [R1 R2 R3 R4 R5]. split; cbn [kv tree set_kv set_tree].
    + apply mset_sorted; auto.
    + cbn [map]. etransitivity; [apply mset_fresh|apply perm_skip; exact R2].
      intros Hk. unfold mkeys in Hk. apply in_map_iff in Hk as ((k & v) & Hk & Hin). cbn in Hk. subst k.
      eapply Permutation_in in Hin; [|exact R2]. apply in_map_iff in Hin as (y & Ey & Hy).
      pose proof (f_equal fst Ey) as E1. cbn [fst] in E1.
      apply (ekey_inj y x) in E1; auto; [|eapply Rep_In_ok; eauto]. unfold EntryPosition in E1. inversion E1.
      eapply HN; eauto.
    + cbn. apply perm_skip. exact R3.
    + constructor; auto.
    + cbn. constructor; auto. intros Hin. apply in_map_iff in Hin as (y & Ey & Hy). unfold place in Ey.
      inversion Ey. eapply HN; eauto.
Qed.

(** ** Reference counts *)
Definition getd (m : bmap N) (d : bytes) : N := match mget m d with Some c => c | None => 0 end.
Fixpoint cnt (d : bytes) (xs : list entry) : N :=
  match xs with [] => 0 | x :: xs' => (if beqb (e_digest x) d then 1 else 0) + cnt d xs' end.

Lemma cnt_perm d xs ys : Permutation xs ys -> cnt d xs = cnt d ys.
Proof. induction 1; cbn; lia. Qed.

Lemma cnt_zero d xs : cnt d xs = 0 -> forall x, In x xs -> e_digest x <> d.
Proof.
  induction xs as [|a xs IH]; cbn; [tauto|]. intros H x [->|Hx].
  - destruct (beqb_spec (e_digest x) d); auto. lia.
  - apply IH; auto. lia.
Qed.

Definition Refs (n : N) (xs : list entry) (m : bmap N) : Prop :=
  forall d, cnt d xs <= getd m d /\ getd m d <= n.

Lemma getd_mset m k c d : getd (mset m k c) d = if beqb d k then c else getd m d.
Proof. unfold getd. rewrite mget_mset. destruct (beqb d k); auto. Qed.

Lemma ref_Decrement_spec n x xs st : budget st = None -> n < 2 ^ 64 -> Refs n (x :: xs) (refs st) ->
  exists c st', ref_Decrement (e_digest x) st = (Ok c, st') /\ Refs n xs (refs st')
   /\ (c = 0 -> forall y, In y xs -> e_digest y <> e_digest x)
   /\ kv st' = kv st /\ tree st' = tree st /\ files st' = files st /\ locked st' = locked st /\ budget st' = None.
Proof.
  intros B Hn R. unfold ref_Decrement, bindM, gets.
  pose proof (R (e_digest x)) as [H1 H2]. cbn in H1. rewrite beqb_refl in H1.
  unfold getd in H1, H2. destruct (mget (refs st) (e_digest x)) as [c|] eqn:E; [|lia].
  unfold durable. rewrite B. cbn [bindM].
  assert (S : sub64 c 1 = c - 1).
  { unfold sub64, two64. rewrite (N.mod_small 1) by lia.
    replace (c + 2 ^ 64 - 1) with ((c - 1) + 1 * 2 ^ 64) by lia.
    rewrite N.mod_add by lia. apply N.mod_small. lia. }
  exists (c - 1). eexists. split; [unfold ret; rewrite S; reflexivity|].
  cbn. split; [|split; auto].
  - intros d. rewrite getd_mset. pose proof (R d) as [H3 H4]. cbn in H3.
    rewrite (beqb_sym d). destruct (beqb_spec (e_digest x) d) as [Ed|Ed]; [subst d; lia|lia].
  - intros Hc. apply cnt_zero. lia.
Qed.

Lemma ref_Increment_spec n x xs st : budget st = None -> n + 1 < 2 ^ 64 -> Refs n xs (refs st) ->
  exists c st', ref_Increment (e_digest x) st = (Ok c, st') /\ Refs (n + 1) (x :: xs) (refs st')
   /\ kv st' = kv st /\ tree st' = tree st /\ files st' = files st /\ locked st' = locked st /\ budget st' = None.
Proof.
  intros B Hn R. unfold ref_Increment, bindM, gets, durable. rewrite B.
  eexists _, _. split; [reflexivity|]. cbn [refs set_refs]. split; [|cbn; auto].
  intros d. rewrite getd_mset. pose proof (R d) as [H3 H4]. cbn [cnt]. rewrite (beqb_sym d).
  destruct (beqb_spec (e_digest x) d) as [Ed|Ed]; [subst d|lia].
  unfold getd in *. destruct (mget (refs st) (e_digest x)) as [c|]; [|lia].
  rewrite add64_small by lia. lia.
Qed.

Lemma Refs_weaken n n' xs m : n <= n' -> Refs n xs m -> Refs n' xs m.
Proof. intros H R d. specialize (R d). lia. Qed.
Lemma Refs_perm n xs ys m : Permutation xs ys -> Refs n xs m -> Refs n ys m.
Proof. intros H R d. rewrite <- (cnt_perm d _ _ H). apply R. Qed.
Lemma Refs_drop n x xs m : Refs n (x :: xs) m -> Refs n xs m.
Proof. intros R d. specialize (R d). cbn in R. lia. Qed.

(** ** Payload files *)
Definition Files (st : state) : Prop :=
  forall f b, mget (files st) f = Some b -> U b /\ f = c_fname C (c_hash C b).

Definition digest_ok (d : bytes) : Prop := exists b, U b /\ d = c_hash C b.

Lemma fname_inj d d' : digest_ok d -> digest_ok d' -> c_fname C d = c_fname C d' -> d = d'.
Proof.
  intros (b & Hb & ->) (b' & Hb' & ->) E. destruct HU as [HI _]. rewrite (HI b b'); auto.
Qed.

Lemma stored_digest x : stored_ok x -> digest_ok (e_digest x).
Proof. intros [(_ & _ & _ & H & _) _]. auto. Qed.

Lemma stored_sub x : stored_ok x -> U (e_subspace x).
Proof. intros [(_ & _ & _ & _ & H) _]. auto. Qed.

Definition file_of (st : state) (d : bytes) : option bytes := mget (files st) (c_fname C d).

Lemma Files_erase d st : Files st -> Files (set_files (fun m => mdel m (c_fname C d)) st).
Proof.
  intros H f b. cbn. rewrite mget_mdel. destruct (beqb f (c_fname C d)); [discriminate|apply H].
Qed.

Lemma Files_set b st : U b -> Files st -> Files (set_files (fun m => mset m (c_fname C (c_hash C b)) b) st).
Proof.
  intros Hb H f b'. cbn. rewrite mget_mset. destruct (beqb_spec f (c_fname C (c_hash C b))) as [->|].
  - intros E; inversion E; subst. auto.
  - apply H.
Qed.

Lemma file_erase_other d d' st : digest_ok d -> digest_ok d' -> d <> d' ->
  file_of (set_files (fun m => mdel m (c_fname C d')) st) d = file_of st d.
Proof.
  intros H H' N. unfold file_of. cbn. rewrite mget_mdel, beqb_neq; auto.
  intros E. apply N. apply fname_inj; auto.
Qed.

(** ** Pruning *)
Record Same (st st' : state) : Prop := {
  same_kv : kv st' = kv st; same_tree : tree st' = tree st; same_refs : refs st' = refs st;
  same_locked : locked st' = locked st; same_budget : budget st' = budget st
}.

Lemma Rep_same xs st st' : kv st' = kv st -> tree st' = tree st -> Rep xs st -> Rep xs st'.
Proof. intros E1 E2 [R1 R2 R3 R4 R5]. split; rewrite ?E1, ?E2; auto. Qed.

Lemma prune_loop_spec n ys zs st :
  budget st = None -> n < 2 ^ 64 ->
  Rep (ys ++ zs) st -> Refs n (ys ++ zs) (refs st) -> Files st ->
  exists st', prune_loop C (map (fun x => (x, c_hash C (e_subspace x))) ys) st = (Ok ys, st')
    /\ Rep zs st' /\ Refs n zs (refs st') /\ Files st' /\ locked st' = locked st /\ budget st' = None
    /\ (forall z, In z zs -> file_of st' (e_digest z) = file_of st (e_digest z))
    /\ (forall f b, mget (files st') f = Some b -> mget (files st) f = Some b).
Proof.
  intros B Hn. revert st B. induction ys as [|y ys IH]; intros st B R RF FS; cbn [map prune_loop].
  - exists st. cbn in *. unfold ret. repeat (split; auto).
  - cbn [app] in *.
    destruct (driver_Delete_spec y (ys ++ zs) st B R) as (s1 & E1 & R1 & Er1 & Ef1 & El1 & B1).
    destruct (ref_Decrement_spec n y (ys ++ zs) s1 B1 Hn) as (c & s2 & E2 & RF2 & Hc & K2 & T2 & F2 & L2 & B2).
    { rewrite Er1; auto. }
    unfold bindM at 1. rewrite E1. unfold bindM at 1. rewrite E2.
    assert (R2 : Rep (ys ++ zs) s2) by (eapply Rep_same; eauto).
    assert (FS2 : Files s2) by (unfold Files; rewrite F2, Ef1; auto).
    destruct (N.eqb_spec c 0) as [Ec|Ec].
    + unfold bindM at 1. unfold payload_Erase, durable. rewrite B2.
      set (s3 := set_files (fun m => mdel m (c_fname C (e_digest y))) s2).
      destruct (IH s3) as (s4 & E4 & R4 & RF4 & FS4 & L4 & B4 & K4 & D4); auto.
      { apply (Rep_same _ s2); auto. }
      { apply Files_erase; auto. }
      exists s4. unfold bindM at 1. rewrite E4. unfold ret.
      do 4 (split; [auto|]). split; [rewrite L4, <- El1, <- L2; reflexivity|]. split; [auto|]. split.
      * intros z Hz. rewrite K4 by auto. unfold s3. rewrite file_erase_other.
        -- unfold file_of. rewrite F2, Ef1. auto.
        -- apply stored_digest. eapply Rep_In_ok; [exact R2|apply in_or_app; auto].
        -- apply stored_digest. eapply Rep_In_ok; [exact R|left; auto].
        -- apply Hc; auto. apply in_or_app; auto.
      * intros f b Hf. apply D4 in Hf. cbn in Hf. rewrite mget_mdel in Hf.
        destruct (beqb f (c_fname C (e_digest y))); [discriminate|]. rewrite F2, Ef1 in Hf. auto.
    + unfold bindM at 1. unfold ret at 1.
      destruct (IH s2) as (s4 & E4 & R4 & RF4 & FS4 & L4 & B4 & K4 & D4); auto.
      exists s4. unfold bindM at 1. rewrite E4. unfold ret.
      do 4 (split; [auto|]). split; [rewrite L4, <- El1, <- L2; reflexivity|]. split; [auto|]. split.
      * intros z Hz. rewrite K4 by auto. unfold file_of. rewrite F2, Ef1. auto.
      * intros f b Hf. apply D4 in Hf. rewrite F2, Ef1 in Hf. auto.
Qed.

Lemma state_eta st : State (kv st) (tree st) (refs st) (files st) (locked st) (budget st) = st.
Proof. destruct st; auto. Qed.

Lemma set_tree_id f st : f (tree st) = tree st -> set_tree f st = st.
Proof. intros H. unfold set_tree. rewrite H. apply state_eta. Qed.

Lemma clobber_strict n : strict_path pp (n_path n) -> clobber C n = n_sub n.
Proof.
  intros (H1 & H2 & _). destruct PP as ((P1 & _) & _). unfold clobber.
  rewrite toT_small by lia. destruct (N.ltb_spec (len (n_path n)) (max_component_count pp)); [|lia].
  cbn [negb]. rewrite andb_false_r. reflexivity.
Qed.

Lemma clobber_node_strict n : strict_path pp (n_path n) -> clobber_node C n = n.
Proof. intros H. unfold clobber_node. rewrite clobber_strict by auto. destruct n; auto. Qed.

Lemma Rep_strict xs st n : Rep xs st -> In n (tree st) -> strict_path pp (n_path n).
Proof.
  intros R Hn. destruct (Rep_node _ _ _ R Hn) as (x & Hx & E). apply pos_fields in E as (_ & -> & _).
  apply (Rep_In_ok _ _ _ R Hx).
Qed.

Lemma prunable_loop_spec t cands ys xs st : Rep xs st ->
  map node_pos cands = map EntryPosition ys -> (forall n, In n cands -> In n (tree st)) ->
  (forall y, In y ys -> In y xs) ->
  prunable_loop C t cands st
  = (Ok (map (fun x => (x, c_hash C (e_subspace x))) (filter (fun y => e_time y <? t) ys)), st).
Proof.
  intros R. revert ys. induction cands as [|n cands IH]; intros [|y ys] E HT HX; try discriminate.
  - reflexivity.
  - cbn [map] in E. pose proof (f_equal (hd (Position [] [] 0)) E) as E0. pose proof (f_equal (@tl _) E) as E2'.
    cbn [hd tl] in E0, E2'.
    apply pos_fields in E0 as (Es & Ep & Et).
    assert (Hy : In y xs) by (apply HX; left; auto).
    assert (Hn : In n (tree st)) by (apply HT; left; auto).
    pose proof (Rep_strict _ _ _ R Hn) as HS.
    cbn [prunable_loop filter]. rewrite Et. destruct (e_time y <? t).
    + unfold bindM at 1. rewrite set_tree_id.
      2:{ rewrite <- (map_id (tree st)) at 2. apply map_ext_in. intros m Hm.
          rewrite clobber_node_strict by (eapply Rep_strict; eauto). destruct (_ && _); auto. }
      rewrite clobber_strict by auto. fold (driver_Get C (n_sub n) (n_path n)).
      unfold bindM at 1.
      destruct (driver_Get_spec xs st (n_sub n) (n_path n) R HS) as [[_ H]|(x & -> & Hx & X1 & X2)].
      * exfalso. apply (H y Hy); congruence.
      * assert (x = y) by (eapply place_inj; [apply (rep_place _ _ R)| | | |]; eauto; congruence). subst x.
        unfold bindM. rewrite (IH ys); auto; intros; [apply HT|apply HX]; right; auto.
    + apply IH; auto; intros; [apply HT|apply HX]; right; auto.
Qed.


(** ** Entries above the new one *)

Lemma PrefixesOf_inner p : p <> [] -> len p < 2 ^ 63 ->
  exists ps, slice (PrefixesOf p) 1 (sub64 (len (PrefixesOf p)) 1) = Ok ps
    /\ forall q, In q ps <-> q <> [] /\ proper_prefix_of q p.
Proof.
  intros Hp HL. assert (L : len (PrefixesOf p) = len p + 1).
  { unfold len. rewrite PrefixesOf_length. lia. }
  assert (L1 : 1 <= len p) by (destruct p; [congruence|unfold len; cbn; lia]).
  rewrite L. assert (S : sub64 (len p + 1) 1 = len p).
  { unfold sub64, two64. rewrite (N.mod_small 1) by lia.
    replace (len p + 1 + 2 ^ 64 - 1) with (len p + 1 * 2 ^ 64) by lia.
    rewrite N.mod_add by lia. apply N.mod_small. lia. }
  rewrite S. unfold slice. rewrite L.
  destruct (N.leb_spec 1 (len p)); [|lia]. destruct (N.leb_spec (len p) (len p + 1)); [|lia].
  cbn [andb]. eexists; split; [reflexivity|].
  change (N.to_nat 1) with 1%nat. unfold PrefixesOf. cbn [skipn].
  intros q. rewrite firstn_map.
  assert (FS : forall k n b, (k <= n)%nat -> firstn k (seq b n) = seq b k).
  { induction k as [|k IH]; intros [|n] b Hk; cbn; auto; [lia|]. rewrite IH by lia. auto. }
  rewrite FS by (unfold len in *; lia). rewrite in_map_iff. rewrite proper_prefix_spec. split.
  - intros (i & <- & Hi). apply in_seq in Hi. unfold len in *.
    assert (E : length (firstn (Datatypes.S i) p) = Datatypes.S i) by (rewrite firstn_length; lia).
    repeat split.
    + intros E'. rewrite E' in E. discriminate.
    + apply firstn_prefix.
    + intros E'. rewrite E' in E. lia.
  - intros (Hq & Hpre & Hne). pose proof (prefix_of_length _ _ Hpre) as HL2.
    exists (Nat.pred (length q)). destruct q as [|c q]; [congruence|]. cbn [length Nat.pred].
    split; [symmetry; apply (proj1 (prefix_of_firstn (c :: q) p)); auto|]. apply in_seq. unfold len in *.
    assert (length (c :: q) <> length p).
    { intros E. apply Hne. pose proof (proj1 (prefix_of_firstn _ _) Hpre) as X.
      rewrite E, firstn_all in X. auto. }
    cbn in *. lia.
Qed.

Lemma prefix_queries_spec s ps t : Forall (strict_path pp) ps ->
  exists ns, prefix_queries C s ps t = Ok ns
    /\ forall n, In n ns <-> In n t /\ n_sub n = s /\ In (n_path n) ps.
Proof.
  induction ps as [|p ps IH]; intros H.
  - exists []. split; auto. cbn. tauto.
  - inversion H as [|? ? H1 H2]; subst. destruct (IH H2) as (ns & E & Hns).
    cbn [prefix_queries]. rewrite strict_SuccessorPath by auto. cbn [bind]. rewrite E. cbn [bind].
    eexists; split; [reflexivity|]. intros n. rewrite in_app_iff, Hns. unfold query.
    rewrite filter_In, window_single, andb_true_iff. cbn [In].
    destruct (beqb_spec (n_sub n) s), (peqb_spec (n_path n) p); intuition congruence.
Qed.

Lemma strict_len p : strict_path pp p -> len p < 2 ^ 63.
Proof. intros (_ & H & _). destruct PP as (_ & H2 & _). lia. Qed.

Lemma DriverPrefixesOf_spec xs st e : Rep xs st -> strict_path pp (e_path e) ->
  exists ns, DriverPrefixesOf C (e_subspace e) (e_path e) st = (Ok ns, st)
    /\ (existsb (fun n => e_time e <=? n_time n) ns = true
        <-> exists x, In x xs /\ above x e /\ e_time e <= e_time x).
Proof.
  intros R HS. unfold DriverPrefixesOf.
  destruct (PrefixesOf_inner (e_path e)) as (ps & E & Hps); [apply HS|apply strict_len; auto|].
  unfold bindM at 1. unfold lift at 1. rewrite E. unfold bindM, gets, lift.
  destruct (prefix_queries_spec (e_subspace e) ps (tree st)) as (ns & E2 & Hns).
  { apply Forall_forall. intros q Hq. apply Hps in Hq as [Hq1 Hq2].
    eapply strict_prefix; eauto. apply proper_prefix_spec in Hq2. tauto. }
  exists ns. rewrite E2. split; auto. rewrite existsb_exists. split.
  - intros (n & Hn & Ht). apply Hns in Hn as (Hn & Hs & Hp). apply Hps in Hp as [Hp1 Hp2].
    destruct (Rep_node _ _ _ R Hn) as (x & Hx & Ex). apply pos_fields in Ex as (E1 & E3 & E4).
    exists x. unfold above. rewrite <- E1, <- E3, <- E4. apply N.leb_le in Ht. auto 6.
  - intros (x & Hx & (Ha1 & Ha2 & Ha3) & Ht). destruct (Rep_node_inv _ _ _ R Hx) as (n & Hn & En).
    apply pos_fields in En as (E1 & E3 & E4). exists n. rewrite Hns, Hps, E1, E3, E4. split; auto.
    apply N.leb_le; auto.
Qed.

(** ** Insertion *)
Definition prunesb (e x : entry) : bool :=
  (beqb (e_subspace x) (e_subspace e) && ppfx (e_path e) (e_path x)) && (e_time x <? e_time e).

Lemma prunesb_spec e x : e_path e <> [] -> reflect (prunes e x) (prunesb e x).
Proof.
  intros HN. apply iff_reflect. unfold prunes, above, prunesb. rewrite !andb_true_iff, N.ltb_lt.
  destruct (beqb_spec (e_subspace x) (e_subspace e)), (ppfx_spec (e_path e) (e_path x));
    intuition congruence.
Qed.

Lemma filter_partition {A} (f : A -> bool) l :
  Permutation l (filter f l ++ filter (fun a => negb (f a)) l).
Proof.
  induction l as [|a l IH]; cbn; auto. destruct (f a); cbn.
  - apply perm_skip; auto.
  - apply Permutation_cons_app; auto.
Qed.

Lemma filter_filter {A} (f g : A -> bool) l : filter f (filter g l) = filter (fun a => g a && f a) l.
Proof. induction l as [|a l IH]; cbn; auto. destruct (g a); cbn; [destruct (f a)|]; congruence. Qed.

Lemma PrunableEntries_spec xs st e n t : Rep xs st -> strict_path pp (e_path e) ->
  tree st = n :: t -> n_path n = e_path e ->
  exists ys, PrunableEntries C (e_subspace e) (e_path e) (e_time e) st
       = (Ok (map (fun x => (x, c_hash C (e_subspace x))) ys), st)
    /\ Permutation ys (filter (prunesb e) xs).
Proof.
  intros R HS HT HP. unfold PrunableEntries, PrefixedBy.
  destruct (strict_last (e_path e)) as (pre & c & Ep); [apply HS|].
  assert (SP := strict_SuccessorPath (e_path e) HS).
  assert (SX : SuccessorPrefix (e_path e) pp = Ok (Some (pre ++ [c ++ [0]]))).
  { rewrite Ep in *. apply strict_SuccessorPrefix; auto. }
  assert (SC : SuccessorPrefix_caller (e_path e) pp = e_path e).
  { rewrite Ep in *. apply strict_SuccessorPrefix; auto. }
  unfold bindM, lift, gets, ret. rewrite SP, SX, SC.
  rewrite set_tree_id by (rewrite HT, <- HP; destruct n; auto).
  assert (RS : reshare C (e_path e) (e_path e) (e_path e ++ [[]]) = e_path e ++ [[]]).
  { unfold reshare. destruct HS as (_ & HC & _). destruct PP as ((P1 & _) & _).
    rewrite toT_small by lia. destruct (N.ltb_spec (len (e_path e)) (max_component_count pp)); [|lia].
    rewrite firstn_all, skipn_app, skipn_all, Nat.sub_diag. reflexivity. }
  rewrite RS. cbn [fst].
  set (w := path_window _ _ _ _).
  pose proof (query_perm xs st w R) as HQ.
  assert (HW : forall x, IsIncluded3d OrderSubspace w (EntryPosition x)
            = beqb (e_subspace x) (e_subspace e) && ppfx (e_path e) (e_path x)).
  { intros x. unfold w. rewrite Ep.
    apply (window_below (Node (e_subspace x) (e_path x) (e_time x) [] false)). }
  rewrite (filter_ext _ _ HW) in HQ.
  apply Permutation_map_inv in HQ as (ys & EQ & HY).
  rewrite (prunable_loop_spec (e_time e) _ ys xs st R EQ).
  - eexists; split; [reflexivity|]. etransitivity; [apply filter_perm; symmetry; exact HY|].
    rewrite filter_filter. apply Permutation_refl'. apply filter_ext. reflexivity.
  - intros m Hm. unfold query in Hm. apply filter_In in Hm. tauto.
  - intros y Hy. eapply Permutation_in in Hy; [|symmetry; exact HY]. apply filter_In in Hy. tauto.
Qed.

Lemma file_set_keeps b st d b' : Files st -> U b -> digest_ok d ->
  file_of st d = Some b' ->
  file_of (set_files (fun m => mset m (c_fname C (c_hash C b)) b) st) d = Some b'.
Proof.
  intros HF Hb Hd H. unfold file_of in *. cbn. rewrite mget_mset.
  destruct (beqb_spec (c_fname C d) (c_fname C (c_hash C b))) as [E|]; auto.
  apply HF in H as [Hb' E']. f_equal. destruct HU as [HI _]. apply HI; auto. congruence.
Qed.

Lemma file_set b st : file_of (set_files (fun m => mset m (c_fname C (c_hash C b)) b) st) (c_hash C b) = Some b.
Proof. unfold file_of. cbn. rewrite mget_mset, beqb_refl. auto. Qed.

Definition kept (e : entry) (xs : list entry) : list entry := filter (fun x => negb (prunesb e x)) xs.

Lemma InsertEntry_spec n xs st e :
  budget st = None -> n + 1 < 2 ^ 64 -> Rep xs st -> Refs n xs (refs st) -> Files st -> stored_ok e ->
  (forall y, In y xs -> e_subspace y = e_subspace e -> e_path y = e_path e -> False) ->
  exists pruned st', InsertEntry C e (e_subspace e) st = (Ok pruned, st')
    /\ Permutation pruned (filter (prunesb e) xs)
    /\ Rep (e :: kept e xs) st' /\ Refs (n + 1) (e :: kept e xs) (refs st') /\ Files st'
    /\ locked st' = locked st /\ budget st' = None
    /\ (forall z b, In z (e :: kept e xs) ->
          file_of st (e_digest z) = Some b \/ e_digest z = c_hash C (e_subspace e) /\ b = e_subspace e ->
          file_of st' (e_digest z) = Some b)
    /\ (forall f b, mget (files st') f = Some b ->
          mget (files st) f = Some b \/ f = c_fname C (c_hash C (e_subspace e))).
Proof.
  intros B Hn R RF FS Oe HN. unfold InsertEntry, payload_Set.
  pose proof (stored_sub _ Oe) as Us.
  unfold bindM at 1. unfold bindM at 1. unfold durable at 1. rewrite B. unfold ret at 1. cbn [fst].
  set (s1 := set_files _ st).
  assert (R1 : Rep xs s1) by (apply (Rep_same _ st); auto).
  assert (FS1 : Files s1) by (apply Files_set; auto).
  assert (Ee : Entry (c_ns C) (e_subspace e) (e_digest e) (e_path e) (e_time e) (e_length e) = e).
  { destruct Oe as [_ Oe]. destruct e; cbn in *; subst; auto. }
  rewrite Ee.
  destruct (driver_Insert_spec e xs s1 B R1 Oe HN) as (s2 & E2 & R2 & Rf2 & F2 & L2 & B2 & T2).
  unfold bindM at 1. rewrite E2.
  destruct (ref_Increment_spec n e xs s2 B2 Hn) as (c & s3 & E3 & RF3 & K3 & T3 & F3 & L3 & B3).
  { rewrite Rf2. auto. }
  unfold bindM at 1. rewrite E3.
  assert (R3 : Rep (e :: xs) s3) by (apply (Rep_same _ s2); auto).
  assert (T3' : tree s3 = Node (e_subspace e) (e_path e) (e_time e) [] false :: tree s1) by congruence.
  destruct (PrunableEntries_spec (e :: xs) s3 e _ _ R3 (proj1 (proj1 Oe)) T3' eq_refl) as (ys & E4 & HY).
  assert (NS : prunesb e e = false).
  { destruct (prunesb_spec e e) as [[_ H]|]; auto; [apply Oe|lia]. }
  cbn [filter] in HY. rewrite NS in HY.
  unfold bindM at 1. rewrite E4.
  assert (HP : Permutation (e :: xs) (ys ++ (e :: kept e xs))).
  { apply Permutation_cons_app. etransitivity; [apply (filter_partition (prunesb e))|].
    apply Permutation_app_tail. symmetry; auto. }
  assert (FS3 : Files s3) by (unfold Files; rewrite F3, F2; auto).
  destruct (prune_loop_spec (n + 1) ys (e :: kept e xs) s3) as (s4 & E5 & R5 & RF5 & FS5 & L5 & B5 & K5 & D5);
    auto; [eapply Rep_perm; eauto|eapply Refs_perm; eauto|].
  exists ys, s4. rewrite E5. split; [auto|]. split; [auto|]. split; [auto|]. split; [auto|]. split; [auto|].
  split; [rewrite L5, L3, L2; reflexivity|]. split; [auto|]. split.
  - intros z b Hz Hf. rewrite K5 by auto. unfold file_of. rewrite F3, F2. fold (file_of s1 (e_digest z)).
    destruct Hf as [Hf|[Ed ->]].
    + apply file_set_keeps; auto. apply stored_digest. eapply Rep_In_ok; [exact R5|auto].
    + rewrite Ed. apply file_set.
  - intros f b Hf. apply D5 in Hf. rewrite F3, F2 in Hf. cbn in Hf. rewrite mget_mset in Hf.
    destruct (beqb_spec f (c_fname C (c_hash C (e_subspace e)))); auto.
Qed.

(** ** IngestEntry *)
Record Inv (n : N) (xs : list entry) (st : state) : Prop := {
  inv_rep : Rep xs st;
  inv_refs : Refs n xs (refs st);
  inv_files : Files st;
  inv_locked : locked st = false;
  inv_budget : budget st = None
}.

Lemma Inv_perm n xs ys st : Permutation xs ys -> Inv n xs st -> Inv n ys st.
Proof.
  intros H [R1 R2 R3 R4 R5]. split; auto; [eapply Rep_perm; eauto|eapply Refs_perm; eauto].
Qed.

Lemma lock_unlock st : locked st = false -> set_locked false (set_locked true st) = st.
Proof. destruct st; cbn. intros ->; auto. Qed.

(** The entries at the place of [e]. *)
Definition otherb (e x : entry) : bool := negb (beqb (e_subspace x) (e_subspace e) && peqb (e_path x) (e_path e)).
Definition others (e : entry) (xs : list entry) : list entry := filter (otherb e) xs.

Lemma others_none e xs :
  (forall x, In x xs -> e_subspace x = e_subspace e -> e_path x = e_path e -> False) -> others e xs = xs.
Proof.
  intros H. apply filter_all. intros x Hx. unfold otherb.
  destruct (beqb_spec (e_subspace x) (e_subspace e)), (peqb_spec (e_path x) (e_path e)); auto.
  exfalso; eauto.
Qed.

Lemma others_In e xs x : In x (others e xs) <-> In x xs /\ ~ same_place x e.
Proof.
  unfold others, otherb, same_place. rewrite filter_In.
  destruct (beqb_spec (e_subspace x) (e_subspace e)), (peqb_spec (e_path x) (e_path e)); cbn; intuition congruence.
Qed.

Lemma others_one e xs x : NoDup (map place xs) -> In x xs -> same_place x e ->
  Permutation xs (x :: others e xs).
Proof.
  intros HN Hx [E1 E2]. apply in_split in Hx as (l1 & l2 & ->).
  assert (H : forall y, In y (l1 ++ l2) -> otherb e y = true).
  { intros y Hy. unfold otherb. apply negb_true_iff.
    destruct (beqb_spec (e_subspace y) (e_subspace e)), (peqb_spec (e_path y) (e_path e)); auto.
    exfalso. rewrite map_app in HN. cbn in HN. apply NoDup_remove_2 in HN. apply HN.
    rewrite <- map_app. apply in_map_iff. exists y. split; auto. unfold place. congruence. }
  unfold others. rewrite filter_app. cbn.
  assert (O : otherb e x = false) by (unfold otherb; rewrite E1, E2, beqb_refl, peqb_refl; auto).
  rewrite O, <- filter_app, filter_all by auto. symmetry. apply Permutation_middle.
Qed.

(** Replacement of an older entry at the same place. *)
Lemma replace_older_spec n x xs st e :
  budget st = None -> n < 2 ^ 64 -> Rep (x :: xs) st -> Refs n (x :: xs) (refs st) -> Files st ->
  stored_ok e -> same_place x e -> e_time x < e_time e ->
  exists st', replace_other C e (x, c_hash C (e_subspace x)) st = (Ok true, st')
    /\ Rep xs st' /\ Refs n xs (refs st') /\ Files st' /\ locked st' = locked st /\ budget st' = None
    /\ (forall d, digest_ok d -> (In d (map e_digest xs) \/ d = e_digest e) -> d <> c_hash C (e_subspace e) ->
          file_of st' d = file_of st d)
    /\ (forall f b, mget (files st') f = Some b -> mget (files st) f = Some b).
Proof.
  intros B Hn R RF FS Oe [E1 E2] Ht. unfold replace_other.
  rewrite E2, (order_refl _ _ OrderPath_total). cbn [Z.eqb].
  destruct (N.leb_spec (e_time e) (e_time x)); [lia|].
  destruct (driver_Delete_spec x xs st B R) as (s1 & D1 & R1 & Rf1 & F1 & L1 & B1).
  unfold bindM at 1. rewrite D1. unfold bindM at 1. unfold payload_Erase at 1, durable at 1. rewrite B1.
  set (s2 := set_files _ s1).
  assert (Ox : stored_ok x) by (eapply Rep_In_ok; [exact R|left; auto]).
  assert (R2 : Rep xs s2) by (apply (Rep_same _ s1); auto).
  assert (FS1 : Files s1) by (unfold Files; rewrite F1; auto).
  assert (FS2 : Files s2) by (apply Files_erase; auto).
  assert (Da : digest_ok (c_hash C (e_subspace x))) by (exists (e_subspace x); split; auto; apply stored_sub; auto).
  assert (K2 : forall d, digest_ok d -> d <> c_hash C (e_subspace e) -> file_of s2 d = file_of st d).
  { intros d Hd Hne. unfold s2. rewrite file_erase_other; auto; [|congruence]. unfold file_of. rewrite F1. auto. }
  assert (K2' : forall f b, mget (files s2) f = Some b -> mget (files st) f = Some b).
  { intros f b. cbn. rewrite mget_mdel. destruct (beqb _ _); [discriminate|]. rewrite F1. auto. }
  destruct (beqb_spec (e_digest x) (e_digest e)) as [Ed|Ed]; cbn [negb].
  - exists s2. unfold bindM, ret. split; [auto|]. split; [auto|].
    split; [cbn; rewrite Rf1; eapply Refs_drop; eauto|].
    split; [auto|]. split; [auto|]. split; [auto|]. split; auto.
  - destruct (ref_Decrement_spec n x xs s2) as (c & s3 & D3 & RF3 & Hc & K3 & T3 & F3 & L3 & B3); auto.
    { cbn. rewrite Rf1. auto. }
    unfold bindM at 1. unfold bindM at 1. rewrite D3.
    assert (R3 : Rep xs s3) by (apply (Rep_same _ s2); auto).
    assert (FS3 : Files s3) by (unfold Files; rewrite F3; auto).
    destruct (N.eqb_spec c 0) as [Ec|Ec].
    + unfold payload_Erase, durable. rewrite B3. unfold ret.
      set (s4 := set_files _ s3). exists s4.
      split; [auto|]. split; [apply (Rep_same _ s3); auto|]. split; [auto|].
      split; [apply Files_erase; auto|]. split; [rewrite <- L1; exact L3|]. split; [auto|]. split.
      * intros d Hd Hin Hne. unfold s4. rewrite file_erase_other; auto.
        -- unfold file_of. rewrite F3. apply K2; auto.
        -- apply stored_digest; auto.
        -- destruct Hin as [Hin|Hin]; [|congruence]. apply in_map_iff in Hin as (y & <- & Hy). apply Hc; auto.
      * intros f b. cbn. rewrite mget_mdel. destruct (beqb _ _); [discriminate|]. rewrite F3. apply K2'.
    + unfold ret. exists s3. split; [auto|]. split; [auto|]. split; [auto|]. split; [auto|].
      split; [rewrite <- L1; exact L3|]. split; [auto|]. split.
      * intros d Hd Hin Hne. unfold file_of. rewrite F3. apply K2; auto.
      * intros f b. rewrite F3. apply K2'.
Qed.

Lemma Inv_locked n xs st : Inv n xs st -> Rep xs (set_locked true st).
Proof. intros I. apply (Rep_same _ st); auto. apply I. Qed.

Lemma IngestEntry_spec n xs st e token :
  n + 1 < 2 ^ 64 -> Inv n xs st -> entry_ok C U e ->
  (acceptable C (fun x => In x xs) e token
    /\ exists pruned st', IngestEntry C e token st = (Ok pruned, st')
       /\ Permutation pruned (filter (prunesb e) (others e xs))
       /\ Inv (n + 1) (e :: kept e (others e xs)) st'
       /\ (forall z b, In z (e :: kept e (others e xs)) ->
             file_of st (e_digest z) = Some b -> file_of st' (e_digest z) = Some b)
       /\ (forall f b, mget (files st') f = Some b ->
             mget (files st) f = Some b \/ f = c_fname C (c_hash C (e_subspace e))))
  \/ (~ acceptable C (fun x => In x xs) e token /\ IngestEntry C e token st = (Err, st)).
Proof.
  intros Hn I Oe. assert (Hn' : n < 2 ^ 64) by lia. pose proof I as [R RF FS L B].
  assert (HS : strict_path pp (e_path e)) by apply Oe.
  remember (IngestEntry C e token st) as X eqn:EX.
  unfold IngestEntry in EX. unfold bindM at 1, lock in EX. rewrite L in EX. set (s1 := set_locked true st) in *.
  assert (LU : set_locked false s1 = st) by (apply lock_unlock; auto).
  assert (R1 : Rep xs s1) by (apply (Rep_same _ st); auto).
  unfold ns_equal in EX. destruct (beqb_spec (c_ns C) (e_namespace e)) as [En|En]; cbn [negb] in EX.
  2:{ right. split; [intros (H & _); congruence|]. unfold bindM, unlock, fail in EX. rewrite LU in EX. auto. }
  unfold IsAuthoriseWrite in EX. destruct (beqb_spec (e_subspace e) token) as [Et|Et]; cbn [negb] in EX.
  2:{ right. split; [intros (_ & H & _); congruence|]. unfold bindM, unlock, fail in EX. rewrite LU in EX. auto. }
  destruct (DriverPrefixesOf_spec xs s1 e R1 HS) as (ns & E1 & Hns).
  unfold bindM at 1 in EX. rewrite E1 in EX.
  destruct (existsb _ ns).
  { right. split; [|unfold bindM, unlock, fail in EX; rewrite LU in EX; auto]. intros (_ & _ & H & _).
    destruct (proj1 Hns eq_refl) as (x & Hx & Ha & Ht). specialize (H x Hx Ha). lia. }
  assert (HA : forall x, In x xs -> above x e -> e_time x < e_time e).
  { intros x Hx Ha. destruct (N.lt_ge_cases (e_time x) (e_time e)); auto.
    destruct Hns as [_ Hns]. discriminate Hns. eauto. }
  clear Hns. unfold bindM at 1 in EX.
  assert (Se : stored_ok e) by (split; auto).
  destruct (driver_Get_spec xs s1 (e_subspace e) (e_path e) R1 HS) as [[G HN]|(x & G & Hx & X1 & X2)];
    rewrite G in EX; clear G.
  - left. split; [repeat split; auto; intros x Hx [X1 X2]; exfalso; eauto|].
    unfold bindM at 1, ret at 1 in EX. cbn [negb] in EX. rewrite <- Et in EX.
    destruct (InsertEntry_spec n xs s1 e) as (pr & s2 & E2 & HP & R2 & RF2 & FS2 & L2 & B2 & K2 & D2); auto.
    unfold bindM at 1 in EX. rewrite E2 in EX. unfold bindM, unlock, ret in EX.
    exists pr, (set_locked false s2). rewrite others_none by auto.
    split; [auto|]. split; [auto|]. split; [split; auto|].
    { apply (Rep_same _ s2); auto. }
    split; [|exact D2]. intros z b Hz Hf. apply (K2 z b Hz). left; auto.
  - assert (SPx : same_place x e) by (split; auto).
    destruct (N.lt_ge_cases (e_time x) (e_time e)) as [Ht|Ht].
    + left. split.
      { repeat split; auto. intros y Hy [Y1 Y2].
        assert (y = x) by (eapply place_inj; [apply (rep_place _ _ R)| | | |]; eauto; congruence).
        subst y; auto. }
      pose proof (others_one e xs x (rep_place _ _ R) Hx SPx) as HPo.
      destruct (replace_older_spec n x (others e xs) s1 e) as (s2 & E2 & R2 & RF2 & FS2 & L2 & B2 & K2 & D2); auto.
      { eapply Rep_perm; eauto. }
      { eapply Refs_perm; eauto. }
      unfold bindM at 1 in EX. rewrite E2 in EX. cbn [negb] in EX.
      destruct (InsertEntry_spec n (others e xs) s2 e) as (pr & s3 & E3 & HP & R3 & RF3 & FS3 & L3 & B3 & K3 & D3); auto.
      { intros y Hy Y1 Y2. apply others_In in Hy as [_ Hy]. apply Hy. split; auto. }
      rewrite <- Et in EX. unfold bindM at 1 in EX. rewrite E3 in EX. unfold bindM, unlock, ret in EX.
      exists pr, (set_locked false s3).
      split; [auto|]. split; [auto|]. split; [split; auto|].
      { apply (Rep_same _ s3); auto. }
      split.
      * intros z b Hz Hf. apply (K3 z b Hz).
        assert (Oz : digest_ok (e_digest z)) by (apply stored_digest; eapply Rep_In_ok; [exact R3|auto]).
        destruct (beqb_spec (e_digest z) (c_hash C (e_subspace e))) as [Ez|Ez].
        -- right. split; auto. apply FS in Hf as [Hb Hf]. destruct HU as [HI _].
           apply HI; auto; [apply stored_sub; auto|congruence].
        -- left. rewrite K2; auto. destruct Hz as [<-|Hz]; auto. left. apply in_map.
           unfold kept in Hz. apply filter_In in Hz. tauto.
      * intros f b Hf. apply D3 in Hf as [Hf|Hf]; auto.
    + right. split; [intros (_ & _ & _ & H); specialize (H x Hx SPx); lia|].
      unfold replace_other in EX. rewrite X2, (order_refl _ _ OrderPath_total) in EX. cbn [Z.eqb] in EX.
      destruct (N.leb_spec (e_time e) (e_time x)); [|lia].
      unfold bindM, unlock, ret, fail in EX. cbn [negb] in EX. rewrite LU in EX. auto.
Qed.

End Store.
