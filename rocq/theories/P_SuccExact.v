(** When exactly the functions of successor.go end the process or write into their argument. *)
From Verif Require Import Base M_Order M_Paths M_Successor S_Order P_Order P_Encoding P_Paths P_Successor.
Local Open Scope N_scope.

(** A component after which none of the same length or less follows. *)
Definition full (pp : path_params) (c : bytes) : Prop :=
  len c = max_component_length pp /\ Forall (fun b => b = 255) c.

Lemma full_dec pp c : {full pp c} + {~ full pp c}.
Proof.
  unfold full. destruct (N.eq_dec (len c) (max_component_length pp)) as [E|E]; [|right; tauto].
  destruct (Forall_dec (fun b => b = 255) (fun b => N.eq_dec b 255) c); [left|right]; tauto.
Qed.

(** Where the loops stop: behind it everything is full. *)
Lemma last_not_full pp (p : path) : {Forall (full pp) p}
  + {exists pre c t, p = pre ++ c :: t /\ ~ full pp c /\ Forall (full pp) t}.
Proof.
  induction p as [|c p IH]; [left; constructor|].
  destruct IH as [H|H].
  - destruct (full_dec pp c) as [F|F]; [left; constructor; auto|right; exists [], c, p; auto].
  - right. destruct H as (pre & d & t & -> & H1 & H2). exists (c :: pre), d, t. auto.
Qed.

Lemma last_not_full_unique pp (pre c t pre' c' t' : _) :
  (pre ++ c :: t : path) = pre' ++ c' :: t' -> ~ full pp c -> Forall (full pp) t ->
  ~ full pp c' -> Forall (full pp) t' -> pre = pre' /\ c = c' /\ t = t'.
Proof.
  revert pre'. induction pre as [|x pre IH]; intros [|x' pre'] E N F N' F'; cbn in E; injection E as E1 E2; subst.
  - auto.
  - exfalso. apply N'. rewrite Forall_forall in F. apply F. apply in_or_app. right. left. auto.
  - exfalso. apply N. rewrite Forall_forall in F'. apply F'. apply in_or_app. right. left. auto.
  - destruct (IH pre' E2 N F N' F') as (-> & -> & ->). auto.
Qed.

Section Exact.
Variable pp : path_params.
Hypothesis PO : params_ok pp.

Lemma try_full c : full pp c -> TryAppendZeroByte c pp = None.
Proof. intros [E _]. apply TryAppendZeroByte_none; auto. lia. Qed.
Lemma try_short c : len c < max_component_length pp -> TryAppendZeroByte c pp = Some (c ++ [0]).
Proof.
  intros L. destruct (TryAppendZeroByte c pp) as [d|] eqn:E; [apply TryAppendZeroByte_some in E; subst; auto|].
  apply TryAppendZeroByte_none in E; auto; lia.
Qed.
Lemma prefix_full c : full pp c -> PrefixSuccessor c = (None, c).
Proof.
  intros [_ F]. induction F as [|x c -> F IH]; [reflexivity|]. cbn [PrefixSuccessor]. rewrite IH. reflexivity.
Qed.
(** What PrefixSuccessor does to a component that is not all 255. *)
Lemma prefix_raise c : wf_bytes c -> ~ Forall (fun b => b = 255) c ->
  exists d x n, c = d ++ x :: repeat 255 n /\ x < 255
    /\ PrefixSuccessor c = (Some (d ++ [x + 1]), d ++ (x + 1) :: repeat 255 n).
Proof.
  intros W. induction W as [|x c Hx W IH]; intros NF; [exfalso; apply NF; constructor|].
  cbn [PrefixSuccessor]. destruct (Forall_dec (fun b => b = 255) (fun b => N.eq_dec b 255) c) as [F|F].
  - assert (c = repeat 255 (length c)) as ER by (clear - F; induction F; subst; cbn; f_equal; auto).
    assert (PrefixSuccessor c = (None, c)) as ->.
    { clear - F. induction F as [|y c -> F IH]; [reflexivity|]. cbn [PrefixSuccessor]. rewrite IH. reflexivity. }
    assert (x <> 255) by (intros ->; apply NF; constructor; auto).
    destruct (N.eqb_spec x 255); [congruence|]. exists [], x, (length c). cbn [app]. rewrite <- ER.
    repeat split; auto. cbv beta in Hx. lia.
  - destruct (IH F) as (d & y & n & E & L & ->). exists (x :: d), y, n. rewrite E. auto.
Qed.

Lemma fixed_full c : wf_bytes c -> full pp c -> SuccessorBytesFixedWidth c = None.
Proof. intros W [_ F]. apply SuccessorBytesFixedWidth_none; auto. Qed.

Lemma nth_mid (pre t : path) c : nth (length pre) (pre ++ c :: t) [] = c.
Proof. rewrite app_nth2, Nat.sub_diag by lia. reflexivity. Qed.
Lemma firstn_mid {A} (pre t : list A) : firstn (length pre) (pre ++ t) = pre.
Proof. rewrite firstn_app, Nat.sub_diag, firstn_all, firstn_O, app_nil_r. reflexivity. Qed.
Lemma update_mid (pre t : path) c d : update_nth (length pre) d (pre ++ c :: t) = pre ++ d :: t.
Proof.
  unfold update_nth. rewrite firstn_mid. f_equal. f_equal.
  change (c :: t) with ([c] ++ t). rewrite app_assoc. replace (S (length pre)) with (length (pre ++ [c])) by (rewrite app_length; cbn; lia).
  rewrite skipn_app, skipn_all, Nat.sub_diag. reflexivity.
Qed.

Lemma prefix_loop_skip (q t' t'' : path) : Forall (full pp) t' ->
  successor_prefix_loop pp (q ++ t' ++ t'') (length (q ++ t')) = successor_prefix_loop pp (q ++ t' ++ t'') (length q).
Proof.
  revert t''. induction t' as [|c t' IH] using rev_ind; intros t'' F; [rewrite app_nil_r; reflexivity|].
  apply Forall_app in F as [F1 F2]. inversion F2 as [|? ? Fc _]; subst.
  rewrite <- app_assoc. change ([c] ++ t'') with (c :: t'').
  rewrite (app_assoc q t' [c]), app_length, Nat.add_comm. cbn [length Nat.add successor_prefix_loop].
  rewrite (app_assoc q t' (c :: t'')), nth_mid, (try_full c Fc), (prefix_full c Fc), update_mid.
  rewrite <- app_assoc. apply IH. exact F1.
Qed.
Lemma path_loop_skip (q t' t'' : path) : Forall wf_bytes t' -> Forall (full pp) t' ->
  successor_path_loop pp (q ++ t' ++ t'') (length (q ++ t')) = successor_path_loop pp (q ++ t' ++ t'') (length q).
Proof.
  revert t''. induction t' as [|c t' IH] using rev_ind; intros t'' W F; [rewrite app_nil_r; reflexivity|].
  apply Forall_app in F as [F1 F2]. inversion F2 as [|? ? Fc _]; subst.
  apply Forall_app in W as [W1 W2]. inversion W2 as [|? ? Wc _]; subst.
  rewrite <- app_assoc. change ([c] ++ t'') with (c :: t'').
  rewrite (app_assoc q t' [c]), app_length, Nat.add_comm. cbn [length Nat.add successor_path_loop].
  rewrite (app_assoc q t' (c :: t'')), nth_mid, (try_full c Fc), (fixed_full c Wc Fc).
  rewrite <- app_assoc. apply IH; auto.
Qed.

(** SuccessorPrefix of a path that is full throughout. *)
Lemma prefix_all_full p : Forall (full pp) p -> SuccessorPrefix_full p pp = (Ok None, p).
Proof.
  intros F. unfold SuccessorPrefix_full. pose proof (prefix_loop_skip [] p [] F) as E.
  cbn [app] in E. rewrite app_nil_r in E. rewrite E. reflexivity.
Qed.

(** … and of any other. *)
Lemma prefix_stops pre c t : wf_path (pre ++ c :: t) -> within_limits pp (pre ++ c :: t) ->
  ~ full pp c -> Forall (full pp) t ->
  (len c < max_component_length pp
   /\ SuccessorPrefix_full (pre ++ c :: t) pp
      = (do q <- PathAppend pre (c ++ [0]) pp; Ok (Some q), pre ++ c :: t))
  \/ (len c = max_component_length pp
      /\ exists d x n, c = d ++ x :: repeat 255 n /\ x < 255
         /\ SuccessorPrefix_full (pre ++ c :: t) pp = (Ok (Some (pre ++ [d ++ [x + 1]])), pre ++ (d ++ (x + 1) :: repeat 255 n) :: t)).
Proof.
  intros W (L1 & L2 & L3) NF F.
  assert (Lc : len c <= max_component_length pp).
  { rewrite Forall_forall in L2. apply L2. apply in_or_app. right. left. auto. }
  assert (Wc : wf_bytes c). { unfold wf_path in W. rewrite Forall_forall in W. apply W. apply in_or_app. right. left. auto. }
  unfold SuccessorPrefix_full. pose proof (prefix_loop_skip (pre ++ [c]) t [] F) as E.
  rewrite app_nil_r, <- !app_assoc in E. cbn [app] in E. rewrite E, app_length, Nat.add_comm. clear E.
  cbn [length Nat.add successor_prefix_loop]. rewrite nth_mid, firstn_mid.
  destruct (N.eq_dec (len c) (max_component_length pp)) as [E|E].
  - right. split; auto. pose proof (proj2 (TryAppendZeroByte_none c pp PO Lc) E) as ->.
    destruct (prefix_raise c Wc) as (d & x & n & Ec & Lx & ->); [intros K; apply NF; split; auto|].
    exists d, x, n. rewrite update_mid. split; [|split]; auto. f_equal.
    unfold PathAppend. destruct PO as (O1 & O2 & O3).
    rewrite total_length_app in L3. cbn [total_length] in L3. rewrite len_app, len_cons in L1.
    assert (len (d ++ [x + 1]) <= len c) by (rewrite Ec, !len_app, !len_cons; change (len (@nil N)) with 0; lia).
    rewrite !toT_small by lia.
    destruct (N.ltb_spec (max_component_count pp) (len pre + 1)); [lia|].
    destruct (N.ltb_spec (max_path_length pp) (len (d ++ [x + 1]) + total_length pre)); [lia|]. reflexivity.
  - left. split; [lia|]. rewrite (try_short c) by lia. reflexivity.
Qed.

Hypothesis HB : max_path_length pp + 1 < 2 ^ pp_bits pp.

(** The length a path would have. *)
Lemma append_zero_ends pre c t : within_limits pp (pre ++ c :: t) -> len c < max_component_length pp -> Forall (full pp) t ->
  (PathAppend pre (c ++ [0]) pp = Fatal <-> t = [] /\ total_length (pre ++ c :: t) = max_path_length pp).
Proof.
  intros (L1 & L2 & L3) Lc F. rewrite total_length_app in *. cbn [total_length] in *. rewrite len_app, len_cons in L1.
  destruct (PathAppend_cases pp pre (c ++ [0]) PO) as [[-> H]|[-> H]]; [lia|..]; rewrite len_app in H; change (len [0]) with 1 in H.
  - split; [discriminate|]. intros [-> E]. cbn [total_length] in *. lia.
  - split; [|auto]. intros _. destruct t as [|d t]; [cbn [total_length] in *; split; auto; lia|].
    inversion F as [|? ? [Ed _] _]; subst. cbn [total_length] in *. lia.
Qed.

Lemma snoc_last {A} (pre t : list A) c q d : pre ++ c :: t = q ++ [d] -> t = [] -> pre = q /\ c = d.
Proof. intros E ->. apply app_inj_tail in E. exact E. Qed.

Lemma prefix_ends p : wf_path p -> within_limits pp p ->
  (SuccessorPrefix p pp = Fatal <->
   total_length p = max_path_length pp /\ exists pre c, p = pre ++ [c] /\ len c < max_component_length pp).
Proof.
  intros W L. unfold SuccessorPrefix. destruct (last_not_full pp p) as [F|(pre & c & t & -> & NF & F)].
  - rewrite (prefix_all_full p F). cbn [fst]. split; [discriminate|]. intros (_ & pre & c & -> & Lc).
    apply Forall_app in F as [_ F]. inversion F as [|? ? [E _] _]; subst. lia.
  - destruct (prefix_stops pre c t W L NF F) as [[Lc ->]|[Lc (d & x & n & Ec & Lx & ->)]]; cbn [fst].
    + pose proof (append_zero_ends pre c t L Lc F) as H. destruct (PathAppend pre (c ++ [0]) pp) as [q| | | |] eqn:E; cbn [bind].
      all: try (unfold PathAppend in E; destruct (_ <? _); [discriminate|destruct (_ <? _); discriminate]).
      * split; [discriminate|]. intros (T & q' & c' & E' & Lc'). exfalso.
        assert (t = []) as ->.
        { destruct t as [|d t] using rev_ind; auto. exfalso. rewrite app_comm_cons, app_assoc in E'.
          apply app_inj_tail in E' as [_ <-]. apply Forall_app in F as [_ F]. inversion F as [|? ? [K _] _]; subst. lia. }
        destruct H as [_ H]. specialize (H (conj eq_refl T)). discriminate H.
      * split; auto. intros _. destruct H as [H _]. destruct (H eq_refl) as [-> T]. split; auto. eauto.
    + split; [discriminate|]. intros (T & q' & c' & E' & Lc'). exfalso.
      destruct t as [|e t] using rev_ind.
      * apply app_inj_tail in E' as [_ <-]. lia.
      * rewrite app_comm_cons, app_assoc in E'. apply app_inj_tail in E' as [_ <-].
        apply Forall_app in F as [_ F]. inversion F as [|? ? [K _] _]; subst. lia.
Qed.

Hypothesis HC : max_component_count pp + 1 < 2 ^ pp_bits pp.

Lemma path_ends p : wf_path p -> within_limits pp p -> 0 < max_component_count pp ->
  (SuccessorPath p pp = Fatal <->
   len p = max_component_count pp
   /\ ((total_length p = max_path_length pp /\ exists pre c, p = pre ++ [c] /\ len c < max_component_length pp)
       \/ exists pre c t, p = pre ++ c :: t /\ len c = max_component_length pp /\ ~ full pp c /\ Forall (full pp) t)).
Proof.
  intros W L C0. unfold SuccessorPath. destruct p as [|c0 p0] eqn:EP.
  { split; [discriminate|]. intros [E _]. change (len (@nil bytes)) with 0 in E. lia. }
  rewrite <- EP in *. clear EP c0 p0.
  pose proof L as (L1 & L2 & L3). destruct PO as (O1 & O2 & O3). rewrite toT_small by lia.
  destruct (N.ltb_spec (len p) (max_component_count pp)) as [S|S].
  - assert (PathAppend p [] pp = Ok (p ++ [[]])) as ->.
    { destruct (PathAppend_cases pp p [] PO) as [[-> _]|[_ H]]; auto; [lia|]. change (len (@nil N)) with 0 in H. lia. }
    cbn [bind]. split; [discriminate|]. intros [E _]. lia.
  - assert (E : len p = max_component_count pp) by lia. split.
    + intros H. split; auto. destruct (last_not_full pp p) as [F|(pre & c & t & -> & NF & F)].
      * pose proof (path_loop_skip [] p [] W F) as K. cbn [app] in K. rewrite app_nil_r in K. rewrite K in H. discriminate H.
      * pose proof W as W'. unfold wf_path in W'. apply Forall_app in W' as [_ W']. inversion W' as [|? ? Wc Wt]; subst.
        pose proof (path_loop_skip (pre ++ [c]) t [] Wt F) as K. rewrite app_nil_r, <- !app_assoc in K. cbn [app] in K.
        rewrite K, app_length, Nat.add_comm in H. cbn [length Nat.add successor_path_loop] in H. rewrite nth_mid, firstn_mid in H.
        assert (Lc : len c <= max_component_length pp).
        { rewrite Forall_forall in L2. apply L2. apply in_or_app. right. left. auto. }
        destruct (N.eq_dec (len c) (max_component_length pp)) as [Ec|Ec].
        -- right. exists pre, c, t. auto.
        -- left. rewrite (try_short c) in H by lia.
           pose proof (append_zero_ends pre c t L ltac:(lia) F) as A.
           destruct (PathAppend pre (c ++ [0]) pp) as [q| | | |]; cbn [bind] in H; try discriminate H.
           destruct A as [A _]. destruct (A eq_refl) as [-> T]. split; auto. exists pre, c. split; auto. lia.
    + intros [_ H].
      assert (exists pre c t, p = pre ++ c :: t /\ ~ full pp c /\ Forall (full pp) t
        /\ (len c = max_component_length pp \/ t = [] /\ total_length p = max_path_length pp /\ len c < max_component_length pp)) as K.
      { destruct H as [(T & pre & c & -> & Lc)|(pre & c & t & -> & Lc & NF & F)].
        - exists pre, c, []. repeat split; auto. intros [K _]. lia.
        - exists pre, c, t. auto. }
      destruct K as (pre & c & t & -> & NF & F & K).
      pose proof W as W'. unfold wf_path in W'. apply Forall_app in W' as [_ W']. inversion W' as [|? ? Wc Wt]; subst.
      pose proof (path_loop_skip (pre ++ [c]) t [] Wt F) as Q. rewrite app_nil_r, <- !app_assoc in Q. cbn [app] in Q.
      rewrite Q, app_length, Nat.add_comm. cbn [length Nat.add successor_path_loop]. rewrite nth_mid, firstn_mid.
      destruct K as [Lc|(Et & T & Lc)].
      * rewrite (proj2 (TryAppendZeroByte_none c pp PO ltac:(lia)) Lc).
        destruct (SuccessorBytesFixedWidth c) as [c'|] eqn:E2.
        -- unfold PathAppend. rewrite toT_small by lia. destruct (N.ltb_spec (max_component_count pp) (len (pre ++ c :: t) + 1)); [reflexivity|lia].
        -- exfalso. apply NF. split; auto. apply SuccessorBytesFixedWidth_none; auto.
      * rewrite (try_short c Lc). pose proof (append_zero_ends pre c t L Lc F) as [_ A]. rewrite (A (conj Et T)). reflexivity.
Qed.
End Exact.

(** Whether SuccessorPrefix changes its argument. *)
Lemma raised_ne (d : bytes) x n : d ++ (x + 1) :: repeat 255 n <> d ++ x :: repeat 255 n.
Proof. intros E. apply app_inv_head in E. injection E as E. lia. Qed.

Lemma prefix_changes pp p : params_ok pp -> wf_path p -> within_limits pp p ->
  (SuccessorPrefix_caller p pp <> p <->
   exists pre c t, p = pre ++ c :: t /\ len c = max_component_length pp /\ ~ full pp c /\ Forall (full pp) t).
Proof.
  intros PO W L. unfold SuccessorPrefix_caller. destruct (last_not_full pp p) as [F|(pre & c & t & -> & NF & F)].
  - rewrite (prefix_all_full pp PO p F). cbn [snd]. split; [congruence|]. intros (pre & c & t & -> & _ & N & _).
    exfalso. apply N. rewrite Forall_forall in F. apply F. apply in_or_app. right. left. auto.
  - destruct (prefix_stops pp PO pre c t W L NF F) as [[Lc ->]|[Lc (d & x & n & Ec & Lx & ->)]]; cbn [snd].
    + split; [congruence|]. intros (pre' & c' & t' & E & Lc' & N' & F').
      destruct (last_not_full_unique pp pre c t pre' c' t' E NF F N' F') as (_ & -> & _). lia.
    + split; [intros _; exists pre, c, t; auto|]. intros _ E. apply app_inv_head in E. injection E as E. rewrite Ec in E.
      exact (raised_ne _ _ _ E).
Qed.
