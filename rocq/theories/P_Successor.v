(** Proofs about M_Successor. *)
From Verif Require Import Base M_Order M_Successor S_Order P_Order P_Encoding M_Encoding P_Paths.
Local Open Scope N_scope.

(** ** Lexicographic order, inversion lemmas *)

Lemma lex_nil_r {A} (lt : A -> A -> Prop) a : ~ lex lt a [].
Proof. intros H; inversion H. Qed.

Lemma lex_cons_inv {A} (lt : A -> A -> Prop) x y a b :
  lex lt (x :: a) (y :: b) -> lt x y \/ (x = y /\ lex lt a b).
Proof. intros H; inversion H; subst; auto. Qed.

Lemma lex_app_inv {A} (lt : A -> A -> Prop) (irr : forall a, ~ lt a a) p a b :
  lex lt (p ++ a) (p ++ b) -> lex lt a b.
Proof.
  induction p as [|x p IH]; cbn; auto. intros H. apply lex_cons_inv in H as [H|[_ H]]; auto.
  exfalso; eapply irr; eauto.
Qed.

Lemma lex_prefix {A} (lt : A -> A -> Prop) p x s : lex lt p (p ++ x :: s).
Proof. induction p; cbn; [constructor|apply lex_tail; auto]. Qed.

Lemma bytes_le_nil b : bytes_le [] b.
Proof. destruct b; [right; auto|left; constructor]. Qed.

Lemma path_le_nil b : path_le [] b.
Proof. destruct b; [right; auto|left; constructor]. Qed.

Lemma bytes_le_cons x y a b : bytes_le (x :: a) (y :: b) <-> x < y \/ (x = y /\ bytes_le a b).
Proof.
  split.
  - intros [H|H]; [apply lex_cons_inv in H as [H|[-> H]]; auto; right; split; auto; left; auto|].
    inversion H; subst. right; split; auto. right; auto.
  - intros [H|[-> [H|H]]]; [left; apply lex_head; auto|left; apply lex_tail; auto|right; subst; auto].
Qed.

Lemma path_le_cons x y a b : path_le (x :: a) (y :: b) <-> bytes_lt x y \/ (x = y /\ path_le a b).
Proof.
  split.
  - intros [H|H]; [apply lex_cons_inv in H as [H|[-> H]]; auto; right; split; auto; left; auto|].
    inversion H; subst. right; split; auto. right; auto.
  - intros [H|[-> [H|H]]]; [left; apply lex_head; auto|left; apply lex_tail; auto|right; subst; auto].
Qed.

Lemma bytes_lt_irrefl a : ~ bytes_lt a a.
Proof. apply (sto_irrefl _ bytes_sto). Qed.
Lemma bytes_lt_trans a b c : bytes_lt a b -> bytes_lt b c -> bytes_lt a c.
Proof. apply (sto_trans _ bytes_sto). Qed.
Lemma path_lt_irrefl a : ~ path_lt a a.
Proof. apply (sto_irrefl _ path_sto). Qed.
Lemma path_lt_trans a b c : path_lt a b -> path_lt b c -> path_lt a c.
Proof. apply (sto_trans _ path_sto). Qed.
Lemma path_lt_asym a b : path_lt a b -> ~ path_lt b a.
Proof. intros H H'. eapply path_lt_irrefl, path_lt_trans; eauto. Qed.
Lemma path_le_lt a b : path_le a b <-> ~ path_lt b a.
Proof.
  split.
  - intros [H| ->]; [apply path_lt_asym; auto|apply path_lt_irrefl].
  - intros H. destruct (sto_total _ path_sto a b) as [?|[?|?]]; [left|right|]; tauto.
Qed.
Lemma bytes_le_lt a b : bytes_le a b <-> ~ bytes_lt b a.
Proof.
  split.
  - intros [H| ->]; [intros H'; eapply bytes_lt_irrefl, bytes_lt_trans; eauto|apply bytes_lt_irrefl].
  - intros H. destruct (sto_total _ bytes_sto a b) as [?|[?|?]]; [left|right|]; tauto.
Qed.

(** ** Appending a zero byte *)

Lemma bytes_lt_append_zero s : bytes_lt s (s ++ [0]).
Proof. apply lex_prefix. Qed.

Lemma append_zero_least s r : bytes_lt s r -> bytes_le (s ++ [0]) r.
Proof.
  intros H. induction H; cbn.
  - destruct (N.eq_dec y 0) as [->|].
    + apply bytes_le_cons. right; split; auto. apply bytes_le_nil.
    + apply bytes_le_cons. left; lia.
  - apply bytes_le_cons. left; auto.
  - apply bytes_le_cons. right; split; auto.
Qed.

(** ** Component successors *)

Section Limits.
Variable M : N.   (** the maximal component length *)

Definition comp_ok (c : bytes) : Prop := wf_bytes c /\ len c <= M.

(** [c'] bounds exactly [c] among the components in range. *)
Definition comp_succ (c c' : bytes) : Prop :=
  bytes_lt c c' /\ forall x, comp_ok x -> bytes_le c x -> bytes_lt x c' -> x = c.
(** [c] is the greatest component. *)
Definition comp_max (c : bytes) : Prop := forall x, comp_ok x -> bytes_le c x -> x = c.

Lemma comp_succ_zero c : comp_succ c (c ++ [0]).
Proof.
  split; [apply bytes_lt_append_zero|]. intros x _ [H|H] H2; [|auto].
  exfalso. apply append_zero_least in H. apply bytes_le_lt in H. auto.
Qed.

Lemma le_all255_eq c x : wf_bytes c -> wf_bytes x -> Forall (fun b => b = 255) c -> len x <= len c ->
  bytes_le c x -> x = c.
Proof.
  revert x. induction c as [|y c IH]; intros x Hc Hx HF Hl Hle.
  - destruct x; auto. rewrite len_cons, len_nil in Hl. lia.
  - destruct x as [|z x]; [destruct Hle as [H|H]; [inversion H|discriminate]|].
    inversion Hc; inversion Hx; inversion HF; subst. rewrite !len_cons in Hl.
    apply bytes_le_cons in Hle as [H|[-> H]]; [lia|]. f_equal. apply IH; auto. lia.
Qed.

Lemma PrefixSuccessor_none c m : PrefixSuccessor c = (None, m) -> m = c /\ Forall (fun b => b = 255) c.
Proof.
  revert m. induction c as [|x c IH]; cbn; intros m H.
  - inversion H; subst. split; auto.
  - destruct (PrefixSuccessor c) as [[r|] m'] eqn:E; [discriminate|].
    destruct (N.eqb_spec x 255); [|discriminate]. inversion H; subst.
    destruct (IH _ eq_refl) as [-> H1]. split; auto.
Qed.

Lemma PrefixSuccessor_some c c' m : wf_bytes c -> PrefixSuccessor c = (Some c', m) ->
  len c' <= len c /\ wf_bytes c' /\ bytes_lt c c' /\
  forall x, wf_bytes x -> len x <= len c -> bytes_le c x -> bytes_lt x c' -> x = c.
Proof.
  revert c' m. induction c as [|y c IH]; cbn [PrefixSuccessor]; intros c' m Hc H; [discriminate|].
  inversion Hc as [|? ? Hy Hc']; subst.
  destruct (PrefixSuccessor c) as [[r|] m'] eqn:E.
  - inversion H; subst. destruct (IH _ _ Hc' eq_refl) as (H1 & H2 & H3 & H4).
    rewrite !len_cons. repeat split; [lia|constructor; auto|apply lex_tail; auto|].
    intros x Hx Hl Hle Hlt. destruct x as [|z x].
    { destruct Hle as [K|K]; [inversion K|discriminate]. }
    inversion Hx; subst. rewrite !len_cons in Hl.
    apply bytes_le_cons in Hle as [K|[-> K]].
    + apply lex_cons_inv in Hlt as [L|[-> L]]; lia.
    + apply lex_cons_inv in Hlt as [L|[_ L]]; [lia|]. f_equal. apply H4; auto. lia.
  - destruct (PrefixSuccessor_none _ _ E) as [-> HF].
    destruct (N.eqb_spec y 255) as [|Hne]; [discriminate|]. inversion H; subst.
    rewrite !len_cons, len_nil. repeat split; [lia|constructor; [lia|constructor]|apply lex_head; lia|].
    intros x Hx Hl Hle Hlt. destruct x as [|z x].
    { destruct Hle as [K|K]; [inversion K|discriminate]. }
    inversion Hx; subst. rewrite !len_cons in Hl.
    apply lex_cons_inv in Hlt as [L|[-> L]]; [|inversion L].
    apply bytes_le_cons in Hle as [K|[-> K]]; [lia|].
    f_equal. apply le_all255_eq; auto. lia.
Qed.

Lemma comp_max_255 c : wf_bytes c -> len c = M -> Forall (fun b => b = 255) c -> comp_max c.
Proof. intros Hc Hl HF x [Hx Hlx] Hle. apply le_all255_eq; auto. lia. Qed.

(** ** From components to paths *)

Definition comps_ok (p : path) : Prop := Forall comp_ok p.

Lemma tail_max_prefix t w : comps_ok w -> Forall comp_max t -> path_le t w -> prefix_of t w.
Proof.
  revert w. induction t as [|c t IH]; intros w Hw Ht Hle; [apply prefix_of_nil|].
  destruct w as [|x w]; [destruct Hle as [H|H]; [inversion H|discriminate]|].
  inversion Hw; inversion Ht; subst. apply prefix_of_cons.
  apply path_le_cons in Hle as [H|[-> H]].
  - assert (x = c) by (apply H5; auto; left; auto). subst. exfalso; eapply bytes_lt_irrefl; eauto.
  - split; auto.
Qed.

Lemma between_prefix (pre u v r : path) :
  path_le (pre ++ u) r -> path_lt r (pre ++ v) -> exists w, r = pre ++ w /\ path_le u w /\ path_lt w v.
Proof.
  revert r. induction pre as [|a pre IH]; cbn; intros r H1 H2; [eauto|].
  destruct r as [|x r]; [destruct H1 as [H|H]; [inversion H|discriminate]|].
  apply path_le_cons in H1 as [H1|[-> H1]]; apply lex_cons_inv in H2 as [H2|[E H2]].
  - exfalso; eapply bytes_lt_irrefl, bytes_lt_trans; eauto.
  - subst. exfalso; eapply bytes_lt_irrefl; eauto.
  - exfalso; eapply bytes_lt_irrefl; eauto.
  - destruct (IH _ H1 H2) as (w & -> & K). exists w. auto.
Qed.

(** [q] bounds exactly the extensions of [p]. *)
Definition bounds_ext (p q : path) : Prop :=
  (forall s, path_lt (p ++ s) q)
  /\ (forall r, comps_ok r -> path_le p r -> path_lt r q -> prefix_of p r).

Lemma bounds_ext_intro pre c c' t :
  comp_succ c c' -> Forall comp_max t -> bounds_ext (pre ++ c :: t) (pre ++ [c']).
Proof.
  intros [H1 H2] Ht. split.
  - intros s. rewrite <- app_assoc. apply lex_app_l. apply lex_head. auto.
  - intros r Hr Hle Hlt. destruct (between_prefix _ _ _ _ Hle Hlt) as (w & -> & K1 & K2).
    apply Forall_app in Hr as [_ Hr].
    destruct w as [|x w]; [destruct K1 as [K|K]; [inversion K|discriminate]|].
    inversion Hr; subst.
    apply lex_cons_inv in K2 as [K2|[_ K2]]; [|exfalso; eapply lex_nil_r; eauto].
    assert (x = c).
    { apply H2; auto. apply path_le_cons in K1 as [K1|[-> _]]; [left|right]; auto. }
    subst x. apply path_le_cons in K1 as [K1|[_ K1]]; [exfalso; eapply bytes_lt_irrefl; eauto|].
    destruct (tail_max_prefix t w) as [s Hs]; auto. subst w.
    exists s. rewrite <- app_assoc. reflexivity.
Qed.
End Limits.

(** ** SuccessorPrefix *)

Lemma PathAppend_ok p c pp q : PathAppend p c pp = Ok q -> q = p ++ [c].
Proof.
  unfold PathAppend. repeat destruct (_ <? _); intros H; try discriminate. inversion H; auto.
Qed.

Lemma update_nth_same {A} i (l : list A) d : (i < length l)%nat -> update_nth i (nth i l d) l = l.
Proof.
  revert l. induction i as [|i IH]; intros [|x l] H; cbn in *; try lia; auto.
  unfold update_nth in *. cbn. f_equal. apply IH. lia.
Qed.

Lemma firstn_S_nth {A} i (l : list A) d : (i < length l)%nat -> firstn (S i) l = firstn i l ++ [nth i l d].
Proof.
  revert l. induction i as [|i IH]; intros [|x l] H; cbn in *; try lia; auto.
  f_equal. apply IH. lia.
Qed.

Lemma split_nth {A} i (l : list A) d : (i < length l)%nat -> l = firstn i l ++ nth i l d :: skipn (S i) l.
Proof.
  revert l. induction i as [|i IH]; intros [|x l] H; cbn in *; try lia; auto.
  f_equal. apply IH. lia.
Qed.

Definition ok_path (pp : path_params) (p : path) : Prop := wf_path p /\ within_limits pp p.

Lemma ok_path_comps pp p : ok_path pp p -> comps_ok (max_component_length pp) p.
Proof.
  intros [H1 (_ & H2 & _)]. apply Forall_forall. intros c Hc.
  unfold wf_path in H1. rewrite Forall_forall in H1, H2. split; auto.
Qed.

Lemma TryAppendZeroByte_none c pp : params_ok pp -> len c <= max_component_length pp ->
  TryAppendZeroByte c pp = None <-> len c = max_component_length pp.
Proof.
  intros (_ & H & _) Hl. unfold TryAppendZeroByte. rewrite toT_small by lia.
  destruct (N.eqb_spec (len c) (max_component_length pp)); split; congruence.
Qed.

Lemma TryAppendZeroByte_some c c' pp : TryAppendZeroByte c pp = Some c' -> c' = c ++ [0].
Proof. unfold TryAppendZeroByte. destruct (_ =? _); congruence. Qed.

Lemma skipn_nth_cons {A} i (l : list A) d : (i < length l)%nat -> skipn i l = nth i l d :: skipn (S i) l.
Proof.
  revert l. induction i as [|i IH]; intros [|x l] H; cbn in *; try lia; auto.
  apply IH. lia.
Qed.

Lemma total_length_app p q : total_length (p ++ q) = total_length p + total_length q.
Proof. induction p; cbn; [reflexivity|]. rewrite IHp. lia. Qed.

Lemma params_pos pp : params_ok pp -> 0 < 2 ^ pp_bits pp.
Proof. intros (H & _). lia. Qed.

(** What PathAppend does on the arguments given to it by the successor
    functions. *)
Lemma PathAppend_cases pp p c :
  params_ok pp -> len p + 1 <= max_component_count pp ->
  (PathAppend p c pp = Ok (p ++ [c])
   /\ (total_length p + len c < 2 ^ pp_bits pp -> total_length p + len c <= max_path_length pp))
  \/ (PathAppend p c pp = Fatal /\ max_path_length pp < total_length p + len c).
Proof.
  intros (HC & HL & HP) Hp. unfold PathAppend. rewrite toT_small by lia.
  destruct (N.ltb_spec (max_component_count pp) (len p + 1)); [lia|].
  unfold toT. destruct (N.ltb_spec (max_path_length pp) ((len c + total_length p) mod 2 ^ pp_bits pp)) as [H1|H1].
  - right. split; auto.
    pose proof (N.mod_le (len c + total_length p) (2 ^ pp_bits pp)). lia.
  - left. split; auto. intros H2. rewrite N.mod_small in H1 by lia. lia.
Qed.

Lemma comps_wf M p : comps_ok M p -> wf_path p.
Proof. intros H. eapply Forall_impl; [|exact H]. intros c [Hc _]; auto. Qed.
Lemma comps_len M p : comps_ok M p -> Forall (fun c => len c <= M) p.
Proof. intros H. eapply Forall_impl; [|exact H]. intros c [_ Hc]; auto. Qed.

(** The path built by the successor functions is within the limits. *)
Lemma appended_ok pp p i c :
  params_ok pp -> max_path_length pp + 1 < 2 ^ pp_bits pp -> ok_path pp p -> (i < length p)%nat ->
  comp_ok (max_component_length pp) c ->
  total_length (firstn i p) + len c <= max_path_length pp ->
  ok_path pp (firstn i p ++ [c]).
Proof.
  intros PO HB HP Hi Hc Ht. pose proof (ok_path_comps _ _ HP) as HK. destruct HP as [_ (H1 & _ & _)].
  assert (HF : comps_ok (max_component_length pp) (firstn i p ++ [c])).
  { apply Forall_app; split; [|constructor; auto].
    unfold comps_ok in HK. rewrite <- (firstn_skipn i p) in HK. apply Forall_app in HK. tauto. }
  split; [eapply comps_wf; eauto|]. split; [|split; [eapply comps_len; eauto|]].
  - unfold len in *. rewrite app_length, firstn_length_le; cbn; lia.
  - rewrite total_length_app. cbn. lia.
Qed.

Lemma total_firstn_nth i p : (i < length p)%nat ->
  total_length (firstn i p) + len (nth i p ([] : bytes)) <= total_length p.
Proof.
  intros H. rewrite (split_nth i p [] H) at 3. rewrite total_length_app. cbn. lia.
Qed.

Lemma wf_app_zero c : wf_bytes c -> wf_bytes (c ++ [0]).
Proof. intros. apply Forall_app; split; auto. constructor; auto. lia. Qed.

Lemma successor_prefix_loop_spec pp p n :
  params_ok pp -> ok_path pp p -> (n <= length p)%nat ->
  Forall (comp_max (max_component_length pp)) (skipn n p) ->
  match fst (successor_prefix_loop pp p n) with
  | Ok (Some q) => bounds_ext (max_component_length pp) p q
                   /\ (max_path_length pp + 1 < 2 ^ pp_bits pp -> ok_path pp q)
  | Ok None => Forall (comp_max (max_component_length pp)) p
  | Fatal => total_length p = max_path_length pp
  | _ => False
  end.
Proof.
  intros PO HP. induction n as [|i IH]; intros Hn Ht; cbn [successor_prefix_loop]; [exact Ht|].
  pose proof (split_nth i p [] Hn) as Hsp.
  pose proof (total_firstn_nth i p Hn) as Htl.
  set (c := nth i p []) in *.
  assert (Hc : comp_ok (max_component_length pp) c).
  { pose proof (ok_path_comps _ _ HP) as H. unfold comps_ok in H. rewrite Forall_forall in H.
    apply H. apply nth_In. lia. }
  assert (Hcount : len (firstn i p) + 1 <= max_component_count pp).
  { destruct HP as [_ (H & _)]. unfold len in *. rewrite firstn_length_le; lia. }
  assert (Htot : total_length p <= max_path_length pp) by apply HP.
  destruct (TryAppendZeroByte c pp) as [c'|] eqn:E.
  - assert (len c < max_component_length pp).
    { destruct (N.eq_dec (len c) (max_component_length pp)) as [E'|E'].
      - apply TryAppendZeroByte_none in E'; [congruence|auto|apply Hc].
      - destruct Hc. lia. }
    apply TryAppendZeroByte_some in E. subst c'. cbn [fst].
    destruct (PathAppend_cases pp (firstn i p) (c ++ [0]) PO Hcount) as [[-> H2]|[-> H2]]; cbn [bind];
      rewrite len_app, len_cons, len_nil in H2; [|lia].
    split; [rewrite Hsp at 1; apply bounds_ext_intro; auto; apply comp_succ_zero|].
    intros HB. apply appended_ok; auto.
    + split; [apply wf_app_zero; apply Hc|]. rewrite len_app, len_cons, len_nil. lia.
    + rewrite len_app, len_cons, len_nil. apply H2. lia.
  - apply TryAppendZeroByte_none in E; [|auto|apply Hc].
    destruct (PrefixSuccessor c) as [[c'|] m] eqn:E3; cbn [fst].
    + destruct Hc as [Hw Hl]. destruct (PrefixSuccessor_some _ _ _ Hw E3) as (K1 & K2 & K3 & K4).
      destruct (PathAppend_cases pp (firstn i p) c' PO Hcount) as [[-> H2]|[-> H2]]; cbn [bind]; [|lia].
      split.
      * rewrite Hsp at 1. apply bounds_ext_intro; auto.
        split; auto. intros x [Hx Hlx]. apply K4; auto. lia.
      * intros HB. apply appended_ok; auto; [split; auto; lia|lia].
    + apply PrefixSuccessor_none in E3 as [-> HF]. unfold c. rewrite update_nth_same by lia.
      apply IH; [lia|]. rewrite (skipn_nth_cons i p []) by lia. constructor; auto.
      apply comp_max_255; auto. apply Hc.
Qed.

Lemma SuccessorPrefix_spec pp p :
  params_ok pp -> wf_path p -> within_limits pp p ->
  match SuccessorPrefix p pp with
  | Ok (Some q) =>
      (forall s, path_lt (p ++ s) q)
      /\ (forall r, wf_path r -> within_limits pp r -> path_le p r -> path_lt r q -> prefix_of p r)
      /\ (max_path_length pp + 1 < 2 ^ pp_bits pp -> wf_path q /\ within_limits pp q)
  | Ok None => forall r, wf_path r -> within_limits pp r ->
      exists s, within_limits pp (p ++ s) /\ ~ path_lt (p ++ s) r
  | Fatal => total_length p = max_path_length pp
  | _ => False
  end.
Proof.
  intros PO Hw Hp.
  assert (HP : ok_path pp p) by (split; auto).
  pose proof (successor_prefix_loop_spec pp p (length p) PO HP) as H.
  rewrite skipn_all in H. specialize (H (le_n _) (Forall_nil _)).
  unfold SuccessorPrefix, SuccessorPrefix_full.
  destruct (fst (successor_prefix_loop pp p (length p))) as [[q|]| | | |]; auto.
  - destruct H as [[H1 H2] H3]. split; [|split]; auto.
    intros r Hr Hr2. apply H2. apply ok_path_comps. split; auto.
  - intros r Hr Hr2. destruct (sto_total _ path_sto p r) as [K|[K|K]].
    + destruct (tail_max_prefix (max_component_length pp) p r) as [s ->]; auto.
      * apply ok_path_comps; split; auto.
      * left; auto.
      * exists s. split; auto. apply path_lt_irrefl.
    + subst. exists []. rewrite app_nil_r. split; auto. apply path_lt_irrefl.
    + exists []. rewrite app_nil_r. split; auto. apply path_lt_asym; auto.
Qed.

Lemma SuccessorPrefix_caller_short pp (p : path) :
  params_ok pp -> Forall (fun c => len c < max_component_length pp) p ->
  SuccessorPrefix_caller p pp = p.
Proof.
  intros PO HF. unfold SuccessorPrefix_caller, SuccessorPrefix_full.
  assert (G : forall n, (n <= length p)%nat -> snd (successor_prefix_loop pp p n) = p).
  { destruct n as [|i]; intros Hn; cbn [successor_prefix_loop]; auto.
    destruct (TryAppendZeroByte (nth i p ([] : bytes)) pp) eqn:E; [reflexivity|].
    rewrite Forall_forall in HF. specialize (HF (nth i p []) (nth_In _ _ Hn)).
    apply TryAppendZeroByte_none in E; [lia|auto|lia]. }
  apply G; auto.
Qed.

(** Whatever the parameters and the path, the length of the caller's path and
    of its components is not changed. *)
Lemma PrefixSuccessor_caller_length c : length (snd (PrefixSuccessor c)) = length c.
Proof.
  induction c as [|x c IH]; cbn; auto. destruct (PrefixSuccessor c) as [[r|] m]; cbn in *; auto.
  destruct (x =? 255); cbn; auto.
Qed.

(** ** SuccessorPath *)

Lemma SuccessorBytesFixedWidth_none b : wf_bytes b ->
  SuccessorBytesFixedWidth b = None <-> Forall (fun x => x = 255) b.
Proof.
  intros Hb. induction b as [|x b IH]; cbn; [split; auto|].
  inversion Hb; subst. cbn [SuccessorBytesFixedWidth]. destruct (SuccessorBytesFixedWidth b) eqn:E.
  - split; [discriminate|]. intros K. inversion K as [|? ? K1 K2]; subst. apply IH in K2; auto. discriminate.
  - destruct (N.leb_spec 255 x).
    + split; auto. intros _. constructor; [lia|]. apply IH; auto.
    + split; [discriminate|]. intros K. inversion K; subst. lia.
Qed.

Lemma be_decode_cons x b : be_decode (x :: b) = x * 256 ^ len b + be_decode b.
Proof.
  induction b as [|y b IH] using rev_ind.
  - cbn. lia.
  - rewrite app_comm_cons, !be_decode_snoc, IH, len_app, len_cons, len_nil.
    rewrite N.pow_add_r. change (256 ^ (1 + 0)) with 256. ring.
Qed.

Lemma be_decode_zeros (b : bytes) : be_decode (map (fun _ => 0) b) = 0.
Proof. induction b; cbn [map]; auto. Qed.

Lemma be_decode_255 b : Forall (fun x => x = 255) b -> be_decode b + 1 = 256 ^ len b.
Proof.
  induction 1; [reflexivity|]. subst. rewrite be_decode_cons, len_cons, N.pow_add_r.
  change (256 ^ 1) with 256. lia.
Qed.

Lemma SuccessorBytesFixedWidth_some b b' : wf_bytes b -> SuccessorBytesFixedWidth b = Some b' ->
  wf_bytes b' /\ length b' = length b /\ be_decode b' = be_decode b + 1.
Proof.
  revert b'. induction b as [|x b IH]; cbn [SuccessorBytesFixedWidth]; intros b' Hb H; [discriminate|].
  inversion Hb; subst. destruct (SuccessorBytesFixedWidth b) as [r|] eqn:E.
  - inversion H; subst. destruct (IH r) as (K1 & K2 & K3); auto. split; [constructor; auto|].
    split; [cbn; auto|]. rewrite !be_decode_cons. unfold len. rewrite K2, K3. lia.
  - apply SuccessorBytesFixedWidth_none in E; auto.
    destruct (N.leb_spec 255 x); [discriminate|]. inversion H; subst.
    split; [|split].
    + constructor; [lia|]. apply Forall_forall. intros y Hy. apply in_map_iff in Hy as (? & <- & _). lia.
    + cbn. rewrite map_length. reflexivity.
    + rewrite !be_decode_cons, be_decode_zeros. apply be_decode_255 in E. unfold len in *.
      rewrite map_length. lia.
Qed.

(** For strings of equal length the lexicographic order is the numeric one. *)
Lemma bytes_lt_numeric a b : wf_bytes a -> wf_bytes b -> length a = length b ->
  bytes_lt a b <-> be_decode a < be_decode b.
Proof.
  intros Ha Hb Hl.
  assert (G : forall a b, wf_bytes a -> wf_bytes b -> length a = length b ->
              be_decode a < be_decode b -> bytes_lt a b).
  { clear. intros a b Ha Hb Hl H. rewrite <- (be_encode_decode a Ha), <- (be_encode_decode b Hb), Hl.
    pose proof (be_decode_bound a Ha). pose proof (be_decode_bound b Hb). unfold len in *.
    apply be_encode_lt; auto; rewrite <- Hl; auto. }
  split; [|apply G; auto]. intros H.
  destruct (N.lt_trichotomy (be_decode a) (be_decode b)) as [?|[E|E]]; auto.
  - rewrite <- (be_encode_decode a Ha), <- (be_encode_decode b Hb), Hl, E in H.
    exfalso; eapply bytes_lt_irrefl; eauto.
  - apply G in E; auto. exfalso; eapply bytes_lt_irrefl, bytes_lt_trans; eauto.
Qed.

Lemma SuccessorBytesFixedWidth_least b b' : wf_bytes b -> SuccessorBytesFixedWidth b = Some b' ->
  bytes_lt b b' /\ forall r, wf_bytes r -> length r = length b -> bytes_lt b r -> bytes_le b' r.
Proof.
  intros Hb H. destruct (SuccessorBytesFixedWidth_some _ _ Hb H) as (K1 & K2 & K3).
  split; [apply bytes_lt_numeric; auto; lia|].
  intros r Hr Hl Hlt. apply bytes_lt_numeric in Hlt; auto.
  apply bytes_le_lt. rewrite bytes_lt_numeric by (auto; congruence). lia.
Qed.

(** [q] is the least path above [p] among those within the limits. *)
Definition least_above (pp : path_params) (p q : path) : Prop :=
  path_lt p q /\ forall r, ok_path pp r -> path_lt p r -> path_le q r.

Lemma append_empty_least p r : path_lt p r -> path_le (p ++ [[]]) r.
Proof.
  intros H. induction H; cbn.
  - apply path_le_cons. destruct y; [right|left; constructor]. split; auto. apply path_le_nil.
  - apply path_le_cons. left; auto.
  - apply path_le_cons. right; split; auto.
Qed.

Lemma full_max_no_ext pp t r' :
  Forall (comp_max (max_component_length pp)) t -> comps_ok (max_component_length pp) r' ->
  path_lt t r' -> (length r' <= length t)%nat -> False.
Proof.
  intros Ht Hr Hlt Hl. destruct (tail_max_prefix (max_component_length pp) t r') as [s ->]; auto.
  - left; auto.
  - rewrite app_length in Hl. destruct s; [|cbn in Hl; lia]. rewrite app_nil_r in Hlt.
    eapply path_lt_irrefl; eauto.
Qed.

Lemma least_above_intro pp pre c t :
  len (pre ++ c :: t) = max_component_count pp ->
  Forall (comp_max (max_component_length pp)) t ->
  least_above pp (pre ++ c :: t) (pre ++ [c ++ [0]]).
Proof.
  intros Hfull Ht. split.
  - apply lex_app_l, lex_head, bytes_lt_append_zero.
  - intros r Hr Hlt. pose proof (ok_path_comps _ _ Hr) as HK.
    destruct Hr as [_ (Hcount & _)]. rewrite <- Hfull in Hcount. clear Hfull.
    revert r Hcount Hlt HK. induction pre as [|a pre IH]; cbn [app]; intros r Hcount Hlt HK.
    + destruct r as [|x r]; [inversion Hlt|]. inversion HK; subst.
      apply path_le_cons. apply lex_cons_inv in Hlt as [H|[-> H]].
      * apply append_zero_least in H. destruct H as [H| ->]; [left; auto|right]. split; auto. apply path_le_nil.
      * exfalso. eapply full_max_no_ext; eauto. unfold len in Hcount. cbn in Hcount. lia.
    + destruct r as [|x r]; [inversion Hlt|]. inversion HK; subst.
      apply path_le_cons. apply lex_cons_inv in Hlt as [H|[-> H]]; [left; auto|right; split; auto].
      apply IH; auto. rewrite !len_cons in Hcount. lia.
Qed.

Lemma successor_path_loop_spec pp p n :
  params_ok pp -> ok_path pp p -> (n <= length p)%nat -> len p = max_component_count pp ->
  max_component_count pp + 1 < 2 ^ pp_bits pp ->
  max_path_length pp + 1 < 2 ^ pp_bits pp ->
  Forall (comp_max (max_component_length pp)) (skipn n p) ->
  match successor_path_loop pp p n with
  | Ok (Some q) => least_above pp p q /\ ok_path pp q
  | Ok None => Forall (comp_max (max_component_length pp)) p
  | Fatal => total_length p = max_path_length pp
             \/ exists c, In c p /\ len c = max_component_length pp /\ ~ Forall (fun b => b = 255) c
  | _ => False
  end.
Proof.
  intros PO HP Hn Hfull HB1 HB2. induction n as [|i IH]; intros Ht; cbn [successor_path_loop]; [exact Ht|].
  pose proof (split_nth i p [] Hn) as Hsp.
  pose proof (total_firstn_nth i p Hn) as Htl.
  set (c := nth i p []) in *.
  assert (HcIn : In c p) by (apply nth_In; lia).
  assert (Hc : comp_ok (max_component_length pp) c).
  { pose proof (ok_path_comps _ _ HP) as H. unfold comps_ok in H. rewrite Forall_forall in H. auto. }
  assert (Hcount : len (firstn i p) + 1 <= max_component_count pp).
  { destruct HP as [_ (H & _)]. unfold len in *. rewrite firstn_length_le; lia. }
  assert (Htot : total_length p <= max_path_length pp) by apply HP.
  destruct (TryAppendZeroByte c pp) as [c'|] eqn:E.
  - assert (len c < max_component_length pp).
    { destruct (N.eq_dec (len c) (max_component_length pp)) as [E'|E'].
      - apply TryAppendZeroByte_none in E'; [congruence|auto|apply Hc].
      - destruct Hc. lia. }
    apply TryAppendZeroByte_some in E. subst c'.
    destruct (PathAppend_cases pp (firstn i p) (c ++ [0]) PO Hcount) as [[-> H2]|[-> H2]]; cbn [bind];
      rewrite len_app, len_cons, len_nil in H2; [|left; lia].
    split.
    + rewrite Hsp at 1. apply least_above_intro; auto. rewrite <- Hsp. auto.
    + apply appended_ok; auto.
      * split; [apply wf_app_zero; apply Hc|]. rewrite len_app, len_cons, len_nil. lia.
      * rewrite len_app, len_cons, len_nil. apply H2. lia.
  - apply TryAppendZeroByte_none in E; [|auto|apply Hc].
    destruct (SuccessorBytesFixedWidth c) as [c'|] eqn:E3.
    + unfold PathAppend at 1. rewrite toT_small by lia.
      destruct (N.ltb_spec (max_component_count pp) (len p + 1)); [|lia]. cbn [bind].
      right. exists c. repeat split; auto. intros HF.
      apply SuccessorBytesFixedWidth_none in HF; [congruence|apply Hc].
    + apply SuccessorBytesFixedWidth_none in E3; [|apply Hc].
      apply IH; [lia|]. rewrite (skipn_nth_cons i p []) by lia. constructor; auto.
      apply comp_max_255; auto. apply Hc.
Qed.

Lemma SuccessorPath_spec pp p :
  params_ok pp -> 0 < max_component_count pp ->
  max_component_count pp + 1 < 2 ^ pp_bits pp ->
  max_path_length pp + 1 < 2 ^ pp_bits pp ->
  wf_path p -> within_limits pp p ->
  match SuccessorPath p pp with
  | Ok (Some q) =>
      wf_path q /\ within_limits pp q /\ path_lt p q
      /\ (forall r, wf_path r -> within_limits pp r -> path_lt p r -> path_le q r)
  | Ok None => forall r, wf_path r -> within_limits pp r -> path_le r p
  | Fatal => len p = max_component_count pp
             /\ (total_length p = max_path_length pp
                 \/ exists c, In c p /\ len c = max_component_length pp /\ ~ Forall (fun b => b = 255) c)
  | _ => False
  end.
Proof.
  intros PO H0 HB1 HB2 Hw Hp.
  assert (HP : ok_path pp p) by (split; auto).
  unfold SuccessorPath. destruct p as [|c0 p0].
  - split; [repeat constructor|]. split.
    + split; [rewrite len_cons, len_nil; lia|split; [constructor; [rewrite len_nil; lia|constructor]|cbn; lia]].
    + split; [constructor|]. intros r _ _ H. apply (append_empty_least []). auto.
  - set (p := c0 :: p0) in *.
    rewrite toT_small by (destruct Hp; lia).
    destruct (N.ltb_spec (len p) (max_component_count pp)).
    + destruct (PathAppend_cases pp p [] PO) as [[-> H2]|[-> H2]]; cbn [bind].
      * lia.
      * destruct Hp as (P1 & P2 & P3). rewrite len_nil in H2.
        split; [apply Forall_app; split; auto; repeat constructor|].
        split; [split; [|split]|split].
        -- rewrite len_app, len_cons, len_nil. lia.
        -- apply Forall_app; split; auto. constructor; [rewrite len_nil; lia|constructor].
        -- rewrite total_length_app. cbn [total_length]. change (len ([] : bytes)) with 0. lia.
        -- apply lex_prefix.
        -- intros r _ _ H1. apply append_empty_least; auto.
      * destruct Hp as (P1 & P2 & P3). rewrite len_nil in H2. lia.
    + assert (Hfull : len p = max_component_count pp) by (destruct Hp; lia).
      pose proof (successor_path_loop_spec pp p (length p) PO HP (le_n _) Hfull HB1 HB2) as H2.
      rewrite skipn_all in H2. specialize (H2 (Forall_nil _)).
      destruct (successor_path_loop pp p (length p)) as [[q|]| | | |]; auto.
      * destruct H2 as [[K1 K2] [K3 K4]]. split; [|split; [|split]]; auto.
        intros r Hr1 Hr2. apply K2. split; auto.
      * intros r Hr1 Hr2. apply path_le_lt. intros Hlt.
        eapply full_max_no_ext; eauto.
        -- apply ok_path_comps; split; auto.
        -- destruct Hr2 as (R1 & _). rewrite <- Hfull in R1. unfold len in R1. lia.
Qed.
