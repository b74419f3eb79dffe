(** Proofs about M_Order. *)
From Verif Require Import Base M_Order S_Order.
Local Open Scope N_scope.

Lemma N_sto : strict_total_order N.lt.
Proof. constructor; intros; lia. Qed.

Lemma lex_sto {A} (lt : A -> A -> Prop) :
  strict_total_order lt -> strict_total_order (lex lt).
Proof.
  intros [Hi Ht Htot]. constructor.
  - intros a. induction a as [|x a IH]; intros H; inversion H; subst; eauto.
    eapply Hi; eauto.
  - intros a b c H. revert c. induction H as [y b|x y a b Hxy|x a b Hab IH]; intros c Hc.
    + inversion Hc; subst; constructor.
    + inversion Hc; subst; [apply lex_head; eapply Ht; eauto|apply lex_head; auto].
    + inversion Hc; subst; [apply lex_head; auto|apply lex_tail; auto].
  - intros a. induction a as [|x a IH]; intros [|y b].
    + auto.
    + left. constructor.
    + right; right. constructor.
    + destruct (Htot x y) as [H|[H|H]].
      * left; apply lex_head; auto.
      * subst. destruct (IH b) as [H|[H|H]].
        -- left; apply lex_tail; auto.
        -- subst; auto.
        -- right; right; apply lex_tail; auto.
      * right; right; apply lex_head; auto.
Qed.

Lemma bytes_sto : strict_total_order bytes_lt.
Proof. apply lex_sto, N_sto. Qed.
Lemma path_sto : strict_total_order path_lt.
Proof. apply lex_sto, bytes_sto. Qed.

Lemma OrderBytes_decides : decides bytes_lt OrderBytes.
Proof.
  intros a. induction a as [|x a IH]; intros [|y b]; cbn [OrderBytes].
  - right; left; auto.
  - left; split; [reflexivity|constructor].
  - right; right; split; [reflexivity|constructor].
  - destruct (N.ltb_spec x y) as [H|H].
    { left; split; [reflexivity|apply lex_head; auto]. }
    destruct (N.ltb_spec y x) as [H'|H'].
    { right; right; split; [reflexivity|apply lex_head; auto]. }
    assert (x = y) by lia. subst y.
    destruct (IH b) as [[E L]|[[E L]|[E L]]].
    + left; split; [exact E|apply lex_tail; auto].
    + right; left; subst; auto.
    + right; right; split; [exact E|apply lex_tail; auto].
Qed.

Lemma OrderTimestamp_decides : decides N.lt OrderTimestamp.
Proof.
  intros a b. unfold OrderTimestamp.
  destruct (N.ltb_spec a b); [left; split; [reflexivity|auto]|].
  destruct (N.ltb_spec b a); [right; right; split; [reflexivity|auto]|].
  right; left; split; [reflexivity|lia].
Qed.

Lemma OrderPath_decides : decides path_lt OrderPath.
Proof.
  intros a. induction a as [|x a IH]; intros [|y b]; cbn [OrderPath].
  - right; left; auto.
  - left; split; [reflexivity|constructor].
  - right; right; split; [reflexivity|constructor].
  - destruct (OrderBytes_decides x y) as [[E L]|[[E L]|[E L]]]; rewrite E; cbn.
    + left; split; [reflexivity|apply lex_head; auto].
    + subst y. destruct (IH b) as [[E' L']|[[E' L']|[E' L']]].
      * left; split; [exact E'|apply lex_tail; auto].
      * right; left; subst; auto.
      * right; right; split; [exact E'|apply lex_tail; auto].
    + right; right; split; [reflexivity|apply lex_head; auto].
Qed.

Lemma go_string_lt_spec a b : go_string_lt a b = true <-> bytes_lt a b.
Proof.
  revert b. induction a as [|x a IH]; intros [|y b]; cbn [go_string_lt].
  - split; [discriminate|inversion 1].
  - split; [constructor|auto].
  - split; [discriminate|inversion 1].
  - rewrite orb_true_iff, andb_true_iff, N.ltb_lt, N.eqb_eq, IH. split.
    + intros [H|[H1 H2]]; [apply lex_head; auto|subst; apply lex_tail; auto].
    + inversion 1; subst; auto.
Qed.

Lemma hex_digit_mono d e : d < e -> hex_digit d < hex_digit e.
Proof.
  unfold hex_digit. intros H.
  destruct (N.ltb_spec d 10), (N.ltb_spec e 10); lia.
Qed.

Lemma hex_encode_lt a b : bytes_lt a b -> bytes_lt (hex_encode a) (hex_encode b).
Proof.
  unfold hex_encode. intros H.
  induction H as [y b|x y a b Hxy|x a b Hab IH]; cbn [flat_map app].
  - constructor.
  - pose proof (N.div_mod x 16 ltac:(lia)) as Ex.
    pose proof (N.div_mod y 16 ltac:(lia)) as Ey.
    pose proof (N.mod_lt x 16 ltac:(lia)). pose proof (N.mod_lt y 16 ltac:(lia)).
    destruct (N.lt_trichotomy (x / 16) (y / 16)) as [L|[L|L]].
    + apply lex_head, hex_digit_mono, L.
    + rewrite L. apply lex_tail, lex_head, hex_digit_mono. lia.
    + exfalso. lia.
  - apply lex_tail, lex_tail, IH.
Qed.

Lemma OrderSubspace_OrderBytes a b : OrderSubspace a b = OrderBytes a b.
Proof.
  unfold OrderSubspace.
  pose proof (sto_irrefl _ bytes_sto) as Hi. pose proof (sto_trans _ bytes_sto) as Ht.
  destruct (OrderBytes_decides a b) as [[E L]|[[E L]|[E L]]]; rewrite E.
  - apply hex_encode_lt, go_string_lt_spec in L. rewrite L. reflexivity.
  - subst. destruct (go_string_lt (hex_encode b) (hex_encode b)) eqn:F; [|reflexivity].
    apply go_string_lt_spec in F. exfalso; eapply Hi; eauto.
  - apply hex_encode_lt in L.
    destruct (go_string_lt (hex_encode a) (hex_encode b)) eqn:F.
    + apply go_string_lt_spec in F. exfalso; eapply Hi; eauto.
    + apply go_string_lt_spec in L. rewrite L. reflexivity.
Qed.

Lemma OrderSubspace_decides : decides bytes_lt OrderSubspace.
Proof. intros a b. rewrite OrderSubspace_OrderBytes. apply OrderBytes_decides. Qed.

Lemma OrderBytes_total : total_order bytes_lt OrderBytes.
Proof. split; [apply bytes_sto|apply OrderBytes_decides]. Qed.
Lemma OrderSubspace_total : total_order bytes_lt OrderSubspace.
Proof. split; [apply bytes_sto|apply OrderSubspace_decides]. Qed.
Lemma OrderTimestamp_total : total_order N.lt OrderTimestamp.
Proof. split; [apply N_sto|apply OrderTimestamp_decides]. Qed.
Lemma OrderPath_total : total_order path_lt OrderPath.
Proof. split; [apply path_sto|apply OrderPath_decides]. Qed.

(** Consequences used throughout. *)
Section Facts.
Context {A : Type} (lt : A -> A -> Prop) (order : A -> A -> Z).
Hypothesis TO : total_order lt order.

Lemma order_refl a : order a a = 0%Z.
Proof.
  destruct TO as [[Hi _ _] D]. destruct (D a a) as [[E L]|[[E L]|[E L]]]; auto;
  exfalso; eapply Hi; eauto.
Qed.

Lemma order_eq0 a b : order a b = 0%Z <-> a = b.
Proof.
  split; [|intros ->; apply order_refl].
  destruct TO as [_ D]. destruct (D a b) as [[E L]|[[E L]|[E L]]]; auto; rewrite E; discriminate.
Qed.

Lemma order_lt a b : order a b = (-1)%Z <-> lt a b.
Proof.
  destruct TO as [[Hi Ht _] D]. destruct (D a b) as [[E L]|[[E L]|[E L]]]; rewrite E; split; intros H; auto; try discriminate.
  - subst; exfalso; eapply Hi; eauto.
  - exfalso; eapply Hi; eauto.
Qed.

Lemma order_gt a b : order a b = 1%Z <-> lt b a.
Proof.
  destruct TO as [[Hi Ht _] D]. destruct (D a b) as [[E L]|[[E L]|[E L]]]; rewrite E; split; intros H; auto; try discriminate.
  - exfalso; eapply Hi; eauto.
  - subst; exfalso; eapply Hi; eauto.
Qed.

Lemma order_ge0 a b : (order a b >=? 0)%Z = true <-> ~ lt a b.
Proof.
  rewrite <- order_lt. destruct TO as [_ D].
  destruct (D a b) as [[E L]|[[E L]|[E L]]]; rewrite E; cbn; split; congruence.
Qed.

Lemma order_le0 a b : (order a b <=? 0)%Z = true <-> ~ lt b a.
Proof.
  rewrite <- order_gt. destruct TO as [_ D].
  destruct (D a b) as [[E L]|[[E L]|[E L]]]; rewrite E; cbn; split; congruence.
Qed.

Lemma order_lt0 a b : (order a b <? 0)%Z = true <-> lt a b.
Proof.
  rewrite <- order_lt. destruct TO as [_ D].
  destruct (D a b) as [[E L]|[[E L]|[E L]]]; rewrite E; cbn; split; congruence.
Qed.

Lemma order_gt0 a b : (order a b >? 0)%Z = true <-> lt b a.
Proof.
  rewrite <- order_gt. destruct TO as [_ D].
  destruct (D a b) as [[E L]|[[E L]|[E L]]]; rewrite E; cbn; split; congruence.
Qed.

Lemma order_eqm1 a b : (order a b =? -1)%Z = true <-> lt a b.
Proof. rewrite Z.eqb_eq. apply order_lt. Qed.

Lemma order_eqb0 a b : (order a b =? 0)%Z = true <-> a = b.
Proof. rewrite Z.eqb_eq. apply order_eq0. Qed.

Lemma not_lt_trans a b c : ~ lt b a -> lt b c -> lt a c.
Proof.
  destruct TO as [[Hi Ht Htot] _]. intros H1 H2.
  destruct (Htot a b) as [H|[H|H]]; subst; eauto. contradiction.
Qed.

Lemma lt_not_trans a b c : lt a b -> ~ lt c b -> lt a c.
Proof.
  destruct TO as [[Hi Ht Htot] _]. intros H1 H2.
  destruct (Htot b c) as [H|[H|H]]; subst; eauto. contradiction.
Qed.

Lemma le_le_trans a b c : ~ lt b a -> ~ lt c b -> ~ lt c a.
Proof.
  intros H1 H2 H3. destruct TO as [[Hi Ht Htot] _].
  apply H2. eapply lt_not_trans; eauto.
Qed.
End Facts.
