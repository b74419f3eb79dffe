(** Proofs about M_Map. *)
From Coq Require Import Sorting.Permutation Sorting.Sorted.
From Verif Require Import Base M_Order M_Map S_Order P_Order P_Successor.
Local Open Scope N_scope.

Lemma beqb_spec a b : reflect (a = b) (beqb a b).
Proof.
  unfold beqb. apply iff_reflect. pose proof (order_eqb0 _ _ OrderBytes_total a b). symmetry. auto.
Qed.

Lemma beqb_refl a : beqb a a = true.
Proof. destruct (beqb_spec a a); auto. Qed.

Lemma beqb_neq a b : a <> b -> beqb a b = false.
Proof. destruct (beqb_spec a b); tauto. Qed.

Lemma beqb_sym a b : beqb a b = beqb b a.
Proof. destruct (beqb_spec a b), (beqb_spec b a); congruence. Qed.

Lemma filter_all {A} (f : A -> bool) l : (forall x, In x l -> f x = true) -> filter f l = l.
Proof.
  induction l as [|a l IH]; cbn; intros H; auto. rewrite H by auto. f_equal. auto.
Qed.

Lemma filter_none {A} (f : A -> bool) l : (forall x, In x l -> f x = false) -> filter f l = [].
Proof.
  induction l as [|a l IH]; cbn; intros H; auto. rewrite H by auto. auto.
Qed.

Lemma filter_perm {A} (f : A -> bool) l l' : Permutation l l' -> Permutation (filter f l) (filter f l').
Proof.
  induction 1; cbn; auto.
  - destruct (f x); auto.
  - destruct (f x), (f y); auto. apply perm_swap.
  - etransitivity; eauto.
Qed.

Section Map.
Context {V : Type}.
Implicit Types m : bmap V.

Lemma mget_mset m k v k' : mget (mset m k v) k' = if beqb k' k then Some v else mget m k'.
Proof.
  induction m as [|[k0 v0] m IH]; cbn [mset mget].
  - reflexivity.
  - destruct (OrderBytes k k0 <? 0)%Z eqn:E; cbn [mget]; auto.
    destruct (beqb_spec k k0) as [->|Hk]; cbn [mget].
    + destruct (beqb_spec k' k0); auto.
    + rewrite IH. destruct (beqb_spec k' k0), (beqb_spec k' k); auto; congruence.
Qed.

Lemma mget_mdel m k k' : mget (mdel m k) k' = if beqb k' k then None else mget m k'.
Proof.
  induction m as [|[k0 v0] m IH]; cbn [mdel filter mget fst].
  - destruct (beqb k' k); auto.
  - fold (mdel m k). destruct (beqb_spec k k0) as [->|Hk]; cbn [negb mget].
    + rewrite IH. destruct (beqb_spec k' k0); auto.
    + rewrite IH. destruct (beqb_spec k' k0), (beqb_spec k' k); auto; congruence.
Qed.

Lemma mget_In m k v : mget m k = Some v -> In (k, v) m.
Proof.
  induction m as [|[k0 v0] m IH]; cbn; [discriminate|].
  destruct (beqb_spec k k0) as [->|]; intros H; [inversion H; auto|auto].
Qed.

Lemma mget_NoDup m k v : NoDup (mkeys m) -> In (k, v) m -> mget m k = Some v.
Proof.
  induction m as [|[k0 v0] m IH]; cbn; [tauto|]. intros HN [H|H]; inversion HN; subst.
  - inversion H; subst. rewrite beqb_refl. auto.
  - destruct (beqb_spec k k0) as [->|]; auto. exfalso. apply H2. apply (in_map fst) in H. auto.
Qed.

Lemma mget_None m k : mget m k = None <-> ~ In k (mkeys m).
Proof.
  induction m as [|[k0 v0] m IH]; cbn; [tauto|].
  destruct (beqb_spec k k0) as [->|]; [split; [discriminate|tauto]|]. rewrite IH. intuition congruence.
Qed.

Lemma mset_fresh m k v : ~ In k (mkeys m) -> Permutation (mset m k v) ((k, v) :: m).
Proof.
  induction m as [|[k0 v0] m IH]; cbn; [auto|]. intros H.
  destruct (OrderBytes k k0 <? 0)%Z; auto. rewrite beqb_neq by intuition congruence.
  etransitivity; [apply perm_skip, IH; tauto|apply perm_swap].
Qed.

Lemma mdel_perm m k v m' : NoDup (mkeys m) -> Permutation m ((k, v) :: m') -> Permutation (mdel m k) m'.
Proof.
  intros HN HP. assert (HN' : NoDup (mkeys ((k, v) :: m'))).
  { eapply Permutation_NoDup; [|exact HN]. apply Permutation_map; auto. }
  unfold mdel.
  etransitivity; [apply filter_perm, HP|]. cbn. rewrite beqb_refl. cbn.
  cbn in HN'. inversion HN' as [|? ? Hk _]; subst.
  rewrite filter_all; auto.
  intros [k1 v1] H1. cbn. rewrite beqb_neq; auto. intros <-.
  apply Hk. apply (in_map fst) in H1. auto.
Qed.

(** Keys in strictly ascending order. *)
Definition msorted m : Prop := StronglySorted (fun a b => bytes_lt (fst a) (fst b)) m.

Lemma mset_In m k v x : In x (mset m k v) -> x = (k, v) \/ In x m.
Proof.
  induction m as [|[k0 v0] m IH]; cbn; [intuition|].
  destruct (OrderBytes k k0 <? 0)%Z; [cbn; intuition|].
  destruct (beqb k k0); cbn; intuition.
Qed.

Lemma OrderBytes_neg a b : (OrderBytes a b <? 0)%Z = true <-> bytes_lt a b.
Proof.
  destruct OrderBytes_total as [S D]. destruct (D a b) as [[-> H]|[[-> H]|[-> H]]]; split; auto; try discriminate.
  - subst. intros H. exfalso. eapply bytes_lt_irrefl; eauto.
  - intros H'. exfalso. eapply bytes_lt_irrefl, bytes_lt_trans; eauto.
Qed.

Lemma mset_sorted m k v : msorted m -> msorted (mset m k v).
Proof.
  induction m as [|[k0 v0] m IH]; cbn; intros H.
  - repeat constructor.
  - inversion H as [|? ? H1 H2]; subst. rewrite Forall_forall in H2.
    destruct (OrderBytes k k0 <? 0)%Z eqn:E.
    + apply OrderBytes_neg in E. constructor; auto. constructor; auto.
      apply Forall_forall. intros y Hy. cbn. eapply bytes_lt_trans; [eauto|apply (H2 y Hy)].
    + assert (E' : ~ bytes_lt k k0) by (rewrite <- OrderBytes_neg, E; discriminate).
      destruct (beqb_spec k k0) as [->|Hk].
      * constructor; auto. apply Forall_forall. intros y Hy. apply (H2 y Hy).
      * constructor; [apply IH; auto|]. apply Forall_forall. intros y Hy. cbn.
        apply mset_In in Hy as [->|Hy]; [|apply (H2 y Hy)]. cbn.
        destruct (sto_total _ bytes_sto k k0) as [?|[?|?]]; tauto.
Qed.

Lemma mdel_sorted m k : msorted m -> msorted (mdel m k).
Proof.
  unfold mdel. induction 1 as [|x l H1 IH H2]; cbn; [constructor|].
  destruct (negb _); auto. constructor; auto. rewrite Forall_forall in *. intros y Hy.
  apply filter_In in Hy. apply H2; tauto.
Qed.

Lemma msorted_NoDup m : msorted m -> NoDup (mkeys m).
Proof.
  induction 1 as [|x l H1 IH H2]; cbn; constructor; auto.
  intros Hin. apply in_map_iff in Hin as (y & Hy & Hin). rewrite Forall_forall in H2.
  specialize (H2 _ Hin). rewrite Hy in H2. eapply bytes_lt_irrefl; eauto.
Qed.

Lemma GetMultipleValues_spec m keys :
  match GetMultipleValues m keys with
  | Ok vs => Forall2 (fun k v => mget m k = Some v) keys vs
  | Err => exists k, In k keys /\ mget m k = None
  | _ => False
  end.
Proof.
  induction keys as [|k keys IH]; cbn; [constructor|].
  destruct (mget m k) as [v|] eqn:E; [|eauto].
  destruct (GetMultipleValues m keys); cbn; auto. destruct IH as (k' & ? & ?); eauto.
Qed.
End Map.
