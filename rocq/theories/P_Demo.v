(** A concrete configuration for instances and counterexamples: the shipped
    parameters with an injective digest, and decision procedures. *)
From Verif Require Import Base M_Order M_Encoding M_Paths M_Keys M_Entry M_Map M_Store
  S_Order S_Store P_Order P_Encoding P_Paths P_Keys P_Map P_Store.
Local Open Scope N_scope.

Lemma hex_digit_char n : n < 16 -> hex_digit (hex_char n) = Some n.
Proof.
  intros H. destruct n as [|p]; [reflexivity|].
  do 4 (destruct p as [p|p|]; try reflexivity; try (exfalso; lia)).
Qed.

Lemma hex_decode_encode b : wf_bytes b -> hex_decode (hex_encode b) = Some b.
Proof.
  induction 1 as [|x b H _ IH]; [reflexivity|]. unfold hex_encode. cbn [flat_map app].
  fold (hex_encode b). cbn [hex_decode].
  rewrite !hex_digit_char, IH; [|apply N.mod_lt; lia|apply N.div_lt_upper_bound; lia].
  do 2 f_equal. rewrite (N.div_mod x 16) at 3 by lia. lia.
Qed.

Lemma hex_encode_len b : len (hex_encode b) = 2 * len b.
Proof.
  unfold len. induction b as [|x b IH]; [reflexivity|]. unfold hex_encode in *. cbn [flat_map app length]. lia.
Qed.

(** The shipped schemes with a digest that has no collision on [U]. *)
Lemma shipped_universe ns digest (U : bytes -> Prop) :
  (forall a b, U a -> U b -> digest a = digest b -> a = b) ->
  (forall a, U a -> wf_bytes (digest a) /\ len (digest a) < 2 ^ 32 /\ len a < 2 ^ 64) ->
  universe (shipped_cfg ns digest) U.
Proof.
  intros HI HW. split.
  - intros a b Ha Hb. cbn. unfold shipped_fname. destruct (HW a Ha) as (Wa & _). destruct (HW b Hb) as (Wb & _).
    rewrite !hex_decode_encode by auto. auto.
  - intros a Ha. destruct (HW a Ha) as (_ & L1 & L2). cbn. rewrite hex_encode_len. lia.
Qed.

Lemma shipped_store_params : store_params shipped_params.
Proof. repeat split; vm_compute; reflexivity. Qed.

Definition demo : cfg := shipped_cfg [110] (fun b => b).
Definition small (b : bytes) : Prop := wf_bytes b /\ len b < 2 ^ 32.

Lemma demo_universe : universe demo small.
Proof.
  apply shipped_universe; [auto|]. intros a [H1 H2]. repeat split; auto. lia.
Qed.

(** ** Decision procedures *)
Definition smallb (b : bytes) : bool := forallb (fun x => x <? 256) b && (len b <? 2 ^ 32).
Lemma smallb_spec b : smallb b = true -> small b.
Proof.
  unfold smallb, small. rewrite andb_true_iff, N.ltb_lt. intros [H1 H2]. split; auto.
  apply Forall_forall. rewrite forallb_forall in H1. intros x Hx. apply N.ltb_lt; auto.
Qed.

Definition strict_pathb (pp : path_params) (p : path) : bool :=
  match p with [] => false | _ => true end && (len p <? max_component_count pp)
  && forallb (fun c => len c <? max_component_length pp) p && (total_length p <? max_path_length pp).
Lemma strict_pathb_spec pp p : strict_pathb pp p = true -> strict_path pp p.
Proof.
  unfold strict_pathb, strict_path. rewrite !andb_true_iff, !N.ltb_lt, forallb_forall, Forall_forall.
  intros [[[H1 H2] H3] H4]. repeat split; auto; [destruct p; congruence|].
  intros c Hc. apply N.ltb_lt; auto.
Qed.

Definition within_limitsb (pp : path_params) (p : path) : bool :=
  (len p <=? max_component_count pp)
  && forallb (fun c => len c <=? max_component_length pp) p && (total_length p <=? max_path_length pp).
Lemma within_limitsb_spec pp p : within_limitsb pp p = true -> within_limits pp p.
Proof.
  unfold within_limitsb, within_limits. rewrite !andb_true_iff, !N.leb_le, forallb_forall, Forall_forall.
  intros [[H1 H2] H3]. repeat split; auto. intros c Hc. apply N.leb_le; auto.
Qed.

(** [hex_decode] of the digest, for the demo digest, is a payload. *)
Definition demo_entry_okb (e : entry) : bool :=
  strict_pathb shipped_params (e_path e) && (e_time e <? 2 ^ 64) && (e_length e <? 2 ^ 64)
  && match hex_decode (e_digest e) with
     | Some b => smallb b && beqb (e_digest e) (hex_encode b)
     | None => false
     end && smallb (e_subspace e).
Lemma demo_entry_okb_spec e : demo_entry_okb e = true -> entry_ok demo small e.
Proof.
  unfold demo_entry_okb. rewrite !andb_true_iff, !N.ltb_lt. intros [[[[H1 H2] H3] H4] H5].
  split; [apply strict_pathb_spec; auto|]. split; auto. split; auto. split; [|apply smallb_spec; auto].
  destruct (hex_decode (e_digest e)) as [b|]; [|discriminate]. apply andb_true_iff in H4 as [H4 H6].
  exists b. split; [apply smallb_spec; auto|]. destruct (beqb_spec (e_digest e) (hex_encode b)); auto; discriminate.
Qed.

Definition demo_op_okb (o : op) : bool :=
  match o with
  | OpSet i _ now => smallb (i_payload i) && demo_entry_okb (set_entry demo i now)
  | OpIngest e _ => demo_entry_okb e
  | OpReopen => true
  end.
Lemma demo_history ops : forallb demo_op_okb ops = true -> len ops + 1 < 2 ^ 64 -> history_ok demo small ops.
Proof.
  intros H L. split; [apply shipped_store_params|]. split; [apply demo_universe|]. split; auto.
  apply Forall_forall. rewrite forallb_forall in H. intros o Ho. specialize (H o Ho).
  destruct o; cbn in *; auto.
  - apply andb_true_iff in H as [H1 H2]. split; [apply smallb_spec; auto|apply demo_entry_okb_spec; auto].
  - apply demo_entry_okb_spec; auto.
Qed.

Definition op_withinb (C : cfg) (o : op) : bool :=
  match offer C o with
  | None => true
  | Some (e, _) =>
      within_limitsb (c_pp C) (e_path e) && negb (peqb (e_path e) []) && (e_time e <? 2 ^ 64)
      && (e_length e <? 2 ^ 64) && (len (e_digest e) + 8 <? 2 ^ 64)
      && (len (c_hash C (e_subspace e)) + 8 <? 2 ^ 64)
  end.
Lemma op_withinb_spec C ops : forallb (op_withinb C) ops = true -> Forall (op_within C) ops.
Proof.
  rewrite forallb_forall, Forall_forall. intros H o Ho. specialize (H o Ho). unfold op_withinb, op_within in *.
  destruct (offer C o) as [[e t]|]; auto. rewrite !andb_true_iff, !N.ltb_lt in H.
  destruct H as [[[[[H1 H2] H3] H4] H5] H6]. split; [apply within_limitsb_spec; auto|].
  repeat split; auto. destruct (peqb_spec (e_path e) []); auto; discriminate.
Qed.

Definition liveb (C : cfg) (st : state) (e : entry) : bool :=
  beqb (e_namespace e) (c_ns C) && existsb (fun kvp =>
    match DecodeKey (fst kvp) (c_pp C), DecodeValues (snd kvp) with
    | Ok q, Ok w =>
        beqb (pos_subspace q) (e_subspace e) && peqb (pos_path q) (e_path e) && (pos_time q =? e_time e)
        && beqb (v_digest w) (e_digest e) && (v_length w =? e_length e)
    | _, _ => false
    end) (kv st).
Lemma liveb_spec C st e : liveb C st e = true <-> live C st e.
Proof.
  unfold liveb, live. rewrite andb_true_iff, existsb_exists.
  destruct (beqb_spec (e_namespace e) (c_ns C)) as [En|En]; [|split; [intros [? _]; discriminate|intros [? _]; congruence]].
  split.
  - intros [_ ([k v] & Hin & H)]. split; auto. cbn [fst snd] in H.
    destruct (DecodeKey k (c_pp C)) as [q| | | |] eqn:E1; try discriminate.
    destruct (DecodeValues v) as [w| | | |] eqn:E2; try discriminate.
    rewrite !andb_true_iff, !N.eqb_eq in H. destruct H as [[[[H1 H2] H3] H4] H5].
    destruct (beqb_spec (pos_subspace q) (e_subspace e)); [|discriminate].
    destruct (peqb_spec (pos_path q) (e_path e)); [|discriminate].
    destruct (beqb_spec (v_digest w) (e_digest e)); [|discriminate].
    exists k, v, w. rewrite E1, E2. repeat split; auto. destruct q; cbn in *; subst; auto.
  - intros [_ (k & v & w & Hin & H1 & H2 & H3 & H4)]. split; auto. exists (k, v). split; auto.
    cbn [fst snd]. rewrite H1, H2. cbn [pos_subspace pos_path pos_time].
    rewrite H3, H4, !beqb_refl, peqb_refl, !N.eqb_refl. reflexivity.
Qed.

Lemma demo_op_okb_spec o : demo_op_okb o = true -> op_ok demo small o.
Proof.
  intros H. destruct (demo_history [o]) as (_ & _ & HF & _); [cbn; rewrite H; reflexivity|vm_compute; reflexivity|].
  inversion HF; auto.
Qed.
