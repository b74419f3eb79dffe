(** C69: stores that send each other what they hold.

    A network of stores with the same parameters. Each does operations of its own
    (Set, IngestEntry, restart), and now and then one store gives all the entries
    it holds, in any order, to IngestEntry of another store. *)
From Verif Require Import Base M_Order M_Encoding M_Paths M_Keys M_Entry M_Map M_Store
  S_Order S_Store P_Order P_Paths P_Store P_History P_Demo P_Map Prop_Store.
Local Open Scope N_scope.

Definition at_peer {A} (f : nat -> A) (i : nat) (v : A) : nat -> A := fun j => if Nat.eqb j i then v else f j.

(** What a store is given when it is sent the entries [xs]. *)
Definition given (xs : list entry) : list op := map (fun e => OpIngest e (e_subspace e)) xs.

(** [S i] is the store of peer [i]. [K i e]: the entry [e] was offered to peer [i],
    or to a peer that has since sent its entries to [i], directly or through
    others. [n] counts the operations. *)
Inductive gossip (C : cfg) (U : bytes -> Prop) : N -> (nat -> state) -> (nat -> entry -> Prop) -> Prop :=
| gossip_new : gossip C U 0 (fun _ => empty_store) (fun _ _ => False)
| gossip_own n S K i o st :
    gossip C U n S K -> op_ok C U o -> run C [o] (S i) = Some st ->
    gossip C U (n + 1) (at_peer S i st) (at_peer K i (fun e => K i e \/ offered C [o] e))
| gossip_send n S K i j xs st :
    gossip C U n S K -> (forall e, In e xs <-> live C (S i) e) -> run C (given xs) (S j) = Some st ->
    gossip C U (n + len xs) (at_peer S j st) (at_peer K j (fun e => K j e \/ K i e)).

(** No two known entries at comparable places with equal timestamps. *)
Definition untied (K : nat -> entry -> Prop) : Prop :=
  forall i j x y, K i x -> K j y -> same_place x y \/ above x y -> e_time x = e_time y -> x = y.

Lemma prefix_of_trans {A} (a b c : list A) : prefix_of a b -> prefix_of b c -> prefix_of a c.
Proof. intros [u ->] [v ->]. exists (u ++ v). rewrite app_assoc. reflexivity. Qed.

Lemma supersedes_trans z y x : supersedes z y -> supersedes y x -> supersedes z x.
Proof.
  intros [T1 P1] [T2 P2]. split; [lia|].
  destruct P1 as [[S1 Q1]|(S1 & N1 & Q1)], P2 as [[S2 Q2]|(S2 & N2 & Q2)].
  - left. split; congruence.
  - right. split; [congruence|]. split; [congruence|]. rewrite Q1. exact Q2.
  - right. split; [congruence|]. split; auto. rewrite <- Q2. exact Q1.
  - right. split; [congruence|]. split; auto. destruct Q1 as (c & u & Q1), Q2 as (d & v & Q2).
    exists c, (u ++ d :: v). rewrite Q2, Q1, <- app_assoc. reflexivity.
Qed.

Lemma offered_list C ops : exists l : list entry, forall e, offered C ops e <-> In e l.
Proof.
  exists (flat_map (fun o => match offer C o with
     | Some (e, t) => if beqb t (e_subspace e) && beqb (e_namespace e) (c_ns C) then [e] else [] | None => [] end) ops).
  intros e. rewrite in_flat_map. unfold offered. split.
  - intros (Hn & o & Ho & E). exists o. split; auto. rewrite E, beqb_refl, Hn, beqb_refl. left. reflexivity.
  - intros (o & Ho & H). destruct (offer C o) as [[x t]|] eqn:E; [|destruct H].
    destruct (beqb_spec t (e_subspace x)) as [->|]; [|destruct H].
    destruct (beqb_spec (e_namespace x) (c_ns C)) as [Hn|]; [|destruct H]. destruct H as [->|[]]. eauto.
Qed.

Lemma same_or_above_dec y x : {same_place y x \/ above y x} + {~ (same_place y x \/ above y x)}.
Proof.
  destruct (list_eq_dec N.eq_dec (e_subspace y) (e_subspace x)) as [E|E].
  - destruct (list_eq_dec (list_eq_dec N.eq_dec) (e_path y) (e_path x)) as [P|P]; [left; left; split; auto|].
    destruct (list_eq_dec (list_eq_dec N.eq_dec) (e_path y) []) as [Z|Z].
    { right. intros [[_ Q]|(_ & Q & _)]; auto. }
    destruct (list_eq_dec (list_eq_dec N.eq_dec) (firstn (length (e_path y)) (e_path x)) (e_path y)) as [F|F].
    + left. right. split; auto. split; auto. pose proof (firstn_skipn (length (e_path y)) (e_path x)) as X. rewrite F in X.
      destruct (skipn (length (e_path y)) (e_path x)) as [|c u]; [rewrite app_nil_r in X; contradiction|].
      exists c, u. auto.
    + right. intros [[_ Q]|(_ & _ & c & u & Q)]; auto. apply F. rewrite Q, firstn_app, Nat.sub_diag, firstn_all, app_nil_r. reflexivity.
  - right. intros [[Q _]|(Q & _)]; auto.
Qed.
Lemma supersedes_dec y x : {supersedes y x} + {~ supersedes y x}.
Proof.
  destruct (e_time x <? e_time y) eqn:T; [apply N.ltb_lt in T|right; intros [Q _]; apply N.ltb_ge in T; lia].
  destruct (same_or_above_dec y x) as [P|P]; [left; split; auto|right; intros [_ Q]; auto].
Qed.

(** In a finite set everything is maximal or below something maximal. *)
Lemma maximal_above (l : list entry) x : In x l ->
  exists m, In m l /\ (m = x \/ supersedes m x) /\ ~ exists y, In y l /\ supersedes y m.
Proof.
  intros Hx.
  assert (B : exists b, forall y, In y l -> e_time y <= b).
  { clear. induction l as [|a l [b IH]]; [exists 0; intros y []|]. exists (N.max (e_time a) b).
    intros y [->|H]; [lia|]. specialize (IH y H). lia. }
  destruct B as [b B].
  assert (G : forall k x, In x l -> b - e_time x < N.of_nat k ->
     exists m, In m l /\ (m = x \/ supersedes m x) /\ ~ exists y, In y l /\ supersedes y m).
  { induction k as [|k IH]; intros z Hz Hk; [lia|].
    destruct (existsb (fun y => if supersedes_dec y z then true else false) l) eqn:E.
    - apply existsb_exists in E as (y & Hy & E). destruct (supersedes_dec y z) as [S|]; [|discriminate].
      pose proof (B y Hy). pose proof S as [T _]. destruct (IH y Hy ltac:(lia)) as (m & Hm & M & Q).
      exists m. split; auto. split; auto. right. destruct M as [->|M]; auto. eapply supersedes_trans; eauto.
    - exists z. split; auto. split; auto. intros (y & Hy & S). rewrite <- not_true_iff_false in E. apply E.
      apply existsb_exists. exists y. split; auto. destruct (supersedes_dec y z); auto. }
  apply (G (Datatypes.S (N.to_nat (b - e_time x))) x Hx). lia.
Qed.

Lemma offered_app C a b e : offered C (a ++ b) e <-> offered C a e \/ offered C b e.
Proof.
  unfold offered. split.
  - intros (Hn & o & Ho & E). apply in_app_or in Ho as [Ho|Ho]; [left|right]; eauto.
  - intros [(Hn & o & Ho & E)|(Hn & o & Ho & E)]; split; auto; exists o; rewrite in_app_iff; auto.
Qed.
Lemma offered_given C xs e : offered C (given xs) e <-> In e xs /\ e_namespace e = c_ns C.
Proof.
  unfold offered, given. split.
  - intros (Hn & o & Ho & E). apply in_map_iff in Ho as (x & <- & Hx). cbn [offer] in E. injection E as -> _. auto.
  - intros [H Hn]. split; auto. exists (OpIngest e (e_subspace e)). split; [apply in_map_iff; eauto|reflexivity].
Qed.
Lemma offered_entry_ok C U ops e : Forall (op_ok C U) ops -> offered C ops e -> entry_ok C U e.
Proof.
  intros F (_ & o & Ho & E). rewrite Forall_forall in F. specialize (F o Ho).
  destruct o as [i a now|x t|]; cbn [offer op_ok] in *; [injection E as <- _; apply F|injection E as -> _; exact F|discriminate].
Qed.

Lemma untied_sub (K K' : nat -> entry -> Prop) : (forall i e, K i e -> K' i e) -> untied K' -> untied K.
Proof. intros H T i j x y Hx Hy. apply (T i j); auto. Qed.

Lemma gossip_inv C U n S K : store_params (c_pp C) -> universe C U -> gossip C U n S K -> n + 1 < 2 ^ 64 -> untied K ->
  forall i, exists ops, reached C U ops (S i) /\ len ops <= n
    /\ (forall e, offered C ops e -> K i e)
    /\ (forall x, K i x -> offered C ops x \/ exists y, offered C ops y /\ supersedes y x).
Proof.
  intros PP HU G. induction G as [|n S K i o st G IH Ho R|n S K i j xs st G IH HX R]; intros L T k.
  - exists []. split; [split; [split; [auto|split; [auto|split; [constructor|vm_compute; reflexivity]]]|reflexivity]|].
    split; [cbn; lia|]. split; [intros e (_ & o & [] & _)|intros x []].
  - assert (T' : untied K).
    { eapply untied_sub; [|exact T]. intros a e He. unfold at_peer. destruct (Nat.eqb_spec a i) as [->|]; auto. }
    specialize (IH ltac:(lia) T'). unfold at_peer. destruct (Nat.eqb_spec k i) as [->|NE].
    2:{ destruct (IH k) as (ops & A & B & D). exists ops. split; auto. split; [lia|auto]. }
    destruct (IH i) as (ops & [(_ & _ & F & _) E] & B & D1 & D2). exists (ops ++ [o]).
    assert (LL : len (ops ++ [o]) <= n + 1) by (rewrite P_Encoding.len_app; change (len [o]) with 1; lia).
    split; [split; [split; [auto|split; [auto|split]]|]|].
    + apply Forall_app. split; [exact F|]. constructor; [exact Ho|constructor].
    + lia.
    + rewrite run_app, E. exact R.
    + split; auto. split.
      * intros e He. apply offered_app in He as [He|He]; auto.
      * intros x [Hx|Hx]; [|left; apply offered_app; auto].
        destruct (D2 x Hx) as [A|(y & Hy & S')]; [left; apply offered_app; auto|right]. exists y. rewrite offered_app. auto.
  - assert (T' : untied K).
    { eapply untied_sub; [|exact T]. intros a e He. unfold at_peer. destruct (Nat.eqb_spec a j) as [->|]; auto. }
    specialize (IH ltac:(lia) T'). unfold at_peer in *. destruct (Nat.eqb_spec k j) as [->|NE].
    2:{ destruct (IH k) as (ops & A & B & D). exists ops. split; auto. split; [lia|auto]. }
    destruct (IH i) as (opsi & RI & BI & DI1 & DI2). destruct (IH j) as (ops & [(_ & _ & F & _) E] & B & D1 & D2).
    assert (MX : forall e, live C (S i) e <-> offered C opsi e /\ ~ exists y, offered C opsi y /\ supersedes y e).
    { apply (C31_live_is_maximal_partial C U opsi (S i) RI). intros x y Hx Hy. apply (T' i i); auto. }
    assert (LO : forall e, In e xs -> offered C opsi e) by (intros e He; apply HX, MX in He; tauto).
    exists (ops ++ given xs).
    assert (LL : len (ops ++ given xs) <= n + len xs).
    { rewrite P_Encoding.len_app. unfold given, len. rewrite map_length. unfold len in B. lia. }
    split; [split; [split; [auto|split; [auto|split]]|]|].
    + apply Forall_app. split; auto. apply Forall_forall. intros o Ho. apply in_map_iff in Ho as (e & <- & He).
      cbn [op_ok]. destruct RI as [(_ & _ & FI & _) _]. eapply offered_entry_ok; [exact FI|apply LO, He].
    + lia.
    + rewrite run_app, E. exact R.
    + split; auto. split.
      * intros e He. apply offered_app in He as [He|He]; auto. apply offered_given in He as [He _]. right. apply DI1. auto.
      * assert (TOP : forall x, offered C opsi x -> offered C (given xs) x \/ exists y, offered C (given xs) y /\ supersedes y x).
        { destruct (offered_list C opsi) as (l & Hl). intros x Hx. apply Hl in Hx.
          destruct (maximal_above l x Hx) as (m & Hm & M & Q). apply Hl in Hm.
          assert (LM : live C (S i) m). { apply MX. split; auto. intros (y & Hy & S'). apply Q. exists y. rewrite <- Hl. auto. }
          assert (GM : offered C (given xs) m). { apply offered_given. split; [apply HX; auto|apply LM]. }
          destruct M as [->|M]; [left; auto|right; eauto]. }
        intros x [Hx|Hx].
        -- destruct (D2 x Hx) as [A|(y & Hy & S')]; [left; apply offered_app; auto|right]. exists y. rewrite offered_app. auto.
        -- destruct (DI2 x Hx) as [A|(y & Hy & S')].
           ++ destruct (TOP x A) as [Q|(y & Hy & S')]; [left; apply offered_app; auto|right]. exists y. rewrite offered_app. auto.
           ++ right. destruct (TOP y Hy) as [Q|(z & Hz & S'')]; [exists y; rewrite offered_app; auto|].
              exists z. rewrite offered_app. split; auto. eapply supersedes_trans; eauto.
Qed.

(** * C69 *)

(** Every store holds exactly the entries known to it that no entry known to it
    supersedes: sending what one holds is as good as sending all one has ever
    seen. *)
Theorem C69_holds_partial C U n S K : store_params (c_pp C) -> universe C U ->
  gossip C U n S K -> n + 1 < 2 ^ 64 -> untied K ->
  forall i e, live C (S i) e <-> K i e /\ ~ exists y, K i y /\ supersedes y e.
Proof.
  intros PP HU G L T i e. destruct (gossip_inv C U n S K PP HU G L T i) as (ops & R & _ & D1 & D2).
  rewrite (C31_live_is_maximal_partial C U ops (S i) R) by (intros x y Hx Hy; apply (T i i); auto).
  split; intros [A B]; split; auto.
  - intros (y & Hy & S1). apply B. destruct (D2 y Hy) as [Q|(z & Hz & S2)]; [eauto|].
    exists z. split; auto. eapply supersedes_trans; eauto.
  - destruct (D2 e A) as [Q|(y & Hy & S1)]; auto. exfalso. apply B. eauto.
  - intros (y & Hy & S1). apply B. eauto.
Qed.

(** Stores to which the same entries are known hold the same entries; in
    particular two stores that have sent each other all they hold. *)
Theorem C69_converge_partial C U n S K i j : store_params (c_pp C) -> universe C U ->
  gossip C U n S K -> n + 1 < 2 ^ 64 -> untied K -> (forall e, K i e <-> K j e) ->
  forall e, live C (S i) e <-> live C (S j) e.
Proof.
  intros PP HU G L T Q e. rewrite !(C69_holds_partial C U n S K PP HU G L T).
  rewrite (Q e). split; intros [A B]; split; auto; intros (y & Hy & S1); apply B; exists y; apply Q in Hy; auto.
Qed.

(** Anyone can always send to anyone: what a store holds is a finite list, and
    no order of ingesting it ends the receiving process. *)
Theorem C69_can_send_partial C U n S K i j : store_params (c_pp C) -> universe C U ->
  gossip C U n S K -> n + 1 < 2 ^ 64 -> untied K ->
  (exists xs, forall e, In e xs <-> live C (S i) e)
  /\ forall xs, (forall e, In e xs <-> live C (S i) e) -> n + len xs + 1 < 2 ^ 64 ->
       exists st, run C (given xs) (S j) = Some st.
Proof.
  intros PP HU G L T. destruct (gossip_inv C U n S K PP HU G L T i) as (opsi & RI & _).
  destruct (gossip_inv C U n S K PP HU G L T j) as (ops & [(_ & _ & F & _) E] & LL & _). split.
  - destruct (reached_runs C U PP HU _ _ RI) as (m & xs & R). destruct (runs_Inv _ _ _ _ _ _ R) as (I & _).
    exists xs. intros e. rewrite (Rep_live C U PP HU xs (S i) e (inv_rep _ _ _ _ _ I)). reflexivity.
  - intros xs HX LX.
    destruct (C61_no_crash_partial C U (ops ++ given xs)) as (st & RX).
    { split; auto. split; auto. split.
      - apply Forall_app. split; auto. apply Forall_forall. intros o Ho. apply in_map_iff in Ho as (e & <- & He).
        cbn [op_ok]. destruct RI as [(_ & _ & FI & _) _].
        destruct (gossip_inv C U n S K PP HU G L T i) as (ops2 & R2 & _ & D1 & _).
        apply HX in He. apply (C31_live_is_maximal_partial C U ops2 (S i) R2) in He;
          [|intros x y Hx Hy; apply (T i i); auto].
        destruct R2 as [(_ & _ & F2 & _) _]. eapply offered_entry_ok; [exact F2|apply He].
      - rewrite P_Encoding.len_app. unfold given, len. rewrite map_length. unfold len in LL, LX. lia. }
    rewrite run_app, E in RX. eauto.
Qed.

(** A store to which what another holds is already known is not changed by being
    sent it (again). *)
Theorem C69_again_partial C U n S K i j xs st : store_params (c_pp C) -> universe C U ->
  gossip C U n S K -> n + len xs + 1 < 2 ^ 64 -> untied K ->
  (forall e, In e xs <-> live C (S i) e) -> run C (given xs) (S j) = Some st ->
  (forall e, K i e -> K j e) ->
  forall e, live C st e <-> live C (S j) e.
Proof.
  intros PP HU G L T HX R Q e.
  pose proof (gossip_send C U n S K i j xs st G HX R) as G'.
  assert (KK : forall a x, at_peer K j (fun e => K j e \/ K i e) a x <-> K a x).
  { intros a x. unfold at_peer. destruct (Nat.eqb_spec a j) as [->|]; [|reflexivity]. split; [intros [A|A]; auto|auto]. }
  assert (T' : untied (at_peer K j (fun e => K j e \/ K i e))).
  { intros a b x y Hx Hy. apply (T a b); apply KK; auto. }
  pose proof (C69_holds_partial C U _ _ _ PP HU G' L T' j e) as H1.
  pose proof (C69_holds_partial C U _ _ _ PP HU G ltac:(lia) T j e) as H2.
  unfold at_peer at 1 in H1. rewrite Nat.eqb_refl in H1. rewrite H1, H2, KK.
  split; intros [A B]; split; auto; intros (y & Hy & S1); apply B; exists y; apply KK in Hy || rewrite KK; auto.
Qed.

Print Assumptions C69_holds_partial.
Print Assumptions C69_converge_partial.
Print Assumptions C69_can_send_partial.
Print Assumptions C69_again_partial.

(** * Concrete networks *)
Definition held (C : cfg) (st : state) : list entry :=
  flat_map (fun kvp => match DecodeKey (fst kvp) (c_pp C), DecodeValues (snd kvp) with
    | Ok q, Ok w => [Entry (c_ns C) (pos_subspace q) (v_digest w) (pos_path q) (pos_time q) (v_length w)]
    | _, _ => []
    end) (kv st).
Lemma held_live C st e : In e (held C st) <-> live C st e.
Proof.
  unfold held, live. rewrite in_flat_map. split.
  - intros ([k v] & Hin & H). cbn [fst snd] in H.
    destruct (DecodeKey k (c_pp C)) as [q| | | |] eqn:E1; try (destruct H; fail).
    destruct (DecodeValues v) as [w| | | |] eqn:E2; try (destruct H; fail). destruct H as [<-|[]].
    split; [reflexivity|]. exists k, v, w. destruct q. cbn in *. auto 6.
  - intros (Hn & k & v & w & Hin & E1 & E2 & E3 & E4). exists (k, v). split; auto. cbn [fst snd].
    rewrite E1, E2. left. cbn [pos_subspace pos_path pos_time]. rewrite E3, E4, <- Hn. destruct e; reflexivity.
Qed.

(** Peer 0 is offered [x] and [y], peer 1 is offered [z]; then 0 sends to 1 and 1
    sends back. *)
Definition ingest (e : entry) : op := OpIngest e (e_subspace e).
Definition s0 (x y : entry) : state := after_ops [ingest x; ingest y].
Definition s1 (x y z : entry) : state := after_ops (ingest z :: given (held demo (s0 x y))).
Definition s2 (x y z : entry) : state := after_ops ([ingest x; ingest y] ++ given (held demo (s1 x y z))).
Lemma offered_ingest x e : e_namespace x = c_ns demo -> offered demo [ingest x] e <-> e = x.
Proof.
  intros Hn. split; [|intros ->; split; auto; exists (ingest x); split; [left; reflexivity|reflexivity]].
  intros (_ & o & [<-|[]] & E). cbn in E. injection E as -> _. reflexivity.
Qed.
Lemma exchange x y z : Forall (fun e => e_namespace e = c_ns demo /\ demo_entry_okb e = true) [x; y; z] ->
  (exists a, run demo [ingest x] empty_store = Some a /\ run demo [ingest y] a = Some (s0 x y)) ->
  (exists b, run demo [ingest z] empty_store = Some b /\ run demo (given (held demo (s0 x y))) b = Some (s1 x y z)) ->
  run demo (given (held demo (s1 x y z))) (s0 x y) = Some (s2 x y z) ->
  exists n S K, gossip demo small n S K /\ n = 3 + len (held demo (s0 x y)) + len (held demo (s1 x y z))
    /\ S 0%nat = s2 x y z /\ S 1%nat = s1 x y z
    /\ forall i e, K i e <-> (i < 2)%nat /\ (e = x \/ e = y \/ e = z).
Proof.
  intros F (a & A1 & A2) (b & B1 & B2) E.
  inversion F as [|? ? [Nx Ox] F1]; subst. inversion F1 as [|? ? [Ny Oy] F2]; subst. inversion F2 as [|? ? [Nz Oz] _]; subst.
  assert (OK : forall e, demo_entry_okb e = true -> op_ok demo small (ingest e)) by (intros e H; apply (demo_entry_okb_spec e H)).
  pose proof (gossip_own demo small _ _ _ 0%nat (ingest x) a (gossip_new demo small) (OK x Ox) A1) as G1.
  pose proof (gossip_own demo small _ _ _ 0%nat (ingest y) (s0 x y) G1 (OK y Oy) A2) as G2.
  pose proof (gossip_own demo small _ _ _ 1%nat (ingest z) b G2 (OK z Oz) B1) as G3.
  pose proof (gossip_send demo small _ _ _ 0%nat 1%nat (held demo (s0 x y)) (s1 x y z) G3 (held_live demo (s0 x y)) B2) as G4.
  pose proof (gossip_send demo small _ _ _ 1%nat 0%nat (held demo (s1 x y z)) (s2 x y z) G4 (held_live demo (s1 x y z)) E) as G5.
  eexists _, _, _. split; [exact G5|]. split; [lia|]. split; [reflexivity|]. split; [reflexivity|].
  intros i e. clear -Nx Ny Nz. destruct i as [|[|i]]; cbn [at_peer Nat.eqb]; unfold at_peer; cbn [Nat.eqb];
    rewrite ?(offered_ingest x), ?(offered_ingest y), ?(offered_ingest z) by auto; intuition (try lia).
Qed.

Lemma C69_untied x y z (K : nat -> entry -> Prop) :
  (forall i e, K i e <-> (i < 2)%nat /\ (e = x \/ e = y \/ e = z)) -> NoDup [e_time x; e_time y; e_time z] -> untied K.
Proof.
  intros HK ND i j a b Ha Hb _ T. apply HK in Ha as [_ Ha]. apply HK in Hb as [_ Hb].
  inversion ND as [|? ? N1 ND1]; subst. inversion ND1 as [|? ? N2 _]; subst. cbn in N1, N2.
  destruct Ha as [->|[->| ->]], Hb as [->|[->| ->]]; auto; exfalso; rewrite ?T in *; tauto.
Qed.

(** A directory entry at one peer, an older and a newer file below it. *)
Example C69_instance :
  store_params (c_pp demo) /\ universe demo small /\
  exists n S K, gossip demo small n S K /\ n + 1 < 2 ^ 64 /\ untied K /\ (forall e, K 0%nat e <-> K 1%nat e)
    /\ live demo (S 0%nat) C31_b /\ live demo (S 0%nat) C31_c /\ ~ live demo (S 0%nat) C31_a.
Proof.
  split; [apply shipped_store_params|]. split; [apply demo_universe|].
  destruct (exchange C31_a C31_b C31_c) as (n & S & K & G & -> & S0 & S1 & HK).
  - repeat constructor; vm_compute; reflexivity.
  - eexists. split; vm_compute; reflexivity.
  - eexists. split; vm_compute; reflexivity.
  - vm_compute. reflexivity.
  - exists (3 + len (held demo (s0 C31_a C31_b)) + len (held demo (s1 C31_a C31_b C31_c))), S, K.
    split; [exact G|]. split; [vm_compute; reflexivity|]. split; [eapply C69_untied; [exact HK|]|].
    { vm_compute. repeat constructor; cbn; intuition discriminate. }
    split; [intros e; rewrite !HK; intuition lia|]. rewrite S0, <- !liveb_spec. vm_compute. repeat split; auto; discriminate.
Qed.

(** Missing: equal timestamps. Two stores that have sent each other everything
    they hold may differ for ever. *)
Theorem C69_ties_refuted : exists n S K, gossip demo small n S K /\ n + 1 < 2 ^ 64
  /\ (forall e, K 0%nat e <-> K 1%nat e) /\ exists e, live demo (S 0%nat) e /\ ~ live demo (S 1%nat) e.
Proof.
  set (x := demo_e [[97]] [1] 5). set (y := demo_e [[98]] [1] 5). set (z := demo_e [[97]] [2] 5).
  destruct (exchange x y z) as (n & S & K & G & -> & S0 & S1 & HK).
  - repeat constructor; vm_compute; reflexivity.
  - eexists. split; vm_compute; reflexivity.
  - eexists. split; vm_compute; reflexivity.
  - vm_compute. reflexivity.
  - eexists _, S, K. split; [exact G|]. split; [vm_compute; reflexivity|].
    split; [intros e; rewrite !HK; intuition lia|]. exists x. rewrite S0, S1, <- !liveb_spec. vm_compute. split; [reflexivity|discriminate].
Qed.
Print Assumptions C69_ties_refuted.
