(** C72: synchronisation sessions. *)
From Verif Require Import Base M_Order M_Encoding M_Paths M_Ranges M_Keys M_Entry M_Map M_Store M_Transport M_Query M_Sync M_Messenger
  S_Order S_Store P_Order P_Encoding P_Map P_Store P_History P_Demo Prop_Store Prop_Sync.
Local Open Scope N_scope.

(** The operations the application of one messenger performs in a run. *)
Definition locals (p : bool) (tr : list (bool * event)) : list op :=
  flat_map (fun x => match x with (q, ELocal o) => if Bool.eqb p q then [o] else [] | _ => [] end) tr.

Lemma acceptor_idle C ge gr m st :
  HandleMsgReconciliationAcceptor C ge gr (snd (DecodeSummary m)) (fst (fst (DecodeSummary m))) st = (Ok [], st).
Proof.
  cbn [DecodeSummary fst snd]. set (z := Range3d _ _ _).
  assert (Q : query (tree st) z = []).
  { destruct (query (tree st) z) as [|n l] eqn:E; auto. exfalso.
    assert (H : In n (query (tree st) z)) by (rewrite E; left; auto). apply query_In in H as (_ & (_ & [H|H]) & _); [discriminate H|].
    cbn [subspace_range z r_end] in H. inversion H. }
  unfold HandleMsgReconciliationAcceptor, bindM, gets, lift, Respond, Respond_with, Summarise. rewrite Q. reflexivity.
Qed.

Lemma small_header b : length b = 8%nat -> Forall (fun x => x <= 2) b -> be_decode b < 2 ^ 63.
Proof.
  intros L F. do 8 (destruct b as [|? b]; [discriminate L|]). destruct b; [|discriminate L].
  repeat match goal with H : Forall _ (_ :: _) |- _ => inversion H; subst; clear H end.
  unfold be_decode. cbn [fold_left]. change (2 ^ 63) with 9223372036854775808. lia.
Qed.

Lemma Forall_firstn {A} (P : A -> Prop) n l : Forall P l -> Forall P (firstn n l).
Proof. revert l; induction n as [|n IH]; intros [|x l] H; cbn [firstn]; auto. inversion H; subst. auto. Qed.
Lemma Forall_skipn {A} (P : A -> Prop) n l : Forall P l -> Forall P (skipn n l).
Proof. revert l; induction n as [|n IH]; intros [|x l] H; cbn [skipn]; auto. inversion H; subst. auto. Qed.

Section C72.
Variable C : bool -> cfg.
Variable gob_entry : entry -> bytes -> bytes.
Variable gob_range : range3d -> bytes.
Variable gob_type : bytes.
Variable ungob_entry : bytes -> entry * bytes.
Variable ungob_range : bytes -> range3d.
Notation react p := (react (C p) gob_entry gob_range gob_type ungob_entry ungob_range).
Notation nstep := (nstep C gob_entry gob_range gob_type ungob_entry ungob_range).
Notation nsteps := (nsteps C gob_entry gob_range gob_type ungob_entry ungob_range).

(** What a messenger has in a session with another one. *)
Record quiet (g : messenger) : Prop := {
  q_accepted : t_accepted (mg_transport g) = repeat None 8 \/ t_accepted (mg_transport g) = repeat (Some []) 8;
  q_initiated : t_initiated (mg_transport g) = repeat None 8
    \/ t_initiated (mg_transport g) = map (fun i => Some (init_bytes (N.of_nat i))) (seq 0 8);
  q_in : mg_in g true DataChannel = [];
  q_rx : forall d, mg_rx g true d = Header [];
  q_queue : forall d, mg_queue g true d = [];
  q_small : Forall (fun x => x <= 2) (mg_in g false DataChannel);
  q_header : forall d got, mg_rx g false d = Header got -> Forall (fun x => x <= 2) got }.

Lemma quiet_new st : quiet (NewMessenger st).
Proof. split; cbn; auto. intros d got H. injection H as <-. auto. Qed.

Lemma quiet_written g : quiet g -> (forall c, written g true c = [] \/ written g true c = init_bytes c) /\ forall c, written g false c = [].
Proof.
  intros Q. unfold written. split; intros c.
  - destruct (q_initiated g Q) as [->| ->]; [left; destruct (N.to_nat c) as [|[|[|[|[|[|[|[|[|?]]]]]]]]]; reflexivity|].
    destruct (N.to_nat c) as [|[|[|[|[|[|[|[|k]]]]]]]] eqn:E; cbn [seq map nth_error];
      try (right; f_equal; lia). left. destruct k; reflexivity.
  - destruct (q_accepted g Q) as [->| ->]; destruct (N.to_nat c) as [|[|[|[|[|[|[|[|[|?]]]]]]]]]; reflexivity.
Qed.

Lemma upd_same {A} (f : bool -> bool -> A) r d v : upd f r d v r d = v.
Proof. unfold upd. rewrite !Bool.eqb_reflx. reflexivity. Qed.
Lemma upd_in_same f r c v : upd_in f r c v r c = v.
Proof. unfold upd_in. rewrite Bool.eqb_reflx, N.eqb_refl. reflexivity. Qed.
Lemma upd_in_other f r r' c v c' : r <> r' \/ c <> c' -> upd_in f r c v r' c' = f r' c'.
Proof. intros H. unfold upd_in. destruct (Bool.eqb_spec r r'); [|reflexivity]. destruct (N.eqb_spec c c'); [|reflexivity]. destruct H; congruence. Qed.

Ltac fin := first
  [ assumption
  | reflexivity
  | rewrite upd_in_same; auto; fail
  | intros d'; unfold upd; destruct (_ && _); auto; fail
  | intros d' got2; unfold upd; destruct (_ && _); [first [discriminate | let X := fresh in intros X; injection X as <-; auto; fail]|eauto; fail] ].

(** Reading keeps this, does not end the process and leaves store and transport as they are. *)
Lemma quiet_read r d k g : quiet g -> exists g', read r d k g = Some g' /\ quiet g' /\ mg_store g' = mg_store g.
Proof.
  intros Q. unfold read. destruct r.
  - rewrite (q_rx g Q d), (q_in g Q). rewrite firstn_nil, skipn_nil. cbn [app length Nat.eqb]. eexists. split; [reflexivity|]. split; [|reflexivity].
    destruct Q. split; cbn [mg_in mg_rx mg_queue mg_transport]; fin.
  - assert (S1 : forall n, Forall (fun x => x <= 2) (firstn n (mg_in g false DataChannel))) by (intros; apply Forall_firstn, (q_small g Q)).
    assert (S2 : forall n, Forall (fun x => x <= 2) (skipn n (mg_in g false DataChannel))) by (intros; apply Forall_skipn, (q_small g Q)).
    destruct (mg_rx g false d) as [got|want got] eqn:E.
    + pose proof (q_header g Q d got E) as H. set (n := Nat.min k (8 - length got)). set (got' := got ++ firstn n _).
      assert (H' : Forall (fun x => x <= 2) got') by (apply Forall_app; auto).
      destruct (Nat.eqb_spec (length got') 8) as [L|L].
      * destruct (N.leb_spec (2 ^ 63) (be_decode got')) as [B|B]; [pose proof (small_header got' L H'); lia|].
        eexists. split; [reflexivity|]. split; [|reflexivity]. destruct Q. split; cbn [mg_in mg_rx mg_queue mg_transport]; fin.
      * eexists. split; [reflexivity|]. split; [|reflexivity]. destruct Q. split; cbn [mg_in mg_rx mg_queue mg_transport]; fin.
    + destruct (len _ =? want); (eexists; split; [reflexivity|]; split; [|reflexivity]; destruct Q; split; cbn [mg_in mg_rx mg_queue mg_transport]; fin).
Qed.

Lemma quiet_handle p r d now g : quiet g -> exists g', react p (EHandle r d now) g = Some g' /\ quiet g' /\ mg_store g' = mg_store g.
Proof.
  intros Q. cbn [M_Messenger.react]. destruct (mg_queue g r d) as [|m q] eqn:E; [exists g; auto|].
  destruct r; [rewrite (q_queue g Q d) in E; discriminate E|].
  set (g1 := Messenger _ _ _ _ _).
  assert (Q1 : quiet g1).
  { destruct Q. split; cbn [mg_in mg_rx mg_queue mg_transport g1]; auto. }
  destruct d; cbn [handle]; [exists g1; auto|].
  pose proof (acceptor_idle (C p) gob_entry gob_range m (mg_store g1)) as H.
  cbn [DecodeSummary fst snd] in H. unfold DecodeSummary. cbn [fst]. rewrite H. cbn [send_all].
  eexists. split; [reflexivity|]. split; [|reflexivity]. exact Q1.
Qed.

Lemma quiet_react p ev g g' : quiet g ->
  match ev with
  | EArrive true c b => c = DataChannel -> b = []
  | EArrive false c b => c = DataChannel -> Forall (fun x => x <= 2) b
  | _ => True
  end ->
  react p ev g = Some g' -> quiet g'.
Proof.
  intros Q H E. destruct ev as [| |r c b|r d k|r d now|o|]; try (cbn [M_Messenger.react] in E; injection E as E; subst g').
  - destruct Q. split; cbn; auto.
  - destruct Q. split; cbn; auto.
  - destruct (N.eqb_spec c DataChannel) as [->|N].
    + destruct Q. destruct r; split; cbn [mg_in mg_rx mg_queue mg_transport];
        first [assumption | rewrite upd_in_same, q_in0, (H eq_refl); reflexivity | rewrite upd_in_same; apply Forall_app; auto].
    + destruct Q. split; cbn [mg_in mg_rx mg_queue mg_transport]; try assumption; rewrite upd_in_other by (right; congruence); auto.
  - cbn [M_Messenger.react] in E. destruct (quiet_read r d k g Q) as (g2 & E2 & Q2 & _). congruence.
  - destruct (quiet_handle p r d now g Q) as (g2 & E2 & Q2 & _). congruence.
  - cbn [M_Messenger.react] in E. destruct (step (C p) o (mg_store g)) as [[x| | | |] st]; try discriminate E; injection E as <-; destruct Q; split; auto.
  - cbn [M_Messenger.react] in E. unfold Close in E. destruct (forallb _ _); try discriminate E. injection E as <-. destruct Q. split; auto.
Qed.

Lemma react_store p ev g g' : quiet g -> react p ev g = Some g' ->
  match ev with
  | ELocal o => run (C p) [o] (mg_store g) = Some (mg_store g')
  | _ => mg_store g' = mg_store g
  end.
Proof.
  intros Q E. destruct ev as [| |r c b|r d k|r d now|o|]; try (cbn [M_Messenger.react] in E; injection E as E; subst g').
  - reflexivity.
  - reflexivity.
  - reflexivity.
  - cbn [M_Messenger.react] in E. destruct (quiet_read r d k g Q) as (g2 & E2 & _ & S). congruence.
  - destruct (quiet_handle p r d now g Q) as (g2 & E2 & _ & S). congruence.
  - cbn [M_Messenger.react] in E. cbn [run]. destruct (step (C p) o (mg_store g)) as [[x| | | |] st]; try discriminate E; injection E as <-; reflexivity.
  - cbn [M_Messenger.react] in E. unfold Close in E. destruct (forallb _ _); try discriminate E. injection E as <-. reflexivity.
Qed.

Lemma nsteps_quiet stA stB tr n : nsteps (new_net stA stB) tr n -> forall p,
  quiet (nt_peer n p) /\ run (C p) (locals p tr) (if p then stA else stB) = Some (mg_store (nt_peer n p)).
Proof.
  remember (new_net stA stB) as n0 eqn:E0. induction 1 as [n|n1 tr n2 p ev n3 R IH S]; intros p0.
  - subst n. cbn. split; [apply quiet_new|]. reflexivity.
  - specialize (IH E0).
    assert (H : forall g, react p ev (nt_peer n2 p) = Some g -> 
       match ev with
       | EArrive true c b => c = DataChannel -> b = []
       | EArrive false c b => c = DataChannel -> Forall (fun x => x <= 2) b
       | _ => True
       end -> quiet (upd_peer (nt_peer n2) p g p0)
       /\ run (C p0) (locals p0 (tr ++ [(p, ev)])) (if p0 then stA else stB) = Some (mg_store (upd_peer (nt_peer n2) p g p0))).
    { intros g E HA. destruct (IH p0) as [Q0 R0]. unfold locals. rewrite flat_map_app, run_app. fold (locals p0 tr). rewrite R0.
      cbn [flat_map]. rewrite app_nil_r. unfold upd_peer. destruct (Bool.eqb_spec p p0) as [<-|N].
      - split; [eapply quiet_react; eauto|]. pose proof (react_store p ev _ _ Q0 E) as HS.
        destruct ev; try (cbn [run]; congruence). rewrite Bool.eqb_reflx. exact HS.
      - split; auto. destruct ev; auto. destruct (Bool.eqb_spec p0 p); [congruence|reflexivity]. }
    destruct S as [n p g _ E|n p g _ _ E|n p r c k g _ b E|n p ev g Hev E]; cbn [nt_peer]; apply H; auto.
    + destruct (quiet_written _ (proj1 (IH (negb p)))) as [W1 W2]. destruct r; intros ->; unfold b; cbn [negb].
      * rewrite W2, skipn_nil, firstn_nil. reflexivity.
      * apply Forall_firstn, Forall_skipn. destruct (W1 DataChannel) as [->| ->]; [constructor|]. vm_compute. repeat constructor; discriminate.
    + destruct ev; auto; contradiction Hev.
Qed.

(** Two messengers in a session, from any stores, whatever is initiated, arrives in whatever
    pieces, is read by whichever goroutine, handled and done by the applications in any order:
    each store is what its own application has made it. Nothing is ever exchanged. *)
Theorem C72_isolated stA stB tr n p : nsteps (new_net stA stB) tr n ->
  run (C p) (locals p tr) (if p then stA else stB) = Some (mg_store (nt_peer n p)).
Proof. intros R. apply (nsteps_quiet _ _ _ _ R p). Qed.

(** All that is ever written to a stream is the number of the stream when it is opened, with its length before it. *)
Theorem C72_silent stA stB tr n p c : nsteps (new_net stA stB) tr n ->
  (written (nt_peer n p) true c = [] \/ written (nt_peer n p) true c = [0; 0; 0; 0; 0; 0; 0; 1; c]) /\ written (nt_peer n p) false c = [].
Proof. intros R. destruct (quiet_written _ (proj1 (nsteps_quiet _ _ _ _ R p))) as [A B]. split; [exact (A c)|exact (B c)]. Qed.

(** And nothing a messenger receives from another one ends its process. *)
Theorem C72_no_crash stA stB tr n p ev : nsteps (new_net stA stB) tr n ->
  match ev with ERead _ _ _ | EHandle _ _ _ => True | _ => False end -> exists n', nstep n p ev n'.
Proof.
  intros R H. pose proof (proj1 (nsteps_quiet _ _ _ _ R p)) as Q. destruct ev as [| |r c b|r d k|r d now|o|]; try contradiction H.
  - destruct (quiet_read r d k _ Q) as (g & E & _). eexists. apply NOwn with (g := g); auto.
  - destruct (quiet_handle p r d now _ Q) as (g & E & _). eexists. apply NOwn with (g := g); auto.
Qed.
End C72.

(** ** Any peer *)
Section Peer.
Variable C : cfg.
Variable gob_entry : entry -> bytes -> bytes.
Variable gob_range : range3d -> bytes.
Variable gob_type : bytes.
Variable ungob_entry : bytes -> entry * bytes.
Variable ungob_range : bytes -> range3d.
Notation react := (react C gob_entry gob_range gob_type ungob_entry ungob_range).
Notation reacts := (reacts C gob_entry gob_range gob_type ungob_entry ungob_range).

(** The calls of the store that an event may bring about: those of the application, and Set
    with what a message says, when the data listener of a connection this side initiated has one. *)
Inductive effect : event -> list op -> Prop :=
| ef_local o : effect (ELocal o) [o]
| ef_remote now m e b : ungob_entry m = (e, b) ->
    effect (EHandle true true now) [OpSet (Input (e_subspace e) (e_path e) b (e_time e)) (e_subspace e) now]
| ef_none ev : (forall o, ev <> ELocal o) -> effect ev [].

Lemma read_store r d k g g' : read r d k g = Some g' -> mg_store g' = mg_store g /\ mg_transport g' = mg_transport g.
Proof.
  unfold read. destruct (mg_rx g r d) as [got|want got].
  - destruct (_ =? 8)%nat; [destruct (2 ^ 63 <=? _); [discriminate|]|]; intros E; injection E as <-; auto.
  - destruct (_ =? want); intros E; injection E as <-; auto.
Qed.

Lemma react_effect ev g g' : react ev g = Some g' -> exists ops, effect ev ops /\ run C ops (mg_store g) = Some (mg_store g').
Proof.
  intros E. destruct ev as [| |r c b|r d k|r d now|o|]; cbn [M_Messenger.react] in E.
  - injection E as <-. exists []. split; [constructor; discriminate|reflexivity].
  - injection E as <-. exists []. split; [constructor; discriminate|reflexivity].
  - injection E as <-. exists []. split; [constructor; discriminate|reflexivity].
  - apply read_store in E as [E _]. rewrite E. exists []. split; [constructor; discriminate|reflexivity].
  - destruct (mg_queue g r d) as [|m q]; [injection E as <-; exists []; split; [constructor; discriminate|reflexivity]|].
    unfold handle in E. destruct r, d.
    + destruct (ungob_entry m) as [e b] eqn:M. unfold HandleDataInitiator in E. cbn [mg_store] in E. exists [remote_op e b now].
      split; [eapply ef_remote; eauto|]. cbn [run].
      destruct (step C (remote_op e b now) (mg_store g)) as [[x| | | |] st]; try discriminate E; injection E as <-; reflexivity.
    + exists []. split; [constructor; discriminate|]. cbn [mg_store mg_transport] in E.
      destruct (HandleMsgReconciliationInitiator _ _ _ _) as [q'| | | |]; try discriminate E; injection E as <-; reflexivity.
    + exists []. split; [constructor; discriminate|]. injection E as <-. reflexivity.
    + exists []. split; [constructor; discriminate|]. cbn [mg_store mg_transport] in E.
      pose proof (acceptor_idle C gob_entry gob_range m (mg_store g)) as H. unfold DecodeSummary in H, E. cbn [fst snd] in H, E. rewrite H in E.
      cbn [send_all] in E. injection E as <-. reflexivity.
  - exists [o]. split; [constructor|]. cbn [run]. destruct (step C o (mg_store g)) as [[x| | | |] st]; try discriminate E; injection E as <-; reflexivity.
  - unfold Close in E. destruct (forallb _ _); try discriminate E. injection E as <-. exists []. split; [constructor; discriminate|reflexivity].
Qed.

(** Whatever a peer sends, and however it arrives: the store is what the calls of the application
    and the Sets of decoded messages, in the order in which they happen, make of it. *)
Theorem C72_history evs s0 g : reacts evs (NewMessenger s0) = Some g ->
  exists opss, Forall2 effect evs opss /\ run C (concat opss) s0 = Some (mg_store g).
Proof.
  change s0 with (mg_store (NewMessenger s0)) at 2. generalize (NewMessenger s0) as g0. induction evs as [|ev evs IH]; intros g0 E; cbn [M_Messenger.reacts] in E.
  - injection E as <-. exists []. split; [constructor|reflexivity].
  - destruct (react ev g0) as [g1|] eqn:E1; [|discriminate E]. destruct (IH g1 E) as (opss & F & R).
    destruct (react_effect ev g0 g1 E1) as (ops & F1 & R1). exists (ops :: opss). split; [constructor; auto|].
    cbn [concat]. rewrite run_app, R1. exact R.
Qed.

(** A messenger on whose own (initiated) data stream nothing arrives: nothing a peer sends changes
    its store; in particular nothing sent to a messenger that has only accepted a connection. *)
Definition own_calls (evs : list event) : list op := flat_map (fun ev => match ev with ELocal o => [o] | _ => [] end) evs.

Lemma upd_inv {A} (P : A -> Prop) (f : bool -> bool -> A) r d v r' d' : P (f r' d') -> (r = r' -> P v) -> P (upd f r d v r' d').
Proof. intros H1 H2. unfold upd. destruct (Bool.eqb_spec r r'); cbn [andb]; auto. destruct (Bool.eqb d d'); auto. Qed.

Definition deaf (g : messenger) : Prop :=
  mg_in g true DataChannel = [] /\ (forall d, mg_rx g true d = Header []) /\ forall d, mg_queue g true d = [].

Lemma deaf_read r d k g g' : deaf g -> read r d k g = Some g' -> deaf g'.
Proof.
  intros (A & B & D) E. unfold read in E. destruct r.
  - rewrite B, A, firstn_nil, skipn_nil in E. cbn [app length Nat.eqb] in E. injection E as <-.
    split; [reflexivity|]. split; cbn [mg_rx mg_queue]; auto. intros d'. apply (upd_inv (fun x => x = Header [])); auto.
  - destruct (mg_rx g false d) as [got|want got].
    + destruct (_ =? 8)%nat; [destruct (2 ^ 63 <=? _); [discriminate E|]|]; injection E as <-; split; auto.
    + destruct (_ =? want); injection E as <-; split; auto.
Qed.

Lemma deaf_react ev g g' : deaf g -> (forall b, ev = EArrive true DataChannel b -> b = []) -> react ev g = Some g' ->
  deaf g' /\ run C (own_calls [ev]) (mg_store g) = Some (mg_store g').
Proof.
  intros (A & B & D) H E. pose proof (react_effect ev g g' E) as (ops & F & R).
  assert (Q : deaf g').
  { destruct ev as [| |r c b|r d k|r d now|o|]; cbn [M_Messenger.react] in E.
    - injection E as <-. split; auto.
    - injection E as <-. split; auto.
    - injection E as <-. split; auto. cbn [mg_in]. unfold upd_in. destruct r; cbn [Bool.eqb andb]; auto.
      destruct (N.eqb_spec c DataChannel) as [->|]; auto. rewrite A, (H b eq_refl). reflexivity.
    - eapply deaf_read; eauto. split; auto.
    - destruct r; [rewrite D in E; injection E as <-; split; auto|].
      destruct (mg_queue g false d) as [|m q]; [injection E as <-; split; auto|].
      assert (Q : deaf (Messenger (mg_store g) (mg_transport g) (mg_in g) (mg_rx g) (upd (mg_queue g) false d q))) by (split; auto).
      unfold handle in E. destruct d; [injection E as <-; exact Q|]. cbn [mg_store mg_transport] in E.
      destruct (DecodeSummary m) as [s range]. destruct (HandleMsgReconciliationAcceptor _ _ _ _ _ _) as [[out| | | |] st]; try discriminate E.
      destruct (send_all out (mg_transport g)); try discriminate E. injection E as <-. exact Q.
    - destruct (step C o (mg_store g)) as [[x| | | |] st]; try discriminate E; injection E as <-; split; auto.
    - unfold Close in E. destruct (forallb _ _); try discriminate E. injection E as <-. split; auto. }
  split; auto. destruct F as [o|now m e b M|ev N]; [exact R| |].
  - cbn [M_Messenger.react] in E. rewrite D in E. injection E as <-. reflexivity.
  - destruct ev; try exact R. contradiction (N o eq_refl).
Qed.

Theorem C72_acceptor evs s0 g : reacts evs (NewMessenger s0) = Some g ->
  (forall b, In (EArrive true DataChannel b) evs -> b = []) -> run C (own_calls evs) s0 = Some (mg_store g).
Proof.
  assert (Q : deaf (NewMessenger s0)) by (split; auto).
  change s0 with (mg_store (NewMessenger s0)) at 2. revert Q. generalize (NewMessenger s0) as g0.
  induction evs as [|ev evs IH]; intros g0 Q E H; cbn [M_Messenger.reacts] in E.
  - injection E as <-. reflexivity.
  - destruct (react ev g0) as [g1|] eqn:E1; [|discriminate E].
    destruct (deaf_react ev g0 g1 Q) as [Q1 R1]; auto. { intros b ->. apply H. left. reflexivity. }
    change (own_calls (ev :: evs)) with (own_calls ([ev] ++ evs)). unfold own_calls. rewrite flat_map_app, run_app. fold (own_calls [ev]).
    rewrite R1. apply IH; auto. intros b Hb. apply H. right. exact Hb.
Qed.
End Peer.

Lemma In_after e xs : In e (after e xs).
Proof. unfold after. auto with datatypes. Qed.

(** A message with an entry of this namespace, a timestamp, and the payload the entry is about,
    in the hands of the data listener of the initiator: the entry is stored with its payload if
    it is acceptable to the store, and nothing happens to the entries if it is not. *)
Theorem C72_delivered_partial C U ge gr gt ue ur ops g m q e b now :
  reached C U ops (mg_store g) -> mg_queue g true true = m :: q -> ue m = (e, b) ->
  U b -> entry_ok C U e -> e_namespace e = c_ns C -> e_digest e = c_hash C b -> e_length e = len b -> e_time e <> 0 ->
  exists g', react C ge gr gt ue ur (EHandle true true now) g = Some g'
    /\ (acceptable C (live C (mg_store g)) e (e_subspace e) ->
        live C (mg_store g') e /\ GetPayload C (EntryPosition e) (mg_store g') = (Ok b, mg_store g'))
    /\ (~ acceptable C (live C (mg_store g)) e (e_subspace e) -> forall x, live C (mg_store g') x <-> live C (mg_store g) x).
Proof.
  intros H Q M Ub O N D L T. pose proof H as [(PP & HU & _ & LN) _].
  set (i := Input (e_subspace e) (e_path e) b (e_time e)).
  assert (SE : set_entry C i now = e).
  { unfold set_entry, i. cbn [i_sub i_payload i_path i_time]. destruct (N.eqb_spec (e_time e) 0); [contradiction|]. rewrite <- N, <- D, <- L. destruct e; reflexivity. }
  destruct (reached_runs C U PP HU ops _ H) as (n & xs & R).
  destruct (runs_Inv _ _ _ _ _ _ R) as (I & HL & _). pose proof (inv_rep _ _ _ _ _ I) as RP.
  assert (A : acceptable C (live C (mg_store g)) e (e_subspace e) <-> acceptable C (fun x => In x xs) e (e_subspace e)).
  { split; apply acceptable_ext; intros x; [|apply iff_sym]; apply (Rep_live C U PP HU xs _ x RP). }
  assert (OK : op_ok C U (OpSet i (e_subspace e) now)) by (split; [exact Ub|rewrite SE; exact O]).
  assert (S : react C ge gr gt ue ur (EHandle true true now) g
     = match Set_ C i (e_subspace e) now (mg_store g) with
       | (Ok _, st) | (Err, st) => Some (Messenger st (mg_transport g) (mg_in g) (mg_rx g) (upd (mg_queue g) true true q))
       | _ => None
       end).
  { cbn [react]. rewrite Q. cbn [handle]. rewrite M. reflexivity. }
  destruct (Set_spec C U PP HU n xs (mg_store g) i (e_subspace e) now) as [(B & pr & st' & E & _ & I' & _)|(B & st' & E & I' & _)]; auto; try lia; try (rewrite SE; exact O);
    rewrite SE in *; rewrite S, E; eexists; (split; [reflexivity|]); cbn [mg_store]; rewrite A; (split; intros X; try contradiction).
  - split.
    + apply (Rep_live C U PP HU _ st' e (inv_rep _ _ _ _ _ I')). apply In_after.
    + pose proof (C29_read_your_writes_partial C U ops _ i (e_subspace e) now pr st' H OK E) as [_ P].
      cbn [i i_time i_sub i_path i_payload] in P. destruct (N.eqb_spec (e_time e) 0); [contradiction|]. exact P.
  - intros x. rewrite (Rep_live C U PP HU _ st' x (inv_rep _ _ _ _ _ I')), (Rep_live C U PP HU _ _ x RP). reflexivity.
Qed.

(** ** What fails *)
Definition no_gob (e : entry) (b : bytes) : bytes := [].
Definition no_range (r : range3d) : bytes := [].
Definition demo_type : bytes := [7; 7].
(** A stand-in for gob: a message is a payload, for a fixed place and time. *)
Definition demo_ungob (m : bytes) : entry * bytes := (Entry [110] [115] (hex_encode m) [[97]] 5 (len m), m).
Definition demo_unrange (m : bytes) : range3d := Range3d (Range [] [] true) (Range [] [] true) (Range 0 0 true).
Notation demo_react := (react demo no_gob no_range demo_type demo_ungob demo_unrange).
Notation demo_reacts := (reacts demo no_gob no_range demo_type demo_ungob demo_unrange).
Definition to_initiator (b : bytes) : list event := [EInitiate; EArrive true DataChannel b].
Definition one_message : bytes := be_encode 8 2 ++ [7; 7].
(** A listener reads the length and the body, and its callback runs. *)
Definition listener (d : bool) : list event := [ERead true d 8; ERead true d 2; EHandle true d 9].

(** The same bytes, all read and handled: stored when the data listener is the one that reads
    them, lost when the reconciliation listener is. *)
Theorem C72_lost_refuted : exists g1 g2,
  demo_reacts (to_initiator one_message ++ listener true) (NewMessenger empty_store) = Some g1
  /\ demo_reacts (to_initiator one_message ++ listener false) (NewMessenger empty_store) = Some g2
  /\ live demo (mg_store g1) (demo_e [[97]] [7; 7] 5) /\ (forall e, ~ live demo (mg_store g2) e)
  /\ forall g, g = g1 \/ g = g2 -> mg_in g true DataChannel = [] /\ forall r d, mg_rx g r d = Header [] /\ mg_queue g r d = [].
Proof.
  eexists. eexists. split; [vm_compute; reflexivity|]. split; [vm_compute; reflexivity|]. split; [apply liveb_spec; vm_compute; reflexivity|]. split.
  - intros e (_ & k & v & w & H & _). exact H.
  - intros g [-> | ->]; (split; [reflexivity|]); intros [|] [|]; split; reflexivity.
Qed.

(** Or read in part by each: then nothing is stored either, and both wait. *)
Theorem C72_torn_refuted : exists g,
  demo_reacts (to_initiator one_message ++ [ERead true true 4; ERead true false 4; ERead true true 8; EHandle true true 9]) (NewMessenger empty_store) = Some g
  /\ mg_in g true DataChannel = [] /\ forall e, ~ live demo (mg_store g) e.
Proof. eexists. split; [vm_compute; reflexivity|]. split; [reflexivity|]. intros e (_ & k & v & w & H & _). exact H. Qed.

(** Eight bytes of a peer end the process, of an initiator and of an acceptor. *)
Theorem C72_crash_refuted (r : bool) : exists g,
  demo_reacts [if r then EInitiate else EAccept; EArrive r DataChannel (repeat 255 8)] (NewMessenger empty_store) = Some g
  /\ demo_react (ERead r true 8) g = None /\ demo_react (ERead r false 8) g = None.
Proof. destruct r; eexists; (split; [vm_compute; reflexivity|]); split; vm_compute; reflexivity. Qed.

(** So does a message with a range, of an initiator whose store was opened with entries in
    it. *)
Theorem C72_range_crash_refuted : exists ops st g,
  reached demo small ops st
  /\ demo_reacts (to_initiator one_message ++ [ERead true false 8; ERead true false 2]) (NewMessenger st) = Some g
  /\ demo_react (EHandle true false 9) g = None.
Proof.
  exists demo_ops, demo_after. eexists. split; [exact demo_reached|]. split; [vm_compute; reflexivity|]. vm_compute. reflexivity.
Qed.

(** A peer writes in any subspace: the entry it sends is stored with the name of its subspace for
    authorisation, and no one called the store. *)
Theorem C72_forged_refuted s : small s -> exists g e,
  reacts demo no_gob no_range demo_type (fun m => (Entry [110] s (hex_encode m) [[97]] 5 (len m), m)) demo_unrange
    (to_initiator one_message ++ listener true) (NewMessenger empty_store) = Some g
  /\ own_calls (to_initiator one_message ++ listener true) = [] /\ live demo (mg_store g) e /\ e_subspace e = s.
Proof.
  intros Hs. set (ue := fun m : bytes => (Entry [110] s (hex_encode m) [[97]] 5 (len m), m)). set (e := Entry [110] s (hex_encode [7; 7]) [[97]] 5 2).
  assert (R : reached demo small [] empty_store).
  { split; [|reflexivity]. apply demo_history; vm_compute; reflexivity. }
  destruct (reacts demo no_gob no_range demo_type ue demo_unrange (to_initiator one_message ++ [ERead true true 8; ERead true true 2]) (NewMessenger empty_store)) as [g|] eqn:E;
    [|vm_compute in E; discriminate E].
  assert (Q : mg_store g = empty_store /\ mg_queue g true true = [[7; 7]]) by (vm_compute in E; injection E as <-; split; reflexivity).
  destruct Q as [Q1 Q2]. rewrite <- Q1 in R.
  assert (Sm : small [7; 7]) by (apply smallb_spec; vm_compute; reflexivity).
  destruct (C72_delivered_partial demo small no_gob no_range demo_type ue demo_unrange [] g [7; 7] [] e [7; 7] 9 R Q2) as (g' & E' & A & _); try reflexivity; try exact Sm.
  - split; [apply strict_pathb_spec; vm_compute; reflexivity|]. split; [reflexivity|]. split; [reflexivity|]. split; [exists [7; 7]; split; [exact Sm|reflexivity]|exact Hs].
  - discriminate.
  - exists g', e. split; [|split; [reflexivity|split; [|reflexivity]]].
    + change (to_initiator one_message ++ listener true) with ((to_initiator one_message ++ [ERead true true 8; ERead true true 2]) ++ [EHandle true true 9]).
      revert E E'. generalize (to_initiator one_message ++ [ERead true true 8; ERead true true 2]) as l. generalize (NewMessenger empty_store) as g0.
      intros g0 l. revert g0. induction l as [|ev l IH]; intros g0 E E'; cbn [app reacts] in *.
      * injection E as ->. rewrite E'. reflexivity.
      * destruct (react demo no_gob no_range demo_type ue demo_unrange ev g0); [|discriminate E]. apply IH; auto.
    + apply A. split; [reflexivity|]. split; [reflexivity|].
      assert (Z : forall x, ~ live demo (mg_store g) x) by (rewrite Q1; intros x (_ & k & v & w & H & _); exact H).
      split; intros x Hx; contradiction (Z x Hx).
Qed.

(** An entry of another namespace, without a timestamp, with another digest and length than those
    of the payload that comes with it: stored as an entry of this namespace, written now, about
    that payload. *)
Theorem C72_altered_refuted : exists g e,
  e = Entry [120] [115] (hex_encode [1; 2; 3]) [[97]] 0 3
  /\ reacts demo no_gob no_range demo_type (fun m => (e, m)) demo_unrange (to_initiator one_message ++ listener true) (NewMessenger empty_store) = Some g
  /\ live demo (mg_store g) (Entry [110] [115] (hex_encode [7; 7]) [[97]] 9 2).
Proof.
  eexists. eexists. split; [reflexivity|]. split; [vm_compute; reflexivity|]. apply liveb_spec. vm_compute. reflexivity.
Qed.

(** ** Instances *)

(** A session: one side has written, initiates and closes; the other accepts, the number of the
    stream arrives in two pieces and is taken for a message by the reconciliation listener. *)
Definition session : list (bool * event) :=
  [ (true, ELocal (demo_set [[97]; [98]] [7] 5)); (true, EInitiate); (false, EAccept);
    (false, EArrive false DataChannel [0; 0; 0; 0; 0]); (false, ERead false false 8); (false, EArrive false DataChannel [0; 0; 1; 2]);
    (false, ERead false false 8); (false, ERead false false 8); (false, EHandle false false 9);
    (false, ELocal (demo_set [[97]] [8] 6)) ].

(** Steps, computed. *)
Definition connectedb (g : messenger) (r : bool) : bool :=
  forallb (fun s => match s with Some _ => true | None => false end) (if r then t_initiated (mg_transport g) else t_accepted (mg_transport g)).
Lemma connectedb_spec g r : connectedb g r = true <-> connected g r.
Proof.
  unfold connectedb, connected. rewrite forallb_forall, Forall_forall. split; intros H s Hs; specialize (H s Hs); destruct s; congruence.
Qed.
Definition can (n : net) (p : bool) (ev : event) : bool :=
  match ev with
  | EInitiate => negb (connectedb (nt_peer n p) true)
  | EAccept => connectedb (nt_peer n (negb p)) true && negb (connectedb (nt_peer n p) false)
  | EArrive r c b => connectedb (nt_peer n p) r && beqb (firstn (length b) (skipn (nt_seen n p r c) (written (nt_peer n (negb p)) (negb r) c))) b
  | _ => true
  end.
Definition seen_after (n : net) (p : bool) (ev : event) : bool -> bool -> N -> nat :=
  match ev with
  | EArrive r c b => fun p' r' c' => if Bool.eqb p p' && Bool.eqb r r' && (c =? c') then (nt_seen n p r c + length b)%nat else nt_seen n p' r' c'
  | _ => nt_seen n
  end.
Fixpoint demo_run (tr : list (bool * event)) (n : net) : option net :=
  match tr with
  | [] => Some n
  | (p, ev) :: tr' =>
      if can n p ev then match demo_react ev (nt_peer n p) with
                         | Some g => demo_run tr' (Net (upd_peer (nt_peer n) p g) (seen_after n p ev))
                         | None => None
                         end
      else None
  end.
Notation demo_nstep := (nstep (fun _ => demo) no_gob no_range demo_type demo_ungob demo_unrange).
Notation demo_nsteps := (nsteps (fun _ => demo) no_gob no_range demo_type demo_ungob demo_unrange).
Lemma NArrive_eq k C ge gr gt ue ur n p r c b g : connected (nt_peer n p) r ->
  firstn k (skipn (nt_seen n p r c) (written (nt_peer n (negb p)) (negb r) c)) = b ->
  react (C p) ge gr gt ue ur (EArrive r c b) (nt_peer n p) = Some g ->
  nstep C ge gr gt ue ur n p (EArrive r c b) (Net (upd_peer (nt_peer n) p g) (seen_after n p (EArrive r c b))).
Proof. intros H <- E. apply NArrive; auto. Qed.
Lemma can_nstep n p ev g : can n p ev = true -> demo_react ev (nt_peer n p) = Some g ->
  demo_nstep n p ev (Net (upd_peer (nt_peer n) p g) (seen_after n p ev)).
Proof.
  intros H E. destruct ev as [| |r c b|r d k|r d now|o|]; cbn [can seen_after] in *; try (apply NOwn; [exact I|exact E]).
  - apply NInitiate; [|exact E]. rewrite <- connectedb_spec. destruct (connectedb _ _); [discriminate H|discriminate].
  - apply andb_true_iff in H as [H1 H2]. apply NAccept; [apply connectedb_spec; exact H1| |exact E].
    rewrite <- connectedb_spec. destruct (connectedb (nt_peer n p) false); [discriminate H2|discriminate].
  - apply andb_true_iff in H as [H1 H2]. apply connectedb_spec in H1.
    destruct (beqb_spec (firstn (length b) (skipn (nt_seen n p r c) (written (nt_peer n (negb p)) (negb r) c))) b) as [B|]; [|discriminate H2].
    apply (NArrive_eq (length b) (fun _ => demo)); auto.
Qed.
Lemma demo_run_nsteps tr n n' : demo_run tr n = Some n' -> demo_nsteps n tr n'.
Proof.
  enough (G : forall n0 tr0, demo_nsteps n0 tr0 n -> demo_run tr n = Some n' -> demo_nsteps n0 (tr0 ++ tr) n') by (intros; apply (G n []); auto; constructor).
  revert n. induction tr as [|[p ev] tr IH]; intros n n0 tr0 R E; cbn [demo_run] in E.
  - injection E as <-. rewrite app_nil_r. exact R.
  - destruct (can n p ev) eqn:A; [|discriminate E]. destruct (demo_react ev (nt_peer n p)) as [g|] eqn:G; [|discriminate E].
    replace (tr0 ++ (p, ev) :: tr) with ((tr0 ++ [(p, ev)]) ++ tr) by (rewrite <- app_assoc; reflexivity).
    eapply IH; [|exact E]. eapply ns_step; [exact R|]. apply can_nstep; auto.
Qed.

Example C72_instance : exists n,
  demo_nsteps (new_net empty_store empty_store) session n
  /\ live demo (mg_store (nt_peer n true)) (demo_e [[97]; [98]] [7] 5) /\ length (kv (mg_store (nt_peer n true))) = 1%nat
  /\ live demo (mg_store (nt_peer n false)) (demo_e [[97]] [8] 6) /\ length (kv (mg_store (nt_peer n false))) = 1%nat
  /\ written (nt_peer n true) true DataChannel = init_bytes 2 /\ mg_in (nt_peer n false) false DataChannel = []
  /\ mg_rx (nt_peer n false) false false = Header [].
Proof.
  destruct (demo_run session (new_net empty_store empty_store)) as [n|] eqn:E.
  - exists n. split; [apply demo_run_nsteps; exact E|].
    assert (H : match demo_run session (new_net empty_store empty_store) with
        | Some n => (liveb demo (mg_store (nt_peer n true)) (demo_e [[97]; [98]] [7] 5), length (kv (mg_store (nt_peer n true))),
                     liveb demo (mg_store (nt_peer n false)) (demo_e [[97]] [8] 6), length (kv (mg_store (nt_peer n false))),
                     written (nt_peer n true) true DataChannel, mg_in (nt_peer n false) false DataChannel, mg_rx (nt_peer n false) false false)
        | None => (false, O, false, O, [], [], Header [0])
        end = (true, 1%nat, true, 1%nat, init_bytes 2, [], Header [])) by (vm_compute; reflexivity).
    rewrite E in H. injection H as H1 H2 H3 H4 H5 H6 H7. rewrite <- !liveb_spec. auto 10.
  - assert (H : match demo_run session (new_net empty_store empty_store) with Some _ => true | None => false end = true) by (vm_compute; reflexivity).
    rewrite E in H. discriminate H.
Qed.

(** A peer that sends something else than a messenger would: nothing for an acceptor, an entry for
    an initiator. *)
Example C72_instance_peer :
  (exists g, demo_reacts [EAccept; EArrive false DataChannel (one_message ++ one_message); ERead false true 8; ERead false true 2; EHandle false true 9;
       ELocal (demo_set [[97]] [8] 6); ERead false false 8; ERead false false 2; EHandle false false 9] (NewMessenger demo_after) = Some g
     /\ live demo (mg_store g) (demo_e [[97]] [5; 5] 7))
  /\ exists g, demo_reacts (to_initiator one_message ++ [ERead true true 8; ERead true true 2]) (NewMessenger demo_after) = Some g
     /\ reached demo small demo_ops (mg_store g) /\ mg_queue g true true = [[7; 7]]
     /\ entry_ok demo small (fst (demo_ungob [7; 7])) /\ e_digest (fst (demo_ungob [7; 7])) = c_hash demo [7; 7].
Proof.
  split; eexists; (split; [vm_compute; reflexivity|]).
  - apply liveb_spec. vm_compute. reflexivity.
  - split; [exact demo_reached|]. split; [reflexivity|]. split; [apply demo_entry_okb_spec; vm_compute; reflexivity|reflexivity].
Qed.

Print Assumptions C72_isolated.
Print Assumptions C72_silent.
Print Assumptions C72_no_crash.
Print Assumptions C72_history.
Print Assumptions C72_acceptor.
Print Assumptions C72_delivered_partial.
Print Assumptions C72_lost_refuted.
Print Assumptions C72_torn_refuted.
Print Assumptions C72_crash_refuted.
Print Assumptions C72_range_crash_refuted.
Print Assumptions C72_forged_refuted.
Print Assumptions C72_altered_refuted.
