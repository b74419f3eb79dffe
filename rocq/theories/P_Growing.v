(** Proofs about GrowingBytes over all schedules. *)
From Verif Require Import Base M_Growing.
Local Open Scope N_scope.

(** The request the reader is waiting with, if it can still be answered. *)
Definition waits (c : reader_pc) : option (nat * N) :=
  match c with CToken n id | CWait n id => Some (id, n) | _ => None end.

Definition in_hand (p : producer_pc) : bytes := match p with PGot c => c | _ => [] end.

Record ginv (s : gstate) : Prop := {
  gi_stream : g_sent s = g_gone s ++ g_array s ++ in_hand (g_p s) ++ concat (g_in s);
  gi_deferred : match g_p s, g_deferred s with
                | PClear, _ | _, None => True
                | _, Some d => waits (g_c s) = Some d /\ g_boxes s = []
                end;
  gi_send : g_p s = PSend -> exists id n, g_deferred s = Some (id, n) /\ n <= len (g_array s);
  gi_boxes : g_boxes s = [] \/ exists id n b t, g_boxes s = [(id, b)] /\ waits (g_c s) = Some (id, n)
               /\ n <= len b /\ g_array s = b ++ t;
  gi_returned : forall n g b, In (n, g, b) (g_returned s) -> n <= len b /\ exists later, g_sent s = g ++ b ++ later
}.

Ltac gs := cbn [g_in g_array g_held g_deferred g_token g_boxes g_next g_p g_c g_sent g_gone g_returned
                with_p with_c with_held with_deferred with_token return_ in_hand waits] in *.

Lemma returned_grow (s c : bytes) (l : list (N * bytes * bytes)) : (forall n g b, In (n, g, b) l -> n <= len b /\ exists later, s = g ++ b ++ later) ->
  forall n g b, In (n, g, b) l -> n <= len b /\ exists later, s ++ c = g ++ b ++ later.
Proof.
  intros H n g b Hin. destruct (H n g b Hin) as (H1 & later & ->). split; auto. exists (later ++ c).
  rewrite <- !app_assoc. auto.
Qed.

Lemma returned_add (s : bytes) (l : list (N * bytes * bytes)) n0 g0 b0 :
  (forall n g b, In (n, g, b) l -> n <= len b /\ exists later, s = g ++ b ++ later) ->
  n0 <= len b0 -> (exists later, s = g0 ++ b0 ++ later) ->
  forall n g b, In (n, g, b) (l ++ [(n0, g0, b0)]) -> n <= len b /\ exists later, s = g ++ b ++ later.
Proof.
  intros H H1 H2 n g b Hin. apply in_app_or in Hin as [Hin|[Hin|[]]]; auto. injection Hin as <- <- <-. auto.
Qed.

Lemma ginv_init : ginv ginit.
Proof. constructor; cbn; auto; try discriminate; intros ? ? ? []. Qed.

Lemma gstep_inv l s s' : ginv s -> gstep l s = Some s' -> ginv s'.
Proof.
  intros [HS HD HP HB HR]. destruct s as [inn arr held def tok boxes nxt p c sent gone ret].
  destruct l as [ch| | | |n|k|]; cbn [gstep]; gs.
  - intros [= <-]. constructor; gs; auto.
    + rewrite HS, concat_app. cbn. rewrite app_nil_r, <- !app_assoc. auto.
    + apply returned_grow; auto.
  - destruct p; try discriminate. destruct tok; try discriminate. intros [= <-]. constructor; gs; auto.
  - destruct p; try discriminate. destruct inn as [|ch r]; try discriminate. intros [= <-]. constructor; gs; auto; discriminate.
  - destruct p as [|ch| | | |]; try discriminate.
    + destruct held; [discriminate|]. intros [= <-]. constructor; gs; auto; try discriminate.
      * rewrite HS, <- !app_assoc. auto.
      * destruct HB as [HB|(id & n & b & t & E1 & E2 & E3 & E4)]; auto. right.
        exists id, n, b, (t ++ ch). rewrite E4, <- app_assoc. auto.
    + destruct def as [[id n]|].
      * intros [= <-]. constructor; gs; auto.
        -- destruct (n <=? len arr); auto.
        -- destruct (n <=? len arr); auto.
        -- destruct (N.leb_spec n (len arr)); try discriminate. intros _. eauto.
      * intros [= <-]. constructor; gs; auto; discriminate.
    + destruct def as [[id n]|]; [|discriminate]. intros [= <-]. destruct HD as [HD1 HD2]. subst boxes.
      destruct (HP eq_refl) as (id' & n' & E & HL). injection E as <- <-.
      constructor; gs; auto; try discriminate. right. exists id, n, arr, []. rewrite app_nil_r. auto.
    + intros [= <-]. constructor; gs; auto; discriminate.
    + destruct tok; [discriminate|]. intros [= <-]. constructor; gs; auto; discriminate.
  - destruct c; try discriminate. destruct (N.leb_spec n (len arr)).
    + intros [= <-]. constructor; gs; auto.
      apply returned_add; auto. exists (in_hand p ++ concat inn). auto.
    + intros [= <-]. constructor; gs; auto.
  - destruct c; try discriminate. destruct held; [discriminate|]. intros [= <-]. gs.
    set (cut := if len arr <=? k then length arr else N.to_nat k).
    constructor; gs; auto.
    + rewrite HS, <- (firstn_skipn cut arr) at 1. rewrite <- !app_assoc. auto.
    + intros Hp. destruct (HP Hp) as (id & n & E & _). subst def p. destruct HD as [HD _]. discriminate.
    + destruct HB as [HB|(id & n & b & t & _ & E2 & _)]; auto. discriminate.
  - destruct c as [|n|n|n id|n id|n id]; try discriminate.
    + destruct held; [discriminate|]. intros [= <-]. constructor; gs; auto.
    + destruct def as [[id m]|].
      * assert (p = PClear) as -> by (destruct p; auto; destruct HD; discriminate).
        destruct (m =? n); intros [= <-]; constructor; gs; auto; try discriminate;
          (destruct HB as [HB|(? & ? & ? & ? & _ & E2 & _)]; [auto|discriminate]).
      * intros [= <-]. assert (boxes = []) as -> by (destruct HB as [HB|(? & ? & ? & ? & _ & E2 & _)]; [auto|discriminate]).
        constructor; gs; auto.
        -- destruct p; auto.
        -- intros Hp. destruct (HP Hp) as (? & ? & E & _). discriminate.
    + destruct tok; [discriminate|]. intros [= <-]. constructor; gs; auto.
    + destruct HB as [HB|(id' & n' & b & t & E1 & E2 & E3 & E4)]; [subst boxes; discriminate|].
      subst boxes. injection E2 as <- <-. cbn [take_box]. rewrite Nat.eqb_refl. intros [= <-]. constructor; gs; auto.
      * destruct p; auto; destruct def; auto; destruct HD; discriminate.
      * apply returned_add; auto. exists (t ++ in_hand p ++ concat inn). rewrite HS, E4, <- !app_assoc. auto.
    + destruct HB as [HB|(id' & n' & b & t & E1 & E2 & _)]; [subst boxes; discriminate|]. discriminate.
Qed.

Lemma gruns_inv ls : forall s s', ginv s -> gruns ls s = Some s' -> ginv s'.
Proof.
  induction ls as [|l ls IH]; cbn; intros s s' HI H; [injection H as <-; auto|].
  destruct (gstep l s) as [s1|] eqn:E; [|discriminate]. apply (IH s1); auto. eapply gstep_inv; eauto.
Qed.

(** An invariant of all continuations. *)
Lemma gruns_keeps (P : gstate -> Prop) : (forall l s s', P s -> gstep l s = Some s' -> P s') ->
  forall ls s s', P s -> gruns ls s = Some s' -> P s'.
Proof.
  intros HP. induction ls as [|l ls IH]; cbn; intros s s' H E; [injection E as <-; auto|].
  destruct (gstep l s) as [s1|] eqn:E2; [|discriminate]. apply (IH s1); eauto.
Qed.

(** ** Being woken *)

Definition internal (l : label) : bool :=
  match l with LTakeToken | LTakeChunk | LProducer | LReader => true | _ => false end.
(** Nothing can happen unless the network or the reader starts something new. *)
Definition quiescent (s : gstate) : Prop := forall l, internal l = true -> gstep l s = None.

(** The states between a well-timed request and its answer. *)
Definition enough (n : N) (s : gstate) : Prop := n <= len (g_array s ++ in_hand (g_p s) ++ concat (g_in s)).
Definition underway (id : nat) (n : N) (s : gstate) : Prop :=
  g_c s = CWait n id
  /\ ((g_held s = false /\ g_deferred s = Some (id, n) /\ g_boxes s = [] /\ enough n s
       /\ match g_p s with
          | PSelect => g_token s = false /\ len (g_array s) < n
          | PGot _ | PCheck => g_token s = false
          | PSend => g_token s = false /\ n <= len (g_array s)
          | _ => False
          end)
      \/ (exists b, g_boxes s = [(id, b)] /\ g_p s <> PSend /\ (g_p s = PClear \/ g_deferred s = None))).

Definition answered (n : N) (s : gstate) : Prop := exists g b, In (n, g, b) (g_returned s).

Lemma answered_step n l s s' : answered n s -> gstep l s = Some s' -> answered n s'.
Proof.
  intros (g & b & H) E. assert (HI : forall x, In x (g_returned s) -> In x (g_returned s')).
  { destruct l; cbn [gstep] in E;
      repeat match type of E with
             | context [match ?x with _ => _ end] => destruct x
             | Some _ = Some _ => injection E as <-
             | None = Some _ => discriminate
             end; gs; auto; intros x Hx; apply in_or_app; auto. }
  exists g, b. auto.
Qed.

Lemma underway_step id n l s s' : underway id n s -> gstep l s = Some s' -> underway id n s' \/ answered n s'.
Proof.
  intros [HC HU] E. destruct s as [inn arr held def tok boxes nxt p c sent gone ret]. gs. subst c.
  unfold underway, answered, enough in *. gs.
  destruct HU as [(-> & -> & -> & HE & HP)|(b & -> & HN & HD)].
  - destruct l as [ch| | | |k|k|]; cbn [gstep] in E; gs.
    + injection E as <-. gs. left. split; auto. left. repeat split; auto.
      rewrite concat_app, !app_assoc in *. unfold len in *. rewrite app_length. lia.
    + destruct p; try discriminate. destruct HP as [-> _]. discriminate.
    + destruct p; try discriminate. destruct inn as [|ch r]; [discriminate|]. injection E as <-. gs.
      left. split; auto. left. repeat split; auto. tauto.
    + destruct p as [|ch| | | |]; try discriminate; try tauto.
      * injection E as <-. gs. left. split; auto. left. repeat split; auto. cbn [app]. rewrite app_assoc in HE. rewrite <- app_assoc in HE. rewrite <- app_assoc. auto.
      * injection E as <-. destruct (N.leb_spec n (len arr)); gs; left; (split; [auto|left; repeat split; auto]).
      * injection E as <-. gs. left. split; auto. right. exists arr. cbn. repeat split; auto. discriminate.
    + discriminate.
    + discriminate.
    + discriminate.
  - destruct l as [ch| | | |k|k|]; cbn [gstep] in E; gs.
    + injection E as <-. gs. left. split; auto. right. exists b. auto.
    + destruct p; try discriminate. destruct tok; [|discriminate]. injection E as <-. gs. left. split; auto. right. exists b. auto.
    + destruct p; try discriminate. destruct inn as [|ch r]; [discriminate|]. injection E as <-. gs.
      left. split; auto. right. exists b. destruct HD as [HD|HD]; [discriminate|]. repeat split; auto. discriminate.
    + destruct p as [|ch| | | |]; try discriminate; try tauto.
      * destruct held; [discriminate|]. injection E as <-. gs. left. split; auto. right. exists b.
        destruct HD as [HD|HD]; [discriminate|]. repeat split; auto. discriminate.
      * destruct HD as [HD|HD]; [discriminate|]. subst def. injection E as <-. gs. left. split; auto. right. exists b.
        repeat split; auto. discriminate.
      * injection E as <-. gs. left. split; auto. right. exists b. repeat split; auto. discriminate.
      * destruct tok; [discriminate|]. injection E as <-. gs. left. split; auto. right. exists b.
        destruct HD as [HD|HD]; [discriminate|]. repeat split; auto. discriminate.
    + discriminate.
    + discriminate.
    + cbn [take_box] in E. rewrite Nat.eqb_refl in E. injection E as <-. gs. right. exists gone, b.
      apply in_or_app. right. left. auto.
Qed.

Lemma underway_runs id n ls : forall s s', underway id n s \/ answered n s -> gruns ls s = Some s' ->
  underway id n s' \/ answered n s'.
Proof.
  intros s s'. apply (gruns_keeps (fun s => underway id n s \/ answered n s)).
  intros l t t' [H|H] E; [eapply underway_step; eauto|right; eapply answered_step; eauto].
Qed.

Lemma underway_moves id n s : underway id n s -> ~ quiescent s.
Proof.
  intros [HC HU] HQ. destruct s as [inn arr held def tok boxes nxt p c sent gone ret]. gs. subst c.
  destruct HU as [(-> & -> & -> & HE & HP)|(b & -> & _)].
  - unfold enough in HE. gs. destruct p as [|ch| | | |].
    + destruct HP as [-> HL]. pose proof (HQ LTakeChunk eq_refl) as H. cbn in H. destruct inn; [|discriminate].
      cbn in HE. rewrite app_nil_r in HE. lia.
    + pose proof (HQ LProducer eq_refl) as H. discriminate.
    + pose proof (HQ LProducer eq_refl) as H. discriminate.
    + pose proof (HQ LProducer eq_refl) as H. discriminate.
    + tauto.
    + tauto.
  - pose proof (HQ LReader eq_refl) as H. cbn in H. rewrite Nat.eqb_refl in H. discriminate.
Qed.

(** Internal steps cannot go on forever. *)
Definition weight (s : gstate) : nat :=
  7 * length (g_in s)
  + match g_p s with PSelect => 0 | PToken => 2 | PClear => 3 | PSend => 4 | PCheck => 5 | PGot _ => 6 end
  + (if g_token s then 1 else 0)
  + match g_c s with CIdle => 0 | CWait _ _ | CWaitOld _ _ => 1 | CToken _ _ => 3 | CLocked _ => 4 | CChecked _ => 5 end.

Lemma weight_step l s s' : internal l = true -> gstep l s = Some s' -> (weight s' < weight s)%nat.
Proof.
  intros HI E. destruct s as [inn arr held def tok boxes nxt p c sent gone ret].
  destruct l; try discriminate; cbn [gstep] in E; gs.
  - destruct p, tok; try discriminate. injection E as <-. unfold weight; gs. lia.
  - destruct p, inn; try discriminate. injection E as <-. unfold weight; gs. cbn [length]. lia.
  - destruct p as [|ch| | | |]; try discriminate.
    + destruct held; [discriminate|]. injection E as <-. unfold weight; gs. lia.
    + destruct def as [[id n]|]; injection E as <-; [destruct (n <=? len arr)|]; unfold weight; gs; lia.
    + destruct def as [[id n]|]; [|discriminate]. injection E as <-. unfold weight; gs. lia.
    + injection E as <-. unfold weight; gs. lia.
    + destruct tok; [discriminate|]. injection E as <-. unfold weight; gs. lia.
  - destruct c as [|n|n|n id|n id|n id]; try discriminate.
    + destruct held; [discriminate|]. injection E as <-. unfold weight; gs. lia.
    + destruct def as [[id m]|]; [destruct (m =? n)|]; injection E as <-; unfold weight; gs; lia.
    + destruct tok; [discriminate|]. injection E as <-. unfold weight; gs. lia.
    + destruct (take_box id boxes) as [[? ?]|]; [|discriminate]. injection E as <-. unfold weight; gs. lia.
    + destruct (take_box id boxes) as [[? ?]|]; [|discriminate]. injection E as <-. unfold weight; gs. lia.
Qed.

Lemma weight_runs ls : forall s s', forallb internal ls = true -> gruns ls s = Some s' -> (length ls <= weight s)%nat.
Proof.
  induction ls as [|l ls IH]; cbn [gruns forallb length]; intros s s' HI E; [lia|].
  apply andb_true_iff in HI as [H1 H2]. destruct (gstep l s) as [s1|] eqn:E1; [|discriminate].
  pose proof (weight_step l s s1 H1 E1). specialize (IH s1 s' H2 E). lia.
Qed.

(** ** Being lost *)

(** The request has been erased: it is never answered. *)
Definition dropped (n : N) (id : nat) (ret : list (N * bytes * bytes)) (s : gstate) : Prop :=
  g_c s = CWait n id /\ g_boxes s = [] /\ g_deferred s = None /\ g_p s <> PSend /\ g_returned s = ret.
Lemma dropped_step n id ret l s s' : dropped n id ret s -> gstep l s = Some s' -> dropped n id ret s'.
Proof.
  intros (HC & HB & HD & HP & HR) E. destruct s as [inn arr held def tok boxes nxt p c sent gone rt]. gs. subst.
  unfold dropped.
  destruct l; cbn [gstep] in E; gs; try discriminate.
  - injection E as <-. gs. auto.
  - destruct p, tok; try discriminate. injection E as <-. gs. auto.
  - destruct p, inn; try discriminate. injection E as <-. gs. repeat split; auto. discriminate.
  - destruct p as [|ch| | | |]; try discriminate; [destruct held| | |destruct tok]; try discriminate; injection E as <-; gs;
      repeat split; auto; discriminate.
Qed.

(** The goroutine is stuck on its own channel: nothing is received any more. *)
Definition jammed (arr : nat) (s : gstate) : Prop :=
  g_p s = PToken /\ g_token s = true /\ (length (g_array s) <= arr)%nat /\ g_boxes s = [].
Lemma jammed_step arr l s s' : jammed arr s -> gstep l s = Some s' -> jammed arr s'.
Proof.
  intros (HP & HT & HA & HB) E. destruct s as [inn ar held def tok boxes nxt p c sent gone rt]. gs. subst. unfold jammed.
  destruct l as [ch| | | |n|k|]; cbn [gstep] in E; gs; try discriminate.
  - injection E as <-. gs. auto.
  - destruct c; try discriminate. destruct (n <=? len ar); injection E as <-; gs; auto.
  - destruct c; try discriminate. destruct held; [discriminate|]. injection E as <-. gs. repeat split; auto.
    rewrite skipn_length. lia.
  - destruct c as [|n|n|n id|n id|n id]; try discriminate; cbn [take_box] in E; try discriminate.
    + destruct held; [discriminate|]. injection E as <-. gs. auto.
    + destruct def as [[id m]|]; [destruct (m =? n)|]; injection E as <-; gs; auto.
Qed.

(** The reader waits for an old resolver with the lock held. *)
Definition wedged (n : N) (id : nat) (ret : list (N * bytes * bytes)) (s : gstate) : Prop :=
  g_c s = CWaitOld n id /\ g_boxes s = [] /\ g_held s = true /\ g_p s <> PSend /\ g_p s <> PCheck /\ g_returned s = ret.
Lemma wedged_step n id ret l s s' : wedged n id ret s -> gstep l s = Some s' -> wedged n id ret s'.
Proof.
  intros (HC & HB & HD & HP & HP' & HR) E. destruct s as [inn arr held def tok boxes nxt p c sent gone rt]. gs. subst.
  unfold wedged.
  destruct l; cbn [gstep] in E; gs; try discriminate.
  - injection E as <-. gs. repeat split; auto.
  - destruct p, tok; try discriminate. injection E as <-. gs. repeat split; auto.
  - destruct p, inn; try discriminate. injection E as <-. gs. repeat split; auto; discriminate.
  - destruct p as [|ch| | | |]; try discriminate; try congruence; [|destruct tok; try discriminate]; injection E as <-; gs;
      repeat split; auto; discriminate.
Qed.
