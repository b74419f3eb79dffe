(** C84: the end of a stream. *)
From Verif Require Import Base M_Growing P_Growing M_Close.
Local Open Scope N_scope.

(** ** Invariant *)

(** After a panic the lock is never released, and the reader can only ask for what is there. *)
Definition broken (s : cstate) : Prop :=
  c_over s = true /\ c_panicked s = true /\ g_held (c_g s) = true
  /\ (g_c (c_g s) = CIdle \/ exists n, g_c (c_g s) = CChecked n).
(** Lines 80 to 93 run with the lock. *)
Definition locked (g : gstate) : Prop :=
  match g_c g with CLocked _ | CToken _ _ => g_held g = true | _ => True end.
Record cinv (s : cstate) : Prop := {
  ci_lock : locked (c_g s);
  ci_g : ginv (c_g s) \/ broken s;
  ci_panic : c_panicked s = true -> broken s;
  ci_over : c_over s = true -> c_closed s = true /\ g_p (c_g s) = PSelect /\ g_in (c_g s) = [];
  ci_stream : g_sent (c_g s) = g_gone (c_g s) ++ g_array (c_g s) ++ in_hand (g_p (c_g s)) ++ concat (g_in (c_g s));
  ci_returned : forall n g b, In (n, g, b) (g_returned (c_g s)) -> n <= len b /\ exists later, g_sent (c_g s) = g ++ b ++ later
}.

Lemma cinv_init : cinv cinit.
Proof. constructor; cbn; auto; try discriminate; try (left; apply ginv_init). intros ? ? ? []. Qed.

Lemma gstep_locked l g g' : locked g -> gstep l g = Some g' -> locked g'.
Proof.
  unfold locked. destruct g as [inn arr held def tok boxes nxt p c sent gone ret]. intros L G.
  destruct l as [ch| | | |n|k|]; cbn [gstep] in G; gs.
  - injection G as <-. exact L.
  - destruct p, tok; try discriminate. injection G as <-. exact L.
  - destruct p, inn; try discriminate. injection G as <-. exact L.
  - destruct p; try discriminate.
    + destruct held; try discriminate. injection G as <-. exact L.
    + destruct def as [[i m]|]; injection G as <-; exact L.
    + destruct def as [[i m]|]; try discriminate. injection G as <-. exact L.
    + injection G as <-. exact L.
    + destruct tok; try discriminate. injection G as <-. exact L.
  - destruct c; try discriminate. destruct (n <=? len arr); injection G as <-; exact I.
  - destruct c; try discriminate. destruct held; try discriminate. injection G as <-. exact I.
  - destruct c as [|n|n|n id|n id|n id]; try discriminate.
    + destruct held; try discriminate. injection G as <-. reflexivity.
    + destruct def as [[i m]|]; [destruct (m =? n)|]; injection G as <-; gs; auto.
    + destruct tok; try discriminate. injection G as <-. exact I.
    + destruct (take_box id boxes) as [[b bs]|]; try discriminate. injection G as <-. exact I.
    + destruct (take_box id boxes) as [[b bs]|]; try discriminate. injection G as <-. exact I.
Qed.

(** A step of M_Growing.v that the end of the stream does not forbid. *)
Lemma cstep_step l s s' : cstep (Step l) s = Some s' ->
  (exists g', gstep l (c_g s) = Some g' /\ s' = CState g' (c_closed s) (c_over s) (c_panicked s)
     /\ (c_over s = true -> match l with LTakeToken | LTakeChunk | LProducer => False | _ => True end)
     /\ (c_closed s = true -> match l with LSend _ => False | _ => True end))
  \/ (l = LReader /\ c_over s = true /\ (exists n id, g_c (c_g s) = CToken n id)
      /\ s' = CState (with_c CIdle (c_g s)) (c_closed s) (c_over s) true).
Proof.
  intros E. destruct l as [ch| | | |n|k|]; cbn [cstep] in E.
  - destruct (c_closed s) eqn:EC; [discriminate|]. destruct (gstep (LSend ch) (c_g s)) as [g'|]; [|discriminate].
    left. exists g'. injection E as <-. repeat split; auto; discriminate.
  - destruct (c_over s) eqn:EO; [discriminate|]. destruct (gstep LTakeToken (c_g s)) as [g'|]; [|discriminate].
    left. exists g'. injection E as <-. repeat split; auto; discriminate.
  - destruct (c_over s) eqn:EO; [discriminate|]. destruct (gstep LTakeChunk (c_g s)) as [g'|]; [|discriminate].
    left. exists g'. injection E as <-. repeat split; auto; discriminate.
  - destruct (c_over s) eqn:EO; [discriminate|]. destruct (gstep LProducer (c_g s)) as [g'|]; [|discriminate].
    left. exists g'. injection E as <-. repeat split; auto; discriminate.
  - destruct (gstep (LCall n) (c_g s)) as [g'|]; [|discriminate]. left. exists g'. injection E as <-. repeat split; auto.
  - destruct (gstep (LPrune k) (c_g s)) as [g'|]; [|discriminate]. left. exists g'. injection E as <-. repeat split; auto.
  - assert (G : option_map (fun g' => CState g' (c_closed s) (c_over s) (c_panicked s)) (gstep LReader (c_g s)) = Some s' ->
       (exists g', gstep LReader (c_g s) = Some g' /\ s' = CState g' (c_closed s) (c_over s) (c_panicked s)
          /\ (c_over s = true -> True) /\ (c_closed s = true -> True))).
    { destruct (gstep LReader (c_g s)) as [g'|]; [|discriminate]. cbn. intros [= <-]. exists g'. auto. }
    destruct (g_c (c_g s)) as [|n|n|n id|n id|n id] eqn:EC; try (left; apply G; exact E).
    destruct (c_over s) eqn:EO; [|left; apply G; exact E]. right. injection E as <-. eauto 6.
Qed.

Lemma cstep_inv l s s' : cinv s -> cstep l s = Some s' -> cinv s'.
Proof.
  intros [IL IG IP IO IS IR] E. destruct l as [| |l].
  - cbn [cstep] in E. destruct (c_closed s); [discriminate|]. injection E as <-. constructor; cbn; auto.
    intros H. destruct (IO H). auto.
  - cbn [cstep] in E. destruct (g_p (c_g s)) eqn:EP; try discriminate. destruct (g_in (c_g s)) eqn:EI; try discriminate.
    destruct (c_closed s && negb (c_over s)) eqn:EC; [|discriminate]. injection E as <-.
    apply andb_true_iff in EC as [_ EO]. apply negb_true_iff in EO.
    assert (NP : c_panicked s = false) by (destruct (c_panicked s); auto; destruct IP as [H _]; auto; congruence).
    constructor; cbn [c_g c_closed c_over c_panicked]; try rewrite EP; try rewrite EI; auto.
    + left. destruct IG as [IG|[H _]]; [auto|congruence].
    + rewrite NP. discriminate.
  - apply cstep_step in E as [(g' & G & -> & HO & HC)|(-> & EO & (n & id & EC) & ->)].
    + assert (Keep : c_over s = true -> c_closed s = true /\ g_p g' = PSelect /\ g_in g' = []).
      { intros H. specialize (HO H). destruct (IO H) as (H1 & H2 & H3). specialize (HC H1). split; auto.
        destruct (c_g s) as [inn arr held def tok boxes nxt p c sent gone ret]. gs. subst p inn.
        destruct l as [ch| | | |n|k|]; try contradiction; cbn [gstep] in G; gs.
        - destruct c; try discriminate. destruct (n <=? len arr); injection G as <-; gs; auto.
        - destruct c; try discriminate. destruct held; try discriminate. injection G as <-. gs. auto.
        - destruct c as [|n|n|n id|n id|n id]; try discriminate.
          + destruct held; try discriminate. injection G as <-. gs. auto.
          + destruct def as [[i m]|]; [destruct (m =? n)|]; injection G as <-; gs; auto.
          + destruct tok; try discriminate. injection G as <-. gs. auto.
          + destruct (take_box id boxes) as [[b bs]|]; try discriminate. injection G as <-. gs. auto.
          + destruct (take_box id boxes) as [[b bs]|]; try discriminate. injection G as <-. gs. auto. }
      assert (Br : broken s -> broken (CState g' (c_closed s) (c_over s) (c_panicked s))
                   /\ g_sent g' = g_sent (c_g s) /\ g_gone g' = g_gone (c_g s) /\ g_array g' = g_array (c_g s)
                   /\ (g_returned g' = g_returned (c_g s)
                       \/ exists n, n <= len (g_array (c_g s)) /\ g_returned g' = g_returned (c_g s) ++ [(n, g_gone (c_g s), g_array (c_g s))])).
      { intros (B1 & B2 & B3 & B4). unfold broken. cbn [c_g c_closed c_over c_panicked]. specialize (HO B1).
        destruct (IO B1) as (H1 & _). specialize (HC H1).
        destruct (c_g s) as [inn arr held def tok boxes nxt p c sent gone ret]. gs. subst held.
        destruct l as [ch| | | |n|k|]; try contradiction; cbn [gstep] in G; gs.
        - destruct B4 as [->|[m ->]]; try discriminate. destruct (N.leb_spec n (len arr)); injection G as <-; gs; repeat split; auto.
          + right. exists n. auto.
          + right. exists n. auto.
        - destruct c; discriminate.
        - destruct B4 as [->|[m ->]]; discriminate. }
      constructor; cbn [c_g c_closed c_over c_panicked]; auto.
      * eapply gstep_locked; eauto.
      * destruct IG as [IG|B]; [left; eapply gstep_inv; eauto|right; apply Br; auto].
      * intros H. apply Br, IP, H.
      * destruct IG as [IG|B]; [apply (gi_stream g'), (gstep_inv l (c_g s)); auto|].
        destruct (Br B) as (_ & E1 & E2 & E3 & _). destruct B as (B1 & _). destruct (IO B1) as (_ & P1 & P2).
        destruct (Keep B1) as (_ & P3 & P4). rewrite E1, E2, E3, P3, P4, IS, P1, P2. reflexivity.
      * destruct IG as [IG|B]; [apply (gi_returned g'), (gstep_inv l (c_g s)); auto|].
        destruct (Br B) as (_ & E1 & E2 & E3 & E4). rewrite E1. destruct E4 as [->|(n & Hn & ->)]; [exact IR|].
        apply returned_add; auto. exists (in_hand (g_p (c_g s)) ++ concat (g_in (c_g s))). exact IS.
    + destruct (IO EO) as (H1 & H2 & H3).
      assert (NB : ~ broken s) by (intros (_ & _ & _ & [B|[m B]]); congruence).
      destruct IG as [IG|B]; [|contradiction].
      assert (HH : g_held (c_g s) = true -> broken (CState (with_c CIdle (c_g s)) (c_closed s) (c_over s) true)).
      { intros H. split; [exact EO|]. split; [reflexivity|]. split; [exact H|]. left. reflexivity. }
      assert (L : g_held (c_g s) = true) by (unfold locked in IL; rewrite EC in IL; exact IL).
      constructor; cbn [c_g c_closed c_over c_panicked]; auto. exact I.
Qed.

Lemma cruns_inv ls : forall s s', cinv s -> cruns ls s = Some s' -> cinv s'.
Proof.
  induction ls as [|l ls IH]; intros s s' H E; cbn [cruns] in E; [injection E as <-; auto|].
  destruct (cstep l s) as [s1|] eqn:E1; [|discriminate]. eapply IH; [eapply cstep_inv; eauto|exact E].
Qed.

(** ** After the end *)

(** What no step after the end changes, and what can be returned. *)
Lemma over_step l s s' : cinv s -> c_over s = true -> cstep l s = Some s' ->
  c_over s' = true /\ g_sent (c_g s') = g_sent (c_g s)
  /\ (len (g_array (c_g s')) <= len (g_array (c_g s)))
  /\ (forall n g b, In (n, g, b) (g_returned (c_g s')) -> In (n, g, b) (g_returned (c_g s)) \/ n <= len (g_array (c_g s))).
Proof.
  intros [IL IG IP IO IS IR] HO E. destruct (IO HO) as (H1 & H2 & H3). destruct l as [| |l].
  - cbn [cstep] in E. rewrite H1 in E. discriminate.
  - cbn [cstep] in E. rewrite H2, H3, HO, andb_false_r in E. discriminate.
  - apply cstep_step in E as [(g' & G & -> & HL & HC)|(-> & _ & _ & ->)].
    2:{ cbn. split; [exact HO|]. split; [reflexivity|]. split; [lia|]. auto. }
    specialize (HL HO). specialize (HC H1). cbn [c_over c_g]. split; [exact HO|].
    assert (BX : forall n id b bs, g_c (c_g s) = CWait n id \/ g_c (c_g s) = CWaitOld n id -> take_box id (g_boxes (c_g s)) = Some (b, bs) -> n <= len (g_array (c_g s))).
    { intros n id b bs W T. destruct IG as [IG|(_ & _ & _ & [B|[m B]])]; [|destruct W; congruence|destruct W; congruence].
      destruct (gi_boxes _ IG) as [B|(id' & n' & b' & t & B & W' & L & A)]; [rewrite B in T; discriminate|].
      destruct W as [W|W]; rewrite W in W'; [|discriminate]. injection W' as <- <-. rewrite A. unfold len in *. rewrite app_length. lia. }
    destruct (c_g s) as [inn arr held def tok boxes nxt p c sent gone ret]. gs.
    destruct l as [ch| | | |n|k|]; try contradiction; cbn [gstep] in G; gs.
    + destruct c; try discriminate. destruct (N.leb_spec n (len arr)); injection G as <-; gs; (split; [reflexivity|]); (split; [lia|]); auto.
      intros m g b Hin. apply in_app_or in Hin as [Hin|[Hin|[]]]; auto. injection Hin as <- <- <-. auto.
    + destruct c; try discriminate. destruct held; try discriminate. injection G as <-. gs. split; [reflexivity|]. split; auto.
      unfold len. rewrite skipn_length. unfold bytes in *. lia.
    + destruct c as [|n|n|n id|n id|n id]; try discriminate.
      * destruct held; try discriminate. injection G as <-. gs. split; [reflexivity|]. split; [lia|auto].
      * destruct def as [[i m]|]; [destruct (m =? n)|]; injection G as <-; gs; (split; [reflexivity|]); (split; [lia|auto]).
      * destruct tok; try discriminate. injection G as <-. gs. split; [reflexivity|]. split; [lia|auto].
      * destruct (take_box id boxes) as [[b0 bs]|] eqn:ET; try discriminate. injection G as <-. gs. split; [reflexivity|]. split; [lia|].
        intros m g b Hin. apply in_app_or in Hin as [Hin|[Hin|[]]]; auto. injection Hin as <- <- <-. right. eapply BX; eauto.
      * destruct (take_box id boxes) as [[b0 bs]|] eqn:ET; try discriminate. injection G as <-. gs. split; [reflexivity|]. split; [lia|].
        intros m g b Hin. apply in_app_or in Hin as [Hin|[Hin|[]]]; auto. injection Hin as <- <- <-. right. eapply BX; eauto.
Qed.

Lemma over_runs ls : forall s s', cinv s -> c_over s = true -> cruns ls s = Some s' ->
  c_over s' = true /\ g_sent (c_g s') = g_sent (c_g s)
  /\ (len (g_array (c_g s')) <= len (g_array (c_g s)))
  /\ (forall n g b, In (n, g, b) (g_returned (c_g s')) -> In (n, g, b) (g_returned (c_g s)) \/ n <= len (g_array (c_g s))).
Proof.
  induction ls as [|l ls IH]; intros s s' H HO E; cbn [cruns] in E.
  - injection E as <-. split; [exact HO|]. split; [reflexivity|]. split; [lia|auto].
  - destruct (cstep l s) as [s1|] eqn:E1; [|discriminate]. destruct (over_step _ _ _ H HO E1) as (A1 & A2 & A3 & A4).
    destruct (IH _ _ (cstep_inv _ _ _ H E1) A1 E) as (B1 & B2 & B3 & B4). split; [exact B1|]. split; [congruence|].
    split; [lia|]. intros n g b Hin. destruct (B4 n g b Hin) as [Hin'|Hn]; [auto|right; lia].
Qed.

(** ** Theorems *)

(** Closing the channel loses nothing and spoils no answer: whatever happens before
    and after, every call that returned has returned at least as many bytes as it
    asked for, and they stand in the stream just behind what was pruned. *)
Theorem C84_in_order ls s : cruns ls cinit = Some s ->
  forall n gone b, In (n, gone, b) (g_returned (c_g s)) -> n <= len b /\ exists later, g_sent (c_g s) = gone ++ b ++ later.
Proof. intros E. exact (ci_returned _ (cruns_inv _ _ _ cinv_init E)). Qed.

(** When the goroutine has ended, every byte that was sent has either been pruned
    or lies in the array. *)
Theorem C84_nothing_lost ls s : cruns ls cinit = Some s -> c_over s = true ->
  g_sent (c_g s) = g_gone (c_g s) ++ g_array (c_g s).
Proof.
  intros E HO. pose proof (cruns_inv _ _ _ cinv_init E) as I. destruct (ci_over _ I HO) as (_ & P & N).
  rewrite (ci_stream _ I), P, N. cbn. now rewrite !app_nil_r.
Qed.

(** What was sent before the end arrives: while no call is under way and the lock is
    free, the goroutine takes in every chunk of a closed channel and then ends, by
    its own steps alone. *)
Definition of_goroutine (l : clabel) : bool :=
  match l with Finish | Step LTakeToken | Step LTakeChunk | Step LProducer => true | _ => false end.
Lemma drains_from inn : forall s, g_in (c_g s) = inn -> c_closed s = true -> c_over s = false ->
  g_held (c_g s) = false -> g_p (c_g s) = PSelect -> g_deferred (c_g s) = None ->
  exists ls' s', cruns ls' s = Some s' /\ forallb of_goroutine ls' = true /\ c_over s' = true /\ c_panicked s' = c_panicked s
    /\ g_array (c_g s') = g_array (c_g s) ++ concat inn /\ g_gone (c_g s') = g_gone (c_g s)
    /\ g_returned (c_g s') = g_returned (c_g s) /\ g_c (c_g s') = g_c (c_g s).
Proof.
  induction inn as [|c inn IH]; intros [g cl ov pa] EI HC HO HH HP HD;
    destruct g as [inn0 arr held def tok boxes nxt p rc sent gone ret]; gs; cbn [c_g c_closed c_over] in *; gs; subst.
  - exists [Finish]. eexists. split; [reflexivity|]. cbn. rewrite app_nil_r. auto 8.
  - destruct (IH (CState (GState inn (arr ++ c) false None tok boxes nxt PSelect rc sent gone ret) true false pa)
                eq_refl eq_refl eq_refl eq_refl eq_refl eq_refl) as (ls' & s' & R & F & O & P & A & G & T & C).
    exists (Step LTakeChunk :: Step LProducer :: Step LProducer :: ls'), s'. split; [exact R|]. split; [exact F|].
    cbn [c_g g_array concat] in *. rewrite app_assoc. auto 8.
Qed.
Theorem C84_drains ls s : cruns ls cinit = Some s -> c_closed s = true -> c_over s = false ->
  g_c (c_g s) = CIdle -> g_held (c_g s) = false -> g_p (c_g s) = PSelect ->
  exists ls' s', cruns ls' s = Some s' /\ forallb of_goroutine ls' = true /\ c_over s' = true /\ c_panicked s' = c_panicked s
    /\ g_array (c_g s') = g_array (c_g s) ++ concat (g_in (c_g s)) /\ g_gone (c_g s') = g_gone (c_g s)
    /\ g_returned (c_g s') = g_returned (c_g s) /\ g_c (c_g s') = CIdle.
Proof.
  intros E HC HO HI HH HP. pose proof (cruns_inv _ _ _ cinv_init E) as I.
  destruct (ci_g _ I) as [IG|(B & _)]; [|congruence].
  assert (D : g_deferred (c_g s) = None).
  { pose proof (gi_deferred _ IG) as D. rewrite HP in D. destruct (g_deferred (c_g s)) as [d|]; [|reflexivity].
    destruct D as [D _]. rewrite HI in D. discriminate. }
  destruct (drains_from _ s eq_refl HC HO HH HP D) as (ls' & s' & H). exists ls', s'. rewrite HI in H. exact H.
Qed.
Print Assumptions C84_drains.

(** And can be read: a call for what is there returns at once, with the lock free
    or not. *)
Theorem C84_rest_can_be_read s n : g_c (c_g s) = CIdle -> n <= len (g_array (c_g s)) ->
  exists s', cstep (Step (LCall n)) s = Some s'
             /\ g_returned (c_g s') = g_returned (c_g s) ++ [(n, g_gone (c_g s), g_array (c_g s))]
             /\ g_c (c_g s') = CIdle /\ g_array (c_g s') = g_array (c_g s).
Proof.
  intros C L. cbn [cstep gstep]. rewrite C. apply N.leb_le in L. rewrite L. eexists. split; [reflexivity|]. cbn. auto.
Qed.

(** After the end no call is answered that asks for more than is there, and nothing
    is added to the stream. *)
Theorem C84_after_the_end ls s ls' s' : cruns ls cinit = Some s -> c_over s = true -> cruns ls' s = Some s' ->
  g_sent (c_g s') = g_sent (c_g s)
  /\ forall n gone b, In (n, gone, b) (g_returned (c_g s')) ->
       In (n, gone, b) (g_returned (c_g s)) \/ n <= len (g_array (c_g s)).
Proof. intros E HO E'. destruct (over_runs _ _ _ (cruns_inv _ _ _ cinv_init E) HO E') as (_ & A & _ & B). auto. Qed.

(** A call for more than is there, made after the end with the lock free, panics,
    and keeps the lock. *)
Theorem C84_more_panics ls s n : cruns ls cinit = Some s -> c_over s = true ->
  g_c (c_g s) = CIdle -> g_held (c_g s) = false -> len (g_array (c_g s)) < n ->
  exists s', cruns [Step (LCall n); Step LReader; Step LReader; Step LReader] s = Some s'
             /\ c_panicked s' = true /\ g_held (c_g s') = true /\ g_c (c_g s') = CIdle
             /\ g_array (c_g s') = g_array (c_g s) /\ g_returned (c_g s') = g_returned (c_g s).
Proof.
  intros E HO HC HH HL. pose proof (cruns_inv _ _ _ cinv_init E) as I. destruct (ci_over _ I HO) as (_ & P & _).
  destruct (ci_g _ I) as [IG|(_ & _ & B & _)]; [|congruence].
  assert (D : g_deferred (c_g s) = None).
  { pose proof (gi_deferred _ IG) as D. rewrite P in D. destruct (g_deferred (c_g s)) as [d|]; [|reflexivity].
    destruct D as [D _]. rewrite HC in D. discriminate. }
  destruct s as [g cl ov pa]. cbn [c_g c_over] in *. subst ov.
  destruct g as [inn arr held def tok boxes nxt p c sent gone ret]. gs. subst.
  apply N.leb_gt in HL. cbn [cruns cstep c_g gstep g_c]. cbn [g_array]. rewrite HL.
  cbn [option_map cruns cstep c_g gstep g_c with_c g_held with_held g_deferred with_deferred c_over c_closed c_panicked
       g_in g_array g_token g_boxes g_next g_p g_sent g_gone g_returned].
  eexists. split; [reflexivity|]. cbn. auto 6.
Qed.

(** After such a panic the lock is never free again: the array never changes, no
    Prune and no call for more ever finishes. *)
Theorem C84_after_the_panic ls s ls' s' : cruns ls cinit = Some s -> c_panicked s = true -> cruns ls' s = Some s' ->
  g_held (c_g s') = true /\ g_array (c_g s') = g_array (c_g s)
  /\ (forall k, cstep (Step (LPrune k)) s' = None)
  /\ cstep (Step LReader) s' = None
  /\ (forall n gone b, In (n, gone, b) (g_returned (c_g s')) ->
        In (n, gone, b) (g_returned (c_g s)) \/ (n <= len (g_array (c_g s)) /\ b = g_array (c_g s))).
Proof.
  intros E. pose proof (cruns_inv _ _ _ cinv_init E) as I. clear E. revert s I.
  induction ls' as [|l ls' IH]; intros s I HP E; cbn [cruns] in E.
  - injection E as <-. destruct (ci_panic _ I HP) as (B1 & B2 & B3 & B4). split; [exact B3|]. split; [reflexivity|]. cbn [cstep gstep].
    destruct B4 as [->|[m ->]]; rewrite B3; cbn; auto.
  - destruct (cstep l s) as [s1|] eqn:E1; [|discriminate].
    pose proof (cstep_inv _ _ _ I E1) as I1. destruct (ci_panic _ I HP) as (B1 & B2 & B3 & B4).
    destruct (ci_over _ I B1) as (H1 & H2 & H3).
    assert (K : c_panicked s1 = true /\ g_array (c_g s1) = g_array (c_g s)
                /\ forall n g b, In (n, g, b) (g_returned (c_g s1)) -> In (n, g, b) (g_returned (c_g s)) \/ (n <= len (g_array (c_g s)) /\ b = g_array (c_g s))).
    { destruct l as [| |l].
      - cbn [cstep] in E1. rewrite H1 in E1. discriminate.
      - cbn [cstep] in E1. rewrite H2, H3, B1, andb_false_r in E1. discriminate.
      - apply cstep_step in E1 as [(g' & G & -> & HL & HC)|(_ & _ & (n & id & B) & _)].
        2:{ destruct B4 as [B4|[m B4]]; congruence. }
        specialize (HL B1). specialize (HC H1). cbn [c_g c_panicked]. split; [exact HP|].
        destruct (c_g s) as [inn arr held def tok boxes nxt p c sent gone ret]. gs. subst held.
        destruct l as [ch| | | |n|k|]; try contradiction; cbn [gstep] in G; gs.
        + destruct B4 as [->|[m ->]]; try discriminate. destruct (N.leb_spec n (len arr)); injection G as <-; gs; (split; [reflexivity|]); auto.
          intros m g b Hin. apply in_app_or in Hin as [Hin|[Hin|[]]]; auto. injection Hin as <- <- <-. auto.
        + destruct c; discriminate.
        + destruct B4 as [->|[m ->]]; discriminate. }
    destruct K as (K1 & K2 & K3). destruct (IH s1 I1 K1 E) as (A1 & A2 & A3 & A4 & A5).
    rewrite K2 in A2, A5. repeat (split; [assumption|]). intros n g b Hin. destruct (A5 n g b Hin); auto.
Qed.

(** A call that waits when the goroutine ends, with nothing in its channel, is not
    told: no step is possible any more. *)
Theorem C84_waiting_is_stuck ls s n id : cruns ls cinit = Some s -> c_over s = true ->
  g_c (c_g s) = CWait n id \/ g_c (c_g s) = CWaitOld n id -> g_boxes (c_g s) = [] ->
  forall l, cstep l s = None.
Proof.
  intros E HO HC HB l. pose proof (cruns_inv _ _ _ cinv_init E) as I. destruct (ci_over _ I HO) as (H1 & H2 & H3).
  destruct l as [| |[ch| | | |m|k|]]; cbn [cstep gstep].
  - now rewrite H1.
  - now rewrite H2, H3, HO, andb_false_r.
  - now rewrite H1.
  - now rewrite HO.
  - now rewrite HO.
  - now rewrite HO.
  - destruct HC as [-> | ->]; reflexivity.
  - destruct HC as [-> | ->]; reflexivity.
  - destruct HC as [-> | ->]; rewrite HB; reflexivity.
Qed.

(** The full property, refuted: "a reader that waits for bytes is told when the
    stream ends". A reader asks for three bytes, two come, the channel is closed:
    the call neither returns nor panics, and no step is possible any more. *)
Definition short_stream : list clabel :=
  [Step (LCall 3); Step LReader; Step LReader; Step LReader; Step LTakeToken; Step (LSend [7; 8]); Close;
   Step LTakeChunk; Step LProducer; Step LProducer; Finish].
Theorem C84_told_refuted : exists ls s, cruns ls cinit = Some s /\ c_closed s = true /\ c_over s = true /\ c_panicked s = false
  /\ g_c (c_g s) = CWait 3 0 /\ g_returned (c_g s) = [] /\ forall l, cstep l s = None.
Proof.
  exists short_stream. destruct (cruns short_stream cinit) as [s|] eqn:E; [|vm_compute in E; discriminate].
  exists s. pose proof E as E'. vm_compute in E'. injection E' as <-.
  split; [reflexivity|]. do 3 (split; [reflexivity|]). split; [reflexivity|]. split; [reflexivity|].
  intros l. eapply (C84_waiting_is_stuck short_stream _ 3 0%nat E); auto.
Qed.

(** A stream of three bytes, closed while two chunks wait. The bytes are read; then
    one more is asked for: the call panics. The bytes can still be read, but not
    pruned. *)
Definition closed_stream : list clabel :=
  [Step (LSend [5; 6]); Step (LSend [7]); Close; Step LTakeChunk; Step LProducer; Step LProducer;
   Step LTakeChunk; Step LProducer; Step LProducer; Finish; Step (LCall 1); Step (LPrune 1)].
Example C84_instance_closed : exists s, cruns closed_stream cinit = Some s /\ c_over s = true
  /\ g_c (c_g s) = CIdle /\ g_held (c_g s) = false /\ g_gone (c_g s) = [5] /\ g_array (c_g s) = [6; 7]
  /\ g_returned (c_g s) = [(1, [], [5; 6; 7])].
Proof. eexists. split; [vm_compute; reflexivity|]. repeat split. Qed.
Example C84_instance_panic : exists s,
  cruns (closed_stream ++ [Step (LCall 3); Step LReader; Step LReader; Step LReader; Step (LCall 2)]) cinit = Some s
  /\ c_panicked s = true /\ g_returned (c_g s) = [(1, [], [5; 6; 7]); (2, [5], [6; 7])]
  /\ cstep (Step (LPrune 1)) s = None /\ cstep (Step (LSend [9])) s = None.
Proof. eexists. split; [vm_compute; reflexivity|]. repeat split. Qed.

Example C84_instance_drains : exists s, cruns (firstn 3 closed_stream) cinit = Some s /\ c_closed s = true /\ c_over s = false
  /\ g_c (c_g s) = CIdle /\ g_held (c_g s) = false /\ g_p (c_g s) = PSelect /\ concat (g_in (c_g s)) = [5; 6; 7].
Proof. eexists. split; [vm_compute; reflexivity|]. repeat split. Qed.

Print Assumptions C84_in_order.
Print Assumptions C84_nothing_lost.
Print Assumptions C84_rest_can_be_read.
Print Assumptions C84_after_the_end.
Print Assumptions C84_more_panics.
Print Assumptions C84_after_the_panic.
Print Assumptions C84_waiting_is_stuck.
Print Assumptions C84_told_refuted.
