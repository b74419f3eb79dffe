(** C73: channels made from queues (M_Feed.v). *)
From Coq Require Import Permutation.
From Verif Require Import Base M_Feed.

(** ** What was queued, called and received, read off the events *)
Definition appended {A} (es : list (@event A)) : list A := flat_map (fun e => match e with Append x => [x] | _ => [] end) es.
Definition calls {A} (es : list (@event A)) : list (option (list A)) := flat_map (fun e => match e with Call g => [g] | _ => [] end) es.
Definition values {A} (k : nat) (os : list (@received A)) : list A :=
  flat_map (fun o => match o with (j, Some x) => if (j =? k)%nat then [x] else [] | _ => [] end) os.
Definition announced {A} (es : list (@revent A)) : list A := flat_map (fun e => match e with Announce x => [x] | _ => [] end) es.
Definition waiting {A} (s : @relay A) : list A := flat_map (fun h => match h with Some x => [x] | None => [] end) (r_held s).

Section Proofs.
Context {A : Type}.
Implicit Types (w : @world A) (es : list (@event A)) (os : list (@received A)).

Lemma set_nth_same k f l g : nth_error l k = Some g -> nth_error (@set_nth A k f l) k = Some f.
Proof. revert k; induction l as [|a l IH]; intros [|k] H; cbn in *; try discriminate; auto. Qed.
Lemma set_nth_other k j f l : k <> j -> nth_error (@set_nth A k f l) j = nth_error l j.
Proof. revert k j; induction l as [|a l IH]; intros [|k] [|j] H; cbn; auto; congruence. Qed.
Lemma set_nth_length k f l : length (@set_nth A k f l) = length l.
Proof. revert k; induction l as [|a l IH]; intros [|k]; cbn; auto. Qed.
Lemma values_app k a b : values k (a ++ b) = values k a ++ @values A k b.
Proof. apply flat_map_app. Qed.
Lemma nth_lt {B} (l : list B) k x : nth_error l k = Some x -> (k < length l)%nat.
Proof. intros H. apply nth_error_Some. rewrite H. discriminate. Qed.

(** what a step does to the queue and to a feed it is not about *)
Lemma step_queue e w o w' : fstep e w = Some (o, w') ->
  w_queue w' = w_queue w ++ appended [e].
Proof.
  unfold fstep. destruct e; cbn [appended flat_map app]; intros H; rewrite ?app_nil_r.
  - injection H as <- <-. reflexivity.
  - injection H as <- <-. reflexivity.
  - destruct (nth_error _ _) as [f|]; [|discriminate]. destruct (f_place f); try discriminate; [injection H as <- <-; reflexivity|].
    destruct (_ =? _)%nat; [injection H as <- <-; reflexivity|discriminate].
  - destruct (nth_error (w_feeds w) k) as [f|]; [|discriminate]. destruct (f_place f); try discriminate; [|injection H as <- <-; reflexivity].
    destruct (_ <? _)%nat; [|discriminate]. destruct (nth_error _ _); [injection H as <- <-; reflexivity|discriminate].
  - destruct (nth_error _ _) as [f|]; [|discriminate]. destruct (f_given f); [|discriminate]. destruct (f_place f); try discriminate.
    destruct (_ <? _)%nat; [injection H as <- <-; reflexivity|discriminate].
Qed.

Definition about (e : @event A) (k : nat) : Prop := match e with Go j | Receive j | Cancel j => j = k | _ => False end.
Lemma step_other e w o w' k f : fstep e w = Some (o, w') -> nth_error (w_feeds w) k = Some f -> ~ about e k ->
  nth_error (w_feeds w') k = Some f /\ values k o = [] /\ ~ In (k, None) o.
Proof.
  unfold fstep. intros H Hk HN. pose proof (nth_lt _ _ _ Hk) as HL.
  destruct e as [x|g|j|j|j]; cbn in HN.
  - injection H as <- <-. cbn. auto.
  - injection H as <- <-. cbn. rewrite nth_error_app1 by exact HL. auto.
  - destruct (nth_error (w_feeds w) j) as [f'|]; [|discriminate]. destruct (f_place f'); try discriminate.
    + injection H as <- <-. cbn. rewrite set_nth_other by exact HN. auto.
    + destruct (_ =? _)%nat; [|discriminate]. injection H as <- <-. cbn. rewrite set_nth_other by exact HN. auto.
  - assert (Hj : (j =? k)%nat = false) by (apply Nat.eqb_neq; exact HN).
    destruct (nth_error (w_feeds w) j) as [f'|]; [|discriminate]. destruct (f_place f'); try discriminate.
    + destruct (_ <? _)%nat; [|discriminate]. destruct (nth_error (slice_of w f') i); [|discriminate]. injection H as <- <-.
      cbn. rewrite set_nth_other by exact HN. rewrite Hj. repeat split; auto. intros [E|[]]. discriminate E.
    + injection H as <- <-. cbn. repeat split; auto. intros [E|[]]. injection E as E. exact (HN E).
  - destruct (nth_error (w_feeds w) j) as [f'|]; [|discriminate]. destruct (f_given f'); [|discriminate]. destruct (f_place f'); try discriminate.
    destruct (_ <? _)%nat; [|discriminate]. injection H as <- <-. cbn. rewrite set_nth_other by exact HN. auto.
Qed.

Lemma step_calls e w o w' : fstep e w = Some (o, w') -> map f_given (w_feeds w') = map f_given (w_feeds w) ++ calls [e].
Proof.
  assert (HM : forall k f p w0, nth_error (w_feeds w0) k = Some f -> map f_given (w_feeds (move w0 k f p)) = map f_given (w_feeds w0)).
  { intros k f p w0. cbn. generalize (w_feeds w0). intros l. revert k. induction l as [|a l IH]; intros [|k] H; cbn in *; try discriminate.
    - injection H as <-. reflexivity. - f_equal. auto. }
  unfold fstep. destruct e as [x|g|j|j|j]; cbn [calls flat_map app]; intros H; rewrite ?app_nil_r.
  - injection H as <- <-. reflexivity.
  - injection H as <- <-. cbn. apply map_app.
  - destruct (nth_error (w_feeds w) j) as [f|] eqn:E; [|discriminate]. destruct (f_place f); try discriminate; [injection H as <- <-; auto|].
    destruct (_ =? _)%nat; [injection H as <- <-; auto|discriminate].
  - destruct (nth_error (w_feeds w) j) as [f|] eqn:E; [|discriminate]. destruct (f_place f); try discriminate; [|injection H as <- <-; reflexivity].
    destruct (_ <? _)%nat; [|discriminate]. destruct (nth_error (slice_of w f) i); [injection H as <- <-; auto|discriminate].
  - destruct (nth_error (w_feeds w) j) as [f|] eqn:E; [|discriminate]. destruct (f_given f); [|discriminate]. destruct (f_place f); try discriminate.
    destruct (_ <? _)%nat; [injection H as <- <-; auto|discriminate].
Qed.

Lemma runs_cons e es w os w' : fruns (e :: es) w = Some (os, w') ->
  exists o w1 o', fstep e w = Some (o, w1) /\ fruns es w1 = Some (o', w') /\ os = o ++ o'.
Proof.
  cbn [fruns]. destruct (fstep e w) as [(o & w1)|]; [|discriminate]. destruct (fruns es w1) as [(o' & w2)|] eqn:E; [|discriminate].
  intros H. injection H as <- <-. exists o, w1, o'. auto.
Qed.
Lemma runs_app es1 es2 w os w' : fruns (es1 ++ es2) w = Some (os, w') ->
  exists o1 w1 o2, fruns es1 w = Some (o1, w1) /\ fruns es2 w1 = Some (o2, w') /\ os = o1 ++ o2.
Proof.
  revert w os. induction es1 as [|e es1 IH]; intros w os H; cbn [app] in H.
  - exists [], w, os. auto.
  - destruct (runs_cons _ _ _ _ _ H) as (o & w1 & o' & S & R & ->). destruct (IH _ _ R) as (o1 & w2 & o2 & R1 & R2 & ->).
    exists (o ++ o1), w2, o2. cbn [fruns]. rewrite S, R1. rewrite app_assoc. auto.
Qed.
Lemma runs_join es1 es2 w o1 w1 o2 w2 : fruns es1 w = Some (o1, w1) -> fruns es2 w1 = Some (o2, w2) -> fruns (es1 ++ es2) w = Some (o1 ++ o2, w2).
Proof.
  revert w o1. induction es1 as [|e es1 IH]; intros w o1 H1 H2.
  - injection H1 as <- <-. exact H2.
  - destruct (runs_cons _ _ _ _ _ H1) as (o & wm & o' & S & R & ->). cbn [app fruns]. rewrite S, (IH _ _ R H2), app_assoc. reflexivity.
Qed.
Lemma runs_queue es w os w' : fruns es w = Some (os, w') -> w_queue w' = w_queue w ++ appended es.
Proof.
  revert w os. induction es as [|e es IH]; intros w os H.
  - injection H as <- <-. cbn. rewrite app_nil_r. reflexivity.
  - destruct (runs_cons _ _ _ _ _ H) as (o & w1 & o' & S & R & ->). rewrite (IH _ _ R), (step_queue _ _ _ _ S), <- app_assoc.
    unfold appended. cbn [flat_map]. rewrite app_nil_r. reflexivity.
Qed.
Lemma runs_calls es w os w' : fruns es w = Some (os, w') -> map f_given (w_feeds w') = map f_given (w_feeds w) ++ calls es.
Proof.
  revert w os. induction es as [|e es IH]; intros w os H.
  - injection H as <- <-. cbn. rewrite app_nil_r. reflexivity.
  - destruct (runs_cons _ _ _ _ _ H) as (o & w1 & o' & S & R & ->). rewrite (IH _ _ R), (step_calls _ _ _ _ S), <- app_assoc.
    unfold calls. cbn [flat_map]. rewrite app_nil_r. reflexivity.
Qed.

(** a goroutine that has not reached its loop *)
Lemma runs_before es w os w' k f : fruns es w = Some (os, w') -> nth_error (w_feeds w) k = Some f -> f_place f = Before -> ~ In (Go k) es ->
  nth_error (w_feeds w') k = Some f /\ values k os = [] /\ ~ In (k, None) os.
Proof.
  revert w os. induction es as [|e es IH]; intros w os H Hk HP HG.
  - injection H as <- <-. cbn. auto.
  - destruct (runs_cons _ _ _ _ _ H) as (o & w1 & o' & S & R & ->).
    assert (HA : ~ about e k).
    { intros HA. destruct e as [x|g|j|j|j]; cbn in HA; try contradiction; subst j.
      - apply HG. left. reflexivity.
      - cbn [fstep rstep f_given f_place w_feeds w_queue] in S. rewrite Hk, HP in S. discriminate S.
      - cbn [fstep rstep f_given f_place w_feeds w_queue] in S. rewrite Hk, HP in S. destruct (f_given f); discriminate S. }
    destruct (step_other _ _ _ _ _ _ S Hk HA) as (K1 & V1 & C1). destruct (IH _ _ R K1 HP) as (K2 & V2 & C2).
    { intros I. apply HG. right. exact I. }
    split; [exact K2|]. split; [rewrite values_app, V1, V2; reflexivity|]. intros I. apply in_app_or in I. tauto.
Qed.
Lemma runs_unborn es w os w' k : fruns es w = Some (os, w') -> (length (w_feeds w') <= k)%nat -> values k os = [] /\ ~ In (k, None) os.
Proof.
  revert w os. induction es as [|e es IH]; intros w os H HL.
  - injection H as <- <-. cbn. auto.
  - destruct (runs_cons _ _ _ _ _ H) as (o & w1 & o' & S & R & ->). destruct (IH _ _ R HL) as (V & C).
    assert (L1 : (length (w_feeds w) <= k)%nat).
    { pose proof (runs_calls _ _ _ _ H) as E. apply (f_equal (@length _)) in E. rewrite app_length, !map_length in E. lia. }
    assert (values k o = [] /\ ~ In (k, None) o) as (V1 & C1).
    { destruct e as [x|g|j|j|j]; cbn [fstep rstep f_given f_place w_feeds w_queue] in S.
      - injection S as <- <-. cbn. auto.
      - injection S as <- <-. cbn. auto.
      - destruct (nth_error (w_feeds w) j) as [f'|]; [|discriminate]. destruct (f_place f'); try discriminate; [injection S as <- <-; cbn; auto|].
        destruct (_ =? _)%nat; [injection S as <- <-; cbn; auto|discriminate].
      - destruct (nth_error (w_feeds w) j) as [f'|] eqn:Ej; [|discriminate]. apply nth_lt in Ej.
        assert (Hj : (j =? k)%nat = false) by (apply Nat.eqb_neq; lia).
        destruct (f_place f'); try discriminate.
        + destruct (_ <? _)%nat; [|discriminate]. destruct (nth_error (slice_of w f') i); [|discriminate]. injection S as <- <-. cbn. rewrite Hj.
          split; auto. intros [E|[]]. discriminate E.
        + injection S as <- <-. cbn. split; auto. intros [E|[]]. injection E as E. lia.
      - destruct (nth_error (w_feeds w) j) as [f'|]; [|discriminate]. destruct (f_given f'); [|discriminate]. destruct (f_place f'); try discriminate.
        destruct (_ <? _)%nat; [injection S as <- <-; cbn; auto|discriminate]. }
    split; [rewrite values_app, V1, V; reflexivity|]. intros I. apply in_app_or in I. tauto.
Qed.

Lemma runs_closed es w os w' k f : fruns es w = Some (os, w') -> nth_error (w_feeds w) k = Some f -> f_place f = Closed -> values k os = [].
Proof.
  revert w os. induction es as [|e es IH]; intros w os H Hk HP.
  - injection H as <- <-. reflexivity.
  - destruct (runs_cons _ _ _ _ _ H) as (o & w1 & o' & S & R & ->). rewrite values_app.
    destruct e as [x|g|j|j|j]; try (destruct (Nat.eq_dec j k) as [->|N0]);
      try (destruct (step_other _ _ _ _ _ _ S Hk) as (K1 & V1 & _); [cbn; tauto || congruence|rewrite V1; cbn; eauto]).
    + cbn [fstep rstep f_given f_place w_feeds w_queue] in S. rewrite Hk, HP in S. discriminate S.
    + cbn [fstep rstep f_given f_place w_feeds w_queue] in S. rewrite Hk, HP in S. injection S as <- <-. cbn. eauto.
    + cbn [fstep rstep f_given f_place w_feeds w_queue] in S. rewrite Hk, HP in S. destruct (f_given f); discriminate S.
Qed.

(** a goroutine in its loop: [rest] is what it has still to send *)
Lemma runs_sending es w os w' k f i n : fruns es w = Some (os, w') -> nth_error (w_feeds w) k = Some f -> f_place f = Sending i n ->
  (i <= n)%nat -> (n <= length (slice_of w f))%nat ->
  (exists m, values k os = firstn m (skipn i (firstn n (slice_of w f))))
  /\ (In (k, None) os -> ~ In (Cancel k) es -> values k os = skipn i (firstn n (slice_of w f))).
Proof.
  revert w os f i. induction es as [|e es IH]; intros w os f i H Hk HP Hi Hn.
  - injection H as <- <-. split; [exists 0%nat; reflexivity|intros []].
  - destruct (runs_cons _ _ _ _ _ H) as (o & w1 & o' & S & R & ->).
    assert (HQ : exists t, slice_of w1 f = slice_of w f ++ t).
    { unfold slice_of. destruct (f_given f); [exists []; rewrite app_nil_r; reflexivity|]. exists (appended [e]). apply (step_queue _ _ _ _ S). }
    destruct HQ as (t & HQ).
    assert (HF : firstn n (slice_of w1 f) = firstn n (slice_of w f)).
    { rewrite HQ, firstn_app. replace (n - length (slice_of w f))%nat with 0%nat by lia. cbn. apply app_nil_r. }
    assert (Hn1 : (n <= length (slice_of w1 f))%nat) by (rewrite HQ, app_length; lia).
    assert (Other : ~ about e k -> (exists m, values k (o ++ o') = firstn m (skipn i (firstn n (slice_of w f))))
      /\ (In (k, None) (o ++ o') -> ~ In (Cancel k) (e :: es) -> values k (o ++ o') = skipn i (firstn n (slice_of w f)))).
    { intros HA. destruct (step_other _ _ _ _ _ _ S Hk HA) as (K1 & V1 & C1). destruct (IH _ _ _ _ R K1 HP Hi Hn1) as (P & Q). rewrite HF in P, Q.
      rewrite values_app, V1. split; [exact P|]. intros I HC. apply Q; [apply in_app_or in I; tauto|intros X; apply HC; right; exact X]. }
    destruct e as [x|g|j|j|j]; try (apply Other; cbn; tauto);
      (destruct (Nat.eq_dec j k) as [->|N0]; [|apply Other; cbn; exact N0]); clear Other; cbn [fstep rstep f_given f_place w_feeds w_queue] in S; rewrite Hk, HP in S.
    + destruct (i =? n)%nat eqn:E; [|discriminate S]. apply Nat.eqb_eq in E. subst i. injection S as <- <-.
      rewrite values_app, (runs_closed _ _ _ _ k (Feed (f_given f) Closed) R (set_nth_same _ _ _ _ Hk) eq_refl).
      rewrite skipn_all2 by (rewrite firstn_length; lia). split; [exists 0%nat; reflexivity|reflexivity].
    + destruct (i <? n)%nat eqn:E; [|discriminate S]. apply Nat.ltb_lt in E.
      destruct (nth_error (slice_of w f) i) as [x|] eqn:Ex; [|discriminate S]. injection S as <- <-.
      assert (HS : skipn i (firstn n (slice_of w f)) = x :: skipn (Datatypes.S i) (firstn n (slice_of w f))).
      { clear - Ex E Hn. revert i n Ex E Hn. generalize (slice_of w f). intros l. induction l as [|a l IHl]; intros [|i] [|n] Ex E Hn; cbn in *; try discriminate; try lia.
        - injection Ex as ->. reflexivity. - apply IHl; auto; lia. }
      destruct (IH (move w k f (Sending (Datatypes.S i) n)) o' (Feed (f_given f) (Sending (Datatypes.S i) n)) (Datatypes.S i) R (set_nth_same _ _ _ _ Hk) eq_refl) as (P & Q).
      * lia.
      * exact Hn.
      * change (slice_of (move w k f (Sending (Datatypes.S i) n)) (Feed (f_given f) (Sending (Datatypes.S i) n))) with (slice_of w f) in P, Q.
        assert (HV : values k ([(k, Some x)] ++ o') = x :: values k o') by (cbn; rewrite Nat.eqb_refl; reflexivity).
        rewrite HS. split.
        -- destruct P as (m & P). exists (Datatypes.S m). etransitivity; [exact HV|]. rewrite P. reflexivity.
        -- intros I HC. etransitivity; [exact HV|]. f_equal. apply Q; [destruct I as [I|I]; [discriminate I|exact I]|intros X; apply HC; right; exact X].
    + destruct (f_given f) as [l|] eqn:Eg; [|discriminate S]. destruct (i <? n)%nat; [|discriminate S]. injection S as <- <-.
      rewrite values_app. rewrite (runs_closed _ _ _ _ k (Feed (Some l) Closed) R).
      * split; [exists 0%nat; reflexivity|]. intros _ HC. exfalso. apply HC. left. reflexivity.
      * rewrite <- Eg. exact (set_nth_same _ _ _ _ Hk).
      * reflexivity.
Qed.

(** ** The theorems *)
Lemma start_is_world es1 k os1 w1 g : fruns es1 (World [] []) = Some (os1, w1) -> nth_error (calls es1) k = Some g -> ~ In (Go k) es1 ->
  nth_error (w_feeds w1) k = Some (Feed g Before) /\ values k os1 = [] /\ ~ In (k, None) os1.
Proof.
  revert os1 w1. induction es1 as [|e es1 IH] using rev_ind; intros os1 w1 H HC HG; [destruct k; discriminate HC|].
  destruct (runs_app _ _ _ _ _ H) as (o1 & wa & o2 & R1 & R2 & ->).
  destruct (runs_cons _ _ _ _ _ R2) as (o & wb & o' & S & R3 & ->). injection R3 as <- <-. rewrite app_nil_r.
  unfold calls in HC. rewrite flat_map_app in HC. cbn [flat_map] in HC. rewrite app_nil_r in HC.
  assert (HG' : ~ In (Go k) es1) by (intros I; apply HG; apply in_or_app; left; exact I).
  destruct (Nat.lt_ge_cases k (length (calls es1))) as [L|L].
  - rewrite nth_error_app1 in HC by exact L. destruct (IH _ _ R1 HC HG') as (K & V & C).
    destruct (runs_before [e] wa o wb k (Feed g Before)) as (K2 & V2 & C2).
    + cbn [fruns]. rewrite S, app_nil_r. reflexivity.
    + exact K.
    + reflexivity.
    + intros [I|[]]. apply HG. apply in_or_app. right. left. exact I.
    + split; [exact K2|]. split; [rewrite values_app, V, V2; reflexivity|]. intros I. apply in_app_or in I. tauto.
  - rewrite nth_error_app2 in HC by exact L.
    pose proof (runs_calls _ _ _ _ R1) as EC. cbn in EC. assert (LE : length (w_feeds wa) = length (calls es1)) by (rewrite <- EC, map_length; reflexivity).
    fold (calls es1) in HC. destruct e as [x|g0|j|j|j]; cbn in HC; try (destruct (k - length (calls es1))%nat; discriminate HC).
    destruct (k - length (calls es1))%nat eqn:EK; [|destruct n; discriminate HC]. injection HC as <-. cbn [fstep rstep f_given f_place w_feeds w_queue] in S. injection S as <- <-.
    assert (k = length (calls es1)) by lia. subst k. rewrite app_nil_r. split.
    + cbn. rewrite nth_error_app2 by lia. rewrite LE, Nat.sub_diag. reflexivity.
    + apply (runs_unborn _ _ _ _ _ R1). lia.
Qed.
End Proofs.

(** On a channel made by the [k]-th call the receiver gets, in order, elements that were in the
    queue when the goroutine reached its loop, from the first one on; when it sees the channel
    closed it has got exactly those. What is queued later is never sent on it. *)
Theorem C73_snapshot A (es1 es2 : list (@event A)) k os w :
  fruns (es1 ++ Go k :: es2) (World [] []) = Some (os, w) ->
  ~ In (Go k) es1 -> nth_error (calls es1) k = Some None ->
  (exists m, values k os = firstn m (appended es1))
  /\ (In (k, None) os -> values k os = appended es1).
Proof.
  intros H HG HC. destruct (runs_app _ _ _ _ _ H) as (o1 & w1 & o2 & R1 & R2 & ->).
  destruct (start_is_world _ _ _ _ _ R1 HC HG) as (K & V & C).
  destruct (runs_cons _ _ _ _ _ R2) as (o & wb & o' & S & R3 & ->). cbn [fstep rstep f_given f_place w_feeds w_queue] in S. rewrite K in S. injection S as <- <-.
  cbn [app]. rewrite values_app, V. cbn [app].
  assert (HQ : w_queue w1 = appended es1) by (rewrite (runs_queue _ _ _ _ R1); reflexivity).
  cbn [f_given slice_of] in R3.
  destruct (runs_sending _ _ _ _ k (Feed None (Sending 0 (length (w_queue w1)))) 0 (length (w_queue w1)) R3) as (P & Q).
  - exact (set_nth_same _ _ _ _ K).
  - reflexivity.
  - lia.
  - cbn. lia.
  - cbn [skipn] in P, Q. change (slice_of _ _) with (w_queue w1) in P, Q. rewrite firstn_all, HQ in P, Q. split; [exact P|].
    intros I. apply in_app_or in I. destruct I as [I|I]; [contradiction|].
    apply Q; [exact I|]. clear P Q I HQ.
    (* the queue of a finder is not a parameter, so nothing is ever cancelled *)
    intros X. apply in_split in X. destruct X as (ea & eb & ->). destruct (runs_app _ _ _ _ _ R3) as (oa & wa & ob & Ra & Rb & _).
    destruct (runs_cons _ _ _ _ _ Rb) as (oc & wc & od & S & _). cbn [fstep rstep f_given f_place w_feeds w_queue] in S.
    pose proof (runs_calls _ _ _ _ Ra) as EC. cbn [move w_feeds] in EC.
    destruct (nth_error (w_feeds wa) k) as [f'|] eqn:EF; [|discriminate S].
    assert (EG : nth_error (map f_given (w_feeds wa)) k = Some (f_given f')) by (apply map_nth_error; exact EF).
    rewrite EC, nth_error_app1 in EG by (rewrite map_length, set_nth_length; exact (nth_lt _ _ _ K)).
    rewrite (map_nth_error f_given k _ (set_nth_same _ _ _ _ K)) in EG. cbn in EG. injection EG as EG. rewrite <- EG in S. discriminate S.
Qed.
Print Assumptions C73_snapshot.

(** FetchOutgoingBytes sends its argument: nothing else, in order, and all of it unless cancelled. *)
Theorem C73_given A (es1 es2 : list (@event A)) k os w l :
  fruns (es1 ++ Go k :: es2) (World [] []) = Some (os, w) ->
  ~ In (Go k) es1 -> nth_error (calls es1) k = Some (Some l) ->
  (exists m, values k os = firstn m l)
  /\ (In (k, None) os -> ~ In (Cancel k) es2 -> values k os = l).
Proof.
  intros H HG HC. destruct (runs_app _ _ _ _ _ H) as (o1 & w1 & o2 & R1 & R2 & ->).
  destruct (start_is_world _ _ _ _ _ R1 HC HG) as (K & V & C).
  destruct (runs_cons _ _ _ _ _ R2) as (o & wb & o' & S & R3 & ->). cbn [fstep rstep f_given f_place w_feeds w_queue] in S. rewrite K in S. injection S as <- <-.
  cbn [app]. rewrite values_app, V. cbn [app]. cbn [f_given slice_of] in R3.
  destruct (runs_sending _ _ _ _ k (Feed (Some l) (Sending 0 (length l))) 0 (length l) R3) as (P & Q).
  - exact (set_nth_same _ _ _ _ K).
  - reflexivity.
  - lia.
  - cbn. lia.
  - cbn [skipn] in P, Q. change (slice_of _ _) with l in P, Q. rewrite firstn_all in P, Q. split; [exact P|].
    intros I HX. apply in_app_or in I. destruct I as [I|I]; [contradiction|]. apply Q; [exact I|exact HX].
Qed.
Print Assumptions C73_given.

(** Whatever else is going on, a receiver that keeps receiving sees the channel closed. *)
Theorem C73_ends A (es : list (@event A)) k os w :
  fruns es (World [] []) = Some (os, w) -> (k < length (calls es))%nat ->
  exists es' os' w', fruns es' w = Some (os', w') /\ In (k, None) os' /\ Forall (fun e => e = Go k \/ e = Receive k) es'.
Proof.
  intros H HK. pose proof (runs_calls _ _ _ _ H) as EC. cbn in EC.
  assert (HL : (k < length (w_feeds w))%nat) by (rewrite <- (map_length f_given), EC; exact HK).
  assert (BL : forall j f, nth_error (w_feeds w) j = Some f -> match f_place f with Sending i n => (i <= n /\ n <= length (slice_of w f))%nat | _ => True end).
  { clear - H. revert os w H. induction es as [|e es IH] using rev_ind; intros os w H j f Hf.
    - injection H as <- <-. destruct j; discriminate Hf.
    - destruct (runs_app _ _ _ _ _ H) as (o1 & w1 & o2 & R1 & R2 & ->). destruct (runs_cons _ _ _ _ _ R2) as (o & wb & o' & S & R3 & ->). injection R3 as <- <-.
      pose proof (IH _ _ R1) as B. assert (G : forall f0, (length (slice_of w1 f0) <= length (slice_of wb f0))%nat).
      { intros f0. unfold slice_of. destruct (f_given f0); [lia|]. rewrite (step_queue _ _ _ _ S), app_length. lia. }
      assert (Old : nth_error (w_feeds w1) j = Some f -> match f_place f with Sending i n => (i <= n /\ n <= length (slice_of wb f))%nat | _ => True end).
      { intros E. specialize (B _ _ E). destruct (f_place f); auto. specialize (G f). lia. }
      destruct e as [x|g|a|a|a]; cbn [fstep rstep f_given f_place w_feeds w_queue] in S.
      + injection S as <- <-. exact (Old Hf).
      + injection S as <- <-. cbn in Hf. destruct (Nat.lt_ge_cases j (length (w_feeds w1))) as [L|L].
        * rewrite nth_error_app1 in Hf by exact L. exact (Old Hf).
        * rewrite nth_error_app2 in Hf by exact L. destruct (j - length (w_feeds w1))%nat as [|[|]]; cbn in Hf; try discriminate Hf. injection Hf as <-. exact I.
      + destruct (nth_error (w_feeds w1) a) as [f'|] eqn:Ef; [|discriminate]. destruct (f_place f') as [|i n|] eqn:EP; try discriminate.
        * injection S as <- <-. cbn in Hf. destruct (Nat.eq_dec a j) as [->|N0]; [rewrite (set_nth_same _ _ _ _ Ef) in Hf; injection Hf as <-|rewrite set_nth_other in Hf by exact N0; exact (Old Hf)].
          cbn. split; [lia|]. unfold slice_of. cbn. lia.
        * destruct (i =? n)%nat; [|discriminate]. injection S as <- <-. cbn in Hf.
          destruct (Nat.eq_dec a j) as [->|N0]; [rewrite (set_nth_same _ _ _ _ Ef) in Hf; injection Hf as <-; exact I|rewrite set_nth_other in Hf by exact N0; exact (Old Hf)].
      + destruct (nth_error (w_feeds w1) a) as [f'|] eqn:Ef; [|discriminate]. destruct (f_place f') as [|i n|] eqn:EP; try discriminate.
        * destruct (i <? n)%nat eqn:E; [|discriminate]. apply Nat.ltb_lt in E. destruct (nth_error (slice_of w1 f') i); [|discriminate]. injection S as <- <-. cbn in Hf.
          destruct (Nat.eq_dec a j) as [->|N0]; [rewrite (set_nth_same _ _ _ _ Ef) in Hf; injection Hf as <-|rewrite set_nth_other in Hf by exact N0; exact (Old Hf)].
          specialize (B _ _ Ef). rewrite EP in B. cbn. split; [lia|]. destruct B as (_ & B). exact B.
        * injection S as <- <-. exact (Old Hf).
      + destruct (nth_error (w_feeds w1) a) as [f'|] eqn:Ef; [|discriminate]. destruct (f_given f') eqn:EG; [|discriminate]. destruct (f_place f') as [|i n|] eqn:EP; try discriminate.
        destruct (i <? n)%nat; [|discriminate]. injection S as <- <-. cbn in Hf.
        destruct (Nat.eq_dec a j) as [->|N0]; [rewrite (set_nth_same _ _ _ _ Ef) in Hf; injection Hf as <-; exact I|rewrite set_nth_other in Hf by exact N0; exact (Old Hf)]. }
  assert (Cl : forall (w0 : @world A) f, nth_error (w_feeds w0) k = Some f -> f_place f = Closed -> fruns [Receive k] w0 = Some ([(k, None)], w0)).
  { intros w0 f E P. cbn. rewrite E, P. reflexivity. }
  assert (Se : forall d (w0 : @world A) f i n, nth_error (w_feeds w0) k = Some f -> f_place f = Sending i n -> (i <= n /\ n <= length (slice_of w0 f))%nat -> (n - i = d)%nat ->
    exists es' os' w', fruns es' w0 = Some (os', w') /\ In (k, None) os' /\ Forall (fun e => e = @Go A k \/ e = Receive k) es').
  { induction d as [|d IH]; intros w0 f i n E P B D.
    - exists ([Go k] ++ [Receive k]), ([] ++ [(k, None)]), (move w0 k f Closed). split.
      + apply (runs_join _ _ _ _ (move w0 k f Closed)).
        * cbn. rewrite E, P. replace (i =? n)%nat with true by (symmetry; apply Nat.eqb_eq; lia). reflexivity.
        * apply (Cl (move w0 k f Closed) (Feed (f_given f) Closed)); [exact (set_nth_same _ _ _ _ E)|reflexivity].
      + split; [left; reflexivity|]. constructor; [auto|constructor; [auto|constructor]].
    - destruct (nth_error (slice_of w0 f) i) as [x|] eqn:Ex; [|apply nth_error_None in Ex; lia].
      destruct (IH (move w0 k f (Sending (S i) n)) (Feed (f_given f) (Sending (S i) n)) (S i) n) as (es' & os' & w' & R & I & F).
      + exact (set_nth_same _ _ _ _ E).
      + reflexivity.
      + split; [lia|]. exact (proj2 B).
      + lia.
      + exists (Receive k :: es'), ([(k, Some x)] ++ os'), w'. split; [|split; [right; exact I|constructor; auto]].
        change (Receive k :: es') with ([Receive k] ++ es'). apply (runs_join _ _ _ _ (move w0 k f (Sending (S i) n))); [|exact R].
        cbn [fruns fstep]. rewrite E, P. replace (i <? n)%nat with true by (symmetry; apply Nat.ltb_lt; lia). rewrite Ex. reflexivity. }
  destruct (nth_error (w_feeds w) k) as [f|] eqn:E; [|apply nth_error_None in E; lia].
  destruct (f_place f) as [|i n|] eqn:P.
  - destruct (Se (length (slice_of w f)) (move w k f (Sending 0 (length (slice_of w f)))) (Feed (f_given f) (Sending 0 (length (slice_of w f)))) 0%nat (length (slice_of w f))) as (es' & os' & w' & R & I & F).
    + exact (set_nth_same _ _ _ _ E).
    + reflexivity.
    + split; [lia|]. unfold slice_of. cbn. lia.
    + lia.
    + exists (Go k :: es'), ([] ++ os'), w'. split; [|split; [exact I|constructor; auto]].
      change (Go k :: es') with ([Go k] ++ es'). apply (runs_join _ _ _ _ (move w k f (Sending 0 (length (slice_of w f))))); [|exact R].
      cbn. rewrite E, P. reflexivity.
  - pose proof (BL _ _ E) as B. rewrite P in B. exact (Se _ _ _ _ _ E P B eq_refl).
  - exists [Receive k], [(k, None)], w. split; [apply (Cl _ _ E P)|]. split; [left; reflexivity|]. constructor; [auto|constructor].
Qed.
Print Assumptions C73_ends.

(** Three elements queued, two calls, the second goroutine reaches its loop one element later. *)
Definition C73_events : list (@event nat) :=
  [Append 10; Call None; Append 11; Go 0; Call None; Append 12; Go 1; Receive 0; Append 13; Receive 1; Receive 0; Receive 1; Go 0; Receive 0].
Example C73_instance_snapshot : exists os w, fruns C73_events (World [] []) = Some (os, w)
  /\ values 0 os = [10; 11] /\ In (0%nat, None) os /\ values 1 os = [10; 11]
  /\ C73_events = [Append 10; Call None; Append 11] ++ Go 0 :: skipn 4 C73_events.
Proof. eexists. eexists. split; [vm_compute; reflexivity|]. vm_compute. intuition auto 10. Qed.
Example C73_instance_given : exists os w, fruns [Call (Some [1; 2; 3]); Go 0; Receive 0; Receive 0; Cancel 0; Receive 0] (World [] []) = Some (os, w)
  /\ values 0 os = [1; 2]%nat /\ In (0%nat, None) os.
Proof. eexists. eexists. split; [vm_compute; reflexivity|]. vm_compute. intuition auto 10. Qed.
Example C73_instance_ends : exists os w, fruns (firstn 10 C73_events) (World [] []) = Some (os, w) /\ (1 < length (calls (firstn 10 C73_events)))%nat /\ ~ In (1%nat, None) os.
Proof. eexists. eexists. split; [vm_compute; reflexivity|]. vm_compute. split; [lia|]. intuition discriminate. Qed.

(** Missing, and false: every queued element is received exactly once by a program that calls the
    function and receives until the channel is closed. An element queued in between is not received
    at all; if it calls again, the old elements are received again. *)
Theorem C73_late_refuted : exists (es : list (@event nat)) os w, fruns es (World [] []) = Some (os, w)
  /\ (forall k, (k < length (calls es))%nat -> In (k, None) os)
  /\ In 2 (appended es) /\ forall k, ~ In 2 (values k os).
Proof.
  exists [Append 1; Call None; Go 0; Append 2; Receive 0; Go 0; Receive 0]. eexists. eexists. split; [vm_compute; reflexivity|].
  repeat split.
  - intros k L. cbn in L. replace k with 0%nat by lia. cbn. auto.
  - cbn. auto.
  - intros k I. cbn in I. destruct k; cbn in I; intuition discriminate.
Qed.
Print Assumptions C73_late_refuted.
Theorem C73_twice_refuted : exists (es : list (@event nat)) os w, fruns es (World [] []) = Some (os, w)
  /\ appended es = [1] /\ values 0 os = [1] /\ values 1 os = [1].
Proof. exists [Append 1; Call None; Go 0; Receive 0; Go 0; Receive 0; Call None; Go 1; Receive 1]. eexists. eexists. repeat split; vm_compute; reflexivity. Qed.
Print Assumptions C73_twice_refuted.

(** ** announcements *)
Section Relays.
Context {A : Type}.
Implicit Types (s : @relay A).
Lemma set_held_split k (h x : option A) l : nth_error l k = Some x ->
  exists a b, l = a ++ x :: b /\ set_held k h l = a ++ h :: b.
Proof.
  revert k. induction l as [|c l IH]; intros [|k] H; cbn in *; try discriminate.
  - injection H as ->. exists [], l. auto.
  - destruct (IH _ H) as (a & b & -> & E). exists (c :: a), b. cbn. rewrite E. auto.
Qed.
Lemma rruns_cons e es s os s' : rruns (e :: es) s = Some (os, s') ->
  exists o s1 o', rstep e s = Some (o, s1) /\ rruns es s1 = Some (o', s') /\ os = o ++ o'.
Proof.
  cbn [rruns]. destruct (rstep e s) as [(o & s1)|]; [|discriminate]. destruct (rruns es s1) as [(o' & s2)|] eqn:E; [|discriminate].
  intros H. injection H as <- <-. exists o, s1, o'. auto.
Qed.
Lemma relay_step e s o s' : rstep e s = Some (o, s') ->
  Permutation (waiting s ++ r_buffer s ++ announced [e]) (map snd o ++ waiting s' ++ r_buffer s').
Proof.
  destruct e as [x| |k|k]; cbn [rstep]; intros H.
  - destruct (_ <? _)%nat; [|discriminate]. injection H as <- <-. cbn. unfold waiting. cbn. apply Permutation_refl.
  - injection H as <- <-. unfold waiting. cbn. rewrite flat_map_app. cbn. rewrite !app_nil_r. apply Permutation_refl.
  - destruct (nth_error (r_held s) k) as [[y|]|] eqn:E; try discriminate. destruct (r_buffer s) as [|x b] eqn:B; [discriminate|]. injection H as <- <-.
    destruct (set_held_split k (Some x) None _ E) as (l & r & HL & HR). unfold waiting. cbn. rewrite HR, HL, !flat_map_app. cbn. rewrite app_nil_r, <- !app_assoc.
    apply Permutation_app_head. cbn. rewrite <- Permutation_middle. apply Permutation_refl.
  - destruct (nth_error (r_held s) k) as [[x|]|] eqn:E; try discriminate. injection H as <- <-.
    destruct (set_held_split k None (Some x) _ E) as (l & r & HL & HR). unfold waiting. cbn. rewrite HR, HL, !flat_map_app. cbn. rewrite app_nil_r, <- !app_assoc.
    cbn. rewrite <- Permutation_middle. apply Permutation_refl.
Qed.
End Relays.

(** Every announcement goes to exactly one listener: what was announced is what was received by
    anyone, what a goroutine holds and what is in the queue. *)
Theorem C73_announced_once A (es : list (@revent A)) os s :
  rruns es (Relay [] []) = Some (os, s) -> Permutation (announced es) (map snd os ++ waiting s ++ r_buffer s).
Proof.
  assert (G : forall s0 os0, rruns es s0 = Some (os0, s) -> Permutation (waiting s0 ++ r_buffer s0 ++ announced es) (map snd os0 ++ waiting s ++ r_buffer s)).
  { clear os. induction es as [|e es IH]; intros s0 os0 H.
    - injection H as <- <-. cbn. rewrite app_nil_r. apply Permutation_refl.
    - destruct (rruns_cons _ _ _ _ _ H) as (o & s1 & o' & S & R & ->). pose proof (relay_step _ _ _ _ S) as P. specialize (IH _ _ R).
      rewrite map_app, <- app_assoc. rewrite <- IH. rewrite (app_assoc (waiting s1)), (app_assoc (map snd o)), <- P.
      unfold announced. cbn [flat_map]. rewrite app_nil_r, <- !app_assoc. apply Permutation_refl. }
  intros H. apply (G _ _ H).
Qed.
Print Assumptions C73_announced_once.

(** With a single listener they are received in the order announced. *)
Theorem C73_announced_order A (es : list (@revent A)) os s :
  rruns (Listen :: es) (Relay [] []) = Some (os, s) -> ~ In Listen es ->
  announced es = map snd os ++ waiting s ++ r_buffer s.
Proof.
  assert (G : forall s0 os0 h, rruns es s0 = Some (os0, s) -> ~ In Listen es -> r_held s0 = [h] -> waiting s0 ++ r_buffer s0 ++ announced es = map snd os0 ++ waiting s ++ r_buffer s).
  { clear os. induction es as [|e es IH]; intros s0 os0 h H HN HH.
    - injection H as <- <-. cbn. rewrite app_nil_r. reflexivity.
    - destruct (rruns_cons _ _ _ _ _ H) as (o & s1 & o' & S & R & ->).
      assert (HN' : ~ In Listen es) by (intros I; apply HN; right; exact I).
      rewrite map_app, <- app_assoc. destruct e as [x| |k|k]; cbn [fstep rstep f_given f_place w_feeds w_queue] in S.
      + destruct (_ <? _)%nat; [|discriminate]. injection S as <- <-. rewrite <- (IH _ _ h R HN' HH). unfold waiting. cbn. rewrite <- app_assoc. reflexivity.
      + exfalso. apply HN. left. reflexivity.
      + rewrite HH in S. destruct k as [|[|]]; cbn [fstep rstep f_given f_place w_feeds w_queue] in S; try discriminate. destruct h; [discriminate|]. destruct (r_buffer s0) as [|x b] eqn:B; [discriminate|]. injection S as <- <-.
        rewrite <- (IH _ _ (Some x) R HN' eq_refl). unfold waiting. rewrite HH. reflexivity.
      + rewrite HH in S. destruct k as [|[|]]; cbn [fstep rstep f_given f_place w_feeds w_queue] in S; try discriminate. destruct h as [x|]; [|discriminate]. injection S as <- <-.
        rewrite <- (IH _ _ None R HN' eq_refl). unfold waiting. rewrite HH. reflexivity. }
  intros H HN. destruct (rruns_cons _ _ _ _ _ H) as (o & s1 & o' & S & R & ->). cbn [fstep rstep f_given f_place w_feeds w_queue] in S. injection S as <- <-. exact (G _ _ None R HN eq_refl).
Qed.
Print Assumptions C73_announced_order.

(** The queue holds eight: an announcement has to wait exactly when eight have not been taken. *)
Theorem C73_capacity A (es : list (@revent A)) os s x :
  rruns es (Relay [] []) = Some (os, s) ->
  (length (announced es) <= length os + length (waiting s) + 8)%nat
  /\ (rruns (es ++ [Announce x]) (Relay [] []) = None <-> length (announced es) = (length os + length (waiting s) + 8)%nat).
Proof.
  intros H. pose proof (Permutation_length (C73_announced_once _ _ _ _ H)) as L. rewrite !app_length, map_length in L.
  assert (B : (length (r_buffer s) <= 8)%nat).
  { assert (G : forall l s0 o, rruns l s0 = Some (o, s) -> (length (r_buffer s0) <= 8)%nat -> (length (r_buffer s) <= 8)%nat).
    { clear. induction l as [|e l IH]; intros s0 o H L; [injection H as <- <-; exact L|].
      destruct (rruns_cons _ _ _ _ _ H) as (o1 & s1 & o' & S & R & ->). apply (IH _ _ R). destruct e as [x| |k|k]; cbn [rstep] in S.
      - destruct (Nat.ltb_spec (length (r_buffer s0)) 8); [|discriminate]. injection S as <- <-. cbn [r_buffer]. rewrite app_length. cbn. lia.
      - injection S as <- <-. exact L.
      - destruct (nth_error _ _) as [[?|]|]; try discriminate. destruct (r_buffer s0) as [|y b]; [discriminate|]. injection S as <- <-. cbn in L |- *. lia.
      - destruct (nth_error _ _) as [[?|]|]; try discriminate. injection S as <- <-. exact L. }
    apply (G _ _ _ H). cbn. lia. }
  split; [lia|].
  assert (K : forall l s0 o, rruns l s0 = Some (o, s) -> (rruns (l ++ [Announce x]) s0 = None <-> length (r_buffer s) = 8%nat)).
  { clear - B. induction l as [|e l IH]; intros s0 o H.
    - injection H as <- <-. cbn [app rruns rstep]. destruct (Nat.ltb_spec (length (r_buffer s0)) 8); (split; intros X; [try discriminate X|]; lia || reflexivity).
    - destruct (rruns_cons _ _ _ _ _ H) as (o1 & s1 & o' & S & R & ->). specialize (IH _ _ R). cbn [app rruns]. rewrite S.
      destruct (rruns (l ++ [Announce x]) s1) as [(a & b)|]; [|exact IH]. rewrite <- IH. split; discriminate. }
  rewrite (K _ _ _ H). lia.
Qed.
Print Assumptions C73_capacity.
Example C73_instance_capacity : exists os s, rruns (Listen :: map Announce (seq 0 8) ++ [Take 0; Announce 8%nat]) (Relay [] []) = Some (os, s)
  /\ length (r_buffer s) = 8%nat /\ rruns (Listen :: map Announce (seq 0 8) ++ [Announce 8%nat]) (Relay [] []) = None.
Proof. eexists. eexists. repeat split; vm_compute; reflexivity. Qed.

(** Two listeners: each gets a part. *)
Example C73_instance_announced : exists os s, rruns [Listen; Listen; Announce 1; Announce 2; Announce 3; Take 1; Take 0; Pass 0; Take 0; Pass 0] (Relay [] []) = Some (os, s)
  /\ os = [(0%nat, 2); (0%nat, 3)] /\ waiting s = [1].
Proof. eexists. eexists. repeat split; vm_compute; reflexivity. Qed.
Example C73_instance_order : exists os s, rruns [Listen; Announce 1; Take 0; Announce 2; Pass 0; Take 0; Pass 0; Announce 3] (Relay [] []) = Some (os, s)
  /\ map snd os = [1; 2] /\ r_buffer s = [3].
Proof. eexists. eexists. repeat split; vm_compute; reflexivity. Qed.
