(** C71: streams of messages. *)
From Verif Require Import Base M_Order M_Encoding M_Paths M_Ranges M_Areas M_Entry M_Stream M_Wire M_Rel M_Wire2 M_Messages
  S_Wire P_Order P_Encoding P_Paths P_Wire P_Wire2 Prop_Wire Prop_Wire2.
Local Open Scope N_scope.

Section C71.
Context {G K Sig RC RS ST F T : Type}.
Notation msg := (message G K Sig RC RS ST F T).
Variable X : schemes G K Sig ST F T.
Notation step := (@decode_step G K Sig RC RS ST F T X).

(** Messages for which the two ends agree: absolve, plead, announce dropping and apologise on a
    logical channel, free with the owner flag, fragments and payload replies. *)
Definition deliverable (m : msg) : Prop :=
  match m with
  | MAbsolve m => ma_kind m = ControlAbsolve /\ logical (ma_channel m) /\ ma_amount m < 2 ^ 64
  | MPlead m => ma_kind m = ControlPlead /\ logical (ma_channel m) /\ ma_amount m < 2 ^ 64
  | MDropping m => mc_kind m = ControlAnnounceDropping /\ logical (mc_channel m)
  | MApologise m => mc_kind m = ControlApologise /\ logical (mc_channel m)
  | MFree m => mf_kind m = ControlFree /\ mf_mine m = true /\ mf_handle m < 2 ^ 64
  | MBindFragment m => codec_ok (x_group X) (mb_member m)
  | MReplyPayload h => h < 2 ^ 64
  | _ => False
  end.

(** Any number of iterations of the receiving loop: what it puts out. *)
Inductive runs : tracker -> stream -> list (option msg) -> tracker -> stream -> Prop :=
| runs_nil t s : runs t s [] t s
| runs_step current tf t s o t1 s1 o' t' s' :
    step current tf t s = Ok (o, t1, s1) -> runs t1 s1 o' t' s' -> runs t s (o ++ o') t' s'.

(** What a receiver of [ms] puts out: each message, and a nil after it. *)
Definition put_out (ms : list msg) : list (option msg) := flat_map (fun m => [Some m; None]) ms.

Lemma first_byte s h t rest : total s = (h :: t) ++ rest ->
  exists s1, NextAbsolute 1 s = Ok (g_array s1, s1) /\ total s1 = total s /\ index (g_array s1) 0 = Ok h.
Proof.
  intros E. destruct (NextAbsolute_spec 1 s) as (s1 & E1 & T1 & L1).
  { rewrite E. unfold len. cbn [app length]. lia. }
  exists s1. split; auto. split; auto. rewrite index_total by lia. rewrite T1, E. reflexivity.
Qed.

Lemma deliver t m : deliverable m -> forall current0, exists b, encode_message X current0 t m = Ok (b, t)
  /\ forall s rest, total s = b ++ rest -> exists s', total s' = rest
     /\ forall current tf t, step current tf t s = Ok ([Some m; None], t, s').
Proof.
  intros D current0.
  assert (H : forall (A : Type) (dec : stream -> res (A * stream)) (b : bytes) (a : A) (mk : A -> msg) k,
    decodes dec b a ->
    (forall aw n, dispatches b aw n k) ->
    (forall current tf t s s1 h, NextAbsolute 1 s = Ok (g_array s1, s1) -> index (g_array s1) 0 = Ok h ->
       dispatch h (tr_awaiting t) (tr_remaining t) = Calls k ->
       step current tf t s = do (m, s') <- dec s1; Ok ([Some (mk m); None], t, s')) ->
    forall s rest, total s = b ++ rest -> exists s', total s' = rest
      /\ forall current tf t, step current tf t s = Ok ([Some (mk a); None], t, s')).
  { intros A dec b a mk k HD HK HS s rest E. destruct (HK true 0) as (h & u & -> & _).
    destruct (first_byte s h u rest E) as (s1 & E1 & T1 & I1).
    destruct (HD s1 rest) as (s' & E2 & T2). { rewrite T1. exact E. }
    exists s'. split; auto. intros current tf t0.
    rewrite (HS current tf t0 s s1 h E1 I1).
    - rewrite E2. reflexivity.
    - destruct (HK (tr_awaiting t0) (tr_remaining t0)) as (h' & u' & Q & R). injection Q as <- _. exact R. }
  destruct C46_dispatch_partial as (H1 & H2 & H3 & H4 & _ & _ & H7 & _).
  destruct C41_control_partial as (B1 & B2 & B3 & B4 & _ & B6).
  destruct m as [a|a|a|a|a|a|n|a|a|a|a|a|a|a|a|a|a|a| |a|a|a|a|h]; try contradiction D; cbn [deliverable] in D; cbn [encode_message].
  - destruct a as [k c x]. cbn [ma_kind ma_channel ma_amount] in D. destruct D as (-> & D2 & D3). eexists. split; [reflexivity|].
    apply H with (dec := DecodeControlAbsolve) (k := ControlAbsolve); [apply B1; auto|intros; apply H1|].
    intros current tf t0 s s1 h E1 I1 E2. unfold decode_step. rewrite E1. cbn [bind]. rewrite I1. cbn [bind]. rewrite E2. reflexivity.
  - destruct a as [k c x]. cbn [ma_kind ma_channel ma_amount] in D. destruct D as (-> & D2 & D3). eexists. split; [reflexivity|].
    apply H with (dec := DecodeControlPlead) (k := ControlPlead); [apply B2; auto|intros; apply H1|].
    intros current tf t0 s s1 h E1 I1 E2. unfold decode_step. rewrite E1. cbn [bind]. rewrite I1. cbn [bind]. rewrite E2. reflexivity.
  - destruct a as [k c]. cbn [mc_kind mc_channel] in D. destruct D as (-> & D2). eexists. split; [reflexivity|].
    apply H with (dec := DecodeControlAnnounceDropping) (k := ControlAnnounceDropping); [apply B3; auto|intros; apply H2|].
    intros current tf t0 s s1 h E1 I1 E2. unfold decode_step. rewrite E1. cbn [bind]. rewrite I1. cbn [bind]. rewrite E2. reflexivity.
  - destruct a as [k c]. cbn [mc_kind mc_channel] in D. destruct D as (-> & D2). eexists. split; [reflexivity|].
    apply H with (dec := DecodeControlApologise) (k := ControlApologise); [apply B4; auto|intros; apply H2|].
    intros current tf t0 s s1 h E1 I1 E2. unfold decode_step. rewrite E1. cbn [bind]. rewrite I1. cbn [bind]. rewrite E2. reflexivity.
  - destruct a as [k hd mine ty]. cbn [mf_kind mf_mine mf_handle] in D. destruct D as (-> & -> & D3). eexists. split; [reflexivity|].
    apply H with (dec := DecodeControlFree) (k := ControlFree); [apply B6; auto|intros; apply H3|].
    intros current tf t0 s s1 h E1 I1 E2. unfold decode_step. rewrite E1. cbn [bind]. rewrite I1. cbn [bind]. rewrite E2. reflexivity.
  - eexists. split; [reflexivity|].
    apply H with (dec := DecodePaiBindFragment (x_group X)) (k := PaiBindFragment); [apply bind_fragment_decodes; auto|intros; apply H7|].
    intros current tf t0 s s1 h E1 I1 E2. unfold decode_step. rewrite E1. cbn [bind]. rewrite I1. cbn [bind]. rewrite E2. reflexivity.
  - eexists. split; [reflexivity|].
    apply H with (dec := DecodeDataReplyPayload) (k := DataReplyPayload); [apply reply_payload_decodes; auto|intros; apply H4|].
    intros current tf t0 s s1 h0 E1 I1 E2. unfold decode_step. rewrite E1. cbn [bind]. rewrite I1. cbn [bind]. rewrite E2. reflexivity.
Qed.

Definition on (c : channel) (f : frame) : bool := match c, fr_channel f with
  | ControlChannel, ControlChannel | ReconciliationChannel, ReconciliationChannel | DataChannel, DataChannel
  | IntersectionChannel, IntersectionChannel | CapabilityChannel, CapabilityChannel | AreaOfInterestChannel, AreaOfInterestChannel
  | PayloadRequestChannel, PayloadRequestChannel | StaticTokenChannel, StaticTokenChannel => true
  | _, _ => false end.
(** The logical channel of a message: control messages have channel 0. *)
Definition belongs (c : channel) (m : msg) : bool := match c, m with
  | IntersectionChannel, (MBindFragment _ | MReplyFragment _) => true
  | CapabilityChannel, MReadCap _ | AreaOfInterestChannel, MAoi _ | StaticTokenChannel, MStatic _ => true
  | ReconciliationChannel, (MFingerprint _ | MAnnounce _ | MEntry _ | MPayload _ | MTerminate) => true
  | DataChannel, (MDataEntry _ | MDataPayload _ | MReplyPayload _) => true
  | PayloadRequestChannel, MRequestPayload _ => true
  | ControlChannel, (MGuarantee _ | MAbsolve _ | MPlead _ | MDropping _ | MApologise _ | MFree _ | MReveal _
      | MRequestCap _ | MReplyCap _ | MMetadata _) => true
  | _, _ => false end.
Definition sent_on (c : channel) (e : @encoder) : bytes := concat (map fr_bytes (filter (on c) (en_sent e))).

(** The Kind field of the message is that of its type. *)
Definition proper (m : msg) : Prop := match m with
  | MGuarantee m => ma_kind m = ControlIssueGuarantee | MAbsolve m => ma_kind m = ControlAbsolve | MPlead m => ma_kind m = ControlPlead
  | MDropping m => mc_kind m = ControlAnnounceDropping | MApologise m => mc_kind m = ControlApologise | MFree m => mf_kind m = ControlFree
  | _ => True end.

(** Every message that is encoded makes one frame, behind the others, on the channel it belongs to. *)
Theorem C71_channel current m e e' : proper m -> Encode X current m e = Ok e' ->
  exists f, en_sent e' = en_sent e ++ [f] /\ forall c, on c f = belongs c m.
Proof.
  intros P E. unfold Encode in E. destruct (encode_message X current (en_tracker e) m) as [[b t]| | | |]; try discriminate E.
  cbn [bind] in E. injection E as <-. cbn [en_sent]. eexists. split; [reflexivity|]. intros c. unfold on. cbn [fr_channel].
  destruct m as [a|a|a|a|a|a|n|a|a|a|a|a|a|a|a|a|a|a| |a|a|a|a|h]; cbn [proper] in P; cbn [GetKind]; try rewrite P; destruct c; reflexivity.
Qed.

Lemma put_out_cons m ms : put_out (m :: ms) = [Some m; None] ++ put_out ms.
Proof. reflexivity. Qed.

Lemma deliver_all ms : Forall deliverable ms -> forall bs, Forall2 (fun m b => forall s rest, total s = b ++ rest ->
     exists s', total s' = rest /\ forall current tf t, step current tf t s = Ok ([Some m; None], t, s')) ms bs ->
  forall t s, total s = concat bs ->
    (exists s', runs t s (put_out ms) t s' /\ total s' = [] /\ forall current tf t', step current tf t' s' = Hang)
    /\ (forall o t' s', runs t s o t' s' -> t' = t /\ exists ms1 ms2, ms = ms1 ++ ms2 /\ o = put_out ms1).
Proof.
  intros D bs H. induction H as [|m b ms bs H1 H IH]; intros t s E.
  - cbn [concat] in E. assert (HH : forall current tf t', step current tf t' s = Hang).
    { intros current tf t'. unfold decode_step. replace (NextAbsolute 1 s) with (Hang : res (bytes * stream)); [reflexivity|].
      unfold NextAbsolute. destruct (match g_sched s with [] => (O, O) | x :: _ => x end) as [before after].
      set (s1 := arrive before _). assert (T1 : total s1 = []) by (unfold s1; rewrite total_arrive; exact E). clearbody s1.
      unfold total in T1. apply app_eq_nil in T1 as [-> ->]. reflexivity. }
    split.
    + exists s. split; [constructor|]. auto.
    + intros o t' s' R. destruct R as [|current tf t s o t1 s1 o' t' s' E1]; [|rewrite HH in E1; discriminate E1].
      split; auto. exists [], []. auto.
  - inversion D as [|? ? D1 D2]; subst. cbn [concat] in E. destruct (H1 s _ E) as (s1 & T1 & S1).
    destruct (IH D2 t s1 T1) as [(s' & R & T' & W) A]. split.
    + exists s'. split; [|auto]. rewrite put_out_cons. eapply runs_step; [apply (S1 zero_entry true)|exact R].
    + intros o t' s2 R2. destruct R2 as [t s|current tf t s o t1 sx o' t' s2 E1 R2].
      { split; auto. exists [], (m :: ms). auto. }
      rewrite S1 in E1. injection E1 as <- <- <-. destruct (A _ _ _ R2) as (-> & ms1 & ms2 & -> & ->). split; auto.
      exists (m :: ms1), ms2. auto.
Qed.

Lemma encode_all_spec ms : Forall (fun p => deliverable (snd p)) ms -> forall e, exists e',
  encode_all X ms e = Ok e' /\ exists fs, en_sent e' = en_sent e ++ fs /\ en_tracker e' = en_tracker e
  /\ Forall2 (fun p f => (forall c, on c f = belongs c (snd p)) /\ forall s rest, total s = fr_bytes f ++ rest ->
     exists s', total s' = rest /\ forall current tf t, step current tf t s = Ok ([Some (snd p); None], t, s')) ms fs.
Proof.
  induction ms as [|[current m] ms IH]; intros D e.
  - exists e. split; [reflexivity|]. exists []. rewrite app_nil_r. auto.
  - inversion D as [|? ? D1 D2]; subst. cbn [snd] in D1. destruct (deliver (en_tracker e) m D1 current) as (b & E & H).
    cbn [encode_all]. unfold Encode. rewrite E. cbn [bind].
    destruct (IH D2 (Encoder (en_tracker e) (en_sent e ++ [Frame (MsgLogicalChannels (GetKind m)) b]))) as (e' & E' & fs & F1 & F2 & F3).
    exists e'. split; auto. cbn [en_sent en_tracker] in F1, F2. exists (Frame (MsgLogicalChannels (GetKind m)) b :: fs).
    rewrite F1, <- app_assoc. split; auto. split; auto. constructor; auto. cbn [snd fr_bytes]. split; auto.
    intros c. unfold on. cbn [fr_channel].
    destruct m as [a|a|a|a|a|a|n|a|a|a|a|a|a|a|a|a|a|a| |a|a|a|a|h]; try contradiction D1; cbn [deliverable] in D1; cbn [GetKind];
      try (destruct D1 as (-> & _)); destruct c; reflexivity.
Qed.

Lemma filter_both {A B} (f : A -> bool) (g : B -> bool) (P : A -> B -> Prop) l l' :
  Forall2 (fun a b => g b = f a /\ P a b) l l' -> Forall2 P (filter f l) (filter g l').
Proof.
  induction 1 as [|a b l l' [E H] _ IH]; cbn [filter]; [constructor|]. rewrite E. destruct (f a); auto.
Qed.

(** Whatever messages of these kinds are encoded, in any order and number, by an encoder in any
    state: the bytes of each channel, arriving in any pieces, are decoded as the messages of that
    channel, in order, each followed by nil, and nothing else; then the loop waits. *)
Theorem C71_stream_partial ms e : Forall (fun p => deliverable (snd p)) ms -> en_sent e = [] ->
  exists e', encode_all X ms e = Ok e' /\ length (en_sent e') = length ms
    /\ forall c t s, total s = sent_on c e' ->
       let mine := filter (belongs c) (map snd ms) in
       (exists s', runs t s (put_out mine) t s' /\ total s' = [] /\ forall current tf t', step current tf t' s' = Hang)
       /\ (forall o t' s', runs t s o t' s' -> exists ms1 ms2, mine = ms1 ++ ms2 /\ o = put_out ms1).
Proof.
  intros D E0. destruct (encode_all_spec ms D e) as (e' & E & fs & F1 & F2 & F3). exists e'. split; auto.
  rewrite E0 in F1. cbn [app] in F1. rewrite F1. split; [symmetry; clear -F3; induction F3; cbn [length]; congruence|].
  intros c t s TS. unfold sent_on in TS. rewrite F1 in TS. cbn zeta.
  assert (F4 : Forall2 (fun m f => on c f = belongs c m /\ forall s rest, total s = fr_bytes f ++ rest ->
     exists s', total s' = rest /\ forall current tf t, step current tf t s = Ok ([Some m; None], t, s')) (map snd ms) fs).
  { clear -F3. induction F3 as [|p f ms fs [A B] _ IH]; cbn [map]; constructor; auto. }
  apply filter_both in F4.
  assert (D' : Forall deliverable (filter (belongs c) (map snd ms))).
  { apply Forall_forall. intros m Hm. apply filter_In in Hm as [Hm _]. apply in_map_iff in Hm as (p & <- & Hp).
    rewrite Forall_forall in D. apply D. exact Hp. }
  destruct (deliver_all _ D' (map fr_bytes (filter (on c) fs))) with (t := t) (s := s) as [A B]; auto.
  { clear -F4. induction F4; cbn [map]; constructor; auto. }
  split; auto. intros o t' s' R. destruct (B _ _ _ R) as [_ Q]. exact Q.
Qed.

(** ** What is never received *)
Lemma request_never current s : forall m s', DecodeDataBindPayloadRequest (x_ns X) (x_ss X) nil_codec (x_pp X) (x_handles_area X) (x_handles_ns X) current s <> Ok (m, s').
Proof.
  intros m s' E. unfold DecodeDataBindPayloadRequest in E.
  destruct (NextAbsolute 2 s) as [[b s1]| | | |]; try discriminate E; cbn [bind] in E.
  destruct (index b 0); try discriminate E; cbn [bind] in E. destruct (index b 1) as [second| | | |]; try discriminate E; cbn [bind] in E.
  destruct (NextAbsolute _ s1) as [[b1 s2]| | | |]; try discriminate E; cbn [bind] in E.
  destruct (slice b1 2 _); try discriminate E; cbn [bind] in E.
  match type of E with (do o <- ?r; _) = _ => destruct r; try discriminate E; cbn [bind] in E end.
  match type of E with (do (e, s3) <- ?r; _) = _ => destruct r as [[e s3]| | | |] eqn:E1; try discriminate E; clear E end.
  unfold decode_sent_entry in E1. destruct (has second 16).
  - unfold DecodeStreamEntryRelativeEntry in E1.
    repeat match type of E1 with
    | (do _ <- ?r; _) = _ => let v := fresh "v" in destruct r as [v| | | |]; [|discriminate E1..]; try destruct v; cbn [bind c_dec nil_codec] in E1; try discriminate E1
    end.
  - destruct (NextAbsolute _ _) as [[b2 s4]| | | |]; try discriminate E1; cbn [bind] in E1.
    destruct (slice b2 0 _); try discriminate E1; cbn [bind] in E1. destruct (slice b2 _ _); try discriminate E1; cbn [bind] in E1.
    unfold DecodeStreamEntryInNamespaceArea in E1.
    repeat match type of E1 with
    | (do _ <- ?r; _) = _ => let v := fresh "v" in destruct r as [v| | | |]; [|discriminate E1..]; try destruct v; cbn [bind c_dec nil_codec] in E1; try discriminate E1
    | (if ?c then _ else _) = _ => destruct c
    end.
Qed.

(** The kinds that can come out of the loop. *)
Definition receivable (m : msg) : Prop :=
  match m with
  | MGuarantee _ | MAbsolve _ | MPlead _ | MDropping _ | MApologise _ | MFree _
  | MBindFragment _ | MReplyFragment _ | MRequestCap _ | MReplyCap _ | MFingerprint _ | MReplyPayload _ => True
  | _ => False
  end.

Lemma dispatch_idle h k : dispatch h false 0 = Calls k ->
  k <> ReconciliationSendPayload /\ k <> ReconciliationSendEntry.
Proof.
  unfold dispatch. intros H. change (0 <? 0) with false in H.
  repeat (match type of H with context[if ?c then _ else _] => destruct c end;
    try (injection H as <-; split; discriminate); try discriminate H).
Qed.
Lemma dispatch_no_report h k : dispatch h false 0 <> Reports k.
Proof.
  unfold dispatch. intros H. change (0 <? 0) with false in H.
  repeat (match type of H with context[if ?c then _ else _] => destruct c end; try discriminate H).
Qed.

Lemma step_idle current tf t s o t' s' : tr_awaiting t = false -> tr_remaining t = 0 -> step current tf t s = Ok (o, t', s') ->
  tr_awaiting t' = false /\ tr_remaining t' = 0 /\ forall m, In (Some m) o -> receivable m.
Proof.
  intros A R E. unfold decode_step in E. destruct (NextAbsolute 1 s) as [[b s1]| | | |]; try discriminate E. cbn [bind] in E.
  destruct (index b 0) as [h| | | |]; try discriminate E. cbn [bind] in E. rewrite A, R in E.
  destruct (dispatch h false 0) as [k|k|] eqn:D.
  - destruct (dispatch_idle h k D) as [K1 K2].
    destruct k; try (exfalso; congruence);
      match type of E with
      | (do (_, _) <- DecodeDataBindPayloadRequest ?a ?b0 ?c ?d ?e ?f ?g ?i; _) = _ =>
          destruct (DecodeDataBindPayloadRequest a b0 c d e f g i) as [[m sx]| | | |] eqn:ER; try discriminate E;
          exfalso; eapply request_never; exact ER
      | (do (_, _) <- ?r; _) = _ => destruct r as [[m sx]| | | |]; try discriminate E; cbn [bind] in E; injection E as <- <- <-;
          split; [exact A|split; [exact R|]]; intros m' [H|[H|[]]]; try discriminate H; injection H as <-; exact I
      | Ok _ = _ => injection E as <- <- <-; split; [exact A|split; [exact R|]]; intros m' [H|[]]; discriminate H
      | _ => discriminate E
      end.
  - exfalso. apply (dispatch_no_report h k). exact D.
  - injection E as <- <- <-. split; auto. split; auto. intros m' [H|[]]; discriminate H.
Qed.

(** Whatever arrives, in whatever pieces: the loop never puts out an announcement of entries, an
    entry, a payload or its termination, a payload request, metadata, a setup message or a
    commitment. *)
Theorem C71_silent s o t' s' : runs (NewReconcileMsgTracker X) s o t' s' -> forall m, In (Some m) o -> receivable m.
Proof.
  assert (H : forall t s o t' s', runs t s o t' s' -> tr_awaiting t = false -> tr_remaining t = 0 ->
     forall m, In (Some m) o -> receivable m).
  { intros t s0 o0 t0 s1 R. induction R as [|current tf t s0 o0 t1 s1 o' t2 s2 E _ IH]; intros A B m Hm; [destruct Hm|].
    destruct (step_idle _ _ _ _ _ _ _ A B E) as (A1 & B1 & C). apply in_app_or in Hm as [Hm|Hm]; auto. }
  intros R. apply (H _ _ _ _ _ R); reflexivity.
Qed.

(** A message for which the loop has no decoder stops it: it puts out nil for ever and takes
    nothing from the stream, so that nothing behind that message is ever received. *)
Theorem C71_spin t s h rest : total s = h :: rest -> dispatch h (tr_awaiting t) (tr_remaining t) = Nothing ->
  (forall n, exists s', runs t s (repeat None n) t s')
  /\ (forall o t' s', runs t s o t' s' -> t' = t /\ total s' = h :: rest /\ forall x, In x o -> x = None).
Proof.
  intros E D.
  assert (S1 : forall s, total s = h :: rest -> exists s1, total s1 = h :: rest /\ forall current tf, step current tf t s = Ok ([None], t, s1)).
  { intros s0 E0. destruct (first_byte s0 h [] rest E0) as (s1 & E1 & T1 & I1). exists s1. split; [congruence|].
    intros current tf. unfold decode_step. rewrite E1. cbn [bind]. rewrite I1. cbn [bind]. rewrite D. reflexivity. }
  split.
  - intros n. revert s E. induction n as [|n IH]; intros s E; [exists s; constructor|].
    destruct (S1 s E) as (s1 & T1 & H). destruct (IH s1 T1) as (s' & R). exists s'.
    change (repeat None (S n)) with ([None] ++ repeat (None : option msg) n). eapply runs_step; [apply (H zero_entry true)|exact R].
  - intros o t' s' R. revert E D. clear S1. induction R as [t s|current tf t s o t1 s1 o' t' s' E1 R IH]; intros E D.
    { split; auto. split; auto. intros x []. }
    destruct (first_byte s h [] rest E) as (s2 & E2 & T2 & I2).
    unfold decode_step in E1. rewrite E2 in E1. cbn [bind] in E1. rewrite I2 in E1. cbn [bind] in E1. rewrite D in E1.
    injection E1 as <- <- <-. destruct IH as (-> & T' & N); [congruence|exact D|]. split; auto. split; auto.
    intros x [<-|Hx]; auto.
Qed.

(** The receiver remembers nothing: fingerprints and entries are decoded with a tracker of zeros
    (decode_messages.go:154, 175), so that a message which says "the handles (the token) of the
    message before" arrives with handle 0, whatever came before. *)
Lemma next_first n s b s' h rest x : NextAbsolute n s = Ok (b, s') -> total s = h :: rest -> index b 0 = Ok x -> x = h.
Proof.
  intros E ET I. assert (B : b = g_array s' /\ total s' = total s).
  { unfold NextAbsolute in E. destruct (match g_sched s with [] => (O, O) | y :: _ => y end) as [p a].
    set (s1 := arrive p _) in E. assert (T1 : total s1 = total s) by (unfold s1; rewrite total_arrive; reflexivity).
    destruct (n <=? len (g_array s1)); [injection E as <- <-; auto|].
    destruct (_ <? n); [discriminate E|]. injection E as <- <-. split; [reflexivity|]. rewrite total_arrive. exact T1. }
  destruct B as [-> TT]. rewrite index_total, TT, ET in I.
  - injection I as <-. reflexivity.
  - unfold index in I. destruct (g_array s'); [discriminate I|]. unfold len. cbn [length]. lia.
Qed.
Theorem C71_no_memory current tf t s h rest o t' s' : total s = h :: rest -> step current tf t s = Ok (o, t', s') ->
  (forall m, In (Some (MFingerprint m)) o -> (has h 2 = true -> fm_sender m = 0) /\ (has h 1 = true -> fm_receiver m = 0))
  /\ (forall m, In (Some (MEntry m)) o -> has h 8 = true -> le_static m = 0).
Proof.
  intros ET E. unfold decode_step in E. destruct (first_byte s h [] rest ET) as (s1 & E1 & T1 & I1).
  rewrite E1 in E. cbn [bind] in E. rewrite I1 in E. cbn [bind] in E. rewrite ET in T1.
  assert (NO : forall (m0 : msg) t0 s0, Ok ([Some m0; None], t0, s0) = Ok (o, t', s') -> o = [Some m0; None]) by congruence.
  assert (NI : forall (m m0 : msg), In (Some m) [Some m0; None] -> m = m0) by (intros m m0 [[=]|[[=]|[]]]; auto).
  destruct (dispatch h (tr_awaiting t) (tr_remaining t)) as [k|m0|].
  2:{ apply NO in E as ->. split; intros m Hm; apply NI in Hm; discriminate Hm. }
  2:{ injection E as <- _ _. split; intros m [[=]|[]]. }
  destruct k;
    try (injection E as <- _ _; split; intros m [[=]|[]]);
    try discriminate E;
    try (match type of E with (do (_, _) <- ?d; _) = _ => destruct d as [[m0 s2]| | | |]; try discriminate E end;
         cbn [bind] in E; apply NO in E as ->; split; intros m Hm; apply NI in Hm; discriminate Hm).
  - match type of E with (do (_, _) <- ?d; _) = _ => destruct d as [[m0 s2]| | | |] eqn:ED; try discriminate E end.
    cbn [bind] in E. apply NO in E as ->. split; intros m Hm; apply NI in Hm; [|discriminate Hm]. injection Hm as ->.
    unfold DecodeReconciliationSendFingerprint in ED.
    destruct (NextAbsolute 2 s1) as [[b s3]| | | |] eqn:EN; try discriminate ED. cbn [bind] in ED.
    destruct (index b 0) as [x| | | |] eqn:EI; try discriminate ED. cbn [bind] in ED.
    rewrite (next_first _ _ _ _ _ _ _ EN T1 EI) in ED.
    destruct (index b 1) as [y| | | |]; try discriminate ED. cbn [bind] in ED.
    assert (P : pv_sender (GetPrivy zero_tracker) = 0 /\ pv_receiver (GetPrivy zero_tracker) = 0) by (split; reflexivity).
    destruct P as [P1 P2]. rewrite P1, P2 in ED.
    split; intros HB; rewrite HB in ED; cbn [bind] in ED;
      repeat match type of ED with (do (_, _) <- ?d; _) = _ => destruct d as [[? ?]| | | |]; try discriminate ED; cbn [bind] in ED end;
      injection ED as <- _; reflexivity.
  - match type of E with (do (_, _) <- ?d; _) = _ => destruct d as [[m0 s2]| | | |] eqn:ED; try discriminate E end.
    cbn [bind] in E. apply NO in E as ->. split; intros m Hm; apply NI in Hm; [discriminate Hm|]. injection Hm as ->.
    intros HB. unfold DecodeReconciliationSendEntry in ED.
    destruct (NextAbsolute 1 s1) as [[b s3]| | | |] eqn:EN; try discriminate ED. cbn [bind] in ED.
    destruct (index b 0) as [x| | | |] eqn:EI; try discriminate ED. cbn [bind] in ED.
    rewrite (next_first _ _ _ _ _ _ _ EN T1 EI), HB in ED. cbn [bind] in ED.
    destruct tf;
      repeat match type of ED with (do (_, _) <- ?d; _) = _ => destruct d as [[? ?]| | | |]; try discriminate ED; cbn [bind] in ED end;
      injection ED as <- _; reflexivity.
Qed.

(** What a message before left in the tracker changes nothing but whether a payload is expected. *)
Theorem C71_tracker_unread current tf t1 t2 s : tr_awaiting t1 = tr_awaiting t2 -> tr_remaining t1 = tr_remaining t2 ->
  (do (x, s') <- step current tf t1 s; Ok (fst x, s')) = (do (x, s') <- step current tf t2 s; Ok (fst x, s')).
Proof.
  intros A R. unfold decode_step. rewrite A, R. destruct (NextAbsolute 1 s) as [[b s1]| | | |]; try reflexivity. cbn [bind].
  destruct (index b 0) as [h| | | |]; try reflexivity. cbn [bind].
  destruct (dispatch h (tr_awaiting t2) (tr_remaining t2)) as [k|m0|]; try reflexivity.
  destruct k; try reflexivity;
    match goal with |- context[bind ?d _] => destruct d as [[m0 s2]| | | |]; reflexivity end.
Qed.

(** An announcement ends the process. *)
Theorem C71_announcement_panics current tf t s h rest : total s = h :: rest -> tr_awaiting t = false -> tr_remaining t = 0 ->
  dispatch h false 0 = Calls ReconciliationAnnounceEntries -> step current tf t s = Panic.
Proof.
  intros E A R D. destruct (first_byte s h [] rest E) as (s1 & E1 & T1 & I1). unfold decode_step. rewrite E1. cbn [bind].
  rewrite I1. cbn [bind]. rewrite A, R, D. reflexivity.
Qed.

(** ** What is never sent *)
Definition ranged (m : msg) : Prop := match m with MFingerprint _ | MAnnounce _ | MEntry _ => True | _ => False end.

Lemma rel_path_empty p : EncodeRelativePath (x_pp X) p [] = Fatal.
Proof. unfold EncodeRelativePath, CommonPrefix. destruct p; reflexivity. Qed.
Lemma range_default r : EncodeRange3dRelative (c_enc (x_ss X)) (x_order X) (x_pp X) r (DefaultRange3d (x_default_ss X)) = Fatal.
Proof.
  assert (H : forall (c : bool) p, EncodeRelativePath (x_pp X) p
    (if c then r_start (path_range (DefaultRange3d (x_default_ss X))) else r_end (path_range (DefaultRange3d (x_default_ss X)))) = Fatal).
  { intros [|] p; apply rel_path_empty. }
  unfold EncodeRange3dRelative.
  repeat match goal with |- context[let '(_, _) := ?p in _] => destruct p end. rewrite H. reflexivity.
Qed.

Lemma encode_fresh current t m : tr_range t = DefaultRange3d (x_default_ss X) ->
  tr_entry t = DefaultEntry (x_default_ns X) (x_default_ss X) (x_default_digest X) ->
  (ranged m -> encode_message X current t m = Fatal) /\ (forall b t', encode_message X current t m = Ok (b, t') -> t' = t).
Proof.
  intros A B.
  assert (H : ranged m -> encode_message X current t m = Fatal).
  { destruct m; intros H; try contradiction H; cbn [encode_message].
    - unfold EncodeReconciliationSendFingerprint, GetPrivy. cbn [pv_range]. rewrite A, range_default. reflexivity.
    - unfold EncodeReconciliationAnnounceEntries, GetPrivy. cbn [pv_range]. rewrite A, range_default. reflexivity.
    - unfold EncodeReconciliationSendEntry, GetPrivy. cbn [pv_entry]. rewrite B. unfold EncodeEntryRelativeEntry.
      cbn [e_path DefaultEntry]. rewrite rel_path_empty. reflexivity. }
  split; auto. intros b t' E. destruct m;
    try (rewrite H in E by exact I; discriminate E); cbn [encode_message] in E;
    try (injection E as _ <-; reflexivity);
    match type of E with (do _ <- ?r; _) = _ => destruct r; try discriminate E; cbn [bind] in E; injection E as _ <-; reflexivity end.
Qed.

(** The first fingerprint, announcement or entry that a new encoder is given ends the process,
    whatever else it has encoded and whatever is in it: none is ever sent. *)
Theorem C71_nothing_reconciled ms current m : ranged m ->
  (forall e, encode_all X ms (NewMessageEncoder X) = Ok e -> Forall (fun p => ~ ranged (snd p)) ms /\ Encode X current m e = Fatal).
Proof.
  intros Hm e E.
  assert (H : forall ms e0 e, tr_range (en_tracker e0) = DefaultRange3d (x_default_ss X) ->
    tr_entry (en_tracker e0) = DefaultEntry (x_default_ns X) (x_default_ss X) (x_default_digest X) ->
    encode_all X ms e0 = Ok e -> Forall (fun p => ~ ranged (snd p)) ms /\ en_tracker e = en_tracker e0).
  { clear. induction ms as [|[current m] ms IH]; intros e0 e A B E; cbn [encode_all] in E.
    - injection E as <-. split; auto.
    - destruct (encode_fresh current (en_tracker e0) m A B) as [F1 F2]. unfold Encode in E.
      destruct (encode_message X current (en_tracker e0) m) as [[b t]| | | |] eqn:EM; try discriminate E. cbn [bind] in E.
      rewrite (F2 b t eq_refl) in E. destruct (IH (Encoder (en_tracker e0) _) e A B E) as [C D]. split; [|exact D].
      constructor; auto. cbn [snd]. intros R. specialize (F1 R). discriminate F1. }
  destruct (H ms (NewMessageEncoder X) e eq_refl eq_refl E) as [A B]. split; auto.
  unfold Encode. rewrite B. destruct (encode_fresh current (en_tracker (NewMessageEncoder X)) m eq_refl eq_refl) as [F1 _].
  rewrite F1 by exact Hm. reflexivity.
Qed.
(** ** What the next message is written against *)

(** The range, sender and receiver of a message that carries them; the entry and static token
    of an entry; the announced range, namespace and count. *)
Definition carries_range (m : msg) : option (range3d * N * N) :=
  match m with
  | MFingerprint m => Some (fm_range m, fm_sender m, fm_receiver m)
  | MAnnounce m => Some (an_range m, an_sender m, an_receiver m)
  | _ => None
  end.
Definition carries_entry (m : msg) : option (entry * N) :=
  match m with MEntry m => Some (le_entry m, le_static m) | _ => None end.
Definition carries_announcement (m : msg) : option (range3d * bytes) :=
  match m with MAnnounce m => Some (an_range m, x_handle_ns X (an_receiver m)) | _ => None end.
Definition is_some {A} (o : option A) : bool := match o with Some _ => true | None => false end.
Definition entries_in (ms : list (entry * msg)) : N := len (filter (fun p => is_some (carries_entry (snd p))) ms).

(** [a] is what the last of [ms] that has an [f] has, or [d] when none has. *)
Definition last_is {A} (f : msg -> option A) (d : A) (ms : list (entry * msg)) (a : A) : Prop :=
  (exists pre c m post, ms = pre ++ (c, m) :: post /\ f m = Some a /\ Forall (fun p => f (snd p) = None) post)
  \/ (Forall (fun p => f (snd p) = None) ms /\ a = d).

Lemma last_is_cons {A} (f : msg -> option A) d c m ms a :
  last_is f (match f m with Some x => x | None => d end) ms a -> last_is f d ((c, m) :: ms) a.
Proof.
  intros [(pre & c' & m' & post & -> & H1 & H2)|[H1 H2]].
  - left. exists ((c, m) :: pre), c', m', post. auto.
  - destruct (f m) as [x|] eqn:E; subst.
    + left. exists [], c, m, ms. auto.
    + right. split; auto.
Qed.

Lemma encode_tracker current m e e' : Encode X current m e = Ok e' ->
  (tr_range (en_tracker e'), tr_sender (en_tracker e'), tr_receiver (en_tracker e'))
    = match carries_range m with Some x => x | None => (tr_range (en_tracker e), tr_sender (en_tracker e), tr_receiver (en_tracker e)) end
  /\ (tr_entry (en_tracker e'), tr_token (en_tracker e'))
    = match carries_entry m with Some x => x | None => (tr_entry (en_tracker e), tr_token (en_tracker e)) end
  /\ (tr_announced_range (en_tracker e'), tr_announced_namespace (en_tracker e'))
    = match carries_announcement m with Some x => x | None => (tr_announced_range (en_tracker e), tr_announced_namespace (en_tracker e)) end
  /\ tr_remaining (en_tracker e') = match m with MAnnounce m => an_count m
      | _ => if is_some (carries_entry m) then sub64 (tr_remaining (en_tracker e)) 1 else tr_remaining (en_tracker e) end
  /\ tr_awaiting (en_tracker e') = (is_some (carries_entry m) || tr_awaiting (en_tracker e))%bool.
Proof.
  unfold Encode. destruct e as [[]]. destruct (encode_message _ _ _ _) as [[b t]| | | |] eqn:E; cbn [bind]; intros E'; try discriminate E'.
  injection E' as <-. cbn [en_tracker] in *.
  destruct m; cbn [encode_message] in E;
    try (match type of E with (do _ <- ?r; _) = _ => destruct r; cbn [bind] in E; try discriminate E end);
    injection E as _ <-; cbn; auto 10.
Qed.

(** After any messages, what the next one is written against is what the last message of the
    right kind carried, or what it was before; the entries still to come of the last
    announcement are its count less the entries sent since, modulo 2^64; and a termination is
    awaited once an entry has been sent. *)
Theorem C71_tracker ms e e' : encode_all X ms e = Ok e' ->
  last_is carries_range (tr_range (en_tracker e), tr_sender (en_tracker e), tr_receiver (en_tracker e)) ms
    (tr_range (en_tracker e'), tr_sender (en_tracker e'), tr_receiver (en_tracker e'))
  /\ last_is carries_entry (tr_entry (en_tracker e), tr_token (en_tracker e)) ms (tr_entry (en_tracker e'), tr_token (en_tracker e'))
  /\ last_is carries_announcement (tr_announced_range (en_tracker e), tr_announced_namespace (en_tracker e)) ms
       (tr_announced_range (en_tracker e'), tr_announced_namespace (en_tracker e'))
  /\ (forall pre c a post, ms = pre ++ (c, MAnnounce a) :: post -> Forall (fun p => carries_announcement (snd p) = None) post ->
        (tr_remaining (en_tracker e') + entries_in post) mod 2 ^ 64 = an_count a mod 2 ^ 64
        /\ (an_count a < 2 ^ 64 -> tr_remaining (en_tracker e') < 2 ^ 64))
  /\ (tr_awaiting (en_tracker e') = true <-> tr_awaiting (en_tracker e) = true \/ 0 < entries_in ms).
Proof.
  assert (R : forall ms e e', encode_all X ms e = Ok e' -> Forall (fun p => carries_announcement (snd p) = None) ms ->
    (tr_remaining (en_tracker e') + entries_in ms) mod 2 ^ 64 = tr_remaining (en_tracker e) mod 2 ^ 64
    /\ (tr_remaining (en_tracker e) < 2 ^ 64 -> tr_remaining (en_tracker e') < 2 ^ 64)).
  { clear. induction ms as [|[c m] ms IH]; intros e e' E H; cbn [encode_all] in E.
    - injection E as <-. unfold entries_in. cbn. rewrite N.add_0_r. auto.
    - destruct (Encode X c m e) as [e1| | | |] eqn:E1; cbn [bind] in E; try discriminate E.
      inversion H as [|? ? Hm Hr]; subst. cbn [snd] in Hm.
      destruct (encode_tracker _ _ _ _ E1) as (_ & _ & _ & TT & _). destruct (IH _ _ E Hr) as [I1 I2].
      unfold entries_in in *. cbn [filter snd]. destruct (is_some (carries_entry m)) eqn:EC.
      + assert (TT' : tr_remaining (en_tracker e1) = sub64 (tr_remaining (en_tracker e)) 1) by (destruct m; cbn in EC; try discriminate EC; exact TT).
        rewrite TT' in *. unfold sub64, two64 in *. rewrite len_cons. split.
        * match goal with |- (?x + ?y) mod _ = _ => replace (x + y) with (x + len (filter (fun p => is_some (carries_entry (snd p))) ms) + 1) by lia end.
          rewrite <- N.add_mod_idemp_l, I1 by discriminate.
          rewrite N.mod_mod, N.add_mod_idemp_l by discriminate.
          replace (1 mod 2 ^ 64) with 1 by reflexivity.
          replace (tr_remaining (en_tracker e) + 2 ^ 64 - 1 + 1) with (tr_remaining (en_tracker e) + 1 * 2 ^ 64) by lia.
          apply N.mod_add. discriminate.
        * intros _. apply I2. apply N.mod_lt. discriminate.
      + assert (TT' : tr_remaining (en_tracker e1) = tr_remaining (en_tracker e)) by (destruct m; cbn in EC, Hm; try discriminate; exact TT).
        rewrite TT' in *. auto. }
  intros E. split; [|split; [|split; [|split]]].
  - revert e E. induction ms as [|[c m] ms IH]; intros e E; cbn [encode_all] in E; [injection E as <-; right; auto|].
    destruct (Encode X c m e) as [e1| | | |] eqn:E1; cbn [bind] in E; try discriminate E.
    destruct (encode_tracker _ _ _ _ E1) as (TT & _). apply last_is_cons. rewrite <- TT. auto.
  - revert e E. induction ms as [|[c m] ms IH]; intros e E; cbn [encode_all] in E; [injection E as <-; right; auto|].
    destruct (Encode X c m e) as [e1| | | |] eqn:E1; cbn [bind] in E; try discriminate E.
    destruct (encode_tracker _ _ _ _ E1) as (_ & TT & _). apply last_is_cons. rewrite <- TT. auto.
  - revert e E. induction ms as [|[c m] ms IH]; intros e E; cbn [encode_all] in E; [injection E as <-; right; auto|].
    destruct (Encode X c m e) as [e1| | | |] eqn:E1; cbn [bind] in E; try discriminate E.
    destruct (encode_tracker _ _ _ _ E1) as (_ & _ & TT & _). apply last_is_cons. rewrite <- TT. auto.
  - intros pre c a post -> H. revert e E. induction pre as [|[c' m] pre IH]; intros e E; cbn [encode_all app] in E.
    + destruct (Encode X c (MAnnounce a) e) as [e1| | | |] eqn:E1; cbn [bind] in E; try discriminate E.
      destruct (encode_tracker _ _ _ _ E1) as (_ & _ & _ & TT & _). cbn in TT. destruct (R _ _ _ E H) as [R1 R2]. rewrite TT in *. auto.
    + destruct (Encode X c' m e) as [e1| | | |]; cbn [bind] in E; try discriminate E. eauto.
  - revert e E. induction ms as [|[c m] ms IH]; intros e E; cbn [encode_all] in E.
    + injection E as <-. unfold entries_in. cbn. split; auto. intros [H|H]; auto. inversion H.
    + destruct (Encode X c m e) as [e1| | | |] eqn:E1; cbn [bind] in E; try discriminate E.
      destruct (encode_tracker _ _ _ _ E1) as (_ & _ & _ & _ & TT). rewrite (IH _ E), TT. unfold entries_in. cbn [filter snd].
      destruct (is_some (carries_entry m)); cbn [orb]; [|reflexivity]. rewrite len_cons. split; [intros _; right; lia|auto].
Qed.

(** A new encoder, or receiver, starts from the range and entry of the defaults, handles and
    token 0, no entries to come and no termination awaited; and since no fingerprint,
    announcement or entry is ever sent, an encoder stays there. *)
Theorem C71_fresh (ms : list (entry * msg)) e : encode_all X ms (NewMessageEncoder X) = Ok e ->
  en_tracker e = NewReconcileMsgTracker X
  /\ tr_range (en_tracker e) = Range3d (Range (x_default_ss X) [] true) (Range [] [] true) (Range 0 0 true)
  /\ tr_announced_range (en_tracker e) = Range3d (Range (x_default_ss X) [] true) (Range [] [] true) (Range 0 0 true)
  /\ tr_entry (en_tracker e) = Entry (x_default_ns X) (x_default_ss X) (x_default_digest X) [] 0 0
  /\ tr_announced_namespace (en_tracker e) = x_default_ns X
  /\ tr_sender (en_tracker e) = 0 /\ tr_receiver (en_tracker e) = 0 /\ tr_token (en_tracker e) = 0
  /\ tr_remaining (en_tracker e) = 0 /\ tr_awaiting (en_tracker e) = false.
Proof.
  intros E.
  assert (EN : en_tracker e = NewReconcileMsgTracker X).
  { assert (H : forall (ms : list (entry * msg)) e0, en_tracker e0 = NewReconcileMsgTracker X -> encode_all X ms e0 = Ok e -> en_tracker e = NewReconcileMsgTracker X).
    { clear. induction ms as [|[c m] ms IH]; intros e0 H E; cbn [encode_all] in E; [congruence|].
      unfold Encode in E. destruct (encode_message X c (en_tracker e0) m) as [[b t]| | | |] eqn:EM; try discriminate E. cbn [bind] in E.
      apply (IH (Encoder t (en_sent e0 ++ [Frame (MsgLogicalChannels (GetKind m)) b]))); auto.
      cbn [en_tracker]. rewrite H in EM. destruct (encode_fresh c (NewReconcileMsgTracker X) m eq_refl eq_refl) as [_ F2]. eauto. }
    apply (H ms (NewMessageEncoder X)); auto. }
  rewrite EN. repeat split.
Qed.
End C71.

(** ** A concrete case *)
Definition demo_schemes : schemes bytes bytes bytes bytes bytes bytes :=
  Schemes 8 (PathParams 8 8 8 8) OrderBytes (fun a b => Z.eqb (OrderBytes a b) 0)
    (fixed_codec 1) (fixed_codec 1) (fixed_codec 1) (fixed_codec 1) (fixed_codec 1) (fixed_codec 1) (fixed_codec 1) (fixed_codec 1) (fixed_codec 1)
    [0] (fun f => Z.eqb (OrderBytes f [0]) 0)
    [1] [0] [0] (fun _ => [1]) (fun _ _ => DefaultRange3d [0]) (fun _ _ => Area [] [] (Range 0 0 true) true) (fun _ _ => [1]).
Notation demo_message := (message bytes bytes bytes bytes bytes bytes bytes bytes).
Definition demo_messages : list demo_message :=
  [MPlead (MsgAmount ControlPlead DataChannel 70000); MReplyPayload 300; MBindFragment (MsgBind [9] true);
   MFree (MsgFree ControlFree 5 true IntersectionHandle); MReplyPayload 2; MApologise (MsgChannel ControlApologise StaticTokenChannel)].

(** Six messages on three channels: each channel's bytes, decoded. *)
Example C71_instance :
  Forall (deliverable demo_schemes) demo_messages
  /\ exists e, encode_all demo_schemes (map (pair zero_entry) demo_messages) (NewMessageEncoder demo_schemes) = Ok e
     /\ map (fun c => sent_on c e) [ControlChannel; DataChannel; IntersectionChannel] <> [[]; []; []]
     /\ exists s' t', runs demo_schemes (NewReconcileMsgTracker demo_schemes) (Stream [] (sent_on DataChannel e) []) (put_out [MReplyPayload 300 : demo_message; MReplyPayload 2]) t' s'.
Proof.
  assert (D : Forall (deliverable demo_schemes) demo_messages).
  { unfold demo_messages. repeat constructor; cbn [deliverable ma_kind ma_channel ma_amount mf_kind mf_mine mf_handle mc_kind mc_channel mb_member x_group demo_schemes];
      try reflexivity; try (apply fixed_codec_ok; reflexivity); discriminate. }
  split; auto.
  destruct (C71_stream_partial demo_schemes (map (pair zero_entry) demo_messages) (NewMessageEncoder demo_schemes)) as (e & E & _ & H).
  { apply Forall_map. revert D. apply Forall_impl. auto. }
  { reflexivity. }
  exists e. split; auto. split.
  { vm_compute in E. injection E as <-. vm_compute. discriminate. }
  destruct (H DataChannel (NewReconcileMsgTracker demo_schemes) (Stream [] (sent_on DataChannel e) [])) as [(s' & R & _) _].
  { reflexivity. }
  eauto.
Qed.

(** A refutation for each direction: a revealed nonce that begins with 0 and everything behind it
    on the control channel is lost, a static token is never received, and a read capability and
    an area of interest are sent as no bytes at all. *)
Theorem C71_lost_refuted :
  (exists (ms : list (entry * demo_message)) e, encode_all demo_schemes ms (NewMessageEncoder demo_schemes) = Ok e
     /\ filter (belongs ControlChannel) (map snd ms) = [MReveal [0; 7]; MPlead (MsgAmount ControlPlead DataChannel 3)]
     /\ forall s o t' s' (x : option demo_message), total s = sent_on ControlChannel e ->
        runs demo_schemes (NewReconcileMsgTracker demo_schemes) s o t' s' -> In x o -> x = None)
  /\ (exists (ms : list (entry * demo_message)) e, encode_all demo_schemes ms (NewMessageEncoder demo_schemes) = Ok e
     /\ filter (belongs StaticTokenChannel) (map snd ms) = [MStatic [9]]
     /\ forall s o t' s' (x : option demo_message), total s = sent_on StaticTokenChannel e ->
        runs demo_schemes (NewReconcileMsgTracker demo_schemes) s o t' s' -> In x o -> x = None)
  /\ (forall current rc aoi e, exists e', encode_all demo_schemes [(current, MReadCap rc : demo_message); (current, MAoi aoi)] e = Ok e'
     /\ sent_on CapabilityChannel e' = sent_on CapabilityChannel e
     /\ sent_on AreaOfInterestChannel e' = sent_on AreaOfInterestChannel e).
Proof.
  split; [|split].
  - exists [(zero_entry, MReveal [0; 7]); (zero_entry, MPlead (MsgAmount ControlPlead DataChannel 3))]. eexists. split; [vm_compute; reflexivity|].
    split; [reflexivity|]. intros s o t' s' x E R Hx.
    destruct (C71_spin (RC := bytes) (RS := bytes) demo_schemes (NewReconcileMsgTracker demo_schemes) s 0 (tl (total s))) as [_ H].
    { rewrite E. vm_compute. reflexivity. } { vm_compute. reflexivity. }
    destruct (H o t' s' R) as (_ & _ & N). auto.
  - exists [(zero_entry, MStatic [9])]. eexists. split; [vm_compute; reflexivity|].
    split; [reflexivity|]. intros s o t' s' x E R Hx.
    destruct (C71_spin (RC := bytes) (RS := bytes) demo_schemes (NewReconcileMsgTracker demo_schemes) s (hd 0 (total s)) (tl (total s))) as [_ H].
    { rewrite E. vm_compute. reflexivity. } { rewrite E. vm_compute. reflexivity. }
    destruct (H o t' s' R) as (_ & _ & N). auto.
  - intros current rc aoi e. eexists. split; [reflexivity|]. unfold sent_on. cbn [en_sent].
    rewrite !filter_app, !map_app, !concat_app. cbn [filter on fr_channel GetKind MsgLogicalChannels map concat fr_bytes]. rewrite !app_nil_r. auto.
Qed.

(** A fingerprint arrives and is put out: reconciliation messages are not all excluded. *)
Example C71_silent_instance :
  exists s m t' s', runs demo_schemes (NewReconcileMsgTracker demo_schemes) s [Some (MFingerprint m : demo_message); None] t' s'.
Proof.
  exists (Stream [79; 0] [0; 0] [(1, 1)%nat]). do 3 eexists.
  eapply (runs_step demo_schemes zero_entry true _ _ [Some _; None] _ _ []); [vm_compute; reflexivity|constructor].
Qed.

Example C71_announcement_instance :
  exists h, dispatch h false 0 = Calls ReconciliationAnnounceEntries
  /\ forall current tf, decode_step (RC := bytes) (RS := bytes) demo_schemes current tf (NewReconcileMsgTracker demo_schemes) (Stream [h] [] []) = Panic.
Proof.
  exists 80. split; [reflexivity|]. intros. eapply C71_announcement_panics; reflexivity.
Qed.

Example C71_nothing_reconciled_instance : exists e,
  encode_all demo_schemes (map (pair zero_entry) demo_messages) (NewMessageEncoder demo_schemes) = Ok e
  /\ Encode demo_schemes zero_entry (MAnnounce (MsgAnnounce (DefaultRange3d [0]) 1 false true 2 3 1 true) : demo_message) e = Fatal.
Proof. eexists. split; vm_compute; reflexivity. Qed.

(** An encoder that has got past its defaults: an announcement of two entries, an entry, a
    fingerprint of another range. *)
Definition demo_range : range3d := Range3d (Range [0] [] true) (Range [[1]] [[9]] false) (Range 0 0 true).
Definition demo_range2 : range3d := Range3d (Range [0] [] true) (Range [[1]; [2]] [[9]] false) (Range 0 0 true).
Definition demo_entry : entry := Entry [1] [0] [0] [[1]] 3 4.
(** The message before had handles 6 and 7; this one says "the same". *)
Example C71_no_memory_instance : exists (m : msg_fingerprint bytes) t' s',
  decode_step (RC := bytes) (RS := bytes) demo_schemes zero_entry true (Tracker demo_range 6 7 zero_entry 4 demo_range [1] 0 false) (Stream [79; 0] [0; 0] [(1, 1)%nat])
    = Ok ([Some (MFingerprint m); None], t', s')
  /\ has 79 2 = true /\ has 79 1 = true /\ (fm_sender m, fm_receiver m) = (0, 0).
Proof. do 3 eexists. split; [vm_compute; reflexivity|]. repeat split. Qed.
Example C71_tracker_instance :
  exists (e e' : @encoder), encode_all demo_schemes
    [(zero_entry, MAnnounce (MsgAnnounce demo_range 2 false true 2 3 1 true) : demo_message);
     (zero_entry, MEntry (MsgLengthyEntry demo_entry 4 4 [7]));
     (zero_entry, MFingerprint (MsgFingerprint demo_range2 [5] 6 7 8 false))] e = Ok e'
  /\ GetPrivy (en_tracker e') = Privy 6 7 demo_range2 4 demo_entry
  /\ tr_remaining (en_tracker e') = 1 /\ tr_awaiting (en_tracker e') = true.
Proof.
  exists (Encoder (Tracker demo_range 0 0 demo_entry 0 demo_range [1] 0 false) []). eexists.
  split; [vm_compute; reflexivity|]. repeat split.
Qed.

Print Assumptions C71_channel.
Print Assumptions C71_stream_partial.
Print Assumptions C71_silent.
Print Assumptions C71_spin.
Print Assumptions C71_no_memory.
Print Assumptions C71_tracker_unread.
Print Assumptions C71_announcement_panics.
Print Assumptions C71_nothing_reconciled.
Print Assumptions C71_tracker.
Print Assumptions C71_fresh.
Print Assumptions C71_lost_refuted.
