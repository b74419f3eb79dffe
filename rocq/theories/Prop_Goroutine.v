(** C23, continued: every stream decoder is a program of calls of NextAbsolute and Prune; run against the goroutine of GrowingBytes, it
    returns what the sequential model of it returns. *)
From Verif Require Import Base M_Growing P_Growing Prop_Wakeup.
From Verif Require Import M_Order M_Encoding M_Paths M_Ranges M_Areas M_Entry M_Stream M_Wire M_Rel M_Wire2.
Local Open Scope N_scope.

(** ** Programs of calls *)
Inductive prog (A : Type) := Done (r : res A) | Next (n : N) (k : bytes -> prog A) | Cut (n : N) (p : prog A).
Arguments Done {A}. Arguments Next {A}. Arguments Cut {A}.

(** Against the sequential reader. *)
Fixpoint seq {A} (p : prog A) (s : stream) : res (A * stream) :=
  match p with
  | Done r => do a <- r; Ok (a, s)
  | Next n k => do (b, s1) <- NextAbsolute n s; seq (k b) s1
  | Cut n p' => seq p' (Prune n s)
  end.
(** With the answers [es] it ends with [r]. *)
Inductive does {A} : prog A -> list event -> res A -> Prop :=
| does_done r : does (Done r) [] r
| does_next n k b es r : does (k b) es r -> does (Next n k) (Asked n b :: es) r
| does_cut n p es r : does p es r -> does (Cut n p) (Pruned n :: es) r.

(** Nothing is pruned that the last answer did not contain. *)
Fixpoint tame {A} (have : N) (p : prog A) : Prop :=
  match p with
  | Done _ => True
  | Next n k => forall b, n <= len b -> tame (len b) (k b)
  | Cut n p' => n <= have /\ tame (have - n) p'
  end.
Lemma tame_more {A} (p : prog A) : forall h h', h <= h' -> tame h p -> tame h' p.
Proof.
  induction p as [r|n k IH|n p IH]; intros h h' L T; cbn [tame] in *; auto. destruct T as [T1 T2]. split; [lia|]. eapply IH; [|exact T2]. lia.
Qed.

Definition outcome {A} (r : res A) (st : stream) : res (A * stream) := do a <- r; Ok (a, st).

Lemma does_goes {A} (p : prog A) es r st st' : does p es r -> goes es st = Some st' -> seq p st = outcome r st'.
Proof.
  intros D. revert st. induction D as [r|n k b es r D IH|n p es r D IH]; intros st G; cbn [goes seq] in *.
  - injection G as <-. reflexivity.
  - destruct (NextAbsolute n st) as [[b' s1]| | | |]; try discriminate G. destruct (list_eq_dec N.eq_dec b' b) as [->|]; [|discriminate G]. cbn [bind]. apply IH; exact G.
  - apply IH; exact G.
Qed.
Lemma seq_does {A} (p : prog A) st : (exists es r st', does p es r /\ goes es st = Some st' /\ seq p st = outcome r st') \/ seq p st = Hang.
Proof.
  revert st; induction p as [r|n k IH|n p IH]; intros st; cbn [seq].
  - left. exists [], r, st. repeat split. constructor.
  - destruct (NextAbsolute n st) as [[b s1]| | | |] eqn:E; cbn [bind]; auto;
      try (unfold NextAbsolute in E; destruct (match g_sched st with [] => _ | _ => _ end); repeat match type of E with context[if ?c then _ else _] => destruct c end; discriminate E).
    destruct (IH b s1) as [(es & r & st' & D & G & S)|H]; [left|right; exact H]. exists (Asked n b :: es), r, st'. split; [constructor; exact D|].
    split; [|exact S]. cbn [goes]. rewrite E. destruct (list_eq_dec N.eq_dec b b); [exact G|contradiction].
  - destruct (IH (Prune n st)) as [(es & r & st' & D & G & S)|H]; [left|right; exact H]. exists (Pruned n :: es), r, st'. split; [constructor; exact D|]. auto.
Qed.
Definition long_enough (e : event) : Prop := match e with Asked n b => n <= len b | Pruned _ => True end.
Lemma trace_long ls : forall s0 s, ginv s0 -> gruns ls s0 = Some s -> Forall long_enough (trace ls s0).
Proof.
  induction ls as [|l ls IH]; intros s0 s HI HR; [constructor|]. cbn [gruns trace] in *. destruct (gstep l s0) as [s1|] eqn:E; [|discriminate HR].
  pose proof (gstep_inv _ _ _ HI E) as HI1. apply Forall_app. split; [|eapply IH; eauto].
  assert (X : Forall long_enough (map (fun x => Asked (fst (fst x)) (snd x)) (skipn (length (g_returned s0)) (g_returned s1)))).
  { apply Forall_forall. intros e I. apply in_map_iff in I as ([[n g] b] & <- & I). cbn [fst snd long_enough].
    apply (gi_returned s1 HI1 n g b). rewrite <- (firstn_skipn (length (g_returned s0))). apply in_or_app. right. exact I. }
  destruct l; cbn [emits]; try exact X. constructor; [exact I|constructor].
Qed.
Lemma tame_modest {A} (p : prog A) es r : does p es r -> Forall long_enough es -> forall h, tame h p -> modest h es.
Proof.
  induction 1 as [r|n k b es r D IH|n p es r D IH]; intros F h T; cbn [tame modest] in *; auto; inversion F; subst.
  - apply IH; auto.
  - destruct T as [T1 T2]. split; [exact T1|]. apply IH; auto.
Qed.
Lemma modest_app a b : forall h, modest h a -> (forall h', modest h' b) -> modest h (a ++ b).
Proof. induction a as [|[n x|k] a IH]; intros h M1 M2; cbn [modest app] in *; auto. destruct M1; auto. Qed.

(** A decoder that is a program of calls, and what that means: after anything that the reader has done before ([before]), whatever the
    goroutine does, the result is one of the sequential model, which can go on with what comes next; and every result of the
    sequential model comes about. *)
Definition faithful {A} (f : stream -> res (A * stream)) : Prop :=
  exists p : prog A, (forall st, f st = seq p st)
  /\ (forall ls s before es r, gruns ls ginit = Some s -> trace ls ginit = before ++ es -> modest 0 before -> does p es r ->
        exists sched st st', goes before (Stream [] (g_sent s) sched) = Some st /\ f st = outcome r st'
          /\ exists late, M_Growing.g_array s = g_array st' ++ late /\ g_sent s = g_gone s ++ g_array st' ++ g_future st')
  /\ (forall before bs sched st, goes before (Stream [] bs sched) = Some st -> f st <> Hang ->
        exists ls s es r st', gruns ls ginit = Some s /\ trace ls ginit = before ++ es /\ does p es r /\ f st = outcome r st'
          /\ M_Growing.g_array s = g_array st' /\ bs = g_sent s ++ g_future st').

Definition At {A} (h : N) (f : stream -> res (A * stream)) : Type := {p : prog A | (forall st, f st = seq p st) /\ tame h p}.

Lemma at_faithful {A} (f : stream -> res (A * stream)) : At 0 f -> faithful f.
Proof.
  intros (p & HF & HT). exists p. split; [exact HF|]. split.
  - intros ls s before es r HR HE HM HD. pose proof (trace_long ls ginit s ginv_init HR) as HL. rewrite HE in HL. apply Forall_app in HL as [_ HL].
    assert (M : modest 0 (trace ls ginit)). { rewrite HE. apply modest_app; [exact HM|]. intros h'. eapply tame_modest; eauto. eapply tame_more; [|exact HT]. lia. }
    destruct (C23_sequential ls s HR M) as (sched & st' & G & pruned & E1 & late & E2 & E3). rewrite HE, goes_app in G. exists sched.
    destruct (goes before (Stream [] (g_sent s) sched)) as [st|]; [|discriminate G]. exists st, st'. split; [reflexivity|]. split; [rewrite HF; eapply does_goes; eauto|].
    exists late. subst pruned. auto.
  - intros before bs sched st G NH. destruct (seq_does p st) as [(es & r & st' & D & G2 & S)|H]; [|rewrite HF in NH; contradiction].
    assert (G3 : goes (before ++ es) (Stream [] bs sched) = Some st') by (rewrite goes_app, G; exact G2).
    destruct (C23_realised _ _ _ _ G3) as (ls & s & R & T & E1 & E2). exists ls, s, es, r, st'. rewrite HF. auto 7.
Qed.

(** ** Building them *)
Lemma at_const {A} h (r : res (A * stream)) : (forall x, r <> Ok x) -> At h (fun _ => r).
Proof. intros N. exists (Done (match r with Ok x => Ok (fst x) | Err => Err | Panic => Panic | Fatal => Fatal | Hang => Hang end)).
  split; [|exact I]. intros st. destruct r; try reflexivity. exfalso. eapply N; reflexivity. Qed.
Lemma at_ok {A} h (a : A) : At h (fun s => Ok (a, s)).
Proof. exists (Done (Ok a)). split; [reflexivity|exact I]. Qed.
Lemma at_pure {A B} h (r : res B) (k : B -> stream -> res (A * stream)) : (forall x, r = Ok x -> At h (k x)) -> At h (fun s => do x <- r; k x s).
Proof.
  intros H. destruct r as [x| | | |]; cbn [bind]; [destruct (H x eq_refl) as (p & P1 & P2); exists p; auto| | | |]; apply at_const; discriminate.
Qed.
Lemma at_cut {A} h n (f : stream -> res (A * stream)) : n <= h -> At (h - n) f -> At h (fun s => f (Prune n s)).
Proof. intros L (p & P1 & P2). exists (Cut n p). split; [intros st; apply P1|]. cbn [tame]. auto. Qed.
Lemma at_ok_cut {A} h n (a : A) : n <= h -> At h (fun s => Ok (a, Prune n s)).
Proof. intros L. apply (at_cut h n (fun s => Ok (a, s)) L). apply at_ok. Qed.
Lemma next_answer n st b s1 : NextAbsolute n st = Ok (b, s1) -> b = g_array s1 /\ n <= len b.
Proof.
  unfold NextAbsolute. destruct (match g_sched st with [] => _ | _ => _ end) as [before after]. intros E.
  destruct (N.leb_spec n (len (g_array (arrive before (Stream (g_array st) (g_future st) (tl (g_sched st))))))) as [L|L]; [injection E as <- <-; auto|].
  match type of E with context[if ?c then _ else _] => destruct c eqn:EL end; [discriminate E|]. injection E as <- <-. split; [reflexivity|]. apply N.ltb_ge in EL.
  revert L EL. unfold arrive. cbn [g_array g_future]. unfold len. rewrite !app_length, !firstn_length, !skipn_length. lia.
Qed.
Definition le_dec (n m : N) : {n <= m} + {~ n <= m}.
Proof. destruct (n <=? m) eqn:E; [left; apply N.leb_le; exact E|right; apply N.leb_gt in E; lia]. Defined.
(** The answer, or the array afterwards: in the model the same. *)
Lemma at_look {A} h n (k : bytes -> bytes -> stream -> res (A * stream)) : (forall b, n <= len b -> At (len b) (k b b)) ->
  At h (fun s => do (b, s1) <- NextAbsolute n s; k b (g_array s1) s1).
Proof.
  intros H. exists (Next n (fun b => match le_dec n (len b) with left L => proj1_sig (H b L) | right _ => Done Hang end)). split.
  - intros st. cbn [seq]. destruct (NextAbsolute n st) as [[b s1]| | | |] eqn:E; try reflexivity. cbn [bind]. destruct (next_answer _ _ _ _ E) as [<- L].
    destruct (le_dec n (len b)) as [L'|]; [|contradiction]. apply (proj2_sig (H b L')).
  - cbn [tame]. intros b L. destruct (le_dec n (len b)) as [L'|]; [|contradiction]. apply (proj2_sig (H b L')).
Qed.
Lemma at_next {A} h n (k : bytes -> stream -> res (A * stream)) : (forall b, n <= len b -> At (len b) (k b)) ->
  At h (fun s => do (b, s1) <- NextAbsolute n s; k b s1).
Proof. intros H. apply (at_look h n (fun b _ => k b)). exact H. Qed.
Fixpoint chain {A B} (p : prog A) (k : A -> prog B) : prog B :=
  match p with
  | Done (Ok a) => k a
  | Done Err => Done Err | Done Panic => Done Panic | Done Fatal => Done Fatal | Done Hang => Done Hang
  | Next n q => Next n (fun b => chain (q b) k)
  | Cut n q => Cut n (chain q k)
  end.
Lemma at_bind {A B} h (f : stream -> res (B * stream)) (k : B -> stream -> res (A * stream)) : At h f -> (forall b, At 0 (k b)) ->
  At h (fun s => do (b, s1) <- f s; k b s1).
Proof.
  intros (p & P1 & P2) H. exists (chain p (fun a => proj1_sig (H a))). split.
  - intros st. rewrite P1. clear P1 P2. revert st. induction p as [r|n q IH|n q IH]; intros st; cbn [seq chain].
    + destruct r as [a| | | |]; cbn [bind seq]; try reflexivity. apply (proj2_sig (H a)).
    + destruct (NextAbsolute n st) as [[b s1]| | | |]; cbn [bind]; try reflexivity. apply IH.
    + apply IH.
  - clear P1. revert h P2. induction p as [r|n q IH|n q IH]; intros h T; cbn [chain tame] in *; auto.
    + destruct r as [a| | | |]; try exact I. eapply tame_more; [|apply (proj2_sig (H a))]. lia.
    + destruct T as [T1 T2]. split; auto.
Qed.
Lemma at_more {A} h (f : stream -> res (A * stream)) : At 0 f -> At h f.
Proof. intros (p & P1 & P2). exists p. split; [exact P1|]. eapply tame_more; [|exact P2]. lia. Qed.
Lemma slice_bound {A} (l : list A) a b x : slice l a b = Ok x -> a <= b /\ b <= len l.
Proof. unfold slice. destruct (N.leb_spec a b), (N.leb_spec b (len l)); cbn [andb]; intros E; try discriminate E; auto. Qed.
Ltac bounds := repeat match goal with H : slice _ _ _ = Ok _ |- _ => apply slice_bound in H as [? ?] end.
Ltac at_prune :=
  lazymatch goal with
  | |- At ?h (fun s => @?b s) =>
      let f := constr:(fun s : stream => ltac:(let x := eval cbv beta in (b s) in
        lazymatch x with context [Prune ?n s] => let y := eval pattern (Prune n s) in x in lazymatch y with ?g _ => exact (n, g) end end)) in
      lazymatch f with fun _ => (?n, ?g) => apply (at_cut h n g); [bounds; unfold bytes in *; lia|cbv beta] end
  end.
Ltac at_step :=
  first [at_prune |
  lazymatch goal with
  | |- At _ (fun s => Ok (_, s)) => apply at_ok
  | |- At _ (fun s => Err) => apply at_const; discriminate
  | |- At _ (fun s => Panic) => apply at_const; discriminate
  | |- At _ (fun s => bind (NextAbsolute _ s) _) => apply at_next; intros
  | |- At _ (fun s => if ?c then _ else _) => destruct c
  | |- At _ (fun s => match ?c with _ => _ end) => destruct c
  | |- At _ (fun s => bind (@?f s) (@?k s)) => first [apply at_pure; intros | apply (at_bind _ f); [|intros]]
  | H : At 0 (c_dec ?c) |- At _ (fun s => c_dec ?c s) => apply at_more; exact H
  | H : At 0 (c_dec ?c) |- At _ (c_dec ?c) => apply at_more; exact H
  | |- forall _, _ => intro
  end].
Create HintDb at_db.
Ltac at_all := cbv zeta; repeat at_step; auto with at_db.

Lemma at_int h w : At h (stream_int w).
Proof. unfold stream_int. at_all. Qed.
#[local] Hint Resolve at_int : at_db.
Lemma at_path_loop pp n h : At h (path_stream_loop pp n).
Proof. revert h; induction n as [|n IH]; intros h; cbn [path_stream_loop]; [apply at_ok|]. at_all. Qed.
#[local] Hint Resolve at_path_loop : at_db.
Lemma at_path pp h : At h (DecodePathStream pp).
Proof. unfold DecodePathStream. at_all. Qed.
#[local] Hint Resolve at_path : at_db.
Lemma at_rel_path pp ref h : At h (fun s => DecodeRelPathStream pp s ref).
Proof. unfold DecodeRelPathStream. at_all. Qed.
#[local] Hint Resolve at_rel_path : at_db.
Section Codecs.
Variables ns ss ds : codec bytes.
Hypothesis Hns : At 0 (c_dec ns). Hypothesis Hss : At 0 (c_dec ss). Hypothesis Hds : At 0 (c_dec ds).
Lemma at_entry_entry pp ref h : At h (DecodeStreamEntryRelativeEntry ns ss ds pp ref).
Proof using Hns Hss Hds. unfold DecodeStreamEntryRelativeEntry. at_all. Qed.
Lemma at_entry_range pp r n h : At h (DecodeStreamEntryRelativeRange3d ss ds pp r n).
Proof using Hss Hds. unfold DecodeStreamEntryRelativeRange3d. at_all. Qed.
Lemma at_range pp ref h : At h (DecodeStreamRange3dRelative ss pp ref).
Proof using Hss. unfold DecodeStreamRange3dRelative. at_all. Qed.
Lemma at_some {A} (f : stream -> res (A * stream)) h : At h f -> At h (fun s => some_of (f s)).
Proof using. intros H. apply (at_bind h f (fun a s => Ok (Some a, s)) H). intros b. apply at_ok. Qed.
Lemma at_stop {A B} (f : stream -> res (option A * stream)) (k : A -> stream -> res (option B * stream)) h : At h f -> (forall a, At 0 (k a)) ->
  At h (fun s => or_stop (f s) k).
Proof using. intros H1 H2. apply (at_bind h f (fun o s => match o with Some a => k a s | None => Ok (None, s) end) H1). intros [a|]; [apply H2|apply at_ok]. Qed.
Lemma at_range_stop pp ref h : At h (range_stream ss pp ref).
Proof using Hss.
  unfold range_stream. cbv zeta. apply at_next. intros b L. apply at_pure. intros b1 E1. apply at_pure. intros b2 E2.
  destruct (match start_code b1 with CNone => true | _ => false end); [apply at_ok|].
  refine (at_cut _ 2 (fun s => or_stop (match end_code b1 with
      | CRefStart => Ok (Some (r_start (subspace_range ref)), s)
      | CRefEnd => Ok (if r_open (subspace_range ref) then None else Some (r_end (subspace_range ref)), s)
      | CYes => some_of (c_dec ss s)
      | CNone => Ok (Some [], s)
      end) _) L _).
  apply (at_stop (fun s => match end_code b1 with CRefStart => _ | CRefEnd => _ | CYes => _ | CNone => _ end)).
  { destruct (end_code b1); try apply at_ok. apply at_some, at_more, Hss. }
  intros u. apply (at_stop (fun s => if has b1 8 then _ else _)).
  { destruct (has b1 8); [apply (at_some (fun s => DecodeRelPathStream pp s _)), at_rel_path|]. destruct (r_open (path_range ref)); [apply at_ok|]. apply (at_some (fun s => DecodeRelPathStream pp s _)), at_rel_path. }
  intros p. apply (at_stop (fun s => if N.land b1 4 =? 64 then _ else _)).
  { destruct (N.land b1 4 =? 64); [apply at_ok|]. destruct (has b1 2); [apply (at_some (fun s => DecodeRelPathStream pp s _)), at_rel_path|].
    destruct (r_open (path_range ref)); [apply at_ok|]. apply (at_some (fun s => DecodeRelPathStream pp s _)), at_rel_path. }
  intros q. at_all.
Qed.
Lemma at_range_or_zero pp ref h : At h (range_or_zero ss pp ref).
Proof using Hss. unfold range_or_zero. apply (at_bind h (range_stream ss pp ref)); [apply at_range_stop|]. intros o. apply at_ok. Qed.
Lemma at_area pp ref h : At h (DecodeStreamAreaInArea ss pp ref).
Proof using Hss. unfold DecodeStreamAreaInArea. at_all. Qed.
Lemma at_entry_area pp ref n h : At h (DecodeStreamEntryInNamespaceArea ss ds pp ref n).
Proof using Hss Hds. unfold DecodeStreamEntryInNamespaceArea. at_all. Qed.
End Codecs.
#[local] Hint Resolve at_entry_entry at_entry_range at_range at_range_or_zero at_area at_entry_area : at_db.
Lemma at_amount k h : At h (decode_amount k).
Proof. unfold decode_amount. at_all. Qed.
Lemma at_channel k h : At h (decode_channel k).
Proof. unfold decode_channel. at_all. Qed.
Lemma at_free h : At h DecodeControlFree.
Proof. unfold DecodeControlFree. at_all. Qed.
Lemma at_reveal n h : At h (DecodeCommitmentReveal n).
Proof. unfold DecodeCommitmentReveal. at_all. Qed.
Lemma at_eager h : At h DecodeDataSetEagerness.
Proof. unfold DecodeDataSetEagerness. at_all. Qed.
Lemma at_reply_payload h : At h DecodeDataReplyPayload.
Proof. unfold DecodeDataReplyPayload. at_all. Qed.
Lemma at_recon_payload h : At h DecodeReconciliationSendPayload.
Proof. unfold DecodeReconciliationSendPayload. at_all. Qed.
(** The decoders that look at the array again after the call. *)
Lemma at_handle h : At h pai_handle.
Proof.
  unfold pai_handle. refine (at_look h 1 (fun _ a s1 => do h0 <- index a 0; do a0 <- slice a 1 (1 + CompactWidthFromEndOfByte h0); Ok (int64_or_zero a0, Prune (1 + CompactWidthFromEndOfByte h0) s1)) _). at_all.
Qed.
#[local] Hint Resolve at_handle : at_db.
Section Generic.
Context {G K Sg T : Type}.
Variables (g : codec G) (k : codec K) (sg : codec Sg) (tok : codec T).
Hypothesis Hg : At 0 (c_dec g). Hypothesis Hk : At 0 (c_dec k). Hypothesis Hsg : At 0 (c_dec sg). Hypothesis Htok : At 0 (c_dec tok).
Lemma at_bind_fragment h : At h (DecodePaiBindFragment g).
Proof using Hg. unfold DecodePaiBindFragment. refine (at_look h 1 (fun _ a s1 => do h <- index a 0; do (m, s2) <- c_dec g (Prune 1 s1); Ok (MsgBind m (h =? 6), s2)) _). at_all. Qed.
Lemma at_reply_fragment h : At h (DecodePaiReplyFragment g).
Proof using Hg. unfold DecodePaiReplyFragment. at_all. Qed.
Lemma at_request_capability h : At h DecodePaiRequestSubspaceCapability.
Proof using. unfold DecodePaiRequestSubspaceCapability. at_all. Qed.
Lemma at_reply_capability h : At h (DecodePaiReplySubspaceCapability k sg).
Proof using Hk Hsg. unfold DecodePaiReplySubspaceCapability. at_all. Qed.
Lemma at_read_capability (cap : stream -> res (K * stream)) h : At 0 cap -> At h (DecodeSetupBindReadCapability cap sg).
Proof using Hsg.
  intros Hcap.  unfold DecodeSetupBindReadCapability.
  refine (at_look h 1 (fun _ a s1 => do h <- index a 0; do (_, s2) <- NextAbsolute (1 + CompactWidthFromEndOfByte h) s1;
    do a0 <- slice (g_array s2) 1 (1 + CompactWidthFromEndOfByte h); do (c, s3) <- cap (Prune (1 + CompactWidthFromEndOfByte h) s2); do (g, s4) <- c_dec sg s3;
    Ok (MsgReadCap c (int64_or_zero a0) g, s4)) _). intros b L. apply at_pure. intros x E.
  refine (at_look _ (1 + CompactWidthFromEndOfByte x) (fun _ a s2 =>
    do a0 <- slice a 1 (1 + CompactWidthFromEndOfByte x); do (c, s3) <- cap (Prune (1 + CompactWidthFromEndOfByte x) s2); do (g, s4) <- c_dec sg s3;
    Ok (MsgReadCap c (int64_or_zero a0) g, s4)) _). at_all. apply at_more. exact Hcap.
Qed.
Lemma at_static_token h : At h (DecodeSetupBindStaticToken k).
Proof using Hk. unfold DecodeSetupBindStaticToken. at_all. Qed.
Variables ns ss ds : codec bytes.
Hypothesis Hns : At 0 (c_dec ns). Hypothesis Hss : At 0 (c_dec ss). Hypothesis Hds : At 0 (c_dec ds).
Lemma at_sent_entry pp ha hn current second sw rw h : At h (decode_sent_entry ns ss ds pp ha hn current second sw rw).
Proof using Hns Hss Hds. unfold decode_sent_entry. at_all. Qed.
Hint Resolve at_sent_entry : at_db.
Lemma at_data_entry pp ha hn current h : At h (DecodeDataSendEntry ns ss ds pp ha hn tok current).
Proof using Hns Hss Hds Htok. unfold DecodeDataSendEntry. at_all. Qed.
Lemma at_payload_request pp ha hn current h : At h (DecodeDataBindPayloadRequest ns ss ds pp ha hn current).
Proof using Hns Hss Hds.
  unfold DecodeDataBindPayloadRequest. cbv zeta. apply at_next. intros b L. apply at_pure. intros first E1. apply at_pure. intros second E2.
  destruct (has second 128); at_all.
  match goal with E : bind ?c _ = Ok _ |- _ => destruct c eqn:EC; try discriminate E end. at_all.
Qed.
Lemma at_recon_entry pp pv first h : At h (DecodeReconciliationSendEntry ss pp pv ns ds first tok).
Proof using Hns Hss Hds Htok. unfold DecodeReconciliationSendEntry. at_all. Qed.
Lemma at_fingerprint {F} pp pv hr (neutral : F) fp h : At 0 fp -> At h (DecodeReconciliationSendFingerprint ss pp pv hr neutral fp).
Proof using Hss. intros Hf. unfold DecodeReconciliationSendFingerprint. at_all. Qed.
Lemma at_announce pp pv hr h : At h (DecodeReconciliationAnnounceEntries ss pp pv hr).
Proof using Hss. unfold DecodeReconciliationAnnounceEntries. at_all. Qed.
End Generic.
Lemma at_aoi pp granted h : At h (DecodeSetupBindAreaOfInterest pp granted).
Proof.
  assert (HN : At 0 (c_dec nil_codec)) by (exists (Done Panic); split; [reflexivity|exact I]).
  unfold DecodeSetupBindAreaOfInterest. cbv zeta.
  set (tail := fun (h0 auth : N) ar s3 => if negb (has h0 4) then Ok (MsgBindAoi (AOI ar 0 0) auth, s3) else
    do (_, s4) <- NextAbsolute 1 s3; do m <- index (g_array s4) 0;
    do (_, s5) <- NextAbsolute (1 + CompactWidthFromEndOfByte (N.shiftr m 6) + CompactWidthFromEndOfByte (N.shiftr m 4)) s4;
    do c <- slice (g_array s5) 1 (1 + CompactWidthFromEndOfByte (N.shiftr m 6));
    do z <- slice (g_array s5) (1 + CompactWidthFromEndOfByte (N.shiftr m 6)) (1 + CompactWidthFromEndOfByte (N.shiftr m 6) + CompactWidthFromEndOfByte (N.shiftr m 4));
    Ok (MsgBindAoi (AOI ar (int64_or_zero c) (int64_or_zero z)) auth,
        Prune (1 + CompactWidthFromEndOfByte (N.shiftr m 6) + CompactWidthFromEndOfByte (N.shiftr m 4)) s5)).
  assert (HT : forall h0 auth ar, At 0 (tail h0 auth ar)).
  { intros h0 auth ar. unfold tail. destruct (negb (has h0 4)); [apply at_ok|].
    refine (at_look _ 1 (fun _ y s4 => do m <- index y 0;
      do (_, s5) <- NextAbsolute (1 + CompactWidthFromEndOfByte (N.shiftr m 6) + CompactWidthFromEndOfByte (N.shiftr m 4)) s4;
      do c <- slice (g_array s5) 1 (1 + CompactWidthFromEndOfByte (N.shiftr m 6));
      do z <- slice (g_array s5) (1 + CompactWidthFromEndOfByte (N.shiftr m 6)) (1 + CompactWidthFromEndOfByte (N.shiftr m 6) + CompactWidthFromEndOfByte (N.shiftr m 4));
      Ok (MsgBindAoi (AOI ar (int64_or_zero c) (int64_or_zero z)) auth,
        Prune (1 + CompactWidthFromEndOfByte (N.shiftr m 6) + CompactWidthFromEndOfByte (N.shiftr m 4)) s5)) _). intros b L. apply at_pure. intros m E.
    refine (at_look _ (1 + CompactWidthFromEndOfByte (N.shiftr m 6) + CompactWidthFromEndOfByte (N.shiftr m 4)) (fun _ y s5 =>
      do c <- slice y 1 (1 + CompactWidthFromEndOfByte (N.shiftr m 6));
      do z <- slice y (1 + CompactWidthFromEndOfByte (N.shiftr m 6)) (1 + CompactWidthFromEndOfByte (N.shiftr m 6) + CompactWidthFromEndOfByte (N.shiftr m 4));
      Ok (MsgBindAoi (AOI ar (int64_or_zero c) (int64_or_zero z)) auth,
        Prune (1 + CompactWidthFromEndOfByte (N.shiftr m 6) + CompactWidthFromEndOfByte (N.shiftr m 4)) s5)) _). at_all. }
  refine (at_look h 1 (fun _ y s1 => do h0 <- index y 0; do (_, s2) <- NextAbsolute (1 + CompactWidthFromEndOfByte h0) s1;
    do a <- slice (g_array s2) 1 (1 + CompactWidthFromEndOfByte h0);
    do (ar, s3) <- DecodeStreamAreaInArea nil_codec pp (granted (int64_or_zero a)) (Prune (1 + CompactWidthFromEndOfByte h0) s2); tail h0 (int64_or_zero a) ar s3) _).
  intros b L. apply at_pure. intros h0 E.
  refine (at_look _ (1 + CompactWidthFromEndOfByte h0) (fun _ y s2 => do a <- slice y 1 (1 + CompactWidthFromEndOfByte h0);
    do (ar, s3) <- DecodeStreamAreaInArea nil_codec pp (granted (int64_or_zero a)) (Prune (1 + CompactWidthFromEndOfByte h0) s2); tail h0 (int64_or_zero a) ar s3) _).
  clearbody tail. at_all.
Qed.

(** ** The decoders *)
Definition of_calls {A} (f : stream -> res (A * stream)) : Prop := exists p : prog A, (forall st, f st = seq p st) /\ tame 0 p.
Ltac at_given := repeat match goal with H : of_calls ?f |- _ => let p := fresh "p" in let H1 := fresh in let H2 := fresh in destruct H as (p & H1 & H2);
  let H3 := fresh in assert (H3 : At 0 f) by (exists p; split; [exact H1|exact H2]); clear H1 H2 end.

Theorem C23_decoders pp ns ss ds (G K Sg T F : Type) (g : codec G) (k : codec K) (sg : codec Sg) (tok : codec T) (cap : stream -> res (K * stream)) (fp : stream -> res (F * stream)) :
  of_calls (c_dec ns) -> of_calls (c_dec ss) -> of_calls (c_dec ds) -> of_calls (c_dec g) -> of_calls (c_dec k) -> of_calls (c_dec sg) ->
  of_calls (c_dec tok) -> of_calls cap -> of_calls fp ->
  faithful (DecodePathStream pp)
  /\ (forall ref, faithful (fun s => DecodeRelPathStream pp s ref))
  /\ (forall ref, faithful (DecodeStreamEntryRelativeEntry ns ss ds pp ref))
  /\ (forall outer n, faithful (DecodeStreamEntryRelativeRange3d ss ds pp outer n))
  /\ (forall ref, faithful (DecodeStreamRange3dRelative ss pp ref))
  /\ (forall outer, faithful (DecodeStreamAreaInArea ss pp outer))
  /\ (forall outer n, faithful (DecodeStreamEntryInNamespaceArea ss ds pp outer n))
  /\ faithful DecodeControlIssueGuarantee /\ faithful DecodeControlAbsolve /\ faithful DecodeControlPlead
  /\ faithful DecodeControlAnnounceDropping /\ faithful DecodeControlApologise /\ faithful DecodeControlFree
  /\ (forall n, faithful (DecodeCommitmentReveal n))
  /\ faithful (DecodePaiBindFragment g) /\ faithful (DecodePaiReplyFragment g)
  /\ faithful DecodePaiRequestSubspaceCapability /\ faithful (DecodePaiReplySubspaceCapability k sg)
  /\ faithful (DecodeSetupBindReadCapability cap sg) /\ faithful (DecodeSetupBindStaticToken k)
  /\ (forall granted, faithful (DecodeSetupBindAreaOfInterest pp granted))
  /\ (forall ha hn current, faithful (DecodeDataSendEntry ns ss ds pp ha hn tok current))
  /\ faithful DecodeDataSetEagerness
  /\ (forall ha hn current, faithful (DecodeDataBindPayloadRequest ns ss ds pp ha hn current))
  /\ faithful DecodeDataReplyPayload
  /\ (forall pv first, faithful (DecodeReconciliationSendEntry ss pp pv ns ds first tok))
  /\ faithful DecodeReconciliationSendPayload
  /\ (forall pv hr neutral, faithful (DecodeReconciliationSendFingerprint ss pp pv hr neutral fp))
  /\ (forall pv hr, faithful (DecodeReconciliationAnnounceEntries ss pp pv hr)).
Proof.
  intros. at_given. repeat apply conj; intros; apply at_faithful;
    first [apply at_path|apply at_rel_path|apply at_entry_entry|apply at_entry_range|apply at_range|apply at_area|apply at_entry_area|apply at_amount|apply at_channel
          |apply at_free|apply at_reveal|apply at_bind_fragment|apply at_reply_fragment|apply at_request_capability|apply at_reply_capability|apply at_read_capability
          |apply at_static_token|apply at_aoi|apply at_data_entry|apply at_eager|apply at_payload_request|apply at_reply_payload|apply at_recon_entry|apply at_recon_payload|apply at_fingerprint|apply at_announce];
    assumption.
Qed.
Print Assumptions C23_decoders.

(** A codec that waits for two bytes, as the demo's do, is one of calls; and a run of the control decoder for a plea against the goroutine: the amount
    arrives in two chunks, the byte of the next message with it. *)
Example C23_instance_decoders :
  of_calls (fun s => do (b, s1) <- NextAbsolute 2 s; do a <- slice b 0 2; Ok (a, Prune 2 s1))
  /\ exists ls s sched st st', gruns ls ginit = Some s /\ trace ls ginit = [Asked 1 [136]; Asked 2 [136; 32]; Asked 3 [136; 32; 9; 7]; Pruned 3]
       /\ g_sent s = [136; 32; 9; 7] /\ goes [] (Stream [] (g_sent s) sched) = Some st
       /\ DecodeControlPlead st = Ok (MsgAmount ControlPlead (DecodeChannelFromBeginningOfByte 32) 9, st') /\ g_array st' = [7].
Proof.
  split.
  - assert (X : At 0 (fun s => do (b, s1) <- NextAbsolute 2 s; do a <- slice b 0 2; Ok (a, Prune 2 s1))) by at_all.
    destruct X as (p & H1 & H2). exists p. auto.
  - exists [LSend [136]; LTakeChunk; LProducer; LProducer; LCall 1; LCall 2; LReader; LReader; LReader; LTakeToken; LSend [32]; LTakeChunk; LProducer; LProducer; LProducer; LReader;
      LProducer; LProducer; LTakeToken; LSend [9; 7]; LTakeChunk; LProducer; LProducer; LCall 3; LPrune 3].
    eexists. exists [(1, 0); (0, 0); (0, 1)]%nat. eexists. eexists. split; [vm_compute; reflexivity|]. repeat split; vm_compute; reflexivity.
Qed.

(** ** The decoder that is not *)
Lemma next_keeps n st b s1 : NextAbsolute n st = Ok (b, s1) -> g_array s1 ++ g_future s1 = g_array st ++ g_future st.
Proof.
  unfold NextAbsolute. destruct (match g_sched st with [] => _ | _ => _ end) as [before after]. unfold arrive. cbn [g_array g_future g_sched]. intros E.
  repeat match type of E with context[if ?c then _ else _] => destruct c end; try discriminate E; injection E as _ <-; cbn [g_array g_future];
    rewrite <- ?app_assoc, ?firstn_skipn; reflexivity.
Qed.
Definition payload_calls : prog msg_payload :=
  Next 1 (fun r1 => match index r1 0 with
    | Ok h => let cw := CompactWidthFromEndOfByte h in
        Next (1 + cw) (fun r2 => match (do a <- slice r2 1 (1 + cw); do n <- as_int (int64_or_zero a); do b <- slice r2 (1 + cw) (1 + cw + n); Ok (int64_or_zero a, n, b)) with
          | Ok (amount, n, b) => Cut (1 + cw + n) (Cut (1 + cw + n) (Done (Ok (MsgPayload amount b))))
          | Err => Done Err | Panic => Done Panic | Fatal => Done Fatal | Hang => Done Hang end)
    | Err => Done Err | Panic => Done Panic | Fatal => Done Fatal | Hang => Done Hang end).

(** Sent payloads: the second pruning takes what has arrived since the first. With the same answers, four bytes of the next message are to come in the
    sequential model whatever the schedule, and one is left to the reader of the code. *)
Theorem C23_pruned_twice_refuted :
  (forall st, DecodeDataSendPayload st = seq payload_calls st)
  /\ exists ls s es, gruns ls ginit = Some s /\ trace ls ginit = es /\ does payload_calls es (Ok (MsgPayload 1 [9]))
       /\ g_sent s = [100; 1; 9; 7; 8; 7; 8] /\ M_Growing.g_array s = [8] /\ g_in s = [] /\ g_gone s = [100; 1; 9; 7; 8; 7]
       /\ forall sched st, goes es (Stream [] (g_sent s) sched) = Some st -> g_array st ++ g_future st = [7; 8; 7; 8].
Proof.
  split.
  - intros st. unfold DecodeDataSendPayload, payload_calls. cbn [seq]. destruct (NextAbsolute 1 st) as [[r1 s1]| | | |]; try reflexivity. cbn [bind].
    destruct (index r1 0) as [h| | | |]; try reflexivity. cbn [bind]. cbv zeta. cbn [seq].
    destruct (NextAbsolute (1 + CompactWidthFromEndOfByte h) s1) as [[r2 s2]| | | |]; try reflexivity. cbn [bind].
    destruct (slice r2 1 (1 + CompactWidthFromEndOfByte h)) as [a| | | |]; try reflexivity. cbn [bind].
    destruct (as_int (int64_or_zero a)) as [n| | | |]; try reflexivity. cbn [bind].
    destruct (slice r2 (1 + CompactWidthFromEndOfByte h) (1 + CompactWidthFromEndOfByte h + n)) as [b| | | |]; reflexivity.
  - exists [LSend [100; 1; 9]; LTakeChunk; LProducer; LProducer; LCall 1; LCall 2; LPrune 3; LSend [7; 8; 7; 8]; LTakeChunk; LProducer; LPrune 3].
    eexists. exists [Asked 1 [100; 1; 9]; Asked 2 [100; 1; 9]; Pruned 3; Pruned 3]. split; [vm_compute; reflexivity|]. split; [vm_compute; reflexivity|].
    split. { unfold payload_calls. constructor. constructor. constructor. constructor. constructor. }
    do 4 (split; [reflexivity|]). intros sched st. cbn [goes g_sent].
    destruct (NextAbsolute 1 _) as [[b1 s1]| | | |] eqn:E1; try discriminate. destruct (list_eq_dec _ b1 _) as [->|]; [|discriminate].
    destruct (NextAbsolute 2 s1) as [[b2 s2]| | | |] eqn:E2; try discriminate. destruct (list_eq_dec _ b2 _) as [->|]; [|discriminate].
    intros E. injection E as <-. apply next_keeps in E1. pose proof (next_keeps _ _ _ _ E2) as K2. rewrite E1 in K2. cbn [g_array g_future app] in K2.
    destruct (next_answer _ _ _ _ E2) as [A2 _]. unfold Prune. cbn [g_array g_future]. rewrite <- A2 in K2 |- *. cbn [app] in K2. injection K2 as ->. reflexivity.
Qed.
Print Assumptions C23_pruned_twice_refuted.
