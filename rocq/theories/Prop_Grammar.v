(** C76: the grammar of every value and message the sync protocol decodes from a stream, byte by byte. *)
From Verif Require Import Base M_Order M_Encoding M_Paths M_Ranges M_Areas M_Entry M_Stream M_Wire M_Rel M_Wire2
  S_Wire P_Encoding P_Paths P_Stream P_Wire Prop_Malformed Prop_Reading.
Local Open Scope N_scope.

(** ** Grammars *)

(** What bytes spell: a value and the bytes behind it; nothing yet (Hang: bytes are missing and are waited for); an error; or
    bytes on which the process panics. *)
Definition grammar (A : Type) := bytes -> res (A * bytes).
Definition g_field (w : N) : grammar bytes :=
  fun c => if len c <? w then Hang else Ok (firstn (N.to_nat w) c, skipn (N.to_nat w) c).
(** A number, the most significant byte first. *)
Definition g_num (w : N) : grammar N := fun c => do (b, r) <- g_field w c; Ok (be_decode b, r).
(** The same of bytes that are not waited for. *)
Definition g_now (w : N) : grammar N := fun c => if len c <? w then Panic else g_num w c.
(** The number of bytes in the two bits from bit [i] of a header. *)
Definition width_at (h i : N) : N := 2 ^ (h / 2 ^ i mod 4).

(** The decoder does what the grammar says of all the bytes sent, however they arrive; but it may panic while bytes of them
    are on the way. *)
Definition follows {A} (q : Prop) (r : res (A * stream)) (g : res (A * bytes)) : Prop :=
  match r with
  | Ok (a, s') => g = Ok (a, total s') /\ wf_bytes (total s') /\ (q -> g_future s' = [])
  | Err => g = Err
  | Panic => q -> g = Panic
  | Hang => g = Hang
  | Fatal => False
  end.
Definition obeys {A} (d : stream -> res (A * stream)) (g : grammar A) : Prop :=
  forall s, wf_bytes (total s) -> follows (g_future s = []) (d s) (g (total s)).

(** ** Rules *)

Lemma follows_weaken {A} (p q : Prop) (r : res (A * stream)) g : (q -> p) -> follows p r g -> follows q r g.
Proof. intros H. destruct r as [[a s]| | | |]; cbn [follows]; intuition. Qed.
Lemma follows_bind {A B} (q : Prop) (d : stream -> res (A * stream)) g s c (k : A * stream -> res (B * stream)) (k' : A * bytes -> res (B * bytes)) :
  obeys d g -> total s = c -> wf_bytes (total s) -> (q -> g_future s = []) ->
  (forall a s', wf_bytes (total s') -> (q -> g_future s' = []) -> follows q (k (a, s')) (k' (a, total s'))) ->
  follows q (bind (d s) k) (bind (g c) k').
Proof.
  intros H <- W Q K. specialize (H s W). apply (follows_weaken _ q) in H; [|exact Q].
  destruct (d s) as [[a s']| | | |]; cbn [follows bind] in *.
  - destruct H as (-> & W' & Q'). cbn [bind]. apply K; auto.
  - rewrite H. reflexivity.
  - intros X. rewrite (H X). reflexivity.
  - exact H.
  - rewrite H. reflexivity.
Qed.
Lemma obeys_ret {A} (a : A) : obeys (fun s => Ok (a, s)) (fun c => Ok (a, c)).
Proof. intros s W. cbn [follows]. auto. Qed.
Lemma skipn_wf' n c : wf_bytes c -> wf_bytes (skipn n c).
Proof. apply skipn_wf. Qed.
Lemma Next_future n s b s' : NextAbsolute n s = Ok (b, s') -> g_future s = [] -> g_future s' = [].
Proof. apply Next_all. Qed.

(** A header byte and the bytes behind it. *)
Lemma follows_head {A} (q : Prop) s c (k : N -> stream -> res (A * stream)) (k' : N -> bytes -> res (A * bytes)) :
  total s = c -> wf_bytes (total s) -> (q -> g_future s = []) ->
  (forall h s', h < 256 -> wf_bytes (total s') -> (q -> g_future s' = []) -> follows q (k h s') (k' h (total s'))) ->
  follows q (do (b, s1) <- NextAbsolute 1 s; do h <- index b 0; k h (Prune 1 s1))
    (match c with h :: r => k' h r | [] => Hang end).
Proof.
  intros <- W Q K. pose proof (next1 s) as N1. destruct (total s) as [|h r]; [rewrite N1; reflexivity|].
  destruct N1 as (s1 & E1 & I1 & T1 & A1). rewrite E1. cbn [bind]. rewrite I1. cbn [bind].
  destruct (wf_cons _ _ W) as [LH WR]. assert (TP : total (Prune 1 s1) = r) by (rewrite Prune_total, T1 by exact A1; reflexivity).
  rewrite <- TP. apply K; [exact LH|rewrite TP; exact WR|]. intros X. cbn [Prune g_future]. eapply Next_future; eauto.
Qed.
Lemma follows_head2 {A} (q : Prop) s c (k : N -> N -> stream -> res (A * stream)) (k' : N -> N -> bytes -> res (A * bytes)) :
  total s = c -> wf_bytes (total s) -> (q -> g_future s = []) ->
  (forall h b s', h < 256 -> b < 256 -> wf_bytes (total s') -> (q -> g_future s' = []) -> follows q (k h b s') (k' h b (total s'))) ->
  follows q (do (a, s1) <- NextAbsolute 2 s; do h <- index a 0; do b <- index a 1; k h b (Prune 2 s1))
    (match c with h :: b :: r => k' h b r | _ => Hang end).
Proof.
  intros <- W Q K. pose proof (next2 s) as N1. destruct (total s) as [|h [|b r]]; [rewrite N1; reflexivity..|].
  destruct N1 as (s1 & E1 & I1 & J1 & T1 & A1). rewrite E1. cbn [bind]. rewrite I1, J1. cbn [bind].
  destruct (wf_cons _ _ W) as [LH WR]. destruct (wf_cons _ _ WR) as [LB WS].
  assert (TP : total (Prune 2 s1) = r) by (rewrite Prune_total, T1 by exact A1; reflexivity).
  rewrite <- TP. apply K; [exact LH|exact LB|rewrite TP; exact WS|]. intros X. cbn [Prune g_future]. eapply Next_future; eauto.
Qed.

(** Bits. *)
Lemma width_power h i : exists j, width_at h i = 2 ^ (j mod 4).
Proof. exists (h / 2 ^ i). reflexivity. Qed.
Lemma shifted_bits h i : N.shiftr (N.land h (3 * 2 ^ i)) i = h / 2 ^ i mod 4.
Proof.
  rewrite N.shiftr_land, (N.shiftr_div_pow2 (3 * 2 ^ i)), N.div_mul by (apply N.pow_nonzero; lia).
  rewrite land3, N.shiftr_div_pow2. reflexivity.
Qed.
Lemma pow_bits h i : pow2 (N.shiftr (N.land h (3 * 2 ^ i)) i) = width_at h i.
Proof. unfold pow2, width_at. rewrite shifted_bits. reflexivity. Qed.
Lemma pow_bits0 h : pow2 (N.land h 3) = width_at h 0.
Proof. unfold pow2, width_at. rewrite land3. change (2 ^ 0) with 1. rewrite N.div_1_r. reflexivity. Qed.
Lemma pow_bits6 h : h < 256 -> pow2 (N.shiftr h 6) = width_at h 6.
Proof.
  intros L. unfold pow2, width_at. rewrite N.shiftr_div_pow2. f_equal. symmetry. apply N.mod_small.
  apply N.div_lt_upper_bound; [discriminate|]. exact L.
Qed.
Lemma end_bits h i : CompactWidthFromEndOfByte (N.shiftr h i) = width_at h i.
Proof. rewrite width_end, N.shiftr_div_pow2. reflexivity. Qed.
Lemma end_bits_masked h i : CompactWidthFromEndOfByte (N.shiftr (N.land h (3 * 2 ^ i)) i) = width_at h i.
Proof. rewrite width_end, shifted_bits. rewrite N.mod_mod by discriminate. reflexivity. Qed.
Lemma end_bits0 h : CompactWidthFromEndOfByte h = width_at h 0.
Proof. rewrite width_end. unfold width_at. change (2 ^ 0) with 1. rewrite N.div_1_r. reflexivity. Qed.

(** Numbers. *)
Lemma stream_int_obeys w : (exists i, w = 2 ^ (i mod 4)) -> obeys (stream_int w) (g_num w).
Proof.
  intros [i EW] s W. unfold stream_int, g_num, g_field.
  destruct (Next w s) as [[L X]|(L & s1 & X & T & A)]; rewrite X; cbn [bind]; destruct (N.ltb_spec (len (total s)) w); try lia; [reflexivity|].
  pose proof (slice_part s1 0 w) as S1. rewrite N.add_0_l in S1. rewrite S1 by exact A. cbn [bind]. change (skipn (N.to_nat 0) (total s1)) with (total s1).
  rewrite (int64_width _ i) by (rewrite <- EW; apply len_firstn; rewrite T; exact L). cbn [bind follows].
  assert (TP : total (Prune w s1) = skipn (N.to_nat w) (total s)) by (rewrite Prune_total, T by exact A; reflexivity).
  rewrite T, TP. split; [reflexivity|]. split; [apply skipn_wf; exact W|]. intros F. cbn [Prune g_future]. eapply Next_future; eauto.
Qed.

(** ** Paths *)

Section Paths.
Variable pp : path_params.
Local Notation lw := (GetWidthMax32Int (max_component_length pp)).
Local Notation cw := (GetWidthMax32Int (max_component_count pp)).
(** A component: its length, then as many bytes. The decoder waits for as many bytes as the length has, whatever it says, and
    panics if the component is not there by then. *)
Definition g_component : grammar bytes := fun c =>
  do (l, r) <- g_num lw c;
  if len r <? lw then Hang else if len r <? l then Panic else Ok (firstn (N.to_nat l) r, skipn (N.to_nat l) r).
Fixpoint g_components (n : nat) : grammar path := fun c =>
  match n with
  | O => Ok ([], c)
  | S n' => do (x, r) <- g_component c; do (p, r') <- g_components n' r; Ok (x :: p, r')
  end.
Definition g_path : grammar path := fun c => do (n, r) <- g_num cw c; g_components (N.to_nat n) r.
(** A path relative to another: how many components they share, then the rest. *)
Definition g_rel_path (ref : path) : grammar path := fun c =>
  do (n, r) <- g_num cw c;
  if len ref <? n then Panic else do (p, r') <- g_path r; Ok (firstn (N.to_nat n) ref ++ p, r').

Lemma int32_or_zero b m : len b = GetWidthMax32Int m -> decode_or_zero b m = Ok (be_decode b).
Proof. intros L. unfold decode_or_zero. rewrite DecodeIntMax32_be by exact L. reflexivity. Qed.
Lemma follows_int32 {A} (q : Prop) m s c (k : N -> stream -> res (A * stream)) (k' : N * bytes -> res (A * bytes)) :
  total s = c -> wf_bytes (total s) -> (q -> g_future s = []) ->
  (forall x s1, GetWidthMax32Int m <= len (g_array s1) -> total s1 = total s -> (q -> g_future s1 = []) -> x = be_decode (firstn (N.to_nat (GetWidthMax32Int m)) c) ->
     follows q (k x s1) (k' (x, skipn (N.to_nat (GetWidthMax32Int m)) (total s)))) ->
  follows q (do (acc, s1) <- NextAbsolute (GetWidthMax32Int m) s; do lb <- slice acc 0 (GetWidthMax32Int m); do l <- decode_or_zero lb m; k l s1)
    (bind (g_num (GetWidthMax32Int m) c) k').
Proof.
  intros <- W Q K. set (w := GetWidthMax32Int m) in *. unfold g_num, g_field.
  destruct (Next w s) as [[L X]|(L & s1 & X & T & AA)]; rewrite X; cbn [bind]; destruct (N.ltb_spec (len (total s)) w); try lia; [reflexivity|].
  pose proof (slice_part s1 0 w) as S1. rewrite N.add_0_l in S1. rewrite S1 by exact AA. cbn [bind]. change (skipn (N.to_nat 0) (total s1)) with (total s1).
  rewrite int32_or_zero by (apply len_firstn; rewrite T; exact L). cbn [bind]. rewrite T. apply K; auto. intros F. eapply Next_future; eauto.
Qed.

Lemma path_loop_obeys n : obeys (path_stream_loop pp n) (g_components n).
Proof.
  induction n as [|n IH]; intros s W; [apply obeys_ret; exact W|]. cbn [path_stream_loop g_components]. cbv zeta.
  unfold g_component. rewrite bind_bind. apply follows_int32; auto. intros l s1 A1 T1 Q1 _.
  set (c := total s) in *. assert (LR : len (skipn (N.to_nat lw) c) = len c - lw) by (unfold len; rewrite skipn_length; lia). rewrite LR.
  assert (LC : lw <= len c) by (pose proof (array_part s1); rewrite <- T1; lia).
  destruct (Next (lw + lw) s1) as [[L X]|(L & s2 & X & T & A)]; rewrite X, T1 in *; cbn [bind].
  - destruct (N.ltb_spec (len c - lw) lw); [reflexivity|lia].
  - destruct (N.ltb_spec (len c - lw) lw); [lia|].
    destruct (N.le_gt_cases (lw + l) (len (g_array s2))) as [LA|LA].
    + pose proof (array_part s2) as AP. rewrite T in AP. rewrite slice_part by exact LA. cbn [bind].
      destruct (N.ltb_spec (len c - lw) l); [lia|]. cbn [bind]. rewrite T.
      assert (TP : total (Prune (lw + l) s2) = skipn (N.to_nat l) (skipn (N.to_nat lw) c)) by (rewrite Prune_total, T, skipn_add by exact LA; reflexivity).
      rewrite <- TP. eapply follows_bind; [exact IH|reflexivity|rewrite TP; apply skipn_wf, skipn_wf; exact W| |].
      * intros F. cbn [Prune g_future]. eapply Next_future; eauto.
      * intros p s3 W3 Q3. cbn [follows]. auto.
    + rewrite slice_short by exact LA. cbn [bind follows]. intros F. pose proof (Next_future _ _ _ _ X (Q1 F)) as F2.
      rewrite (all_arrived _ F2), T in LA. destruct (N.ltb_spec (len c - lw) l); [reflexivity|lia].
Qed.
Lemma path_obeys : obeys (DecodePathStream pp) g_path.
Proof.
  intros s W. unfold DecodePathStream, g_path. cbv zeta. apply follows_int32; auto. intros n s1 A1 T1 Q1 _.
  assert (TP : total (Prune cw s1) = skipn (N.to_nat cw) (total s)) by (rewrite Prune_total, T1 by exact A1; reflexivity). rewrite <- TP.
  eapply follows_weaken; [|apply path_loop_obeys; rewrite TP; apply skipn_wf; exact W]. exact Q1.
Qed.
(** C76: paths. *)
Theorem C76_spelt_path ref : obeys (DecodePathStream pp) g_path /\ obeys (fun s => DecodeRelPathStream pp s ref) (g_rel_path ref).
Proof.
  split; [exact path_obeys|]. intros s W. unfold DecodeRelPathStream, g_rel_path. cbv zeta. apply follows_int32; auto. intros n s1 A1 T1 Q1 _.
  destruct (N.ltb_spec (len ref) n) as [L|L].
  - rewrite slice_short by exact L. cbn [bind follows]. reflexivity.
  - unfold slice at 1. rewrite !(proj2 (N.leb_le _ _)) by lia. cbn [andb bind]. rewrite N.sub_0_r. change (skipn (N.to_nat 0) ref) with ref.
    assert (TP : total (Prune cw s1) = skipn (N.to_nat cw) (total s)) by (rewrite Prune_total, T1 by exact A1; reflexivity). rewrite <- TP.
    eapply follows_bind; [exact path_obeys|reflexivity|rewrite TP; apply skipn_wf; exact W|exact Q1|].
    intros p s2 W2 Q2. cbn [follows]. auto.
Qed.
Lemma rel_path_obeys ref : obeys (fun s => DecodeRelPathStream pp s ref) (g_rel_path ref).
Proof. apply C76_spelt_path. Qed.
End Paths.

(** ** Values *)

Ltac arrived Q := intros; cbn [Prune g_future]; eapply Next_future; [eassumption|apply Q; assumption].
(** One header byte, two header bytes. *)
Ltac head1 h s2 LH W2 Q2 := match goal with
  | W : wf_bytes (total ?s), Q : _ -> g_future ?s = [] |- follows ?q (bind (NextAbsolute 1 ?s) _) _ =>
    let N1 := fresh "N1" in let c := fresh "c" in let s1 := fresh "s1" in let E1 := fresh "E1" in let I1 := fresh "I1" in
    let T1 := fresh "T1" in let A1 := fresh "A1" in let TP := fresh "TP" in
    pose proof (next1 s) as N1; destruct (total s) as [|h c]; [rewrite N1; reflexivity|];
    destruct N1 as (s1 & E1 & I1 & T1 & A1); rewrite E1; cbn [bind]; cbn beta iota; rewrite ?I1; cbn [bind]; cbn beta iota zeta;
    apply wf_cons in W; destruct W as [LH W];
    assert (TP : total (Prune 1 s1) = c) by (rewrite Prune_total, T1 by exact A1; reflexivity);
    assert (Q2 : q -> g_future (Prune 1 s1) = []) by (arrived Q)
  end.
Ltac heads1 h s2 LH W2 Q2 := head1 h s2 LH W2 Q2; match goal with
  | W : wf_bytes ?c, TP : total (Prune 1 ?s1) = ?c |- _ =>
    assert (W2 : wf_bytes (total (Prune 1 s1))) by (rewrite TP; exact W); rewrite <- TP; generalize dependent (Prune 1 s1); intros s2 _ Q2 W2; clear W
  end.
Ltac heads2 h b s2 LH LB W2 Q2 := match goal with
  | W : wf_bytes (total ?s), Q : _ -> g_future ?s = [] |- follows ?q (bind (NextAbsolute 2 ?s) _) _ =>
    let N1 := fresh "N1" in let c := fresh "c" in let s1 := fresh "s1" in let E1 := fresh "E1" in let I1 := fresh "I1" in let J1 := fresh "J1" in
    let T1 := fresh "T1" in let A1 := fresh "A1" in let TP := fresh "TP" in
    pose proof (next2 s) as N1; destruct (total s) as [|h [|b c]]; [rewrite N1; reflexivity..|];
    destruct N1 as (s1 & E1 & I1 & J1 & T1 & A1); rewrite E1; cbn [bind]; cbn beta iota; rewrite ?I1, ?J1; cbn [bind]; cbn beta iota zeta;
    apply wf_cons in W; destruct W as [LH W]; apply wf_cons in W; destruct W as [LB W];
    assert (TP : total (Prune 2 s1) = c) by (rewrite Prune_total, T1 by exact A1; reflexivity);
    assert (Q2 : q -> g_future (Prune 2 s1) = []) by (arrived Q);
    assert (W2 : wf_bytes (total (Prune 2 s1))) by (rewrite TP; exact W); rewrite <- TP; generalize dependent (Prune 2 s1); intros s2 _ Q2 W2; clear W
  end.
Create HintDb obeys_db.
#[export] Hint Resolve rel_path_obeys : obeys_db.
Ltac obey := first [eassumption | apply stream_int_obeys; apply width_power | apply (rel_path_obeys _ _) | solve [auto with obeys_db]].
Ltac spell := cbn [bind negb andb orb]; cbn beta iota zeta; try (match goal with
  | |- follows _ (bind (if ?b then _ else _) _) _ => destruct b
  | |- follows _ (if ?b then _ else _) _ => destruct b
  | |- follows _ Err _ => reflexivity
  | |- follows _ (Ok _) _ => cbn [follows]; auto
  | |- follows _ Panic _ => cbn [follows]; auto
  | |- follows _ (bind (DecodeRelPathStream _ ?s ?r) _) _ => eapply (follows_bind _ (fun s => DecodeRelPathStream _ s r)); [apply rel_path_obeys|reflexivity|assumption|assumption|intros ? ? ? ?]
  | |- follows _ (bind (_ ?s) _) (bind (_ (total ?s)) _) => eapply follows_bind; [obey|reflexivity|assumption|assumption|intros ? ? ? ?]
  end; spell).
Ltac bits h := rewrite ?(has_bit h 7 : has h 128 = _), ?(has_bit h 6 : has h 64 = _), ?(has_bit h 5 : has h 32 = _), ?(has_bit h 4 : has h 16 = _),
  ?(has_bit h 3 : has h 8 = _), ?(has_bit h 2 : has h 4 = _), ?(has_bit h 1 : has h 2 = _), ?(has_bit h 0 : has h 1 = _),
  ?(pow_bits h 4 : pow2 (N.shiftr (N.land h 48) 4) = _), ?(pow_bits h 2 : pow2 (N.shiftr (N.land h 12) 2) = _), ?(pow_bits0 h),
  ?(end_bits_masked h 5 : CompactWidthFromEndOfByte (N.shiftr (N.land h 96) 5) = _), ?(end_bits_masked h 2 : CompactWidthFromEndOfByte (N.shiftr (N.land h 12) 2) = _),
  ?(end_bits h 2), ?(end_bits h 4), ?(end_bits h 6), ?(end_bits0 h).

Section Values.
Variables (ns ss ds : codec bytes) (gn gs gd : grammar bytes) (pp : path_params).
Hypotheses (ON : obeys (c_dec ns) gn) (OS : obeys (c_dec ss) gs) (OD : obeys (c_dec ds) gd).

(** A time, [d] later or earlier. *)
Definition moved (later : bool) (t d : N) : N := if later then add64 t d else sub64 t d.

(** An entry relative to another. Bit 7: the namespace is there; 6: the subspace; 5: later; 3-2 and 1-0: widths. *)
Definition g_entry_entry (ref : entry) : grammar entry := fun c =>
  match c with
  | [] => Hang
  | h :: c =>
      do (n, c) <- (if N.testbit h 7 then gn c else Ok (e_namespace ref, c));
      do (u, c) <- (if N.testbit h 6 then gs c else Ok (e_subspace ref, c));
      do (p, c) <- g_rel_path pp (e_path ref) c;
      do (d, c) <- g_num (width_at h 2) c;
      do (l, c) <- g_num (width_at h 0) c;
      do (x, c) <- gd c;
      Ok (Entry n u x p (moved (N.testbit h 5) (e_time ref) d) l, c)
  end.
Lemma entry_entry_obeys ref : obeys (DecodeStreamEntryRelativeEntry ns ss ds pp ref) (g_entry_entry ref).
Proof.
  intros s W. assert (Q : g_future s = [] -> g_future s = []) by auto. unfold DecodeStreamEntryRelativeEntry, g_entry_entry.
  heads1 h s2 LH W2 Q2. bits h. spell.
Qed.

(** An entry relative to a range that contains it. Bit 7: the subspace is there; 6: the path is relative to the start; 5: the time
    is; 4: later; 3-2 and 1-0: widths. An end that is missing panics (path) or is an error (time). *)
Definition g_entry_range (outer : range3d) (namespace : bytes) : grammar entry := fun c =>
  match c with
  | [] => Hang
  | h :: c =>
      do (u, c) <- (if N.testbit h 7 then gs c else Ok (r_start (subspace_range outer), c));
      do (p, c) <- (if N.testbit h 6 then g_rel_path pp (r_start (path_range outer)) c
                    else if r_open (path_range outer) then Panic else g_rel_path pp (r_end (path_range outer)) c);
      do (d, c) <- g_num (width_at h 2) c;
      if negb (N.testbit h 5) && r_open (time_range outer) then Err
      else
        do (l, c) <- g_num (width_at h 0) c;
        do (x, c) <- gd c;
        Ok (Entry namespace u x p
              (moved (N.testbit h 4) (if N.testbit h 5 then r_start (time_range outer) else r_end (time_range outer)) d) l, c)
  end.
Lemma entry_range_obeys outer n : obeys (DecodeStreamEntryRelativeRange3d ss ds pp outer n) (g_entry_range outer n).
Proof.
  intros s W. assert (Q : g_future s = [] -> g_future s = []) by auto. unfold DecodeStreamEntryRelativeRange3d, g_entry_range.
  cbv zeta. heads1 h s2 LH W2 Q2. bits h. spell.
Qed.

(** A range relative to another. First byte: bits 7, 6: not both 0; 5-4: the start of the subspaces (11 there, 10 the end of the
    other's, 01 its start, 00 empty); 3 and 1: the start and the end of the paths, relative to the start; 0: no end of the times. Second byte: bit 7: the start of
    the times relative to the start, 6: later, 5-4: width; for their end 3: relative even to an end the other does not have; 2: later; 1-0 the width. The bytes of the last number are left
    in the stream. *)
Definition g_range (ref : range3d) : grammar range3d := fun c =>
  let fs := subspace_range ref in let fp := path_range ref in let ft := time_range ref in
  match c with
  | h :: b :: c =>
      if negb (N.testbit h 7 || N.testbit h 6) then Err
      else
        do (u, c) <- match N.testbit h 5, N.testbit h 4 with
                     | true, true => gs c
                     | true, false => if r_open fs then Err else Ok (r_end fs, c)
                     | false, true => Ok (r_start fs, c)
                     | false, false => Ok ([], c)
                     end;
        do (p, c) <- (if N.testbit h 3 then g_rel_path pp (r_start fp) c else if r_open fp then Err else g_rel_path pp (r_end fp) c);
        do (q, c) <- (if N.testbit h 1 then g_rel_path pp (r_start fp) c else if r_open fp then Err else g_rel_path pp (r_end fp) c);
        do (d, c) <- g_num (width_at b 4) c;
        if negb (N.testbit b 7) && r_open ft then Err
        else
          let t := moved (N.testbit b 6) (if N.testbit b 7 then r_start ft else r_end ft) d in
          if N.testbit h 0 then Ok (Range3d (Range u [] false) (Range p q false) (Range t t true), c)
          else
            do (e, _) <- g_num (width_at b 0) c;
            if negb (N.testbit b 3) && r_open ft then Err
            else Ok (Range3d (Range u [] false) (Range p q false) (Range t (moved (N.testbit b 2) (r_end ft) e) false), c)
  | _ => Hang
  end.
(** A number that is looked at and left in the stream. *)
Lemma follows_peek {A} (q : Prop) w s (k : N -> stream -> res (A * stream)) (k' : N * bytes -> res (A * bytes)) :
  (exists i, w = 2 ^ (i mod 4)) -> wf_bytes (total s) -> (q -> g_future s = []) ->
  (forall x s1, total s1 = total s -> w <= len (g_array s1) -> (q -> g_future s1 = []) -> x = be_decode (firstn (N.to_nat w) (total s)) ->
     follows q (k x s1) (k' (x, skipn (N.to_nat w) (total s)))) ->
  follows q (do (b, s1) <- NextAbsolute w s; do a <- slice b 0 w; do x <- DecodeIntMax64 a; k x s1) (bind (g_num w (total s)) k').
Proof.
  intros [i EW] W Q K. unfold g_num, g_field.
  destruct (Next w s) as [[L X]|(L & s1 & X & T & AA)]; rewrite X; cbn [bind]; destruct (N.ltb_spec (len (total s)) w); try lia; [reflexivity|].
  pose proof (slice_part s1 0 w) as S1. rewrite N.add_0_l in S1. rewrite S1 by exact AA. cbn [bind]. change (skipn (N.to_nat 0) (total s1)) with (total s1).
  rewrite (int64_width _ i) by (rewrite <- EW; apply len_firstn; rewrite T; exact L). cbn [bind]. rewrite T. apply K; auto. intros F. eapply Next_future; eauto.
Qed.
Lemma range_obeys ref : obeys (DecodeStreamRange3dRelative ss pp ref) (g_range ref).
Proof.
  intros s W. assert (Q : g_future s = [] -> g_future s = []) by auto. unfold DecodeStreamRange3dRelative, g_range.
  cbv zeta. heads2 h b s2 LH LB W2 Q2. unfold start_code, end_code.
  rewrite ?(has_two h 7 6 ltac:(discriminate) : has h 192 = _), ?(has_two h 5 4 ltac:(discriminate) : has h 48 = _). bits h. bits b.
  replace (N.land h 4 =? 64) with false.
  2: { symmetry. apply N.eqb_neq. intros X. apply (f_equal (fun m => N.testbit m 6)) in X. rewrite N.land_spec, andb_false_r in X. discriminate. }
  Ltac peek := cbn [bind negb andb orb]; cbn beta iota zeta; match goal with
    |- follows _ (bind (NextAbsolute _ _) _) _ => eapply follows_peek; [apply width_power|assumption|assumption|intros ? ? ? ? ? ?] end;
    cbn [bind negb andb orb]; cbn beta iota zeta; repeat match goal with |- context[if ?b then _ else _] => destruct b; cbn [bind negb andb orb]; cbn beta iota zeta end;
    try reflexivity; cbn [follows]; match goal with T : total _ = total _ |- _ => rewrite T; auto end.
  destruct (N.testbit h 7), (N.testbit h 6), (N.testbit h 5), (N.testbit h 4); cbn [bind negb andb orb]; cbn beta iota zeta; try reflexivity; spell; try peek.
Qed.

(** An area in another. Bit 7: the subspace is there (and not empty); 6: no end; 5: the start later than the other's start; 4: the
    end after the start, else before the other's end; 1-0: the width of the end. The start has one byte. *)
Definition g_area (outer : area) : grammar area := fun c =>
  let ot := area_times outer in
  match c with
  | [] => Hang
  | h :: c =>
      do (d, c) <- g_num 1 c;
      do (e, c) <- (if N.testbit h 6 then Ok (0, c) else g_num (width_at h 0) c);
      do (p, c) <- g_rel_path pp (area_path outer) c;
      do (u, c) <- (if N.testbit h 7 then do (x, c) <- gs c; match x with [] => Err | _ => Ok (x, c) end else Ok (area_subspace outer, c));
      let start := moved (N.testbit h 5) (r_start ot) d in
      Ok (Area u p (if N.testbit h 6 then Range start 0 true
                    else Range start (if N.testbit h 4 then add64 start e else sub64 (r_end ot) e) false) false, c)
  end.
Lemma area_obeys outer : obeys (DecodeStreamAreaInArea ss pp outer) (g_area outer).
Proof.
  intros s W. assert (Q : g_future s = [] -> g_future s = []) by auto. unfold DecodeStreamAreaInArea, g_area.
  cbv zeta. heads1 h s2 LH W2 Q2. rewrite !(N.land_comm 3 h).
  replace (pow2 (N.shiftr (N.land h 3) 2)) with 1.
  2: { unfold pow2. rewrite land3, N.shiftr_div_pow2, N.div_small; [reflexivity|]. apply N.mod_lt. discriminate. }
  bits h. eapply follows_bind; [apply stream_int_obeys; exists 0; reflexivity|reflexivity|assumption|assumption|intros ? ? ? ?]. spell.
  all: rewrite ?bind_bind; eapply follows_bind; [exact OS|reflexivity|assumption|assumption|intros x ? ? ?]; destruct x; cbn [bind]; cbn beta iota zeta; cbn [follows]; auto.
Qed.

(** An entry in an area. Bit 7: the subspace is there; 6: the time after the start, else before the end; 5-4 and 3-2: widths. *)
Definition g_entry_area (outer : area) (namespace : bytes) : grammar entry := fun c =>
  let ot := area_times outer in
  match c with
  | [] => Hang
  | h :: c =>
      do (u, c) <- (if N.testbit h 7 then gs c else if area_any outer then Err else Ok (area_subspace outer, c));
      do (p, c) <- g_rel_path pp (area_path outer) c;
      do (d, c) <- g_num (width_at h 4) c;
      do (l, c) <- g_now (width_at h 2) c;
      do (x, c) <- gd c;
      if N.testbit h 6 then Ok (Entry namespace u x p (add64 (r_start ot) d) l, c)
      else if r_open ot then Err else Ok (Entry namespace u x p (sub64 (r_end ot) d) l, c)
  end.
(** A number that is expected to be there, [i] bytes on. *)
Lemma follows_now {A} (q : Prop) i w s (k : bytes -> res (A * stream)) (k' : N * bytes -> res (A * bytes)) :
  i <= len (total s) -> (q -> g_future s = []) ->
  (forall a, i + w <= len (g_array s) -> len a = w -> a = firstn (N.to_nat w) (skipn (N.to_nat i) (total s)) ->
     follows q (k a) (k' (be_decode a, skipn (N.to_nat (i + w)) (total s)))) ->
  follows q (bind (slice (g_array s) i (i + w)) k) (bind (g_now w (skipn (N.to_nat i) (total s))) k').
Proof.
  intros LI Q K. unfold g_now, g_num, g_field.
  assert (LS : len (skipn (N.to_nat i) (total s)) = len (total s) - i) by (unfold len; rewrite skipn_length; lia). rewrite LS.
  destruct (N.le_gt_cases (i + w) (len (g_array s))) as [L|L].
  - pose proof (array_part s) as AP. rewrite slice_part by exact L. cbn [bind]. destruct (N.ltb_spec (len (total s) - i) w); [lia|].
    cbn [bind]. rewrite skipn_add. apply K; auto. apply len_firstn. lia.
  - rewrite slice_short by exact L. cbn [bind follows]. intros X. rewrite (all_arrived _ (Q X)) in L.
    destruct (N.ltb_spec (len (total s) - i) w); [reflexivity|lia].
Qed.
Lemma entry_area_obeys outer n : obeys (DecodeStreamEntryInNamespaceArea ss ds pp outer n) (g_entry_area outer n).
Proof.
  intros s W. assert (Q : g_future s = [] -> g_future s = []) by auto. unfold DecodeStreamEntryInNamespaceArea, g_entry_area.
  cbv zeta. heads1 h s2 LH W2 Q2. bits h.
  enough (K : forall u s0, wf_bytes (total s0) -> (g_future s = [] -> g_future s0 = []) -> follows (g_future s = [])
    (do (p, s4) <- DecodeRelPathStream pp s0 (area_path outer); do (b1, s5) <- NextAbsolute (width_at h 4) s4; do a <- slice b1 0 (width_at h 4); do d <- DecodeIntMax64 a;
     do (b2, s6) <- NextAbsolute (width_at h 4) s5; do c <- slice b2 (width_at h 4) (width_at h 4 + width_at h 2); do l <- DecodeIntMax64 c;
     do (dg, s8) <- c_dec ds (Prune (width_at h 4 + width_at h 2) s6);
     do t <- (if N.testbit h 6 then Ok (add64 (r_start (area_times outer)) d) else if negb (r_open (area_times outer)) then Ok (sub64 (r_end (area_times outer)) d) else Err);
     Ok (Entry n u dg p t l, s8))
    (do (p, c) <- g_rel_path pp (area_path outer) (total s0); do (d, c) <- g_num (width_at h 4) c; do (l, c) <- g_now (width_at h 2) c; do (x, c) <- gd c;
     if N.testbit h 6 then Ok (Entry n u x p (add64 (r_start (area_times outer)) d) l, c)
     else if r_open (area_times outer) then Err else Ok (Entry n u x p (sub64 (r_end (area_times outer)) d) l, c))).
  { destruct (N.testbit h 7); [|destruct (area_any outer); cbn [negb bind]; [reflexivity|apply K; assumption]].
    eapply follows_bind; [exact OS|reflexivity|assumption|assumption|intros u s0 W0 Q0]. apply K; assumption. }
  intros u s0 W0 Q0. eapply (follows_bind _ (fun s => DecodeRelPathStream pp s (area_path outer))); [apply rel_path_obeys|reflexivity|assumption|assumption|intros p s4 W4 Q4].
  eapply follows_peek; [apply width_power|assumption|assumption|intros d s5 T5 A5 Q5 _]. cbn beta iota.
  set (w1 := width_at h 4) in *. set (w2 := width_at h 2).
  destruct (Next w1 s5) as [[L X]|(L & s6 & X & T6 & A6)]; rewrite X; [pose proof (array_part s5); lia|]. cbn [bind].
  rewrite <- T5, <- T6. pose proof (Next_future _ _ _ _ X) as F6.
  apply follows_now; [rewrite T6; pose proof (array_part s5); lia|auto|]. intros lc LC La _.
  destruct (width_power h 2) as [j EJ]. rewrite (int64_width _ j) by (rewrite La; exact EJ). cbn [bind].
  assert (TP : total (Prune (w1 + w2) s6) = skipn (N.to_nat (w1 + w2)) (total s6)) by (rewrite Prune_total by exact LC; reflexivity).
  rewrite <- TP. eapply follows_bind; [exact OD|reflexivity|rewrite TP, T6, T5; apply skipn_wf; assumption|auto|intros x s8 W8 Q8].
  destruct (N.testbit h 6), (r_open (area_times outer)); cbn [negb bind follows]; auto.
Qed.

(** C76: the values. *)
Theorem C76_spelt_values :
  (forall ref, obeys (DecodeStreamEntryRelativeEntry ns ss ds pp ref) (g_entry_entry ref))
  /\ (forall outer n, obeys (DecodeStreamEntryRelativeRange3d ss ds pp outer n) (g_entry_range outer n))
  /\ (forall ref, obeys (DecodeStreamRange3dRelative ss pp ref) (g_range ref))
  /\ (forall outer, obeys (DecodeStreamAreaInArea ss pp outer) (g_area outer))
  /\ (forall outer n, obeys (DecodeStreamEntryInNamespaceArea ss ds pp outer n) (g_entry_area outer n)).
Proof. repeat split; intros; [apply entry_entry_obeys|apply entry_range_obeys|apply range_obeys|apply area_obeys|apply entry_area_obeys]; assumption. Qed.
End Values.

(** ** Messages *)

Lemma follows_some {A B} (q : Prop) (d : stream -> res (A * stream)) g s c (k : option A * stream -> res (B * stream)) (k' : A * bytes -> res (B * bytes)) :
  obeys d g -> total s = c -> wf_bytes (total s) -> (q -> g_future s = []) ->
  (forall a s', wf_bytes (total s') -> (q -> g_future s' = []) -> follows q (k (Some a, s')) (k' (a, total s'))) ->
  follows q (bind (some_of (d s)) k) (bind (g c) k').
Proof.
  intros H T W Q K. unfold some_of. rewrite bind_bind. eapply follows_bind; [exact H|exact T|exact W|exact Q|]. intros a s1 W1 Q1. cbn [bind]. apply K; auto.
Qed.
Section Messages.
Context {G K Sig T Fp : Type}.
Variables (g : codec G) (gg : grammar G) (k : codec K) (gk : grammar K) (sg : codec Sig) (gsig : grammar Sig) (tok : codec T) (gt : grammar T).
Variables (ns ss ds : codec bytes) (gn gs gd : grammar bytes) (pp : path_params).
Hypotheses (OG : obeys (c_dec g) gg) (OK : obeys (c_dec k) gk) (OSig : obeys (c_dec sg) gsig) (OT : obeys (c_dec tok) gt).
Hypotheses (ON : obeys (c_dec ns) gn) (OS : obeys (c_dec ss) gs) (OD : obeys (c_dec ds) gd).

(** A handle: bits 1-0 of the header are its width; its bytes are not waited for. *)
Definition g_handle_now : grammar N := fun c => match c with [] => Hang | h :: c => g_now (width_at h 0) c end.
Lemma pai_handle_obeys : obeys pai_handle g_handle_now.
Proof.
  intros s W. unfold pai_handle, g_handle_now. pose proof (next1 s) as N1. destruct (total s) as [|h c] eqn:EC; [rewrite N1; reflexivity|].
  destruct N1 as (s1 & E1 & I1 & T1 & A1). rewrite E1. cbn [bind]. rewrite I1. cbn [bind]. cbv zeta. rewrite end_bits0.
  pose proof (follows_now (g_future s = []) 1 (width_at h 0) s1 (fun a => Ok (int64_or_zero a, Prune (1 + width_at h 0) s1)) (fun x => Ok x)) as FN.
  rewrite T1 in FN. change (skipn (N.to_nat 1) (h :: c)) with c in FN.
  replace (g_now (width_at h 0) c) with (bind (g_now (width_at h 0) c) (fun x => Ok x)) by (destruct (g_now (width_at h 0) c); reflexivity).
  apply FN; [rewrite len_cons; lia|intros X; eapply Next_future; eauto|]. intros a L La _.
  destruct (width_power h 0) as [j EJ]. rewrite (int64_or_zero_width a j) by (rewrite La; exact EJ). cbn [follows].
  assert (TP : total (Prune (1 + width_at h 0) s1) = skipn (N.to_nat (1 + width_at h 0)) (h :: c)) by (rewrite Prune_total, T1 by exact L; reflexivity).
  rewrite TP. split; [reflexivity|]. split; [apply skipn_wf; exact W|]. intros X. cbn [Prune g_future]. eapply Next_future; eauto.
Qed.
(** C76: the messages on handles of fragments and capabilities of subspaces. *)
Theorem C76_spelt_pai :
  obeys (DecodePaiReplyFragment g) (fun c => do (h, c) <- g_handle_now c; do (m, c) <- gg c; Ok (MsgReply h m, c))
  /\ obeys DecodePaiRequestSubspaceCapability (fun c => do (h, c) <- g_handle_now c; Ok (MsgRequest h, c))
  /\ obeys (DecodePaiReplySubspaceCapability k sg) (fun c => do (h, c) <- g_handle_now c; do (x, c) <- gk c; do (y, c) <- gsig c; Ok (MsgCapability h x y, c)).
Proof.
  repeat split; intros s W; assert (Q : g_future s = [] -> g_future s = []) by auto;
    unfold DecodePaiReplyFragment, DecodePaiRequestSubspaceCapability, DecodePaiReplySubspaceCapability;
    (eapply follows_bind; [apply pai_handle_obeys|reflexivity|assumption|assumption|intros ? ? ? ?]); spell.
Qed.

Variables (ha : N -> N -> area) (hn : N -> N -> bytes).
(** An entry that was sent: bit 4 of the second byte: relative to the current one, else in the area of two handles with widths in
    bits 3-2 and 1-0. *)
Definition g_sent_entry (current : entry) (b : N) : grammar entry := fun c =>
  if N.testbit b 4 then g_entry_entry gn gs gd pp current c
  else
    do (sender, c) <- g_num (width_at b 2) c;
    do (receiver, c) <- g_num (width_at b 0) c;
    g_entry_area gs gd pp (ha sender receiver) (hn sender receiver) c.
Lemma field_split w1 w2 c :
  (if len c <? w1 + w2 then Hang
   else Ok (be_decode (firstn (N.to_nat w1) c), be_decode (firstn (N.to_nat w2) (skipn (N.to_nat w1) c)), skipn (N.to_nat (w1 + w2)) c))
  = (do (x, r) <- g_num w1 c; do (y, r) <- g_num w2 r; Ok (x, y, r)).
Proof.
  unfold g_num, g_field. assert (LS : len (skipn (N.to_nat w1) c) = len c - w1) by (unfold len; rewrite skipn_length; lia).
  destruct (N.ltb_spec (len c) w1); cbn [bind].
  - destruct (N.ltb_spec (len c) (w1 + w2)); [reflexivity|lia].
  - rewrite LS. destruct (N.ltb_spec (len c - w1) w2), (N.ltb_spec (len c) (w1 + w2)); try lia; [reflexivity|]. cbn [bind]. rewrite skipn_add. reflexivity.
Qed.
Lemma sent_entry_obeys current b : obeys (decode_sent_entry ns ss ds pp ha hn current b (width_at b 2) (width_at b 0)) (g_sent_entry current b).
Proof.
  intros s W. unfold decode_sent_entry, g_sent_entry. bits b. destruct (N.testbit b 4); [apply entry_entry_obeys; assumption|].
  set (w1 := width_at b 2). set (w2 := width_at b 0).
  assert (EG : forall (K1 : N -> N -> bytes -> res (entry * bytes)) c, (do (x, r) <- g_num w1 c; do (y, r) <- g_num w2 r; K1 x y r)
     = bind (do (x, r) <- g_num w1 c; do (y, r) <- g_num w2 r; Ok (x, y, r)) (fun '(x, y, r) => K1 x y r)).
  { intros K1 c. destruct (g_num w1 c) as [[x r]| | | |]; cbn [bind]; auto. destruct (g_num w2 r) as [[y r']| | | |]; reflexivity. }
  rewrite EG, <- field_split.
  destruct (Next (w1 + w2) s) as [[L X]|(L & s1 & X & T1 & A1)]; rewrite X; cbn [bind]; destruct (N.ltb_spec (len (total s)) (w1 + w2)); try lia; [reflexivity|].
  pose proof (slice_part s1 0 w1) as S1. rewrite N.add_0_l in S1. rewrite S1 by lia. rewrite slice_part by lia. cbn [bind].
  change (skipn (N.to_nat 0) (total s1)) with (total s1). rewrite T1.
  destruct (width_power b 2) as [i EI], (width_power b 0) as [j EJ]. fold w1 in EI. fold w2 in EJ.
  rewrite (int64_or_zero_width (firstn (N.to_nat w1) _) i) by (rewrite <- EI; apply len_firstn; lia).
  rewrite (int64_or_zero_width (firstn (N.to_nat w2) _) j) by (rewrite <- EJ; apply len_firstn; unfold len in *; rewrite skipn_length; lia).
  assert (TP : total (Prune (w1 + w2) s1) = skipn (N.to_nat (w1 + w2)) (total s)) by (rewrite Prune_total, T1 by exact A1; reflexivity).
  rewrite <- TP. eapply follows_weaken; [|apply entry_area_obeys; [assumption..|rewrite TP; apply skipn_wf; exact W]].
  intros X0. cbn [Prune g_future]. eapply Next_future; eauto.
Qed.

(** DataSendEntry. First byte, bits 1-0: the width of the static token; second byte, bit 7: the offset is there, with its width in
    bits 6-5, else 5: it is the length of the payload, else 0. *)
Definition g_data_entry (current : entry) : grammar (msg_data_entry T) := fun c =>
  match c with
  | h :: b :: c =>
      do (static, c) <- g_num (width_at h 0) c;
      do (dynamic, c) <- gt c;
      do (o, c) <- (if N.testbit b 7 then g_num (width_at b 5) c else Ok (0, c));
      do (e, c) <- g_sent_entry current b c;
      Ok (MsgDataEntry e static dynamic (if N.testbit b 7 then o else if N.testbit b 5 then e_length e else 0), c)
  | _ => Hang
  end.
Lemma data_entry_obeys current : obeys (DecodeDataSendEntry ns ss ds pp ha hn tok current) (g_data_entry current).
Proof.
  intros s W. assert (Q : g_future s = [] -> g_future s = []) by auto. unfold DecodeDataSendEntry, g_data_entry.
  cbv zeta. heads2 h b s2 LH LB W2 Q2. bits h. bits b.
  eapply follows_bind; [apply stream_int_obeys, width_power|reflexivity|assumption|assumption|intros ? ? ? ?].
  eapply follows_bind; [exact OT|reflexivity|assumption|assumption|intros ? ? ? ?].
  destruct (N.testbit b 7); cbn [negb andb bind]; cbn beta iota; spell; (eapply follows_bind; [apply sent_entry_obeys|reflexivity|assumption|assumption|intros ? ? ? ?]; cbn [follows]; auto).
Qed.

(** DataBindPayloadRequest. The offset, if bit 7 of the second byte is set, is not waited for. *)
Definition g_payload_request (current : entry) : grammar msg_request_payload := fun c =>
  match c with
  | h :: b :: c =>
      do (capability, c) <- g_num (width_at h 0) c;
      do (o, c) <- (if N.testbit b 7 then g_now (width_at b 5) c else Ok (0, c));
      do (e, c) <- g_sent_entry current b c;
      Ok (MsgRequestPayload e o capability, c)
  | _ => Hang
  end.
Lemma payload_request_obeys current : obeys (DecodeDataBindPayloadRequest ns ss ds pp ha hn current) (g_payload_request current).
Proof.
  intros s W. assert (Q : g_future s = [] -> g_future s = []) by auto. unfold DecodeDataBindPayloadRequest, g_payload_request.
  pose proof (next2 s) as N1. destruct (total s) as [|h [|b c]]; [rewrite N1; reflexivity..|].
  destruct N1 as (s1 & E1 & I1 & J1 & T1 & A1). rewrite E1. cbn [bind]. rewrite I1, J1. cbn [bind]. cbv zeta. bits h. bits b.
  pose proof (Next_future _ _ _ _ E1) as F1.
  pose proof (next_number 2 (h / 2 ^ 0) s1) as NN. fold (width_at h 0) in NN. set (w := width_at h 0) in *. rewrite T1 in NN.
  change (skipn (N.to_nat 2) (h :: b :: c)) with c in NN. specialize (NN ltac:(rewrite !len_cons; lia)).
  unfold number, piece in NN. unfold g_num at 1, g_field. rewrite (N.add_comm w 2).
  destruct (N.ltb_spec (len c) w); [rewrite NN; reflexivity|].
  destruct NN as (s2 & a & E2 & S2 & La & Da & T2 & A2 & _). rewrite E2. cbn [bind]. rewrite S2. cbn [bind].
  rewrite (int64_or_zero_width a _ La), Da. pose proof (Next_future _ _ _ _ E2) as F2.
  assert (W3 : wf_bytes (skipn (N.to_nat w) c)) by (apply skipn_wf; do 2 (apply wf_cons in W; destruct W as [_ W]); exact W).
  assert (SK : forall n, skipn (N.to_nat (2 + n)) (total s2) = skipn (N.to_nat n) c).
  { intros n. rewrite T2. apply skipn_cons2. }
  destruct (N.testbit b 7); cbn [bind].
  - rewrite <- (SK w), bind_bind. apply (follows_now (g_future s = []) (2 + w) (width_at b 5) s2).
    + rewrite T2, !len_cons. lia.
    + auto.
    + intros o L Lo _. cbn [bind]. destruct (width_power b 5) as [j EJ]. rewrite (int64_or_zero_width o j) by (rewrite Lo; exact EJ).
      set (v := width_at b 5) in *.
      assert (TP : total (Prune (2 + w + v) s2) = skipn (N.to_nat (2 + w + v)) (total s2)) by (rewrite Prune_total by exact L; reflexivity).
      rewrite <- TP. eapply follows_bind; [apply sent_entry_obeys|reflexivity| |auto|intros ? ? ? ?; cbn [follows]; auto].
      rewrite TP. rewrite <- skipn_add, SK. apply skipn_wf. exact W3.
  - rewrite N.add_0_r. assert (TP : total (Prune (2 + w) s2) = skipn (N.to_nat w) c) by (rewrite Prune_total by exact A2; apply SK).
    rewrite <- TP. eapply follows_bind; [apply sent_entry_obeys|reflexivity|rewrite TP; exact W3|auto|intros ? ? ? ?; cbn [follows]; auto].
Qed.
(** C76: the messages that carry entries and requests. *)
Theorem C76_spelt_data current :
  obeys (DecodeDataSendEntry ns ss ds pp ha hn tok current) (g_data_entry current)
  /\ obeys (DecodeDataBindPayloadRequest ns ss ds pp ha hn current) (g_payload_request current).
Proof. split; [apply data_entry_obeys|apply payload_request_obeys]. Qed.

(** SetupBindAreaOfInterest. Bits 1-0: the width of the capability handle; bit 2: limits follow the area, with widths in bits 7-6 and
    5-4 of a byte of their own. The subspace of the area cannot be there. *)
Definition g_bind_aoi (granted : N -> area) : grammar msg_bind_aoi := fun c =>
  match c with
  | [] => Hang
  | h :: c =>
      do (auth, c) <- g_num (width_at h 0) c;
      do (a, c) <- g_area (fun _ => Panic) pp (granted auth) c;
      if N.testbit h 2 then
        match c with
        | [] => Hang
        | m :: c =>
            do (count, c) <- g_num (width_at m 6) c;
            do (size, c) <- g_num (width_at m 4) c;
            Ok (MsgBindAoi (AOI a count size) auth, c)
        end
      else Ok (MsgBindAoi (AOI a 0 0) auth, c)
  end.
Lemma nil_obeys : obeys (c_dec nil_codec) (fun _ => Panic).
Proof. intros s W X. reflexivity. Qed.
Lemma field_split2 {A} w1 w2 c (K1 : N -> N -> bytes -> res (A * bytes)) :
  (do (x, r) <- g_num w1 c; do (y, r) <- g_num w2 r; K1 x y r)
  = if len c <? w1 + w2 then Hang
    else K1 (be_decode (firstn (N.to_nat w1) c)) (be_decode (firstn (N.to_nat w2) (skipn (N.to_nat w1) c))) (skipn (N.to_nat (w1 + w2)) c).
Proof.
  pose proof (field_split w1 w2 c) as FS. destruct (g_num w1 c) as [[x r]| | | |]; cbn [bind] in *; [|destruct (len c <? w1 + w2); congruence..].
  destruct (g_num w2 r) as [[y r']| | | |]; cbn [bind] in *; destruct (len c <? w1 + w2); congruence.
Qed.
Theorem C76_spelt_setup granted : obeys (DecodeSetupBindAreaOfInterest pp granted) (g_bind_aoi granted).
Proof.
  intros s W. assert (Q : g_future s = [] -> g_future s = []) by auto. unfold DecodeSetupBindAreaOfInterest, g_bind_aoi.
  pose proof (next1 s) as N1. destruct (total s) as [|h c]; [rewrite N1; reflexivity|].
  destruct N1 as (s1 & E1 & I1 & T1 & A1). rewrite E1. cbn [bind]. rewrite I1. cbn [bind]. cbv zeta. bits h.
  pose proof (Next_future _ _ _ _ E1) as F1.
  pose proof (next_number 1 (h / 2 ^ 0) s1) as NN. fold (width_at h 0) in NN. set (w := width_at h 0) in *. rewrite T1 in NN.
  change (skipn (N.to_nat 1) (h :: c)) with c in NN. specialize (NN ltac:(rewrite !len_cons; lia)).
  unfold number, piece in NN. unfold g_num at 1, g_field.
  destruct (N.ltb_spec (len c) w); [rewrite NN; reflexivity|].
  destruct NN as (s2 & a & E2 & S2 & La & Da & T2 & A2 & _ & TP). rewrite E2. cbn [bind]. rewrite S2. cbn [bind].
  rewrite (int64_or_zero_width a _ La), Da. pose proof (Next_future _ _ _ _ E2) as F2.
  assert (W3 : wf_bytes (skipn (N.to_nat w) c)) by (apply skipn_wf; apply wf_cons in W; apply W).
  rewrite <- TP. eapply follows_bind; [apply area_obeys; exact nil_obeys|reflexivity|rewrite TP; exact W3|auto|intros ar s3 W4 Q4].
  destruct (N.testbit h 2); cbn [negb]; [|cbn [follows]; auto].
  pose proof (next1 s3) as N3. destruct (total s3) as [|m d]; [rewrite N3; reflexivity|].
  destruct N3 as (s4 & E4 & I4 & T4 & A4). rewrite E4. cbn [bind]. rewrite I4. cbn [bind]. cbv zeta. rewrite !end_bits.
  set (w1 := width_at m 6). set (w2 := width_at m 4). rewrite field_split2. pose proof (Next_future _ _ _ _ E4) as F4.
  destruct (Next (1 + w1 + w2) s4) as [[L X]|(L & s5 & X & T5 & A5)]; rewrite X; rewrite T4, len_cons in L; cbn [bind]; destruct (N.ltb_spec (len d) (w1 + w2)); try lia; [reflexivity|].
  rewrite (slice_part s5 1 w1) by lia. rewrite (slice_part s5 (1 + w1) w2) by lia. cbn [bind]. rewrite T5, T4, skipn_cons1.
  change (skipn (N.to_nat 1) (m :: d)) with d.
  destruct (width_power m 6) as [i EI], (width_power m 4) as [j EJ]. fold w1 in EI. fold w2 in EJ.
  rewrite (int64_or_zero_width (firstn (N.to_nat w1) _) i) by (rewrite <- EI; apply len_firstn; lia).
  rewrite (int64_or_zero_width (firstn (N.to_nat w2) _) j) by (rewrite <- EJ; apply len_firstn; unfold len in *; rewrite skipn_length; lia).
  cbn [follows]. assert (TQ : total (Prune (1 + w1 + w2) s5) = skipn (N.to_nat (w1 + w2)) d).
  { rewrite Prune_total, T5, T4 by exact A5. replace (1 + w1 + w2) with (1 + (w1 + w2)) by lia. apply skipn_cons1. }
  rewrite TQ. split; [reflexivity|]. split; [apply skipn_wf; apply wf_cons in W4; apply W4|]. intros X0. cbn [Prune g_future]. eapply Next_future; eauto.
Qed.

(** Ranges in messages: an error ([None]) is dropped and the range is the zero range. What has been read until then is gone: nothing if the first byte
    is refused, else the bytes up to the field that would be relative to an end that the other range does not have. *)
Definition g_range_stop (ref : range3d) : grammar (option range3d) := fun c0 =>
  let fs := subspace_range ref in let fp := path_range ref in let ft := time_range ref in
  let stop c : res (option range3d * bytes) := Ok (None, c) in
  match c0 with
  | h :: b :: c =>
      if negb (N.testbit h 7 || N.testbit h 6) then stop c0
      else if N.testbit h 5 && negb (N.testbit h 4) && r_open fs then stop c
      else
        do (u, c) <- match N.testbit h 5, N.testbit h 4 with
                     | true, true => gs c
                     | true, false => Ok (r_end fs, c)
                     | false, true => Ok (r_start fs, c)
                     | false, false => Ok ([], c)
                     end;
        if negb (N.testbit h 3) && r_open fp then stop c
        else
          do (p, c) <- g_rel_path pp (if N.testbit h 3 then r_start fp else r_end fp) c;
          if negb (N.testbit h 1) && r_open fp then stop c
          else
            do (q, c) <- g_rel_path pp (if N.testbit h 1 then r_start fp else r_end fp) c;
            do (d, c) <- g_num (width_at b 4) c;
            if negb (N.testbit b 7) && r_open ft then stop c
            else
              let t := moved (N.testbit b 6) (if N.testbit b 7 then r_start ft else r_end ft) d in
              if N.testbit h 0 then Ok (Some (Range3d (Range u [] false) (Range p q false) (Range t t true)), c)
              else
                do (e, _) <- g_num (width_at b 0) c;
                if negb (N.testbit b 3) && r_open ft then stop c
                else Ok (Some (Range3d (Range u [] false) (Range p q false) (Range t (moved (N.testbit b 2) (r_end ft) e) false)), c)
  | _ => Hang
  end.
Definition g_range_or_zero (ref : range3d) : grammar range3d := fun c =>
  do (o, c) <- g_range_stop ref c;
  Ok (match o with Some r => r | None => Range3d (Range [] [] false) (Range [] [] false) (Range 0 0 false) end, c).
Lemma range_stream_obeys ref : obeys (range_stream ss pp ref) (g_range_stop ref).
Proof.
  intros s W. unfold range_stream, g_range_stop, or_stop.
  cbv zeta. pose proof (next2 s) as N1. pose proof W as W0. destruct (total s) as [|h [|b c]] eqn:TS; [rewrite N1; reflexivity..|].
  destruct N1 as (s1 & E1 & I1 & J1 & T1 & A1). rewrite E1. cbn [bind]. rewrite I1, J1. cbn [bind].
  pose proof (Next_future _ _ _ _ E1) as F1.
  apply wf_cons in W as [LH W]. apply wf_cons in W as [LB W].
  assert (TP : total (Prune 2 s1) = c) by (rewrite Prune_total, T1 by exact A1; reflexivity).
  assert (Q2 : g_future s = [] -> g_future (Prune 2 s1) = []) by (intros X; cbn [Prune g_future]; auto).
  assert (W2 : wf_bytes (total (Prune 2 s1))) by (rewrite TP; exact W).
  unfold start_code, end_code.
  rewrite ?(has_two h 7 6 ltac:(discriminate) : has h 192 = _), ?(has_two h 5 4 ltac:(discriminate) : has h 48 = _). bits h. bits b.
  replace (N.land h 4 =? 64) with false.
  2: { symmetry. apply N.eqb_neq. intros X. apply (f_equal (fun m => N.testbit m 6)) in X. rewrite N.land_spec, andb_false_r in X. discriminate. }
  destruct (negb (N.testbit h 7 || N.testbit h 6)) eqn:EH.
  { destruct (N.testbit h 7), (N.testbit h 6); try discriminate EH. cbn [andb bind follows]. rewrite T1. auto. }
  replace (match (if N.testbit h 7 && N.testbit h 6 then CYes else if N.testbit h 7 then CRefEnd else if N.testbit h 6 then CRefStart else CNone) with CNone => true | _ => false end) with false
    by (destruct (N.testbit h 7), (N.testbit h 6); try discriminate EH; reflexivity).
  clear EH T1 E1 I1 J1 F1 A1 W0. rewrite <- TP. clear TP W. revert Q2 W2. generalize (Prune 2 s1). intros s2 Q2 W2.
  Ltac range_go := cbn [bind negb andb]; cbn beta iota zeta; try (match goal with
    | |- follows _ (Ok _) _ => cbn [follows]; try match goal with T : total _ = total _ |- _ => rewrite T end; auto
    | |- follows _ (if ?g then _ else _) _ => destruct g
    | |- follows _ (bind (some_of (DecodeRelPathStream _ ?s ?r)) _) _ => eapply (follows_some _ (fun s => DecodeRelPathStream _ s r)); [apply rel_path_obeys|reflexivity|assumption|assumption|intros ? ? ? ?]
    | |- follows _ (bind (some_of (c_dec _ ?s)) _) _ => eapply follows_some; [eassumption|reflexivity|assumption|assumption|intros ? ? ? ?]
    | |- follows _ (bind (stream_int _ ?s) _) _ => eapply follows_bind; [apply stream_int_obeys; apply width_power|reflexivity|assumption|assumption|intros ? ? ? ?]
    | |- follows _ (bind (NextAbsolute _ _) _) _ => eapply follows_peek; [apply width_power|assumption|assumption|intros ? ? ? ? ? ?]
    end; range_go).
  destruct (N.testbit h 5), (N.testbit h 4), (r_open (subspace_range ref)), (N.testbit h 3), (N.testbit h 1), (r_open (path_range ref)); range_go.
Qed.
Lemma range_or_zero_obeys ref : obeys (range_or_zero ss pp ref) (g_range_or_zero ref).
Proof.
  intros s W. unfold range_or_zero, g_range_or_zero. eapply follows_bind; [apply range_stream_obeys|reflexivity|assumption|auto|].
  intros o s' W' Q'. cbn [follows]. auto.
Qed.

Variables (pv : privy) (hr : N -> N -> range3d) (neutral : Fp) (fp : stream -> res (Fp * stream)) (gf : grammar Fp).
Hypothesis OF : obeys fp gf.
(** Bits 1 and 0 of the first byte: the handles are those of the message before, else they have widths in bits 7-6 and 5-4 of the second. *)
Definition g_handles (h b : N) : grammar (N * N) := fun c =>
  do (sender, c) <- (if N.testbit h 1 then Ok (pv_sender pv, c) else g_num (width_at b 6) c);
  do (receiver, c) <- (if N.testbit h 0 then Ok (pv_receiver pv, c) else g_num (width_at b 4) c);
  Ok ((sender, receiver), c).
(** SendFingerprint. First byte, bit 3: the fingerprint is the neutral one; 2: the range is relative to the range before, else to that
    of the handles. Second byte, bit 3: a message is covered, its number has the width in bits 1-0. *)
Definition g_fingerprint : grammar (msg_fingerprint Fp) := fun c =>
  match c with
  | h :: b :: c =>
      do (covers, c) <- (if N.testbit b 3 then g_num (width_at b 0) c else Ok (0, c));
      do (handles, c) <- g_handles h b c;
      let (sender, receiver) := handles : N * N in
      do (f, c) <- (if N.testbit h 3 then Ok (neutral, c) else gf c);
      do (r, c) <- g_range_or_zero (if N.testbit h 2 then pv_range pv else hr sender receiver) c;
      Ok (MsgFingerprint r f sender receiver covers true, c)
  | _ => Hang
  end.
Lemma pow_bits4 b : pow2 (N.land (N.shiftr b 4) 3) = width_at b 4.
Proof. unfold pow2, width_at. rewrite land3, N.shiftr_div_pow2. reflexivity. Qed.
Ltac range := eapply follows_bind; [apply range_or_zero_obeys|reflexivity|assumption|assumption|intros ? ? ? ?; cbn [follows]; auto].
Lemma fingerprint_obeys : obeys (DecodeReconciliationSendFingerprint ss pp pv hr neutral fp) g_fingerprint.
Proof.
  intros s W. assert (Q : g_future s = [] -> g_future s = []) by auto. unfold DecodeReconciliationSendFingerprint, g_fingerprint, g_handles.
  cbv zeta. heads2 h b s2 LH LB W2 Q2. bits h. bits b. rewrite (pow_bits6 b LB), pow_bits4.
  destruct (N.testbit b 3); cbn [bind]; cbn beta iota;
    [eapply follows_bind; [apply stream_int_obeys, width_power|reflexivity|assumption|assumption|intros ? ? ? ?]|];
    destruct (N.testbit h 1), (N.testbit h 0), (N.testbit h 3); cbn [bind]; cbn beta iota;
    repeat (rewrite ?bind_bind; cbn [bind]; cbn beta iota; eapply follows_bind; [first [exact OF|apply stream_int_obeys, width_power]|reflexivity|assumption|assumption|intros ? ? ? ?]);
    cbn [bind]; cbn beta iota; try range.
Qed.

(** AnnounceEntries. First byte, bit 3: a response is wanted; 2: as above. Second byte, bits 3-2: the width of the count; 1: sorted; 0: a message
    is covered. Its number is one byte; from 252 it is the number behind, with the width in bits 1-0 of the second byte, for which the decoder waits one byte too few. *)
Definition g_announce : grammar msg_announce := fun c =>
  match c with
  | h :: b :: c =>
      do (covers, c) <- (if N.testbit b 0 then
                           match c with
                           | [] => Hang
                           | x :: r => if 252 <=? x then if len c <? width_at b 0 then Hang else g_now (width_at b 0) r else Ok (x, r)
                           end
                         else Ok (0, c));
      do (handles, c) <- g_handles h b c;
      let (sender, receiver) := handles : N * N in
      do (count, c) <- g_num (width_at b 2) c;
      do (r, c) <- g_range_or_zero (if N.testbit h 2 then pv_range pv else hr sender receiver) c;
      Ok (MsgAnnounce r count (N.testbit h 3) (N.testbit b 1) sender receiver covers true, c)
  | _ => Hang
  end.
Lemma has252 x : x < 256 -> has x 252 = (252 <=? x).
Proof. intros L. apply Bool.eqb_prop. revert x L. apply all_bytes. vm_compute. reflexivity. Qed.
Lemma announce_obeys : obeys (DecodeReconciliationAnnounceEntries ss pp pv hr) g_announce.
Proof.
  intros s W. assert (Q : g_future s = [] -> g_future s = []) by auto. unfold DecodeReconciliationAnnounceEntries, g_announce, g_handles.
  cbv zeta. heads2 h b s2 LH LB W2 Q2. bits h. bits b. rewrite (pow_bits6 b LB), pow_bits4.
  set (w := width_at b 0). eapply (follows_bind _
    (fun s2 => if N.testbit b 0 then do (c, s3) <- NextAbsolute 1 s2; do l <- index c 0; if has l 252 then do (c2, s4) <- NextAbsolute w s3; do a <- slice c2 1 (1 + w); Ok (int64_or_zero a, Prune (1 + w) s4) else Ok (l, Prune 1 s3) else Ok (0, s2))
    (fun c => if N.testbit b 0 then match c with [] => Hang | x :: r => if 252 <=? x then if len c <? w then Hang else g_now w r else Ok (x, r) end else Ok (0, c)));
    [|reflexivity|assumption|assumption|].
  - clear. intros s W. destruct (N.testbit b 0); [|apply obeys_ret; exact W]. pose proof (next1 s) as N1. destruct (total s) as [|x r]; [rewrite N1; reflexivity|].
    destruct N1 as (s1 & E1 & I1 & T1 & A1). rewrite E1. cbn [bind]. rewrite I1. cbn [bind]. pose proof (Next_future _ _ _ _ E1) as F1.
    destruct (wf_cons _ _ W) as [LX WR]. rewrite (has252 x LX). destruct (252 <=? x).
    + destruct (Next w s1) as [[L X]|(L & s3 & X & T3 & A3)]; rewrite X; rewrite T1 in L; cbn [bind]; destruct (N.ltb_spec (len (x :: r)) w); try lia; [reflexivity|].
      pose proof (Next_future _ _ _ _ X) as F3.
      replace (g_now w r) with (bind (g_now w r) (fun y => Ok y)) by (destruct (g_now w r); reflexivity).
      assert (ER : r = skipn (N.to_nat 1) (total s3)) by (rewrite T3, T1; reflexivity). rewrite ER at 1.
      apply follows_now; [rewrite T3, T1, len_cons; lia|auto|]. intros a La Lw _. destruct (width_power b 0) as [j EJ]. fold w in EJ.
      rewrite (int64_or_zero_width a j) by (rewrite Lw; exact EJ). cbn [follows].
      assert (TP : total (Prune (1 + w) s3) = skipn (N.to_nat w) r) by (rewrite Prune_total, T3, T1 by exact La; apply skipn_cons1).
      rewrite TP, T3, T1, skipn_cons1. split; [reflexivity|]. split; [apply skipn_wf; exact WR|]. cbn [Prune g_future]. auto.
    + cbn [follows]. assert (TP : total (Prune 1 s1) = r) by (rewrite Prune_total, T1 by exact A1; reflexivity). rewrite TP. cbn [Prune g_future]. auto.
  - intros covers s3 W3 Q3. destruct (N.testbit h 1), (N.testbit h 0); cbn [bind]; cbn beta iota;
    repeat (rewrite ?bind_bind; cbn [bind]; cbn beta iota; eapply follows_bind; [apply stream_int_obeys, width_power|reflexivity|assumption|assumption|intros ? ? ? ?]);
    cbn [bind]; cbn beta iota; range.
Qed.

(** SendEntry. Bit 3: the static token is the one before; 2: the entry is relative to the entry before, else there is none; 1-0: the width of the
    available length. A static token is one byte; with 63 in its bits 5-0 the number behind it, with the width in bits 7-6. A byte behind it is taken in any case. *)
Definition g_static : grammar N := fun c =>
  match c with
  | [] => Hang
  | z :: c => do (x, c) <- g_num (if z mod 64 =? 63 then width_at z 6 else 1) c; Ok (if z <? 63 then z else x, c)
  end.
Definition g_send_entry (token_first : bool) : grammar (msg_lengthy_entry T) := fun c =>
  match c with
  | [] => Hang
  | h :: c =>
      do (static, c) <- (if N.testbit h 3 then Ok (pv_static pv, c) else g_static c);
      do (available, c) <- g_num (width_at h 0) c;
      let g_entry c := if N.testbit h 2 then g_entry_entry gn gs gd pp (pv_entry pv) c else Ok (Entry [] [] [] [] 0 0, c) in
      if token_first then do (t, c) <- gt c; do (e, c) <- g_entry c; Ok (MsgLengthyEntry e available static t, c)
      else do (e, c) <- g_entry c; do (t, c) <- gt c; Ok (MsgLengthyEntry e available static t, c)
  end.
Lemma static_width z : z < 256 -> (if has z 255 then 8 else if has z 191 then 4 else if has z 127 then 2 else 1) = if z mod 64 =? 63 then width_at z 6 else 1.
Proof. intros L. apply N.eqb_eq. revert z L. apply all_bytes. vm_compute. reflexivity. Qed.
Lemma send_entry_obeys first : obeys (DecodeReconciliationSendEntry ss pp pv ns ds first tok) (g_send_entry first).
Proof.
  intros s W. assert (Q : g_future s = [] -> g_future s = []) by auto. unfold DecodeReconciliationSendEntry, g_send_entry.
  pose proof (next1 s) as N1. destruct (total s) as [|h c] eqn:EC; [rewrite N1; reflexivity|].
  destruct N1 as (s1 & E1 & I1 & T1 & A1). rewrite E1. cbn [bind]. rewrite I1. cbn [bind]. cbv zeta. bits h.
  pose proof (Next_future _ _ _ _ E1) as F1. destruct (wf_cons _ _ W) as [LH WR].
  assert (TP1 : total (Prune 1 s1) = c) by (rewrite Prune_total, T1 by exact A1; reflexivity).
  assert (REST : forall static s3, wf_bytes (total s3) -> (g_future s = [] -> g_future s3 = []) ->
    follows (g_future s = [])
     (do (av, s3) <- stream_int (width_at h 0) s3;
      if first then do (t, s4) <- c_dec tok s3; do (e, s5) <- (if N.testbit h 2 then DecodeStreamEntryRelativeEntry ns ss ds pp (pv_entry pv) s4 else Ok (zero_entry, s4)); Ok (MsgLengthyEntry e av static t, s5)
      else do (e, s4) <- (if N.testbit h 2 then DecodeStreamEntryRelativeEntry ns ss ds pp (pv_entry pv) s3 else Ok (zero_entry, s3)); do (t, s5) <- c_dec tok s4; Ok (MsgLengthyEntry e av static t, s5))
     (do (available, c) <- g_num (width_at h 0) (total s3);
      if first then do (t, c) <- gt c; do (e, c) <- (if N.testbit h 2 then g_entry_entry gn gs gd pp (pv_entry pv) c else Ok (zero_entry, c)); Ok (MsgLengthyEntry e available static t, c)
      else do (e, c) <- (if N.testbit h 2 then g_entry_entry gn gs gd pp (pv_entry pv) c else Ok (zero_entry, c)); do (t, c) <- gt c; Ok (MsgLengthyEntry e available static t, c))).
  { intros static s3 W3 Q3. eapply follows_bind; [apply stream_int_obeys, width_power|reflexivity|assumption|assumption|intros ? ? ? ?].
    destruct first, (N.testbit h 2); cbn [bind]; cbn beta iota;
      repeat (eapply follows_bind; [first [exact OT|apply entry_entry_obeys; assumption]|reflexivity|assumption|assumption|intros ? ? ? ?]; cbn [bind]; cbn beta iota); cbn [follows]; auto. }
  destruct (N.testbit h 3); cbn [bind]; cbn beta iota.
  - rewrite <- TP1. apply REST; [rewrite TP1; exact WR|auto].
  - unfold g_static. pose proof (next2 s1) as N2. rewrite T1 in N2. destruct c as [|z c]; [rewrite N2; reflexivity|].
    destruct N2 as (s2 & E2 & _ & J2 & T2 & A2). rewrite E2. cbn [bind]. rewrite J2. cbn [bind]. pose proof (Next_future _ _ _ _ E2) as F2.
    destruct (wf_cons _ _ WR) as [LZ WZ]. rewrite (static_width z LZ). set (w := if z mod 64 =? 63 then width_at z 6 else 1).
    assert (PW : exists i, w = 2 ^ (i mod 4)) by (unfold w; destruct (z mod 64 =? 63); [apply width_power|exists 0; reflexivity]).
    unfold g_num at 1, g_field. destruct (Next (2 + w) s2) as [[L X]|(L & s3 & X & T3 & A3)]; rewrite X; rewrite T2, !len_cons in L; cbn [bind];
      destruct (N.ltb_spec (len c) w); try lia; [reflexivity|]. pose proof (Next_future _ _ _ _ X) as F3.
    assert (TP : total (Prune (2 + w) s3) = skipn (N.to_nat w) c) by (rewrite Prune_total, T3, T2 by exact A3; apply skipn_cons2).
    rewrite (slice_part s3 2 w) by exact A3. cbn [bind]. rewrite T3, T2. change (skipn (N.to_nat 2) (h :: z :: c)) with c.
    destruct PW as [i EI]. rewrite (int64_or_zero_width (firstn (N.to_nat w) c) i) by (rewrite <- EI; apply len_firstn; lia).
    rewrite <- TP. destruct (z <? 63); cbn [bind]; cbn beta iota; apply REST; try (rewrite TP; apply skipn_wf; exact WZ); auto.
Qed.
(** C76: the messages of reconciliation. *)
Theorem C76_spelt_reconciliation :
  obeys (DecodeReconciliationSendFingerprint ss pp pv hr neutral fp) g_fingerprint
  /\ obeys (DecodeReconciliationAnnounceEntries ss pp pv hr) g_announce
  /\ (forall first, obeys (DecodeReconciliationSendEntry ss pp pv ns ds first tok) (g_send_entry first)).
Proof. split; [apply fingerprint_obeys|split; [apply announce_obeys|apply send_entry_obeys]]. Qed.
End Messages.

(** ** Instances *)

(** A codec of one byte meets the hypotheses. *)
Example C76_instance_grammar : obeys (c_dec one_byte) (g_field 1).
Proof.
  intros s W. cbn [c_dec one_byte]. unfold g_field. destruct (Next 1 s) as [[L E]|(L & s1 & E & T & A)]; rewrite E; cbn [bind];
    destruct (N.ltb_spec (len (total s)) 1); try lia; [reflexivity|]. pose proof (slice_part s1 0 1) as S1. rewrite N.add_0_l in S1. rewrite S1 by exact A. cbn [bind].
  rewrite T. cbn [follows]. rewrite Prune_total, T by exact A. split; [reflexivity|]. split; [apply skipn_wf; exact W|].
  intros X. cbn [Prune g_future]. eapply Next_future; eauto.
Qed.
(** A fingerprint that arrives in three pieces: it covers message 300, the sender's handle is that of the message before, the receiver's is 7. *)
Definition before : privy := Privy 4 5 closed_ref 3 (Entry [1] [2] [3] [[4]] 5 6).
Definition fingerprint_wire : bytes := [6; 9; 1; 44; 7; 77] ++ range_wire.
Definition fingerprint_pieces : stream := Stream [] fingerprint_wire [(1, 0); (3, 1)]%nat.
Example C76_instance_fingerprint :
  wf_bytes (total fingerprint_pieces)
  /\ exists m s', DecodeReconciliationSendFingerprint one_byte small_params before (fun _ _ => open_ref) [0] (c_dec one_byte) fingerprint_pieces = Ok (m, s')
     /\ g_fingerprint (g_field 1) small_params before (fun _ _ => open_ref) [0] (g_field 1) fingerprint_wire = Ok (m, [7])
     /\ total s' = [7] /\ fm_sender m = 4 /\ fm_receiver m = 7 /\ fm_covers m = 300.
Proof. split; [repeat constructor|]. do 2 eexists. split; [vm_compute; reflexivity|]. split; [vm_compute; reflexivity|]. repeat split; vm_compute; reflexivity. Qed.
(** A range relative to an end that is not there, in the same message: it is read as the zero range, up to the start of its paths. *)
Example C76_instance_no_range :
  exists m s', DecodeReconciliationSendFingerprint one_byte small_params before (fun _ _ => open_ref) [0] (c_dec one_byte) (Stream ([2; 9; 1; 44; 7; 77] ++ [112; 0; 8; 8; 8]) [] []) = Ok (m, s')
     /\ fm_range m = Range3d (Range [] [] false) (Range [] [] false) (Range 0 0 false) /\ total s' = [8; 8].
Proof. do 2 eexists. split; [vm_compute; reflexivity|]. split; vm_compute; reflexivity. Qed.
(** Static tokens. The token 63 takes the byte behind it; 9 takes one too, and it is lost. *)
Example C76_instance_static : g_static [63; 200; 1] = Ok (200, [1]) /\ g_static [9; 200; 1] = Ok (9, [1]) /\ g_static [127; 1; 44; 1] = Ok (300, [1]).
Proof. repeat split; vm_compute; reflexivity. Qed.
Print Assumptions C76_spelt_path.
Print Assumptions C76_spelt_values.
Print Assumptions C76_spelt_pai.
Print Assumptions C76_spelt_data.
Print Assumptions C76_spelt_setup.
Print Assumptions C76_spelt_reconciliation.
