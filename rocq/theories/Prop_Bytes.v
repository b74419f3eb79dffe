(** C21, C22: which bytes of a slice spell which range and which area, for the two decoders that are given a whole slice. *)
From Verif Require Import Base M_Order M_Encoding M_Paths M_Ranges M_Areas M_Entry M_Stream M_Wire M_Rel
  S_Order P_Encoding P_Paths P_Stream P_Wire Prop_Malformed Prop_Reading Prop_Grammar Prop_Rel.
Local Open Scope N_scope.

(** [x] is read from the front of [c], and [c'] is what follows: [f] says what is read and how many bytes it takes. *)
Definition reads {A} (f : bytes -> A -> N -> Prop) (c : bytes) (x : A) (c' : bytes) : Prop :=
  exists u, c = u ++ c' /\ f c x (len u).
(** Nothing is read: the value is known. *)
Definition known {A} (y : A) : bytes -> A -> N -> Prop := fun _ x n => x = y /\ n = 0.
(** A name of the scheme. *)
Definition named (ss : encoding_scheme) : bytes -> bytes -> N -> Prop := fun c x n => dec ss c = Ok x /\ n = enc_length ss x.
(** A path relative to another. *)
Definition pathed (pp : path_params) (r : path) : bytes -> path -> N -> Prop :=
  fun c p n => DecodeRelativePath pp c r = Ok p /\ EncodePathRelativeLength pp p r = Ok n.
(** A number of [w] bytes, the most significant first. *)
Definition numbered (w : N) : bytes -> N -> N -> Prop := fun c x n => n = w /\ x = be_decode (firstn (N.to_nat w) c).

(** First byte: bits 7-6 the start of the subspaces (11 there, 10 the end of the other's, which must have one, 01 its start),
    5-4 their end (the same; 00 none, and the end of the other's is not asked for), 3 and 1 the start and the end of the paths relative
    to the other's start, 2 no end of the paths, 0 no end of the times. Second byte: bit 7 the start of the times from the other's start,
    6 later, 5-4 its width; 3, 2 and 1-0 the same of the end. A number for the end takes the place of the start, and the end is
    always 0. *)
Definition range_spelt (ss : encoding_scheme) (pp : path_params) (ref : range3d) (enc : bytes) (r : range3d) : Prop :=
  let fs := subspace_range ref in let fp := path_range ref in let ft := time_range ref in
  exists h b c0 c1 c2 c3 c4 c5 u v p q d e c6,
    enc = h :: b :: c0
    /\ match N.testbit h 7, N.testbit h 6 with
       | true, true => reads (named ss) c0 u c1
       | true, false => r_open fs = false /\ reads (known (r_end fs)) c0 u c1
       | false, true => reads (known (r_start fs)) c0 u c1
       | false, false => False
       end
    /\ match N.testbit h 5, N.testbit h 4 with
       | true, true => reads (named ss) c1 v c2
       | true, false => reads (known (r_end fs)) c1 v c2
       | false, true => reads (known (r_start fs)) c1 v c2
       | false, false => reads (known []) c1 v c2
       end
    /\ (if N.testbit h 3 then reads (pathed pp (r_start fp)) c2 p c3 else r_open fp = false /\ reads (pathed pp (r_end fp)) c2 p c3)
    /\ (if N.testbit h 2 then reads (known []) c3 q c4
        else if N.testbit h 1 then reads (pathed pp (r_start fp)) c3 q c4 else r_open fp = false /\ reads (pathed pp (r_end fp)) c3 q c4)
    /\ reads (numbered (width_at b 4)) c4 d c5
    /\ (N.testbit b 7 = true \/ r_open ft = false)
    /\ (if N.testbit h 0 then reads (known 0) c5 e c6
        else (N.testbit b 3 = true \/ r_open ft = false) /\ reads (numbered (width_at b 0)) c5 e c6)
    /\ r = Range3d (Range u v (negb (N.testbit h 5 || N.testbit h 4))) (Range p q (N.testbit h 2))
             (Range (if N.testbit h 0 then moved (N.testbit b 6) (if N.testbit b 7 then r_start ft else r_end ft) d
                     else moved (N.testbit b 2) (if N.testbit b 3 then r_start ft else r_end ft) e) 0 (N.testbit h 0)).

(** Bit 7: the subspace is there, behind as many bytes as the path relative to the other's takes (a name the scheme refuses is the
    empty name); 6: no end; 5: the start later than the other's, else earlier; 4: the end later than the start, else earlier than the
    other's end; 3-2 and 1-0 widths. *)
Definition area_spelt (dec_ss : bytes -> res bytes) (pp : path_params) (outer : area) (enc : bytes) (a : area) : Prop :=
  let ot := area_times outer in
  exists h c0 c1 c2 d e t l,
    enc = h :: c0
    /\ reads (numbered (width_at h 2)) c0 d c1
    /\ (if N.testbit h 6 then reads (known 0) c1 e c2 else reads (numbered (width_at h 0)) c1 e c2)
    /\ pathed pp (area_path outer) c2 (area_path a) l
    /\ (if N.testbit h 7
        then exists p c3, c2 = p ++ c3 /\ len p = l /\ (dec_ss c3 = Ok (area_subspace a) \/ dec_ss c3 = Err /\ area_subspace a = [])
        else area_subspace a = area_subspace outer)
    /\ area_any a = false
    /\ t = moved (N.testbit h 5) (r_start ot) d
    /\ area_times a = (if N.testbit h 6 then Range t (2 ^ 64 - 15) true
                       else Range t (if N.testbit h 4 then moved true t e else moved false (r_end ot) e) false).

(** ** Positions *)
Lemma reads_at {A} (f : bytes -> A -> N -> Prop) enc pos x c' : pos <= len enc ->
  (reads f (skipn (N.to_nat pos) enc) x c' <-> exists n, f (skipn (N.to_nat pos) enc) x n /\ pos + n <= len enc /\ c' = skipn (N.to_nat (pos + n)) enc).
Proof.
  intros L. assert (LS : len (skipn (N.to_nat pos) enc) = len enc - pos) by (unfold len; rewrite skipn_length; lia).
  assert (SK : forall n, skipn (N.to_nat (pos + n)) enc = skipn (N.to_nat n) (skipn (N.to_nat pos) enc)).
  { intros n. replace (N.to_nat (pos + n)) with (N.to_nat pos + N.to_nat n)%nat by lia. clear L LS.
    generalize (N.to_nat n). intros m. revert enc. induction (N.to_nat pos) as [|k IH]; intros enc; [reflexivity|].
    destruct enc; [destruct m; reflexivity|]. exact (IH enc). }
  split.
  - intros (u & E & F). exists (len u). split; [exact F|]. split.
    + rewrite E in LS. unfold len in *. rewrite app_length in LS. lia.
    + rewrite SK, E. unfold len. rewrite Nnat.Nat2N.id, skipn_app, skipn_all, Nat.sub_diag. reflexivity.
  - intros (n & F & B & ->). exists (firstn (N.to_nat n) (skipn (N.to_nat pos) enc)). split; [rewrite SK, firstn_skipn; reflexivity|].
    replace (len _) with n; [exact F|]. unfold len in *. rewrite firstn_length. lia.
Qed.
Lemma slice_at (enc : bytes) pos w : pos + w <= len enc -> slice enc pos (pos + w) = Ok (firstn (N.to_nat w) (skipn (N.to_nat pos) enc)).
Proof.
  intros L. unfold slice. rewrite (proj2 (N.leb_le pos (pos + w))), (proj2 (N.leb_le (pos + w) (len enc))) by lia.
  replace (pos + w - pos) with w by lia. reflexivity.
Qed.
Lemma slice_ok (enc : bytes) pos w a : slice enc pos (pos + w) = Ok a ->
  pos + w <= len enc /\ a = firstn (N.to_nat w) (skipn (N.to_nat pos) enc).
Proof.
  intros E. pose proof (slice_bound _ _ _ _ E) as B. rewrite slice_at in E by exact B. injection E as <-. auto.
Qed.
Lemma from_ok (enc : bytes) pos a : slice_from enc pos = Ok a -> pos <= len enc /\ a = skipn (N.to_nat pos) enc.
Proof. unfold slice_from. destruct (N.leb_spec pos (len enc)); [|discriminate]. intros E. injection E as <-. auto. Qed.
Lemma from_at (enc : bytes) pos : pos <= len enc -> slice_from enc pos = Ok (skipn (N.to_nat pos) enc).
Proof. intros L. unfold slice_from. rewrite (proj2 (N.leb_le _ _)) by exact L. reflexivity. Qed.
Lemma number_at (enc : bytes) pos h i : pos + width_at h i <= len enc ->
  DecodeIntMax64 (firstn (N.to_nat (width_at h i)) (skipn (N.to_nat pos) enc)) = Ok (be_decode (firstn (N.to_nat (width_at h i)) (skipn (N.to_nat pos) enc))).
Proof.
  intros L. destruct (width_power h i) as [j EW]. apply (int64_width _ j). rewrite <- EW. apply len_firstn.
  unfold len in *. rewrite skipn_length. lia.
Qed.

Lemma path_at_ok pp enc pos ref p n : dec_path_at pp enc pos ref = Ok (p, n) <->
  exists l, pos <= len enc /\ pathed pp ref (skipn (N.to_nat pos) enc) p l /\ n = pos + l.
Proof.
  unfold dec_path_at, pathed. split.
  - destruct (slice_from enc pos) as [b| | | |] eqn:S; cbn [bind]; try discriminate. apply from_ok in S as [L ->].
    destruct (DecodeRelativePath _ _ _) as [x| | | |] eqn:D; cbn [bind]; try discriminate.
    destruct (EncodePathRelativeLength _ _ _) as [l| | | |] eqn:EL; cbn [bind]; try discriminate.
    intros E. injection E as <- <-. exists l. auto.
  - intros (l & L & (D & EL) & ->). rewrite from_at by exact L. cbn [bind]. rewrite D. cbn [bind]. rewrite EL. reflexivity.
Qed.

(** One step of a decoder reads what [f] says. *)
Definition step {A} (enc : bytes) (pos : N) (st : res (A * N)) (f : bytes -> A -> bytes -> Prop) : Prop :=
  (forall x n, st = Ok (x, n) -> pos <= n)
  /\ (pos <= len enc ->
       (forall x n, st = Ok (x, n) -> n <= len enc -> f (skipn (N.to_nat pos) enc) x (skipn (N.to_nat n) enc))
       /\ (forall x c', f (skipn (N.to_nat pos) enc) x c' -> exists n, n <= len enc /\ c' = skipn (N.to_nat n) enc /\ st = Ok (x, n))).
Lemma step_known {A} enc pos (y : A) : step enc pos (Ok (y, pos)) (reads (known y)).
Proof.
  split; [intros x n E; injection E; lia|]. intros L. split.
  - intros x n E _. injection E as <- <-. apply reads_at; [exact L|]. exists 0. rewrite N.add_0_r. repeat split; auto.
  - intros x c' R. apply reads_at in R as (n & [-> ->] & B & ->); [|exact L]. rewrite N.add_0_r in *. exists pos. repeat split; auto.
Qed.
Lemma step_named enc pos ss : step enc pos (do b <- slice_from enc pos; do x <- dec ss b; Ok (x, pos + enc_length ss x)) (reads (named ss)).
Proof.
  split.
  { intros x n E. destruct (slice_from enc pos) as [c| | | |]; try discriminate. cbn [bind] in E. destruct (dec ss c); try discriminate.
    injection E as <- <-. lia. }
  intros L. rewrite from_at by exact L. cbn [bind]. split.
  - intros x n E B. destruct (dec ss _) as [y| | | |] eqn:D; try discriminate. injection E as <- <-.
    apply reads_at; [exact L|]. exists (enc_length ss y). repeat split; auto.
  - intros x c' R. apply reads_at in R as (n & [D ->] & B & ->); [|exact L]. rewrite D. cbn [bind]. eexists. repeat split; auto.
Qed.
Lemma step_path enc pos pp ref : step enc pos (dec_path_at pp enc pos ref) (reads (pathed pp ref)).
Proof.
  split; [intros x n E; apply path_at_ok in E as (l & _ & _ & ->); lia|]. intros L. split.
  - intros x n E B. apply path_at_ok in E as (l & _ & P & ->). apply reads_at; [exact L|]. eauto.
  - intros x c' R. apply reads_at in R as (n & P & B & ->); [|exact L]. exists (pos + n). repeat split; auto. apply path_at_ok. eauto.
Qed.
Lemma step_number enc pos h i : step enc pos (do a <- slice enc pos (pos + width_at h i); do x <- DecodeIntMax64 a; Ok (x, pos + width_at h i))
  (reads (numbered (width_at h i))).
Proof.
  split.
  { intros x n E. destruct (slice _ _ _) as [c| | | |]; try discriminate. cbn [bind] in E. destruct (DecodeIntMax64 c); try discriminate.
    injection E as <- <-. lia. }
  intros L. split.
  - intros x n E _. destruct (slice _ _ _) as [a| | | |] eqn:S; try discriminate. apply slice_ok in S as [B ->]. cbn [bind] in E.
    rewrite number_at in E by exact B. injection E as <- <-. apply reads_at; [exact L|]. exists (width_at h i). repeat split; auto.
  - intros x c' R. apply reads_at in R as (n & [-> ->] & B & ->); [|exact L]. exists (pos + width_at h i).
    rewrite slice_at by exact B. cbn [bind]. rewrite number_at by exact B. repeat split; auto.
Qed.
Lemma step_never {A} enc pos (st : res (A * N)) (f : bytes -> A -> bytes -> Prop) : (forall y, st <> Ok y) -> (forall c x c', ~ f c x c') -> step enc pos st f.
Proof. intros H G. split; [intros x n E; edestruct H; eauto|]. intros _. split; [intros x n E; edestruct H; eauto|intros x c' R; edestruct G; eauto]. Qed.
Lemma step_if {A} enc pos (o : bool) (st : res (A * N)) (f : bytes -> A -> bytes -> Prop) :
  step enc pos st f -> step enc pos (if o then Err else st) (fun c x c' => o = false /\ f c x c').
Proof.
  intros [S0 S]. split; [destruct o; [discriminate|exact S0]|]. intros L. destruct (S L) as [S1 S2]. destruct o; split; try discriminate.
  - intros x c' [H _]. discriminate.
  - intros x n E. auto.
  - intros x c' [_ R]. auto.
Qed.

(** The decoder, as a sequence of steps. *)
Definition range_steps (ss : encoding_scheme) (pp : path_params) (enc : bytes) (ref : range3d) (h b : N) : res range3d :=
  let fs := subspace_range ref in let fp := path_range ref in let ft := time_range ref in
  do (u, pos) <- match start_code h with
    | CRefStart => Ok (r_start fs, 2)
    | CRefEnd => if r_open fs then Err else Ok (r_end fs, 2)
    | CYes => do b <- slice_from enc 2; do x <- dec ss b; Ok (x, 2 + enc_length ss x)
    | CNone => Err
    end;
  do (v, pos) <- match end_code h with
    | CNone => Ok ([], pos)
    | CRefStart => Ok (r_start fs, pos)
    | CRefEnd => Ok (r_end fs, pos)
    | CYes => do b <- slice_from enc pos; do x <- dec ss b; Ok (x, pos + enc_length ss x)
    end;
  do (p, pos) <- (if N.testbit h 3 then dec_path_at pp enc pos (r_start fp)
                  else if r_open fp then Err else dec_path_at pp enc pos (r_end fp));
  do (q, pos) <- (if N.testbit h 2 then Ok ([], pos)
                  else if N.testbit h 1 then dec_path_at pp enc pos (r_start fp)
                  else if r_open fp then Err else dec_path_at pp enc pos (r_end fp));
  do (d, pos) <- (do a <- slice enc pos (pos + width_at b 4); do x <- DecodeIntMax64 a; Ok (x, pos + width_at b 4));
  if negb (N.testbit b 7) && r_open ft then Err
  else
    do (e, pos) <- (if N.testbit h 0 then Ok (0, pos)
                    else do a <- slice enc pos (pos + width_at b 0); do x <- DecodeIntMax64 a;
                         if negb (N.testbit b 3) && r_open ft then Err else Ok (x, pos + width_at b 0));
    Ok (Range3d (Range u v (negb (N.testbit h 5 || N.testbit h 4))) (Range p q (N.testbit h 2))
             (Range (if N.testbit h 0 then moved (N.testbit b 6) (if N.testbit b 7 then r_start ft else r_end ft) d
                     else moved (N.testbit b 2) (if N.testbit b 3 then r_start ft else r_end ft) e) 0 (N.testbit h 0))).
Lemma range_in_steps ss pp h b c0 ref : DecodeRange3dRelative ss pp (h :: b :: c0) ref = range_steps ss pp (h :: b :: c0) ref h b.
Proof.
  unfold DecodeRange3dRelative, range_steps, start_code, end_code. cbv zeta. rewrite index_0, index_1. cbn [bind].
  rewrite ?(has_two h 7 6 ltac:(discriminate) : has h 192 = _), ?(has_two h 5 4 ltac:(discriminate) : has h 48 = _). bits h. bits b.
  Ltac same_step := match goal with |- bind ?x _ = bind ?x _ => destruct x as [[? ?]| | | |]; cbn [bind]; try reflexivity end.
  destruct (N.testbit h 7), (N.testbit h 6); cbn [andb bind]; try reflexivity.
  all: try same_step.
  all: destruct (N.testbit h 5), (N.testbit h 4); cbn [andb orb negb bind].
  all: repeat same_step.
  all: destruct (slice _ _ _) as [a| | | |]; cbn [bind]; try reflexivity.
  all: destruct (DecodeIntMax64 a); cbn [bind]; try reflexivity.
  all: unfold moved; destruct (N.testbit b 7), (r_open (time_range ref)), (N.testbit h 0); cbn [bind negb andb]; try reflexivity.
  all: destruct (slice _ _ _) as [a1| | | |]; cbn [bind]; try reflexivity.
  all: destruct (DecodeIntMax64 a1); cbn [bind]; try reflexivity.
  all: destruct (N.testbit b 3); cbn [bind negb andb]; reflexivity.
Qed.

Lemma range_step1 ss enc ref h : step enc 2
  (match start_code h with
    | CRefStart => Ok (r_start (subspace_range ref), 2)
    | CRefEnd => if r_open (subspace_range ref) then Err else Ok (r_end (subspace_range ref), 2)
    | CYes => do b <- slice_from enc 2; do x <- dec ss b; Ok (x, 2 + enc_length ss x)
    | CNone => Err
    end)
  (fun c0 u c1 => match N.testbit h 7, N.testbit h 6 with
       | true, true => reads (named ss) c0 u c1
       | true, false => r_open (subspace_range ref) = false /\ reads (known (r_end (subspace_range ref))) c0 u c1
       | false, true => reads (known (r_start (subspace_range ref))) c0 u c1
       | false, false => False
       end).
Proof.
  unfold start_code. rewrite ?(has_two h 7 6 ltac:(discriminate) : has h 192 = _). bits h.
  destruct (N.testbit h 7), (N.testbit h 6); cbn [andb].
  - apply step_named.
  - apply step_if, step_known.
  - apply step_known.
  - apply step_never; [discriminate|auto].
Qed.
Lemma range_step2 ss enc pos ref h : step enc pos
  (match end_code h with
    | CNone => Ok ([], pos)
    | CRefStart => Ok (r_start (subspace_range ref), pos)
    | CRefEnd => Ok (r_end (subspace_range ref), pos)
    | CYes => do b <- slice_from enc pos; do x <- dec ss b; Ok (x, pos + enc_length ss x)
    end)
  (fun c1 v c2 => match N.testbit h 5, N.testbit h 4 with
       | true, true => reads (named ss) c1 v c2
       | true, false => reads (known (r_end (subspace_range ref))) c1 v c2
       | false, true => reads (known (r_start (subspace_range ref))) c1 v c2
       | false, false => reads (known []) c1 v c2
       end).
Proof.
  unfold end_code. rewrite ?(has_two h 5 4 ltac:(discriminate) : has h 48 = _). bits h.
  destruct (N.testbit h 5), (N.testbit h 4); cbn [andb]; first [apply step_named | apply step_known].
Qed.
Lemma range_step3 pp enc pos (fp : range path) (bit : bool) : step enc pos
  (if bit then dec_path_at pp enc pos (r_start fp) else if r_open fp then Err else dec_path_at pp enc pos (r_end fp))
  (fun c p c' => if bit then reads (pathed pp (r_start fp)) c p c' else r_open fp = false /\ reads (pathed pp (r_end fp)) c p c').
Proof. destruct bit; [apply step_path|apply step_if, step_path]. Qed.
Lemma range_step4 pp enc pos (fp : range path) (b2 b1 : bool) : step enc pos
  (if b2 then Ok ([], pos) else if b1 then dec_path_at pp enc pos (r_start fp) else if r_open fp then Err else dec_path_at pp enc pos (r_end fp))
  (fun c q c' => if b2 then reads (known []) c q c' else
     if b1 then reads (pathed pp (r_start fp)) c q c' else r_open fp = false /\ reads (pathed pp (r_end fp)) c q c').
Proof. destruct b2; [apply step_known|apply range_step3]. Qed.
Lemma range_step6 enc pos (ft : range N) (b0 b3 : bool) b : step enc pos
  (if b0 then Ok (0, pos) else do a <- slice enc pos (pos + width_at b 0); do x <- DecodeIntMax64 a;
     if negb b3 && r_open ft then Err else Ok (x, pos + width_at b 0))
  (fun c e c' => if b0 then reads (known 0) c e c' else (b3 = true \/ r_open ft = false) /\ reads (numbered (width_at b 0)) c e c').
Proof.
  destruct b0; [apply step_known|]. destruct (step_number enc pos b 0) as [S0 S]. destruct (negb b3 && r_open ft) eqn:G.
  - apply step_never.
    + intros y E. destruct (slice _ _ _) as [a| | | |]; try discriminate. cbn [bind] in E. destruct (DecodeIntMax64 a); discriminate.
    + intros c x c' [[-> | G'] _]; [discriminate|]. rewrite G', andb_false_r in G. discriminate.
  - split; [exact S0|]. intros L. destruct (S L) as [S1 S2]. split.
    + intros x n E B. split; [|auto]. destruct b3; [auto|]. right. exact G.
    + intros x c' [_ R]. auto.
Qed.

(** The decoder accepts exactly the bytes that spell a range, and returns that range. *)
Theorem C21_spelt ss pp ref enc r : DecodeRange3dRelative ss pp enc ref = Ok r <-> range_spelt ss pp ref enc r.
Proof.
  destruct enc as [|h [|b c0]].
  1, 2: split; [discriminate|intros (?&?&?&?&?&?&?&?&?&?&?&?&?&?&?&E&_); discriminate].
  rewrite range_in_steps. set (enc := h :: b :: c0). assert (L2 : 2 <= len enc) by (unfold enc, len; cbn [length]; lia).
  unfold range_steps, range_spelt. cbv zeta. split.
  - intros E.
    match type of E with bind ?x _ = _ => destruct x as [[u n1]| | | |] eqn:E1; cbn [bind] in E; try discriminate E end.
    match type of E with bind ?x _ = _ => destruct x as [[v n2]| | | |] eqn:E2; cbn [bind] in E; try discriminate E end.
    match type of E with bind ?x _ = _ => destruct x as [[p n3]| | | |] eqn:E3; cbn [bind] in E; try discriminate E end.
    match type of E with bind ?x _ = _ => destruct x as [[q n4]| | | |] eqn:E4; cbn [bind] in E; try discriminate E end.
    match type of E with bind ?x _ = _ => destruct x as [[d n5]| | | |] eqn:E5; cbn [bind] in E; try discriminate E end.
    match type of E with (if ?x then _ else _) = _ => destruct x eqn:G; try discriminate E end.
    match type of E with bind ?x _ = _ => destruct x as [[e n6]| | | |] eqn:E6; cbn [bind] in E; try discriminate E end.
    injection E as <-.
    destruct (range_step1 ss enc ref h) as [M1 S1]. specialize (M1 _ _ E1).
    destruct (range_step2 ss enc n1 ref h) as [M2 S2]. specialize (M2 _ _ E2).
    destruct (range_step3 pp enc n2 (path_range ref) (N.testbit h 3)) as [M3 S3]. specialize (M3 _ _ E3).
    destruct (range_step4 pp enc n3 (path_range ref) (N.testbit h 2) (N.testbit h 1)) as [M4 S4]. specialize (M4 _ _ E4).
    destruct (step_number enc n4 b 4) as [M5 S5]. specialize (M5 _ _ E5).
    destruct (range_step6 enc n5 (time_range ref) (N.testbit h 0) (N.testbit b 3) b) as [M6 S6]. specialize (M6 _ _ E6).
    assert (B5 : n5 <= len enc).
    { destruct (slice enc n4 _) as [a| | | |] eqn:SL; try discriminate E5. apply slice_ok in SL as [B _]. cbn [bind] in E5.
      destruct (DecodeIntMax64 a); try discriminate E5. injection E5 as _ <-. exact B. }
    assert (B6 : n6 <= len enc).
    { clear S6. destruct (N.testbit h 0); [injection E6 as _ <-; exact B5|].
      destruct (slice enc n5 _) as [a| | | |] eqn:SL; try discriminate E6. apply slice_ok in SL as [B _]. cbn [bind] in E6.
      destruct (DecodeIntMax64 a); try discriminate E6. cbn [bind] in E6. destruct (negb (N.testbit b 3) && r_open (time_range ref)); try discriminate E6. injection E6 as _ <-. exact B. }
    exists h, b, c0, (skipn (N.to_nat n1) enc), (skipn (N.to_nat n2) enc), (skipn (N.to_nat n3) enc), (skipn (N.to_nat n4) enc), (skipn (N.to_nat n5) enc).
    exists u, v, p, q, d, e, (skipn (N.to_nat n6) enc).
    split; [reflexivity|].
    split; [apply (proj1 (S1 L2)); [exact E1|lia]|].
    split; [apply (proj1 (S2 ltac:(lia))); [exact E2|lia]|].
    split; [apply (proj1 (S3 ltac:(lia))); [exact E3|lia]|].
    split; [apply (proj1 (S4 ltac:(lia))); [exact E4|lia]|].
    split; [apply (proj1 (S5 ltac:(lia))); [exact E5|lia]|].
    split; [destruct (N.testbit b 7); [auto|right; exact G]|].
    split; [apply (proj1 (S6 ltac:(lia))); [exact E6|lia]|]. reflexivity.
  - intros (h' & b' & c0' & c1 & c2 & c3 & c4 & c5 & u & v & p & q & d & e & c6 & X & R1 & R2 & R3 & R4 & R5 & G & R6 & ->).
    injection X as <- <- <-.
    destruct (range_step1 ss enc ref h) as [_ S1]. destruct (S1 L2) as [_ T1]. destruct (T1 _ _ R1) as (n1 & B1 & -> & E1). rewrite E1. cbn [bind]. clear S1 T1 R1 E1.
    destruct (range_step2 ss enc n1 ref h) as [_ S2]. destruct (S2 B1) as [_ T2]. destruct (T2 _ _ R2) as (n2 & B2 & -> & E2). rewrite E2. cbn [bind]. clear S2 T2 R2 E2.
    destruct (range_step3 pp enc n2 (path_range ref) (N.testbit h 3)) as [_ S3]. destruct (S3 B2) as [_ T3]. destruct (T3 _ _ R3) as (n3 & B3 & -> & E3). rewrite E3. cbn [bind]. clear S3 T3 R3 E3.
    destruct (range_step4 pp enc n3 (path_range ref) (N.testbit h 2) (N.testbit h 1)) as [_ S4]. destruct (S4 B3) as [_ T4]. destruct (T4 _ _ R4) as (n4 & B4 & -> & E4). rewrite E4. cbn [bind]. clear S4 T4 R4 E4.
    destruct (step_number enc n4 b 4) as [_ S5]. destruct (S5 B4) as [_ T5]. destruct (T5 _ _ R5) as (n5 & B5 & -> & E5). rewrite E5. cbn [bind]. clear S5 T5 R5 E5.
    replace (negb (N.testbit b 7) && r_open (time_range ref)) with false by (destruct G as [-> | ->]; [reflexivity|rewrite andb_false_r; reflexivity]).
    destruct (range_step6 enc n5 (time_range ref) (N.testbit h 0) (N.testbit b 3) b) as [_ S6]. destruct (S6 B5) as [_ T6]. destruct (T6 _ _ R6) as (n6 & B6 & -> & E6). rewrite E6. reflexivity.
Qed.
Print Assumptions C21_spelt.

(** The same for areas. *)
Theorem C22_spelt dec_ss pp outer enc a : DecodeAreaInArea dec_ss pp enc outer = Ok a <-> area_spelt dec_ss pp outer enc a.
Proof.
  destruct enc as [|h c0].
  { split; [discriminate|]. intros (h' & c & c1 & c2 & d & e & t & l & X & _). discriminate X. }
  set (enc := h :: c0). assert (L1 : 1 <= len enc) by (unfold enc, len; cbn [length]; lia).
  unfold DecodeAreaInArea, area_spelt, dec_area_rest. cbv zeta. unfold enc at 1. rewrite index_0. cbn [bind].
  rewrite (N.land_comm 3 (N.shiftr h 2)), (N.land_comm 3 h). bits h.
  replace (pow2 (N.land (N.shiftr h 2) 3)) with (width_at h 2) by (unfold pow2, width_at; rewrite land3, N.shiftr_div_pow2; reflexivity).
  split.
  - intros E.
    assert (Y : exists d n1 e n2, (do x <- slice enc 1 (1 + width_at h 2); do y <- DecodeIntMax64 x; Ok (y, 1 + width_at h 2)) = Ok (d, n1)
      /\ (if N.testbit h 6 then Ok (0, n1) else do x <- slice enc n1 (n1 + width_at h 0); do y <- DecodeIntMax64 x; Ok (y, n1 + width_at h 0)) = Ok (e, n2)
      /\ exists b l, slice_from enc n2 = Ok b /\ pathed pp (area_path outer) b (area_path a) l
      /\ (if N.testbit h 7 then exists c, slice_from enc (n2 + l) = Ok c /\ (dec_ss c = Ok (area_subspace a) \/ dec_ss c = Err /\ area_subspace a = [])
          else area_subspace a = area_subspace outer)
      /\ area_any a = false
      /\ area_times a = (let t := moved (N.testbit h 5) (r_start (area_times outer)) d in
           if N.testbit h 6 then Range t (2 ^ 64 - 15) true
           else Range t (if N.testbit h 4 then moved true t e else moved false (r_end (area_times outer)) e) false)).
    { unfold pathed. destruct (N.testbit h 6) eqn:H6.
      - destruct (slice enc 1 _) as [x| | | |]; cbn [bind] in E |- *; try discriminate E.
        destruct (DecodeIntMax64 x) as [d| | | |]; cbn [bind] in E |- *; try discriminate E.
        exists d, (1 + width_at h 2), 0, (1 + width_at h 2). split; [reflexivity|]. split; [reflexivity|].
        destruct (slice_from enc (1 + width_at h 2)) as [b| | | |]; cbn [bind] in E; try discriminate E.
        destruct (DecodeRelativePath _ _ _) as [p| | | |] eqn:DP; cbn [bind] in E; try discriminate E.
        destruct (EncodePathRelativeLength _ _ _) as [l| | | |] eqn:EL; cbn [bind] in E; try discriminate E.
        exists b, l. split; [reflexivity|]. destruct (N.testbit h 7); cbn [bind] in E.
        + destruct (slice_from enc _) as [c| | | |]; cbn [bind] in E; try discriminate E.
          destruct (dec_ss c) as [x1| | | |] eqn:DS; cbn [bind] in E; try discriminate E; injection E as <-; cbn [area_path area_subspace area_any area_times];
            repeat (split; [auto|]); eauto.
        + injection E as <-. cbn [area_path area_subspace area_any area_times]. auto 10.
      - destruct (slice enc 1 _) as [x| | | |]; cbn [bind] in E |- *; try discriminate E.
        destruct (DecodeIntMax64 x) as [d| | | |]; cbn [bind] in E |- *; try discriminate E.
        destruct (slice enc (1 + width_at h 2) _) as [x1| | | |] eqn:SL; cbn [bind] in E |- *; try discriminate E.
        destruct (DecodeIntMax64 x1) as [e| | | |] eqn:DI; cbn [bind] in E |- *; try discriminate E.
        exists d, (1 + width_at h 2), e, (1 + width_at h 2 + width_at h 0). split; [reflexivity|]. rewrite SL. cbn [bind]. rewrite DI. split; [reflexivity|].
        destruct (slice_from enc (1 + width_at h 2 + width_at h 0)) as [b| | | |]; cbn [bind] in E; try discriminate E.
        destruct (DecodeRelativePath _ _ _) as [p| | | |] eqn:DP; cbn [bind] in E; try discriminate E.
        destruct (EncodePathRelativeLength _ _ _) as [l| | | |] eqn:EL; cbn [bind] in E; try discriminate E.
        exists b, l. split; [reflexivity|]. destruct (N.testbit h 7); cbn [bind] in E.
        + destruct (slice_from enc _) as [c| | | |]; cbn [bind] in E; try discriminate E.
          destruct (dec_ss c) as [x2| | | |] eqn:DS; cbn [bind] in E; try discriminate E; injection E as <-; cbn [area_path area_subspace area_any area_times];
            repeat (split; [auto|]); eauto.
        + injection E as <-. cbn [area_path area_subspace area_any area_times]. auto 10. }
    clear E. destruct Y as (d & n1 & e & n2 & E1 & E2 & b & l & E3 & P & U & AA & T). apply from_ok in E3 as [B2 ->].
    destruct (step_number enc 1 h 2) as [M1 S1]. specialize (M1 _ _ E1).
    assert (S2' : step enc n1 (if N.testbit h 6 then Ok (0, n1) else do x <- slice enc n1 (n1 + width_at h 0); do y <- DecodeIntMax64 x; Ok (y, n1 + width_at h 0))
       (fun c e c' => if N.testbit h 6 then reads (known 0) c e c' else reads (numbered (width_at h 0)) c e c'))
      by (destruct (N.testbit h 6); [apply step_known|apply step_number]).
    destruct S2' as [M2 S2]. specialize (M2 _ _ E2).
    exists h, c0, (skipn (N.to_nat n1) enc), (skipn (N.to_nat n2) enc), d, e, (moved (N.testbit h 5) (r_start (area_times outer)) d), l.
    split; [reflexivity|]. split; [apply (proj1 (S1 L1)); [exact E1|lia]|]. split; [apply (proj1 (S2 ltac:(lia))); [exact E2|lia]|].
    split; [exact P|]. split; [|auto]. destruct (N.testbit h 7); [|exact U]. destruct U as (c & F & D). apply from_ok in F as [B3 ->].
    assert (R : reads (fun _ (_ : unit) n => n = l) (skipn (N.to_nat n2) enc) tt (skipn (N.to_nat (n2 + l)) enc)) by (apply reads_at; [exact B2|]; eauto).
    destruct R as (u & E & LU). eauto.
  - intros (h' & c0' & c1 & c2 & d & e & t & l & X & R1 & R2 & [P EL] & U & AA & Et & T). injection X as <- <-.
    destruct (step_number enc 1 h 2) as [_ S1]. destruct (S1 L1) as [_ T1]. destruct (T1 _ _ R1) as (n1 & B1 & -> & E1). clear S1 T1 R1.
    assert (N1 : n1 = 1 + width_at h 2 /\ exists x, slice enc 1 (1 + width_at h 2) = Ok x /\ DecodeIntMax64 x = Ok d).
    { destruct (slice enc 1 _) as [x| | | |]; try discriminate E1. cbn [bind] in E1. destruct (DecodeIntMax64 x) eqn:D; try discriminate E1.
      injection E1 as <- <-. eauto. }
    destruct N1 as (-> & x & X1 & X2). rewrite X1. cbn [bind]. rewrite X2. cbn [bind]. clear E1.
    assert (K : forall n2 (k : path * bytes -> res area), n2 <= len enc -> c2 = skipn (N.to_nat n2) enc ->
      (do (p, u) <- (do b <- slice_from enc n2; do p <- DecodeRelativePath pp b (area_path outer); do l <- EncodePathRelativeLength pp p (area_path outer);
         if N.testbit h 7 then do c <- slice_from enc (n2 + l);
            match dec_ss c with Ok x => Ok (p, x) | Err => Ok (p, []) | Panic => Panic | Fatal => Fatal | Hang => Hang end
         else Ok (p, area_subspace outer)); k (p, u)) = k (area_path a, area_subspace a)).
    { intros n2 k B2 C2. rewrite from_at, <- C2 by exact B2. cbn [bind]. rewrite P. cbn [bind]. rewrite EL. cbn [bind].
      destruct (N.testbit h 7); [|rewrite U; reflexivity].
      destruct U as (p & c3 & E3 & LP & D).
      assert (R : reads (fun _ (_ : unit) n => n = l) (skipn (N.to_nat n2) enc) tt c3) by (exists p; rewrite <- C2; auto).
      apply reads_at in R as (n & -> & B3 & ->); [|exact B2]. rewrite from_at by exact B3. cbn [bind].
      destruct D as [D|[D D']]; rewrite D; [|rewrite D']; reflexivity. }
    destruct a as [au ap at_ aa]. cbn [area_path area_subspace area_any area_times] in *. subst aa at_ t. destruct (N.testbit h 6).
    + apply reads_at in R2 as (n & [-> ->] & B2 & C2); [|exact B1]. rewrite N.add_0_r in *.
      rewrite (K (1 + width_at h 2) (fun '(p, u) => Ok (Area u p _ false)) B1 C2). reflexivity.
    + apply reads_at in R2 as (n & [-> ->] & B2 & C2); [|exact B1]. rewrite slice_at by exact B2. cbn [bind]. rewrite number_at by exact B2. cbn [bind].
      rewrite (K (1 + width_at h 2 + width_at h 0) (fun '(p, u) => Ok (Area u p _ false)) B2 C2). reflexivity.
Qed.
Print Assumptions C22_spelt.

(** Bytes that spell a range, and an area whose start is earlier than that of the other area. *)
Definition C21_spelt_ref := Range3d (Range [97] [99] false) (Range [[1]] [[5]] false) (Range 1000 2000 false).
Example C21_instance_spelt : exists r, range_spelt (fixed_scheme 1) rel_pp C21_spelt_ref [249; 192; 98; 99; 1; 1; 1; 2; 1; 1; 1; 2; 7] r
  /\ r_start (subspace_range r) = [98] /\ r_end (subspace_range r) = [99] /\ path_range r = Range [[1]; [2]] [[5]; [1]; [2]] false /\ time_range r = Range 1001 0 true.
Proof. eexists. split; [apply C21_spelt; vm_compute; reflexivity|]. repeat split. Qed.
Example C22_instance_spelt : exists a, area_spelt (dec (fixed_scheme 1)) rel_pp (Area [] [[1]] (Range 1000 0 true) true) [144; 7; 9; 1; 1; 1; 2; 98] a
  /\ area_path a = [[1]; [2]] /\ area_times a = Range 993 1002 false.
Proof. eexists. split; [apply C22_spelt; vm_compute; reflexivity|]. repeat split. Qed.

(** A relative path is read from exactly the bytes that begin with a number of components, no more than the reference has, and the
    encoding of a path: those components of the reference and then that path. On anything else the decoder panics. *)
Theorem C70_rel_path pp enc ref : go_params pp -> wf_bytes enc ->
  (forall p, DecodeRelativePath pp enc ref = Ok p <->
     exists n suffix, p = firstn (N.to_nat n) ref ++ suffix /\ n <= len ref /\ writable pp suffix
       /\ n < 256 ^ GetWidthMax32Int (max_component_count pp)
       /\ prefix_of (EncodeIntMax32 n (max_component_count pp) ++ EncodePath pp suffix) enc)
  /\ (DecodeRelativePath pp enc ref = Panic \/ exists p, DecodeRelativePath pp enc ref = Ok p).
Proof.
  intros GP W. set (w := GetWidthMax32Int (max_component_count pp)).
  assert (X : DecodeRelativePath pp enc ref = Panic \/ exists p, DecodeRelativePath pp enc ref = Ok p
    /\ exists n suffix, p = firstn (N.to_nat n) ref ++ suffix /\ n <= len ref /\ writable pp suffix /\ n < 256 ^ w
       /\ prefix_of (EncodeIntMax32 n (max_component_count pp) ++ EncodePath pp suffix) enc).
  { unfold DecodeRelativePath. fold w. destruct (slice_not enc 0 w) as [E|(cb & E)]; rewrite E; cbn [bind]; [auto|].
    destruct (Prop_Malformed.slice_ok _ _ _ _ E) as (_ & LW & S1 & L2). rewrite N.sub_0_r in L2. cbn [N.to_nat firstn app] in S1.
    rewrite DecodeIntMax32_be by exact L2. cbn [bind].
    destruct (slice_not ref 0 (be_decode cb)) as [E3|(pre & E3)]; rewrite E3; cbn [bind]; [auto|].
    destruct (Prop_Malformed.slice_ok _ _ _ _ E3) as (_ & L3 & _ & _). rewrite (slice_0_firstn _ _ _ E3).
    rewrite from_at by exact LW. cbn [bind]. pose proof W as W0. rewrite S1 in W0. apply Forall_app in W0 as [Wc Wr].
    destruct (int32_canonical cb (max_component_count pp) Wc L2) as (D1 & D2).
    destruct (path_exact pp _ GP Wr) as [Q|(p & rest & H1 & H2 & H3)]; [rewrite Q; auto|]. rewrite H3. right. eexists. split; [reflexivity|].
    exists (be_decode cb), p. split; [reflexivity|]. split; [exact L3|]. split; [exact H1|]. split; [exact D2|].
    exists rest. rewrite D1, <- app_assoc, <- H2. exact S1. }
  split.
  - intros p. split.
    + intros E. destruct X as [Q|(p' & Q & R)]; [congruence|]. rewrite E in Q. injection Q as ->. exact R.
    + intros (n & suffix & -> & L & HW & B & rest & ->). unfold DecodeRelativePath. fold w. rewrite <- !app_assoc.
      assert (LE : len (EncodeIntMax32 n (max_component_count pp)) = w) by (apply EncodeIntMax32_len).
      rewrite slice_0_app by (symmetry; exact LE). cbn [bind].
      rewrite DecodeIntMax32_be by exact LE. cbn [bind].
      replace (be_decode (EncodeIntMax32 n (max_component_count pp))) with n by (rewrite EncodeIntMax32_be, be_decode_encode; [reflexivity|rewrite N2Nat.id; exact B]).
      assert (SR : slice ref 0 n = Ok (firstn (N.to_nat n) ref)).
      { unfold slice. rewrite (proj2 (N.leb_le 0 n)), (proj2 (N.leb_le n (len ref))) by (auto; lia). rewrite N.sub_0_r. reflexivity. }
      rewrite SR. cbn [bind]. rewrite slice_from_app by (symmetry; exact LE). cbn [bind].
      rewrite writable_decodes by auto. reflexivity.
  - destruct X as [Q|(p & Q & _)]; eauto.
Qed.
Print Assumptions C70_rel_path.
Example C70_instance_rel_path : DecodeRelativePath rel_pp [1; 1; 1; 2; 9] [[7]; [8]] = Ok [[7]; [2]]
  /\ DecodeRelativePath rel_pp [3; 1; 1; 2; 9] [[7]; [8]] = Panic.
Proof. split; reflexivity. Qed.
