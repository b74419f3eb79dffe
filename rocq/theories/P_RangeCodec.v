(** Proofs about the 3d range codecs. *)
From Verif Require Import Base M_Order M_Encoding M_Paths M_Ranges M_Areas M_Entry M_Stream M_Wire M_Rel S_Order S_Wire S_Rel
  P_Order P_Encoding P_Paths P_Stream P_Wire P_Rel P_AreaCodec.
Local Open Scope N_scope.

(** Whatever is decoded from bytes has 0 for the end of the time range. *)
Lemma DecodeRange3dRelative_end ss pp enc ref r :
  DecodeRange3dRelative ss pp enc ref = Ok r -> r_end (time_range r) = 0.
Proof.
  unfold DecodeRange3dRelative. intros H.
  repeat match type of H with
  | bind ?x _ = Ok _ => destruct x as [?| | | |] eqn:?; cbn [bind] in H; try discriminate H
  | (let '(_, _) := ?p in _) = Ok _ => destruct p
  end.
  injection H as <-. reflexivity.
Qed.

(** Whatever is decoded from a stream has an empty subspace range. *)
Lemma DecodeStreamRange3dRelative_subspace ss pp ref s r s' :
  DecodeStreamRange3dRelative ss pp ref s = Ok (r, s') ->
  r_end (subspace_range r) = [] /\ r_open (subspace_range r) = false.
Proof.
  unfold DecodeStreamRange3dRelative. intros H.
  repeat match type of H with
  | bind ?x _ = Ok _ => destruct x as [?| | | |] eqn:?; cbn [bind] in H; try discriminate H
  | (let '(_, _) := ?p in _) = Ok _ => destruct p
  | (if ?c then _ else _) = Ok _ => destruct c
  end; injection H as <- <-; auto.
Qed.

(** The two definitions of the stream decoder agree. *)
Lemma range_stream_spec ss pp ref s :
  DecodeStreamRange3dRelative ss pp ref s = do (o, s') <- range_stream ss pp ref s; match o with Some r => Ok (r, s') | None => Err end.
Proof.
  unfold DecodeStreamRange3dRelative, range_stream, or_stop, some_of. cbv zeta.
  repeat (match goal with
    | |- bind (match ?c with _ => _ end) _ = _ => destruct c
    | |- (if ?c then _ else _) = _ => destruct c
    | |- bind (bind ?x _) _ = _ => destruct x as [[? ?]| | | |]
    | |- bind ?x _ = _ => destruct x as [?| | | |]
    | |- context [let '(_, _) := ?p in _] => is_var p; destruct p
    end; cbn [bind negb andb]; try reflexivity).
Qed.

Lemma common_len_le p q : common_len p q <= len p.
Proof.
  unfold common_len, CommonPrefix. pose proof (common_count_le p q). destruct (common_count p q); [lia|].
  unfold len. rewrite firstn_length. lia.
Qed.
Lemma common_count_prefix_all p q : prefix_of p q -> common_count p q = length p.
Proof.
  intros [s ->]. induction p as [|c p IH]; cbn; auto. rewrite (order_refl _ _ OrderBytes_total). rewrite IH. auto.
Qed.

Section Ranges.
Variables (order : bytes -> bytes -> rel) (pp : path_params) (ss : encoding_scheme).
Hypothesis CP : codec_params pp.
Hypothesis order_eq : forall a b, order a b = 0%Z <-> a = b.

(** The first header byte. *)
Lemma range_code c f : In c [64; 128; 192] -> In f [0; 32; 48] ->
  let h := N.lor (N.lor (N.lor (N.lor (N.lor c f) (flag 8 true)) (flag 4 true)) (flag 2 false)) (flag 1 true) in
  start_code h = start_code c /\ end_code h = end_code f /\ has h 8 = true /\ has h 4 = true /\ has h 1 = true.
Proof.
  intros HC HF. destruct HC as [ <- | [ <- | [ <- | [] ]]]; destruct HF as [ <- | [ <- | [ <- | [] ]]]; repeat split; reflexivity.
Qed.

Lemma time_code a b x :
  let h := N.lor (N.lor (N.lor (N.lor (N.lor (flag 128 true) (flag 64 true))
              (N.shiftl (width_code (GetWidthMax64Int 0)) 4))
              (flag 8 a)) (flag 4 b)) (width_code (GetWidthMax64Int x)) in
  has h 128 = true /\ has h 64 = true /\ pow2 (N.shiftr (N.land h 48) 4) = 1.
Proof. destruct (width64 x) as [ -> | [ -> | [ -> | -> ]]]; destruct a, b; repeat split; reflexivity. Qed.

Ltac sb := repeat match goal with |- _ /\ _ => split end; try (intros; discriminate); intros; cbn [In]; auto 6.

Lemma range_relative r ref rest :
  let rs := subspace_range r in let fs := subspace_range ref in
  max_component_count pp < 256 ->
  codec_path pp (r_start (path_range r)) -> r_start (path_range r) <> [] ->
  prefix_of (r_start (path_range r)) (r_start (path_range ref)) ->
  r_open (path_range r) = true -> share_first (r_end (path_range r)) (r_start (path_range ref)) ->
  r_open (time_range r) = true -> r_start (time_range r) = r_start (time_range ref) -> r_start (time_range r) < 2 ^ 64 ->
  scheme_ok ss (r_start rs) -> (r_open rs = false -> scheme_ok ss (r_end rs)) ->
  (r_open rs = true -> r_open fs = true -> r_start rs = r_start fs) ->
  (r_open rs = false -> r_open fs = false -> r_end rs <> r_start fs) ->
  exists b, EncodeRange3dRelative (enc ss) order pp r ref = Ok b
    /\ exists r', DecodeRange3dRelative ss pp (b ++ rest) ref = Ok r'
      /\ same_range (subspace_range r') rs /\ same_range (path_range r') (path_range r) /\ same_range (time_range r') (time_range r).
Proof.
  intros rs fs HM HP HN HPre HO HSE HTO HTS HTB [SD SL] HSE2 HOO HCC.
  pose proof (share_first_prefix) as _.
  assert (HSF : share_first (r_start (path_range r)) (r_start (path_range ref))).
  { destruct (r_start (path_range r)) as [|c p] eqn:E; [congruence|]. destruct HPre as [x Hx]. rewrite Hx. exists c, p, (p ++ x). auto. }
  destruct (proj2 (EncodeRelativePath_total pp _ _) HSF) as [ps EPS].
  unfold EncodeRange3dRelative. fold rs. fold fs.
  set (rp := path_range r) in *. set (fp := path_range ref) in *. set (rt := time_range r) in *. set (ft := time_range ref) in *.
  assert (RS : common_len (r_start rp) (r_end fp) <=? common_len (r_start rp) (r_start fp) = true).
  { apply N.leb_le. eapply N.le_trans; [apply common_len_le|]. unfold common_len, CommonPrefix.
    rewrite common_count_prefix_all by auto. destruct (length (r_start rp)) eqn:E; [destruct (r_start rp); cbn in E; congruence|].
    rewrite <- E. rewrite firstn_all. lia. }
  rewrite RS, EPS.
  assert (SS0 : AbsDiffuint64 (r_start rt) (r_start ft) = 0) by (rewrite HTS; unfold AbsDiffuint64; destruct (_ <? _); lia).
  rewrite SS0, !N.min_0_l. rewrite (proj2 (N.leb_le 0 _)) by lia. rewrite HTS, N.leb_refl. rewrite HO, HTO. cbn [negb andb].
  rewrite andb_false_r.
  match goal with |- context[EncodeRelativePath pp (r_end rp) ?x] =>
    assert (EE : exists pe, EncodeRelativePath pp (r_end rp) x = Ok pe) end.
  { destruct (common_len (r_end rp) (r_end fp) <=? common_len (r_end rp) (r_start fp)) eqn:L.
    - apply EncodeRelativePath_total. auto.
    - apply N.leb_gt in L. unfold EncodeRelativePath. destruct (CommonPrefix (r_end rp) (r_end fp)) eqn:E; eauto;
        unfold common_len in L at 2; rewrite E in L; lia. }
  destruct EE as [pe EE].
  match goal with |- context[bind (EncodeRelativePath pp (r_end rp) ?x) _] => change (EncodeRelativePath pp (r_end rp) x) with (EncodeRelativePath pp (r_end rp) x) end.
  match goal with |- context[N.lor _ (width_code (GetWidthMax64Int ?x))] => set (ed := x) end.
  match goal with |- context[flag 8 (?x <=? ?y)] => set (fa := x <=? y) end.
  match goal with |- context[flag 4 (if fa then ?x else ?y)] => set (fb := if fa then x else y) end.
  destruct (time_code fa fb ed) as (T1 & T2 & T3).
  set (h2 := N.lor (N.lor (N.lor (N.lor (N.lor (flag 128 true) _) _) _) _) _) in *. clearbody h2.
  (* subspace bounds *)
  assert (SB : exists c f es ee,
    (let '(e1, sStart) :=
      if IsEqualRangeValue order rs true fs true then (64, [])
      else if IsEqualRangeValue order rs true fs false then (128, [])
      else (192, enc ss (r_start rs)) in
     let '(e1, sEnd) :=
      if r_open rs then (e1, [])
      else if IsEqualRangeValue order rs false fs true then (16, [])
      else if IsEqualRangeValue order rs false fs false then (N.lor e1 32, [])
      else (N.lor e1 48, enc ss (r_end rs)) in (e1, sStart, sEnd)) = (N.lor c f, es, ee)
    /\ In c [64; 128; 192] /\ In f [0; 32; 48]
    /\ (c = 64 -> es = [] /\ r_start rs = r_start fs)
    /\ (c = 128 -> es = [] /\ r_open fs = false /\ r_start rs = r_end fs)
    /\ (c = 192 -> es = enc ss (r_start rs))
    /\ (f = 0 -> ee = [] /\ r_open rs = true)
    /\ (f = 32 -> ee = [] /\ r_open rs = false /\ r_end rs = r_end fs)
    /\ (f = 48 -> ee = enc ss (r_end rs) /\ r_open rs = false)).
  { unfold IsEqualRangeValue. destruct (r_open rs) eqn:O1; destruct (r_open fs) eqn:O2; cbn [andb negb].
    - exists 64, 0, [], []. split; [reflexivity|]. sb.
    - exists 192, 0, (enc ss (r_start rs)), []. split; [reflexivity|]. sb.
    - exists 192, 48, (enc ss (r_start rs)), (enc ss (r_end rs)). split; [reflexivity|]. sb.
    - specialize (HCC eq_refl eq_refl).
      destruct (Z.eqb_spec (order (r_end rs) (r_start fs)) 0) as [E|_]; [apply order_eq in E; congruence|].
      destruct (Z.eqb_spec (order (r_start rs) (r_start fs)) 0) as [E1|_];
      [|destruct (Z.eqb_spec (order (r_start rs) (r_end fs)) 0) as [E1|_]];
      destruct (Z.eqb_spec (order (r_end rs) (r_end fs)) 0) as [E2|_]; try apply order_eq in E1; try apply order_eq in E2.
      + exists 64, 32, [], []. split; [reflexivity|]. sb.
      + exists 64, 48, [], (enc ss (r_end rs)). split; [reflexivity|]. sb.
      + exists 128, 32, [], []. split; [reflexivity|]. sb.
      + exists 128, 48, [], (enc ss (r_end rs)). split; [reflexivity|]. sb.
      + exists 192, 32, (enc ss (r_start rs)), []. split; [reflexivity|]. sb.
      + exists 192, 48, (enc ss (r_start rs)), (enc ss (r_end rs)). split; [reflexivity|]. sb. }
  destruct SB as (c & f & es & ee & SB & Hc & Hf & C1 & C2 & C3 & F1 & F2 & F3).
  match goal with |- context[let '(e1, sStart) := ?x in @?k e1 sStart] => destruct x as [e1 s0] eqn:Q1 end.
  match goal with |- context[let '(e1, sEnd) := ?x in @?k e1 sEnd] => destruct x as [e1' s1] eqn:Q2 end.
  injection SB as -> -> ->. clear Q1 Q2 e1.
  cbn [bind]. rewrite EE. cbn [bind].
  destruct (range_code c f Hc Hf) as (R1 & R2 & R3 & R4 & R5).
  set (h1 := N.lor (N.lor (N.lor (N.lor (N.lor c f) _) _) _) _) in *. clearbody h1.
  eexists. split; [reflexivity|].
  (* decoding *)
  destruct (EncodeRelativePath_shape pp _ _ _ CP HP EPS) as (n & Hn & Hn1 & Hff & Hr & Hm & EPS2 & Hcc).
  rewrite common_count_prefix_all in Hcc by auto.
  assert (W1 : GetWidthMax32Int (max_component_count pp) = 1) by (unfold GetWidthMax32Int; rewrite (proj2 (N.ltb_lt _ _)); auto).
  assert (EPS3 : ps = EncodeIntMax32 (N.of_nat n) (max_component_count pp) ++ [0]).
  { rewrite EPS2, Hcc, skipn_all. f_equal. unfold EncodePath. cbn [len length flat_map]. rewrite app_nil_r.
    unfold EncodeIntMax32. rewrite W1. change (1 =? 1) with true. cbn match. reflexivity. }
  pose proof (EncodeIntMax32_len (N.of_nat n) (max_component_count pp)) as LE. rewrite W1 in LE.
  rewrite EPS3 in *. clear EPS2 EPS3.
  match goal with |- context[pe ++ ?x] => set (tail := pe ++ x) end.
  set (en := EncodeIntMax32 (N.of_nat n) (max_component_count pp)) in *.
  replace (([h1; h2] ++ es ++ ee ++ (en ++ [0]) ++ tail) ++ rest)
    with ([h1; h2] ++ es ++ ee ++ en ++ [0] ++ tail ++ rest) by (rewrite <- !app_assoc; reflexivity).
  set (X := [h1; h2] ++ es ++ ee ++ en ++ [0] ++ tail ++ rest).
  unfold DecodeRange3dRelative.
  assert (I0 : index X 0 = Ok h1) by reflexivity. assert (I1 : index X 1 = Ok h2) by reflexivity.
  rewrite I0, I1. cbn [bind]. rewrite R1, R2, R3, R4, R5. fold fs. fold fp. fold ft.
  assert (B1 : match start_code c with CNone => Err | _ => Ok tt end = Ok tt)
    by (destruct Hc as [ <- | [ <- | [ <- | [] ]]]; reflexivity).
  rewrite B1. cbn [bind].
  match goal with |- context[bind (match start_code c with CYes => ?A | CRefEnd => ?B | CRefStart => ?C | CNone => ?D end) _] =>
    assert (B2 : match start_code c with CYes => A | CRefEnd => B | CRefStart => C | CNone => D end
      = Ok (r_start rs, len ([h1; h2] ++ es))) end.
  { destruct Hc as [ <- | [ <- | [ <- | [] ]]]; cbn [start_code].
    - destruct (C1 eq_refl) as [-> ->]. reflexivity.
    - destruct (C2 eq_refl) as (-> & -> & ->). reflexivity.
    - change (start_code 192) with CYes. cbn match. unfold X. rewrite slice_from_app by reflexivity. cbn [bind].
      rewrite (C3 eq_refl).
      rewrite SD. cbn [bind]. rewrite SL. do 2 f_equal. rewrite (len_app [h1; h2]). reflexivity. }
  rewrite B2. clear B2. cbn [bind].
  match goal with |- context[bind (match end_code f with CYes => ?A | CRefEnd => ?B | CRefStart => ?C | CNone => ?D end) _] =>
    assert (B3 : exists v, match end_code f with CYes => A | CRefEnd => B | CRefStart => C | CNone => D end
      = Ok (v, len ([h1; h2] ++ es ++ ee)) /\ (r_open rs = false -> v = r_end rs)
        /\ match end_code f with CNone => true | _ => false end = r_open rs) end.
  { destruct Hf as [ <- | [ <- | [ <- | [] ]]].
    - destruct (F1 eq_refl) as [-> O]. exists []. rewrite O. repeat split; try discriminate. rewrite app_nil_r. reflexivity.
    - destruct (F2 eq_refl) as (-> & O & E). rewrite O. exists (r_end fs). rewrite app_nil_r. repeat split; auto.
    - destruct (F3 eq_refl) as [EF O]. rewrite O. exists (r_end rs). destruct (HSE2 O) as [SD2 SL2].
      change (end_code 48) with CYes. cbn match. split; [|auto].
      unfold X. rewrite (app_assoc [h1; h2]), slice_from_app by reflexivity. cbn [bind]. rewrite EF, SD2. cbn [bind]. rewrite SL2.
      do 2 f_equal. rewrite app_assoc, (len_app ([h1; h2] ++ es)). reflexivity. }
  destruct B3 as (v & B3 & V1 & V2). rewrite B3, V2. clear B3. cbn [bind].
  assert (B4 : dec_path_at pp X (len ([h1; h2] ++ es ++ ee)) (r_start fp)
    = Ok (r_start rp, len ([h1; h2] ++ es ++ ee ++ en))).
  { unfold dec_path_at. replace X with (([h1; h2] ++ es ++ ee) ++ (en ++ [0]) ++ tail ++ rest)
      by (unfold X; rewrite <- !app_assoc; reflexivity).
    rewrite slice_from_app by reflexivity. cbn [bind].
    rewrite (DecodeRelativePath_EncodeRelativePath pp _ _ _ _ CP HP EPS). cbn [bind].
    unfold EncodePathRelativeLength, CommonPrefix. rewrite common_count_prefix_all by auto. rewrite <- Hcc.
    destruct n as [|n]; [inversion Hn|]. rewrite Hcc, firstn_all, skipn_all. cbn [bind]. do 2 f_equal. rewrite W1.
    rewrite !len_app, LE. unfold len; cbn [length]; clear; lia. }
  rewrite B4. cbn [bind]. rewrite T3.
  assert (B5 : slice X (len ([h1; h2] ++ es ++ ee ++ en)) (len ([h1; h2] ++ es ++ ee ++ en) + 1) = Ok [0]).
  { replace X with (([h1; h2] ++ es ++ ee ++ en) ++ [0] ++ tail ++ rest) by (unfold X; rewrite <- !app_assoc; reflexivity).
    apply slice_app; reflexivity. }
  rewrite B5. cbn [bind]. change (DecodeIntMax64 [0]) with (@Ok N 0). cbn [bind]. rewrite T1, T2. cbn [bind].
  eexists. split; [reflexivity|]. cbn [subspace_range path_range time_range].
  unfold same_range. cbn [r_start r_end r_open]. rewrite add64_small by (rewrite N.add_0_r, <- HTS; exact HTB). rewrite N.add_0_r. fold rp. fold rt. rewrite HO, HTO.
  repeat split; auto; discriminate.
Qed.
End Ranges.
