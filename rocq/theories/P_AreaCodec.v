(** Proofs about the area codecs. *)
From Verif Require Import Base M_Order M_Encoding M_Paths M_Ranges M_Areas M_Entry M_Stream M_Wire M_Rel S_Order S_Wire S_Rel
  P_Order P_Encoding P_Paths P_Stream P_Wire P_Rel.
Local Open Scope N_scope.

Lemma area_flags a b c d x y :
  let h := N.lor (N.lor (N.lor (N.lor (N.lor (flag 128 a) (flag 64 b)) (flag 32 c)) (flag 16 d))
    (N.shiftl (width_code (GetWidthMax64Int x)) 2)) (width_code (GetWidthMax64Int y)) in
  has h 128 = a /\ has h 64 = b /\ has h 32 = c /\ has h 16 = d
  /\ pow2 (N.land 3 (N.shiftr h 2)) = GetWidthMax64Int x /\ pow2 (N.land 3 h) = GetWidthMax64Int y
  /\ pow2 (N.shiftr (N.land 3 h) 2) = 1.
Proof.
  destruct (width64 x) as [ -> | [ -> | [ -> | -> ]]]; destruct (width64 y) as [ -> | [ -> | [ -> | -> ]]];
    destruct a, b, c, d; repeat split; reflexivity.
Qed.

Lemma sub64_le a b : a < 2 ^ 64 -> b <= a -> sub64 a b = a - b.
Proof.
  intros. change (2 ^ 64) with two64 in *. unfold sub64. rewrite (N.mod_small b) by lia.
  replace (a + two64 - b) with ((a - b) + 1 * two64) by lia. rewrite N.mod_add by (unfold two64; lia).
  apply N.mod_small. lia.
Qed.
Lemma add64_small a b : a + b < 2 ^ 64 -> add64 a b = a + b.
Proof. intros. unfold add64. apply N.mod_small. auto. Qed.

Section AreaTimes.
Variables inner outer : range N.
Hypothesis H : times_ok inner outer.
Let innerEnd := if r_open inner then REALLY_BIG_INT else r_end inner.
Let outerEnd := if r_open outer then REALLY_BIG_INT else r_end outer.
Let d1 := sub64 (r_start inner) (r_start outer).
Let sd := N.min d1 (sub64 outerEnd (r_start inner)).
Let d2 := sub64 innerEnd (r_start inner).
Let ed := N.min d2 (sub64 outerEnd innerEnd).

Lemma area_start : sd = d1 /\ sd = r_start inner - r_start outer /\ sd < 2 ^ 64
  /\ add64 (r_start outer) sd = r_start inner.
Proof.
  destruct H as (H1 & H2 & H3 & H4 & H5 & H6 & H7). fold outerEnd in H3, H6.
  assert (E1 : d1 = r_start inner - r_start outer) by (apply sub64_le; auto).
  assert (E2 : sub64 outerEnd (r_start inner) = outerEnd - r_start inner) by (apply sub64_le; auto; lia).
  assert (E : sd = r_start inner - r_start outer) by (unfold sd; rewrite E1, E2; lia).
  repeat split; try lia. rewrite E. rewrite add64_small; lia.
Qed.

Lemma area_end : r_open inner = false ->
  ed < 2 ^ 64 /\ (if ed =? d2 then add64 (r_start inner) ed else sub64 (r_end outer) ed) = r_end inner.
Proof.
  intros O. destruct H as (H1 & H2 & H3 & H4 & H5 & H6 & H7). destruct (H5 O) as [H8 H9].
  fold outerEnd in H3, H6.
  assert (E0 : innerEnd = r_end inner) by (unfold innerEnd; rewrite O; auto).
  assert (E1 : d2 = r_end inner - r_start inner) by (unfold d2; rewrite E0; apply sub64_le; auto).
  destruct (r_open outer) eqn:OO.
  - specialize (H7 eq_refl O).
    assert (E2 : sub64 outerEnd innerEnd = outerEnd - r_end inner).
    { rewrite E0. apply sub64_le; auto. unfold outerEnd. try rewrite OO. lia. }
    assert (E : ed = d2). { unfold ed. rewrite E2. unfold outerEnd. try rewrite OO. lia. }
    rewrite E, N.eqb_refl, E1. split; [lia|]. rewrite add64_small; lia.
  - destruct (H4 eq_refl) as [_ H10].
    assert (E2 : sub64 outerEnd innerEnd = r_end outer - r_end inner).
    { rewrite E0. unfold outerEnd in *. try rewrite OO in *. apply sub64_le; auto. }
    assert (HE : r_end outer < 2 ^ 64) by (unfold outerEnd in H3; try rewrite OO in H3; auto).
    destruct (N.eqb_spec ed d2) as [E|E].
    + rewrite E, E1. split; [lia|]. rewrite add64_small; lia.
    + assert (E3 : ed = r_end outer - r_end inner) by (unfold ed in *; lia). rewrite E3. split; [lia|].
      rewrite sub64_le; lia.
Qed.
End AreaTimes.

Lemma share_first_prefix p q : q <> [] -> prefix_of q p -> share_first p q.
Proof. intros Hq [s ->]. destruct q as [|c q]; [congruence|]. cbn [app]. exists c, (q ++ s), q. auto. Qed.

Lemma EncodePathRelativeLength_total pp p ref : share_first p ref ->
  exists l, EncodePathRelativeLength pp p ref = Ok l.
Proof.
  intros HS. apply (EncodeRelativePath_total pp) in HS. destruct HS as [enc HE].
  unfold EncodeRelativePath, EncodePathRelativeLength in *. destruct (CommonPrefix p ref); try discriminate. eauto.
Qed.

Section Areas.
Variables (order : bytes -> bytes -> rel) (pp : path_params).
Hypothesis CP : codec_params pp.
Hypothesis order_eq : forall a b, order a b = 0%Z <-> a = b.

Lemma area_in_area ss dec_ss inner outer rest :
  codec_path pp (area_path inner) -> area_path outer <> [] -> prefix_of (area_path outer) (area_path inner) ->
  area_any inner = false -> area_any outer = false -> area_subspace inner = area_subspace outer ->
  times_ok (area_times inner) (area_times outer) ->
  exists b, EncodeAreaInArea ss order pp inner outer = Ok b
    /\ exists a, DecodeAreaInArea dec_ss pp (b ++ rest) outer = Ok a /\ same_area a inner.
Proof.
  intros HP HN HPre HA HO HSS HT. pose proof (share_first_prefix _ _ HN HPre) as HSF.
  pose proof (EncodePathRelativeLength_total pp _ _ HSF) as [l HL].
  apply (EncodeRelativePath_total pp) in HSF. destruct HSF as [pe HE].
  unfold EncodeAreaInArea. rewrite HE. cbn [bind].
  pose proof (area_start _ _ HT) as S1. pose proof (area_end _ _ HT) as S2.
  set (it := area_times inner) in *. set (ot := area_times outer) in *.
  set (innerEnd := if r_open it then REALLY_BIG_INT else r_end it) in *.
  set (outerEnd := if r_open ot then REALLY_BIG_INT else r_end ot) in *.
  set (d1 := sub64 (r_start it) (r_start ot)) in *.
  set (sd := N.min d1 (sub64 outerEnd (r_start it))) in *.
  set (d2 := sub64 innerEnd (r_start it)) in *.
  set (ed := N.min d2 (sub64 outerEnd innerEnd)) in *.
  destruct S1 as (S1 & _ & S3 & S4).
  assert (SAME : same_subspace order inner outer = true).
  { unfold same_subspace. rewrite HA, HO, HSS. cbn [andb negb orb]. apply Z.eqb_eq. apply order_eq. auto. }
  rewrite SAME. cbn [negb]. rewrite app_nil_r.
  destruct (area_flags false (r_open it) (sd =? d1) (ed =? d2) sd ed) as (F1 & F2 & F3 & F4 & F5 & F6 & _).
  set (h := N.lor _ _) in *. clearbody h.
  pose proof (EncodeIntMax64_len sd) as L1. pose proof (EncodeIntMax64_len ed) as L2.
  assert (DR : forall pre r', dec_area_rest dec_ss pp (pre ++ pe ++ r') (len pre) false outer = Ok (area_path inner, area_subspace outer)).
  { intros pre r'. unfold dec_area_rest. rewrite slice_from_app by auto. cbn [bind].
    rewrite (DecodeRelativePath_EncodeRelativePath pp _ _ pe r' CP HP HE). cbn [bind]. rewrite HL. reflexivity. }
  eexists. split; [reflexivity|]. unfold DecodeAreaInArea. cbn [app]. rewrite index_0. cbn [bind].
  fold ot. rewrite F1, F2, F3, F4, F5, F6. clear F1 F2 F3 F4 F5 F6. rewrite S1, N.eqb_refl, <- S1.
  destruct (r_open it) eqn:OI.
  - cbn [app].
    replace (h :: (EncodeIntMax64 sd ++ pe) ++ rest) with ([h] ++ EncodeIntMax64 sd ++ pe ++ rest)
      by (rewrite <- !app_assoc; reflexivity).
    rewrite slice_app by lens. cbn [bind]. rewrite EncodeIntMax64_roundtrip by auto. cbn [bind].
    specialize (DR ([h] ++ EncodeIntMax64 sd) rest).
    replace (1 + GetWidthMax64Int sd) with (len ([h] ++ EncodeIntMax64 sd)) by lens.
    rewrite <- app_assoc in DR. unfold bytes in *. rewrite DR. cbn [bind].
    eexists. split; [reflexivity|]. repeat split; cbn; auto; fold it; try congruence.
  - destruct (S2 eq_refl) as [S5 S6].
    replace (h :: (EncodeIntMax64 sd ++ EncodeIntMax64 ed ++ pe) ++ rest)
      with ([h] ++ EncodeIntMax64 sd ++ EncodeIntMax64 ed ++ pe ++ rest) by (rewrite <- !app_assoc; reflexivity).
    rewrite slice_app by lens. cbn [bind]. rewrite EncodeIntMax64_roundtrip by auto. cbn [bind].
    replace ([h] ++ EncodeIntMax64 sd ++ EncodeIntMax64 ed ++ pe ++ rest)
      with (([h] ++ EncodeIntMax64 sd) ++ EncodeIntMax64 ed ++ pe ++ rest) by (rewrite <- !app_assoc; reflexivity).
    rewrite slice_app by lens. cbn [bind]. rewrite EncodeIntMax64_roundtrip by auto. cbn [bind].
    specialize (DR ([h] ++ EncodeIntMax64 sd ++ EncodeIntMax64 ed) rest).
    replace (1 + GetWidthMax64Int sd + GetWidthMax64Int ed) with (len ([h] ++ EncodeIntMax64 sd ++ EncodeIntMax64 ed)) by lens.
    rewrite <- !app_assoc in DR. rewrite <- !app_assoc. unfold bytes in *. rewrite DR. cbn [bind].
    rewrite S4, S6. eexists. split; [reflexivity|]. repeat split; cbn; auto; fold it; try congruence.
Qed.

(** The stream decoder: the start difference must fit one byte; the subspace may
    be encoded, if the outer area has any subspace. *)
Lemma area_in_area_stream ss inner outer :
  codec_path pp (area_path inner) -> area_path outer <> [] -> prefix_of (area_path outer) (area_path inner) ->
  area_any inner = false ->
  (area_any outer = true /\ area_subspace inner <> [] /\ codec_arrived ss (area_subspace inner)
   \/ area_any outer = false /\ area_subspace inner = area_subspace outer) ->
  times_ok (area_times inner) (area_times outer) ->
  r_start (area_times inner) - r_start (area_times outer) < 256 ->
  exists b a, EncodeAreaInArea (c_enc ss) order pp inner outer = Ok b /\ same_area a inner
    /\ decodes_arrived (DecodeStreamAreaInArea ss pp outer) b a (GetWidthMax32Int (max_component_length pp)).
Proof.
  intros HP HN HPre HA HSS HT HB. pose proof (share_first_prefix _ _ HN HPre) as HSF.
  apply (EncodeRelativePath_total pp) in HSF. destruct HSF as [pe HE].
  unfold EncodeAreaInArea. rewrite HE. cbn [bind].
  pose proof (area_start _ _ HT) as S1. pose proof (area_end _ _ HT) as S2.
  set (it := area_times inner) in *. set (ot := area_times outer) in *.
  set (innerEnd := if r_open it then REALLY_BIG_INT else r_end it) in *.
  set (outerEnd := if r_open ot then REALLY_BIG_INT else r_end ot) in *.
  set (d1 := sub64 (r_start it) (r_start ot)) in *.
  set (sd := N.min d1 (sub64 outerEnd (r_start it))) in *.
  set (d2 := sub64 innerEnd (r_start it)) in *.
  set (ed := N.min d2 (sub64 outerEnd innerEnd)) in *.
  destruct S1 as (S1 & S1' & S3 & S4).
  set (same := same_subspace order inner outer).
  destruct (area_flags (negb same) (r_open it) (sd =? d1) (ed =? d2) sd ed) as (F1 & F2 & F3 & F4 & F5 & F6 & F7).
  set (h := N.lor _ _) in *. clearbody h.
  pose proof (EncodeIntMax64_len sd) as L1. pose proof (EncodeIntMax64_len ed) as L2.
  assert (W1 : GetWidthMax64Int sd = 1).
  { unfold GetWidthMax64Int. rewrite (proj2 (N.ltb_lt _ _)); auto. rewrite S1'. exact HB. }
  eexists. eexists (Area (area_subspace inner) (area_path inner)
    (if r_open it then Range (r_start it) 0 true else Range (r_start it) (r_end it) false) false).
  split; [reflexivity|]. split.
  { repeat split; cbn; auto; fold it; destruct (r_open it); auto; discriminate. }
  intros rest sched HW. unfold DecodeStreamAreaInArea. rewrite <- !app_assoc.
  rewrite NextAbsolute_all by (clear F1 F2 F3 F4 F5 F6 F7; lens). cbn [bind app]. rewrite index_0. cbn [bind].
  unfold Prune. cbn [g_array g_future g_sched]. change (N.to_nat 1) with 1%nat. cbn [skipn].
  fold ot. rewrite F1, F2, F3, F4, F6, F7, S1, N.eqb_refl, <- S1, <- W1.
  clear F1 F2 F3 F4 F5 F6 F7.
  arr (stream_int_arrived sd S3).
  match goal with |- context[Stream (?x ++ ?y) [] sc] =>
    assert (EE : exists sc', (if r_open it then Ok (0, Stream (x ++ y) [] sc)
      else stream_int (GetWidthMax64Int ed) (Stream (x ++ y) [] sc))
      = Ok (if r_open it then 0 else ed, Stream y [] sc')) end.
  { destruct (r_open it) eqn:OI; [eexists; reflexivity|].
    destruct (S2 eq_refl) as [S5 _]. arr (stream_int_arrived ed S5). eauto. }
  destruct EE as [sc' EE]. unfold bytes in *. rewrite EE. clear EE. cbn [bind].
  pose proof (DecodeRelPathStream_arrived pp _ _ pe CP HP HE) as HPA.
  match goal with |- context[Stream (pe ++ ?y) [] sc'] =>
    destruct (HPA y sc') as [sc2 E2]; [lens|]; cbn beta in E2; unfold bytes in *; rewrite E2; clear E2; cbn [bind] end.
  match goal with |- context[bind (if negb same then ?A else ?B) ?k] =>
    assert (EU : exists sc3, (if negb same then A else B) = Ok (area_subspace inner, Stream rest [] sc3)) end.
  { unfold same, same_subspace. rewrite HA. cbn [andb orb negb].
    destruct HSS as [(O & HNE & HC)|(O & HSS)]; rewrite O; cbn [andb negb].
    - destruct (HC rest sc2) as [sc3 E3]; [lia|]. unfold bytes in *. rewrite E3. cbn [bind].
      destruct (area_subspace inner); [congruence|eauto].
    - rewrite HSS, (proj2 (Z.eqb_eq _ _)) by (apply order_eq; auto). cbn [negb app]. eauto. }
  destruct EU as [sc3 EU]. rewrite EU. cbn [bind]. rewrite S4. exists sc3. do 4 f_equal.
  destruct (r_open it) eqn:OI; auto. f_equal. apply S2. auto.
Qed.
End Areas.

Lemma area_header (a b : bool) x y :
  let h := (if a then 128 else 0) + (if b then 64 else 0) + 16 * N.log2 (GetWidthMax64Int x) + 4 * N.log2 (GetWidthMax64Int y) in
  has h 128 = a /\ has h 64 = b
  /\ pow2 (N.shiftr (N.land h 48) 4) = GetWidthMax64Int x /\ pow2 (N.shiftr (N.land h 12) 2) = GetWidthMax64Int y.
Proof.
  destruct (width64 x) as [ -> | [ -> | [ -> | -> ]]]; destruct (width64 y) as [ -> | [ -> | [ -> | -> ]]];
    destruct a, b; repeat split; reflexivity.
Qed.

Section EntryInArea.
Variables (ss ds : codec bytes) (pp : path_params).
Hypothesis CP : codec_params pp.

(** The decoder is right on the specified encoding, once arrived. *)
Lemma spec_entry_in_area_arrived e outer pe :
  codec_path pp (e_path e) -> EncodeRelativePath pp (e_path e) (area_path outer) = Ok pe ->
  in_area outer (Position (e_subspace e) (e_path e) (e_time e)) ->
  (area_any outer = true -> codec_arrived ss (e_subspace e)) -> codec_arrived ds (e_digest e) ->
  e_time e < 2 ^ 64 -> (r_open (area_times outer) = false -> r_end (area_times outer) < 2 ^ 64) -> e_length e < 2 ^ 64 ->
  decodes_arrived (DecodeStreamEntryInNamespaceArea ss ds pp outer (e_namespace e))
    (spec_entry_in_area (c_enc ss) (c_enc ds) pp e outer pe) e
    (GetWidthMax32Int (max_component_length pp) - 2 - len (c_enc ds (e_digest e))).
Proof.
  intros HP HE (IS & (IT & IE) & IP) HU HD HT HR HL rest sched HW. cbn [pos_subspace pos_time pos_path] in *.
  unfold spec_entry_in_area. set (t := area_times outer) in *.
  set (f := r_open t || (e_time e - r_start t <=? r_end t - e_time e)).
  set (d := if f then e_time e - r_start t else r_end t - e_time e).
  destruct (area_header (area_any outer) f d (e_length e)) as (Ha & Hf & Hx & Hy).
  match type of Ha with has ?x _ = _ => set (h := x) in * end. clearbody h. unfold DecodeStreamEntryInNamespaceArea. rewrite <- !app_assoc.
  rewrite NextAbsolute_all by lens. cbn [bind app]. rewrite index_0. cbn [bind].
  match goal with |- context[Prune 1 (Stream (h :: ?X) [] ?Y)] => change (Prune 1 (Stream (h :: X) [] Y)) with (Stream X [] Y) end.
  fold t. rewrite Ha, Hf, Hx, Hy.
  match goal with |- context[bind (if area_any outer then ?A else ?B) ?k] =>
    assert (EU : exists sc, (if area_any outer then A else B) = Ok (e_subspace e,
      Stream (pe ++ EncodeIntMax64 d ++ EncodeIntMax64 (e_length e) ++ c_enc ds (e_digest e) ++ rest) [] sc)) end.
  { destruct (area_any outer) eqn:AO; cbn [negb].
    - apply (HU eq_refl). lia.
    - destruct IS as [IS|IS]; [discriminate|]. rewrite IS. exists (tl sched). exact eq_refl. }
  destruct EU as [sc EU]. unfold bytes in *. rewrite EU. clear EU. cbn [bind].
  pose proof (EncodeIntMax64_len d) as L1. pose proof (EncodeIntMax64_len (e_length e)) as L2.
  pose proof (width64 d) as W1. pose proof (width64 (e_length e)) as W2.
  pose proof (DecodeRelPathStream_arrived pp _ _ pe CP HP HE) as HPA.
  match goal with |- context[Stream (pe ++ ?y) [] sc] =>
    destruct (HPA y sc) as [sc2 E2]; [lens|]; cbn beta in E2; unfold bytes in *; rewrite E2; clear E2; cbn [bind] end.
  assert (HD2 : d < 2 ^ 64).
  { unfold d. destruct f eqn:F; [lia|]. unfold f in F. apply orb_false_iff in F. destruct F as [F _]. specialize (HR F). lia. }
  rewrite NextAbsolute_all by lens. cbn [bind]. rewrite slice_0_app by auto. cbn [bind].
  rewrite EncodeIntMax64_roundtrip by auto. cbn [bind].
  rewrite NextAbsolute_all by lens. cbn [bind].
  rewrite slice_app by lens. cbn [bind]. rewrite EncodeIntMax64_roundtrip by auto. cbn [bind].
  unfold Prune. cbn [g_array g_future g_sched].
  rewrite (app_assoc (EncodeIntMax64 d)), skipn_lenN by lens.
  destruct (HD rest (tl (tl sc2))) as [sc3 E3]; [lia|]. unfold bytes in *. rewrite E3. cbn [bind].
  assert (ET : (if f then Ok (add64 (r_start t) d) else if negb (r_open t) then Ok (sub64 (r_end t) d) else Err) = Ok (e_time e)).
  { unfold d. destruct f eqn:F.
    - f_equal. rewrite add64_small; lia.
    - unfold f in F. apply orb_false_iff in F. destruct F as [F1 F2]. rewrite F1. cbn [negb].
      destruct IE as [IE|IE]; [congruence|]. specialize (HR F1). f_equal. rewrite sub64_le; lia. }
  rewrite ET. cbn [bind]. exists sc3. destruct e; reflexivity.
Qed.

(** A number written in decimal starts with a digit; two digits from 10 on. *)
Lemma itoa_two n : 10 <= n -> n < 1000 -> exists a b r, itoa n = a :: b :: r /\ 48 <= a <= 57 /\ 48 <= b <= 57.
Proof.
  intros H1 H2. unfold itoa. destruct (N.ltb_spec n 10); [lia|].
  assert (D : forall x, x < 10 -> 48 <= 48 + x <= 57) by (intros; lia).
  assert (M : forall x, x mod 10 < 10) by (intros; apply N.mod_lt; lia).
  destruct (N.ltb_spec n 100).
  - eexists _, _, _. split; [reflexivity|]. split; apply D; auto. apply N.div_lt_upper_bound; lia.
  - eexists _, _, _. split; [reflexivity|]. split; apply D; auto. apply N.div_lt_upper_bound; lia.
Qed.

Lemma digit_header h : 48 <= h <= 57 -> has h 128 = false.
Proof.
  intros H. assert (E : In h (map N.of_nat (seq 48 10))).
  { apply in_map_iff. exists (N.to_nat h). rewrite N2Nat.id. split; auto. apply in_seq. lia. }
  cbn in E. repeat destruct E as [ <- | E]; try reflexivity. destruct E.
Qed.

Lemma be_decode_ge a l : a <= be_decode (a :: l).
Proof.
  unfold be_decode. cbn [fold_left]. rewrite N.mul_0_l, N.add_0_l. revert a. induction l as [|x l IH]; intros a; cbn [fold_left]; [lia|].
  eapply N.le_trans; [|apply IH]. lia.
Qed.

Lemma DecodeIntMax32_ge a l max x : DecodeIntMax32 (a :: l) max = Ok x -> a <= x.
Proof.
  unfold DecodeIntMax32. destruct (negb _); [discriminate|].
  repeat (destruct (_ =? _); [intros E; injection E as <-; apply be_decode_ge|]).
  destruct (slice (a :: l) 0 2) as [s| | | |] eqn:ES; try discriminate. cbn [bind].
  destruct (index (a :: l) 2) as [c| | | |]; try discriminate. cbn [bind]. intros E; injection E as <-.
  unfold slice in ES. destruct (_ && _); [|discriminate]. injection ES as <-.
  change (N.to_nat 0) with O. change (N.to_nat (2 - 0)) with 2%nat. cbn [skipn firstn].
  pose proof (be_decode_ge a (match l with [] => [] | y :: _ => [y] end)) as B. destruct l; cbn [firstn] in *; lia.
Qed.

Lemma DecodeIntMax32_total b max : len b = GetWidthMax32Int max -> exists x, DecodeIntMax32 b max = Ok x.
Proof.
  intros H. unfold DecodeIntMax32. rewrite H, N.eqb_refl. cbn [negb].
  assert (W : GetWidthMax32Int max = 1 \/ GetWidthMax32Int max = 2 \/ GetWidthMax32Int max = 3 \/ GetWidthMax32Int max = 4)
    by (unfold GetWidthMax32Int; repeat destruct (_ <? _); auto).
  destruct W as [W|[W|[W|W]]]; rewrite W in *;
    [exists (be_decode b)|exists (be_decode b)| |exists (be_decode b)]; try reflexivity.
  destruct b as [|x [|y [|z [|]]]]; unfold len in H; cbn [length] in H; try lia. eexists. reflexivity.
Qed.

Lemma EncodeRelativePath_len_ge p ref pe : EncodeRelativePath pp p ref = Ok pe ->
  GetWidthMax32Int (max_component_count pp) <= len pe.
Proof.
  unfold EncodeRelativePath. destruct (CommonPrefix p ref); try discriminate. intros E; injection E as <-.
  rewrite len_app, EncodeIntMax32_len. lia.
Qed.

(** The header the encoder writes for an entry of the area. *)
Lemma entry_area_header_ge e outer :
  in_area outer (Position (e_subspace e) (e_path e) (e_time e)) ->
  e_time e < 2 ^ 64 ->
  let ot := area_times outer in
  let d := sub64 (e_time e) (r_start ot) in
  r_open ot || (d <=? r_end ot) = true.
Proof.
  intros (IS & (IT & IE) & IP) HT. cbn [pos_subspace pos_time pos_path] in *. cbv zeta.
  destruct (r_open (area_times outer)); auto. cbn [orb]. destruct IE as [IE|IE]; [discriminate|].
  rewrite sub64_le by lia. apply N.leb_le. lia.
Qed.

Lemma entry_in_area_unreadable e outer b s rest :
  codec_params pp ->
  in_area outer (Position (e_subspace e) (e_path e) (e_time e)) -> e_time e < 2 ^ 64 ->
  len (area_path outer) < 48 ->
  EncodeEntryInNamespaceArea (c_enc ss) (c_enc ds) pp e outer = Ok b -> total s = b ++ rest ->
  DecodeStreamEntryInNamespaceArea ss ds pp outer (e_namespace e) s = if area_any outer then Err else Panic.
Proof.
  intros _ IA HT HL HE T. unfold EncodeEntryInNamespaceArea in HE.
  rewrite (entry_area_header_ge e outer IA HT) in HE.
  set (hd := N.lor _ _) in HE.
  assert (HH : 10 <= hd /\ hd < 1000).
  { subst hd. match goal with |- context[N.shiftl (CompactWidthEndMasks (GetWidthMax64Int ?x)) 4] =>
      destruct (width64 x) as [ -> | [ -> | [ -> | -> ]]] end;
    destruct (width64 (e_length e)) as [ -> | [ -> | [ -> | -> ]]]; destruct (area_any outer); vm_compute; split; congruence. }
  destruct HH as [H1 H2]. destruct (itoa_two hd H1 H2) as (x & y & r & EI & Hx & Hy). rewrite EI in HE.
  destruct (EncodeRelativePath pp (e_path e) (area_path outer)) as [pe| | | |] eqn:EP; try discriminate. cbn [bind] in HE.
  injection HE as <-. unfold DecodeStreamEntryInNamespaceArea.
  cbn [app] in T. nx. ix. rewrite (digit_header x Hx).
  destruct (area_any outer) eqn:AO; cbn [negb bind]; [reflexivity|].
  match type of T0 with total ?s0 = _ =>
    assert (TP : total (Prune 1 s0) = skipn 1 (total s0)) by (rewrite Prune_total by lia; reflexivity) end.
  rewrite T0 in TP. cbn [skipn] in TP. set (s1 := Prune 1 _) in *. clearbody s1. clear T0.
  pose proof (EncodeRelativePath_len_ge _ _ _ EP) as LP.
  unfold DecodeRelPathStream. set (w := GetWidthMax32Int (max_component_count pp)) in *.
  assert (HW : 1 <= w) by apply width32_pos.
  nx. match goal with |- context[slice (g_array ?s2) 0 w] =>
    assert (ES : exists l, slice (g_array s2) 0 w = Ok (y :: l) /\ len (y :: l) = w) end.
  { rewrite slice_total by lia. rewrite T0. unfold slice. rewrite (proj2 (N.leb_le 0 w)), (proj2 (N.leb_le w _)) by (try lia; lens).
    cbn [andb]. rewrite N.sub_0_r. change (N.to_nat 0) with O. cbn [skipn].
    destruct (N.to_nat w) as [|k] eqn:EK; [lia|]. cbn [firstn]. eexists. split; [reflexivity|].
    unfold len. cbn [length]. rewrite firstn_length_le; [lia|]. unfold len in LP. rewrite !app_length. lia. }
  destruct ES as (l & ES & EL). rewrite ES. cbn [bind].
  assert (EN : exists n, decode_or_zero (y :: l) (max_component_count pp) = Ok n /\ 48 <= n).
  { unfold decode_or_zero. destruct (DecodeIntMax32_total (y :: l) (max_component_count pp) EL) as [n En].
    rewrite En. exists n. split; auto. apply DecodeIntMax32_ge in En. lia. }
  destruct EN as (n & EN & Hn). rewrite EN. cbn [bind].
  unfold slice. rewrite (proj2 (N.leb_gt n _)) by lia. rewrite andb_false_r. reflexivity.
Qed.
End EntryInArea.
