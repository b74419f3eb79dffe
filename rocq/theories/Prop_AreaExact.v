(** C22: exactly which areas come back from DecodeAreaInArea, when both areas name a subspace. *)
From Verif Require Import Base M_Order M_Encoding M_Paths M_Ranges M_Areas M_Entry M_Stream M_Wire M_Rel S_Order S_Wire S_Rel
  P_Order P_Encoding P_Paths P_Stream P_Wire P_Rel P_AreaCodec Prop_Rel.
Local Open Scope N_scope.

(** What DecodeAreaInArea makes of the bytes of EncodeAreaInArea, whatever the times. *)
Lemma area_result order pp ss dec_ss inner outer rest :
  codec_params pp -> (forall a b, order a b = 0%Z <-> a = b) ->
  codec_path pp (area_path inner) -> area_path outer <> [] -> prefix_of (area_path outer) (area_path inner) ->
  area_any inner = false -> area_any outer = false -> area_subspace inner = area_subspace outer ->
  let it := area_times inner in let ot := area_times outer in
  let innerEnd := if r_open it then REALLY_BIG_INT else r_end it in
  let outerEnd := if r_open ot then REALLY_BIG_INT else r_end ot in
  let d1 := sub64 (r_start it) (r_start ot) in
  let sd := N.min d1 (sub64 outerEnd (r_start it)) in
  let d2 := sub64 innerEnd (r_start it) in
  let ed := N.min d2 (sub64 outerEnd innerEnd) in
  let start := if sd =? d1 then add64 (r_start ot) sd else sub64 (r_start ot) sd in
  exists b, EncodeAreaInArea ss order pp inner outer = Ok b
    /\ DecodeAreaInArea dec_ss pp (b ++ rest) outer
       = Ok (Area (area_subspace outer) (area_path inner)
               (if r_open it then Range start REALLY_BIG_INT true
                else Range start (if ed =? d2 then add64 start ed else sub64 (r_end ot) ed) false) false).
Proof.
  intros CP order_eq HP HN HPre HA HO HSS. pose proof (share_first_prefix _ _ HN HPre) as HSF.
  pose proof (EncodePathRelativeLength_total pp _ _ HSF) as [l HL].
  apply (EncodeRelativePath_total pp) in HSF. destruct HSF as [pe HE].
  unfold EncodeAreaInArea. rewrite HE. cbn [bind].
  set (it := area_times inner). set (ot := area_times outer).
  set (innerEnd := if r_open it then REALLY_BIG_INT else r_end it).
  set (outerEnd := if r_open ot then REALLY_BIG_INT else r_end ot).
  set (d1 := sub64 (r_start it) (r_start ot)).
  set (sd := N.min d1 (sub64 outerEnd (r_start it))).
  set (d2 := sub64 innerEnd (r_start it)).
  set (ed := N.min d2 (sub64 outerEnd innerEnd)).
  assert (B : forall a b, sub64 a b < 2 ^ 64) by (intros; apply N.mod_lt; discriminate).
  assert (S3 : sd < 2 ^ 64) by (pose proof (B (r_start it) (r_start ot)); fold d1 in H; unfold sd; lia).
  assert (S5 : ed < 2 ^ 64) by (pose proof (B innerEnd (r_start it)); fold d2 in H; unfold ed; lia).
  clear B.
  assert (SAME : same_subspace order inner outer = true).
  { unfold same_subspace. rewrite HA, HO, HSS. cbn [andb negb orb]. apply Z.eqb_eq. apply order_eq. auto. }
  rewrite SAME. cbn [negb]. rewrite app_nil_r.
  destruct (area_flags false (r_open it) (sd =? d1) (ed =? d2) sd ed) as (F1 & F2 & F3 & F4 & F5 & F6 & _).
  set (h := N.lor _ _) in *. clearbody h.
  pose proof (EncodeIntMax64_len sd) as L1. pose proof (EncodeIntMax64_len ed) as L2.
  assert (DR : forall pre r', dec_area_rest dec_ss pp (pre ++ pe ++ r') (len pre) false outer = Ok (area_path inner, area_subspace outer)).
  { intros pre r'. unfold dec_area_rest. rewrite slice_from_app by auto. cbn [bind].
    rewrite (DecodeRelativePath_EncodeRelativePath pp _ _ pe r' CP HP HE). cbn [bind]. rewrite HL. reflexivity. }
  eexists. split; [reflexivity|]. unfold DecodeAreaInArea. cbn [app]. rewrite index_0. cbn [bind].
  fold ot. rewrite F1, F2, F3, F4, F5, F6. clear F1 F2 F3 F4 F5 F6.
  destruct (r_open it) eqn:OI.
  - cbn [app].
    replace (h :: (EncodeIntMax64 sd ++ pe) ++ rest) with ([h] ++ EncodeIntMax64 sd ++ pe ++ rest)
      by (rewrite <- !app_assoc; reflexivity).
    rewrite slice_app by lens. cbn [bind]. rewrite EncodeIntMax64_roundtrip by auto. cbn [bind].
    specialize (DR ([h] ++ EncodeIntMax64 sd) rest).
    replace (1 + GetWidthMax64Int sd) with (len ([h] ++ EncodeIntMax64 sd)) by lens.
    rewrite <- app_assoc in DR. unfold bytes in *. rewrite DR. reflexivity.
  - replace (h :: (EncodeIntMax64 sd ++ EncodeIntMax64 ed ++ pe) ++ rest)
      with ([h] ++ EncodeIntMax64 sd ++ EncodeIntMax64 ed ++ pe ++ rest) by (rewrite <- !app_assoc; reflexivity).
    rewrite slice_app by lens. cbn [bind]. rewrite EncodeIntMax64_roundtrip by auto. cbn [bind].
    replace ([h] ++ EncodeIntMax64 sd ++ EncodeIntMax64 ed ++ pe ++ rest)
      with (([h] ++ EncodeIntMax64 sd) ++ EncodeIntMax64 ed ++ pe ++ rest) by (rewrite <- !app_assoc; reflexivity).
    rewrite slice_app by lens. cbn [bind]. rewrite EncodeIntMax64_roundtrip by auto. cbn [bind].
    specialize (DR ([h] ++ EncodeIntMax64 sd ++ EncodeIntMax64 ed) rest).
    replace (1 + GetWidthMax64Int sd + GetWidthMax64Int ed) with (len ([h] ++ EncodeIntMax64 sd ++ EncodeIntMax64 ed)) by lens.
    rewrite <- !app_assoc in DR. rewrite <- !app_assoc. unfold bytes in *. rewrite DR. reflexivity.
Qed.

Lemma sub64_lt a b : a < b -> b < 2 ^ 64 -> sub64 a b = a + 2 ^ 64 - b.
Proof.
  intros. change (2 ^ 64) with two64 in *. unfold sub64. rewrite (N.mod_small b) by lia.
  apply N.mod_small. lia.
Qed.

(** Both areas name the same subspace, the path of the inner continues that of the outer, and its times are among those of the outer, no
    time above 2^64 - 15, the number an open end is said to be. Then the inner area comes back exactly when the path of the outer is
    not empty, the start is no nearer to the end of the outer times than to their start, and, when the outer times are open and
    the inner are not, the inner end is no nearer to that number than to the inner start, or that number stands in the field of the end that is not used. *)
Theorem C22_exactly order pp ss dec_ss inner outer rest :
  codec_params pp -> (forall a b, order a b = 0%Z <-> a = b) ->
  codec_path pp (area_path inner) -> prefix_of (area_path outer) (area_path inner) ->
  area_any inner = false -> area_any outer = false -> area_subspace inner = area_subspace outer ->
  let it := area_times inner in let ot := area_times outer in
  let outerEnd := if r_open ot then 2 ^ 64 - 15 else r_end ot in
  r_start ot <= r_start it -> r_start it <= outerEnd -> outerEnd <= 2 ^ 64 - 15 -> r_end ot < 2 ^ 64 ->
  (r_open ot = false -> r_open it = false) ->
  (r_open it = false -> r_start it <= r_end it <= outerEnd) ->
  ((exists b a, EncodeAreaInArea ss order pp inner outer = Ok b
     /\ DecodeAreaInArea dec_ss pp (b ++ rest) outer = Ok a /\ same_area a inner)
   <-> area_path outer <> []
       /\ 2 * r_start it <= r_start ot + outerEnd
       /\ (r_open ot = true -> r_open it = false -> 2 * r_end it <= r_start it + (2 ^ 64 - 15) \/ r_end ot = 2 ^ 64 - 15)).
Proof.
  intros CP order_eq HP HPre HA HO HSS it ot outerEnd H1 H2 H3 H3' H4 H5.
  destruct (area_path outer) as [|c0 p0] eqn:EP.
  { split; [|intros [K _]; congruence]. intros (b & a & E & _).
    rewrite (C22_empty_path_refuted ss order pp inner outer EP) in E. discriminate E. }
  assert (HN : area_path outer <> []) by congruence. rewrite <- EP in *. clear c0 p0 EP.
  destruct (area_result order pp ss dec_ss inner outer rest CP order_eq HP HN HPre HA HO HSS) as (b & E & D).
  fold it in D. fold ot in D. change REALLY_BIG_INT with (2 ^ 64 - 15) in D. fold outerEnd in D.
  set (innerEnd := if r_open it then 2 ^ 64 - 15 else r_end it) in D.
  set (d1 := sub64 (r_start it) (r_start ot)) in D.
  set (sd := N.min d1 (sub64 outerEnd (r_start it))) in D.
  set (d2 := sub64 innerEnd (r_start it)) in D.
  set (ed := N.min d2 (sub64 outerEnd innerEnd)) in D.
  set (start := if sd =? d1 then add64 (r_start ot) sd else sub64 (r_start ot) sd) in D.
  assert (P : 2 ^ 64 = 18446744073709551616) by reflexivity.
  assert (E1 : d1 = r_start it - r_start ot) by (apply sub64_le; lia).
  assert (E2 : sub64 outerEnd (r_start it) = outerEnd - r_start it) by (apply sub64_le; lia).
  assert (ES : start = r_start it <-> 2 * r_start it <= r_start ot + outerEnd).
  { unfold start. destruct (N.eqb_spec sd d1) as [Es|Es].
    - rewrite Es, E1, add64_small by lia. unfold sd in Es. rewrite E1, E2 in Es. split; lia.
    - assert (Es' : sd = outerEnd - r_start it) by (unfold sd in *; lia).
      unfold sd in Es. rewrite E1, E2 in Es. rewrite Es'.
      destruct (N.le_gt_cases (outerEnd - r_start it) (r_start ot)) as [L|L].
      + rewrite sub64_le by lia. split; lia.
      + rewrite sub64_lt by lia. split; lia. }
  assert (EE : r_open it = false -> start = r_start it ->
    ((if ed =? d2 then add64 start ed else sub64 (r_end ot) ed) = r_end it <->
     (r_open ot = true -> 2 * r_end it <= r_start it + (2 ^ 64 - 15) \/ r_end ot = 2 ^ 64 - 15))).
  { intros O Es. specialize (H5 O). rewrite Es.
    assert (E0 : innerEnd = r_end it) by (unfold innerEnd; rewrite O; reflexivity).
    assert (E3 : d2 = r_end it - r_start it) by (unfold d2; rewrite E0; apply sub64_le; lia).
    assert (E4 : sub64 outerEnd innerEnd = outerEnd - r_end it) by (rewrite E0; apply sub64_le; lia).
    unfold outerEnd in *. destruct (r_open ot) eqn:OO.
    - destruct (N.eqb_spec ed d2) as [Ed|Ed].
      + rewrite Ed, E3, add64_small by lia. unfold ed in Ed. rewrite E3, E4 in Ed. split; [intros _ _; left; lia|lia].
      + assert (Ed' : ed = 2 ^ 64 - 15 - r_end it) by (unfold ed in *; lia).
        unfold ed in Ed. rewrite E3, E4 in Ed. rewrite Ed'.
        destruct (N.le_gt_cases (2 ^ 64 - 15 - r_end it) (r_end ot)) as [L|L].
        * rewrite sub64_le by lia. split; [intros K _; right; lia|].
          intros K. destruct (K eq_refl); lia.
        * rewrite sub64_lt by lia. split; [intros K _; right; lia|].
          intros K. destruct (K eq_refl); lia.
    - split; [discriminate|]. intros _.
      destruct (N.eqb_spec ed d2) as [Ed|Ed].
      + rewrite Ed, E3, add64_small; lia.
      + assert (Ed' : ed = r_end ot - r_end it) by (unfold ed in *; lia). rewrite Ed', sub64_le; lia. }
  clearbody start ed d2 sd.
  split.
  - intros (b' & a & E' & D' & HS). rewrite E in E'. injection E' as <-. rewrite D in D'. injection D' as <-.
    destruct HS as (_ & _ & _ & T1 & T2 & T3). cbn [area_times] in *. fold it in T1, T2, T3.
    split; [exact HN|].
    assert (T : start = r_start it) by (destruct (r_open it); exact T1).
    split; [apply ES; exact T|]. intros OO O. specialize (T3 O). rewrite O in T3.
    exact (proj1 (EE O T) T3 OO).
  - intros (_ & K1 & K2). apply ES in K1. eexists b, _. split; [exact E|]. split; [exact D|].
    split; [symmetry; exact HA|]. split; [intros _; symmetry; exact HSS|]. split; [reflexivity|].
    cbn [area_times]. fold it. destruct (r_open it) eqn:O.
    + split; [exact K1|]. split; [symmetry; exact O|]. intros K; congruence.
    + split; [exact K1|]. split; [symmetry; exact O|]. intros _. cbn [r_end]. apply EE; auto.
Qed.
Print Assumptions C22_exactly.

(** An area with any subspace never comes back, whatever the two areas. *)
Theorem C22_any_never order pp ss dec_ss inner outer rest b a :
  area_any inner = true -> EncodeAreaInArea ss order pp inner outer = Ok b ->
  DecodeAreaInArea dec_ss pp (b ++ rest) outer = Ok a -> ~ same_area a inner.
Proof.
  intros HA _ D (S & _). apply C22_any_subspace_refuted in D. congruence.
Qed.
Print Assumptions C22_any_never.

Example C22_instance_exactly :
  let outer := Area [97] [[1]] (Range 0 0 true) false in
  let late := Area [97] [[1]; [2]] (Range 5 (2 ^ 64 - 100) false) false in
  let outer' := Area [97] [[1]] (Range 0 (2 ^ 64 - 15) true) false in
  (exists b, EncodeAreaInArea (fun x => x) OrderBytes rel_pp late outer = Ok b
     /\ DecodeAreaInArea (fun x => Ok x) rel_pp b outer = Ok (Area [97] [[1]; [2]] (Range 5 (2 ^ 64 - 85) false) false))
  /\ (exists b, EncodeAreaInArea (fun x => x) OrderBytes rel_pp late outer' = Ok b
     /\ DecodeAreaInArea (fun x => Ok x) rel_pp b outer' = Ok late).
Proof. split; eexists; (split; [vm_compute; reflexivity|]); vm_compute; reflexivity. Qed.
