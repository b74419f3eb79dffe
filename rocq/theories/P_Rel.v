(** Proofs about the relative codecs. *)
From Verif Require Import Base M_Order M_Encoding M_Paths M_Ranges M_Areas M_Entry M_Stream M_Wire M_Rel S_Order S_Wire S_Rel
  P_Order P_Encoding P_Paths P_Stream P_Wire.
Local Open Scope N_scope.

Lemma stream_int_arrived x : x < 2 ^ 64 ->
  decodes_arrived (stream_int (GetWidthMax64Int x)) (EncodeIntMax64 x) x 0.
Proof.
  intros H rest sched _. pose proof (EncodeIntMax64_len x) as EL. unfold stream_int.
  rewrite NextAbsolute_all by lens. cbn [bind]. rewrite slice_0_app by auto. cbn [bind].
  rewrite EncodeIntMax64_roundtrip by auto. cbn [bind]. eexists. unfold Prune. cbn [g_array g_future g_sched].
  rewrite skipn_lenN by auto. reflexivity.
Qed.

Lemma stream_int_decodes x : x < 2 ^ 64 ->
  decodes (stream_int (GetWidthMax64Int x)) (EncodeIntMax64 x) x.
Proof.
  intros H s rest T. pose proof (EncodeIntMax64_len x) as EL. unfold stream_int.
  nx. sl (@nil N) (EncodeIntMax64 x) rest. rewrite EncodeIntMax64_roundtrip by auto. cbn [bind].
  eexists. split; [reflexivity|]. pr (EncodeIntMax64 x) rest.
Qed.

Lemma fixed_codec_arrived w b : len b = w -> codec_arrived (fixed_codec w) b.
Proof.
  intros Hw rest sched _. unfold fixed_codec. cbn [c_dec c_enc].
  rewrite NextAbsolute_all by lens. cbn [bind]. rewrite slice_0_app by auto. cbn [bind].
  eexists. unfold Prune. cbn [g_array g_future g_sched]. rewrite skipn_lenN by auto. reflexivity.
Qed.

(** What a relative encoding of a path looks like. *)
Lemma EncodeRelativePath_shape pp p ref enc : codec_params pp -> codec_path pp p ->
  EncodeRelativePath pp p ref = Ok enc ->
  exists n, (0 < n)%nat /\ (n <= length p)%nat /\ firstn n p = firstn n ref /\ (n <= length ref)%nat
    /\ N.of_nat n <= max_component_count pp
    /\ enc = EncodeIntMax32 (N.of_nat n) (max_component_count pp) ++ EncodePath pp (skipn n p)
    /\ n = common_count p ref.
Proof.
  intros CP Hp. unfold EncodeRelativePath, CommonPrefix.
  pose proof (common_count_le p ref) as Hle. pose proof (common_count_len_r p ref) as Hlr.
  destruct (common_count_prefix p ref) as [Hpre _].
  destruct (common_count p ref) as [|k] eqn:E; [discriminate|].
  remember (S k) as n eqn:En. cbv zeta. intros H; injection H as <-.
  assert (Hn : len (firstn n p) = N.of_nat n) by (unfold len; rewrite firstn_length_le; lia).
  rewrite Hn, Nat2N.id.
  pose proof CP as ((PC & PL & PP) & HC & HL). pose proof Hp as [Hp1 Hp2].
  assert (Hnle : N.of_nat n <= max_component_count pp) by (unfold len in Hp1; lia).
  rewrite toT_small by lia. exists n. repeat split; auto; try lia.
  destruct Hpre as [s Hs]. rewrite Hs. rewrite firstn_app.
  rewrite firstn_length_le by lia. rewrite Nat.sub_diag. cbn [firstn]. rewrite app_nil_r.
  symmetry. apply firstn_all2. rewrite firstn_length. lia.
Qed.

Lemma DecodeRelPathStream_arrived pp p ref enc : codec_params pp -> codec_path pp p ->
  EncodeRelativePath pp p ref = Ok enc ->
  decodes_arrived (fun s => DecodeRelPathStream pp s ref) enc p (GetWidthMax32Int (max_component_length pp)).
Proof.
  intros CP Hp E. destruct (EncodeRelativePath_shape pp p ref enc CP Hp E) as (n & Hn & Hn1 & Hf & Hr & Hm & -> & _).
  intros rest sched Hw. unfold DecodeRelPathStream.
  pose proof (EncodeIntMax32_len (N.of_nat n) (max_component_count pp)) as EL.
  set (e := EncodeIntMax32 _ _) in *.
  pose proof CP as ((PC & PL & PP) & HC & HL).
  rewrite <- app_assoc. rewrite NextAbsolute_all by lens. cbn [bind].
  rewrite slice_0_app by auto. cbn [bind]. unfold e at 1. rewrite decode_or_zero_ok by lia. cbn [bind].
  assert (Hsl : slice ref 0 (N.of_nat n) = Ok (firstn n p)).
  { rewrite Hf. unfold slice. rewrite (proj2 (N.leb_le 0 _)), (proj2 (N.leb_le _ _)) by lens.
    cbn [andb]. rewrite N.sub_0_r, Nat2N.id. reflexivity. }
  rewrite Hsl. cbn [bind]. unfold Prune. cbn [g_array g_future g_sched]. rewrite skipn_lenN by auto.
  destruct (DecodePathStream_arrived pp (skipn n p) rest (tl sched)) as [sched' ->]; auto.
  { apply codec_path_skipn; auto. }
  cbn [bind]. rewrite firstn_skipn. eauto.
Qed.

(** Use an arrival hypothesis. *)
Ltac arr H :=
  match goal with
  | |- context[Stream (_ ++ ?rest) [] ?sched] =>
      let sc := fresh "sc" in let E := fresh "E" in
      destruct (H rest sched) as [sc E]; [try lens|]; unfold bytes in *; rewrite E; clear E; cbn [bind]
  end.

Lemma AbsDiff_lt a b : a < 2 ^ 64 -> b < 2 ^ 64 -> AbsDiffuint64 a b < 2 ^ 64.
Proof. intros. unfold AbsDiffuint64. destruct (a <? b); lia. Qed.

Lemma add64_diff t r : t < 2 ^ 64 -> r <= t -> add64 r (AbsDiffuint64 t r) = t.
Proof.
  intros. unfold add64, AbsDiffuint64. destruct (N.ltb_spec t r); [lia|]. change (2 ^ 64) with two64 in *.
  rewrite N.mod_small; lia.
Qed.
Lemma sub64_diff t r : t < 2 ^ 64 -> r < 2 ^ 64 -> t <= r -> sub64 r (AbsDiffuint64 t r) = t.
Proof.
  intros. change (2 ^ 64) with two64 in *. unfold sub64, AbsDiffuint64.
  assert (E : (if t <? r then r - t else t - r) = r - t) by (destruct (N.ltb_spec t r); lia).
  rewrite E, (N.mod_small (r - t)) by lia. replace (r + two64 - (r - t)) with (t + 1 * two64) by lia.
  rewrite N.mod_add by (unfold two64; lia). apply N.mod_small. auto.
Qed.

(** The header of an entry relative to an entry. *)
Lemma entry_header a b c x y :
  let h := u8 (N.lor (N.lor (N.lor (N.lor (flag 128 a) (flag 64 b)) (flag 32 c))
    (CompactWidthEndMasks (GetWidthMax64Int y))) (N.shiftl (CompactWidthEndMasks (GetWidthMax64Int x)) 2)) in
  has h 128 = a /\ has h 64 = b /\ has h 32 = c
  /\ pow2 (N.shiftr (N.land h 12) 2) = GetWidthMax64Int x /\ pow2 (N.land h 3) = GetWidthMax64Int y.
Proof.
  destruct (width64 x) as [ -> | [ -> | [ -> | -> ]]]; destruct (width64 y) as [ -> | [ -> | [ -> | -> ]]];
    destruct a, b, c; repeat split; reflexivity.
Qed.

Lemma range_header a b c d x y :
  let h := u8 (N.lor (N.lor (N.lor (N.lor (N.lor (flag 128 a) (flag 64 b)) (flag 32 c)) (flag 16 d))
    (N.shiftl (CompactWidthEndMasks (GetWidthMax64Int x)) 2)) (CompactWidthEndMasks (GetWidthMax64Int y))) in
  has h 128 = a /\ has h 64 = b /\ has h 32 = c /\ has h 16 = d
  /\ pow2 (N.shiftr (N.land h 12) 2) = GetWidthMax64Int x /\ pow2 (N.land h 3) = GetWidthMax64Int y.
Proof.
  destruct (width64 x) as [ -> | [ -> | [ -> | -> ]]]; destruct (width64 y) as [ -> | [ -> | [ -> | -> ]]];
    destruct a, b, c, d; repeat split; reflexivity.
Qed.

Section Entries.
Variables (ns ss ds : codec bytes) (order : bytes -> bytes -> rel) (pp : path_params).
Hypothesis CP : codec_params pp.
Hypothesis order_eq : forall a b, order a b = 0%Z <-> a = b.
Let w := GetWidthMax32Int (max_component_length pp).

Lemma entry_relative_entry eqns e ref :
  (forall a b, eqns a b = true <-> a = b) ->
  codec_path pp (e_path e) -> share_first (e_path e) (e_path ref) ->
  codec_arrived ns (e_namespace e) -> codec_arrived ss (e_subspace e) -> codec_arrived ds (e_digest e) ->
  e_time e < 2 ^ 64 -> e_time ref < 2 ^ 64 -> e_length e < 2 ^ 64 ->
  exists b, EncodeEntryRelativeEntry ns ss ds eqns order pp e ref = Ok b
    /\ decodes_arrived (DecodeStreamEntryRelativeEntry ns ss ds pp ref) b e (w - 2 - len (c_enc ds (e_digest e))).
Proof.
  intros eqns_eq HP HS HN HU HD HT HR HL.
  apply (EncodeRelativePath_total pp) in HS. destruct HS as [pe HE].
  unfold EncodeEntryRelativeEntry. rewrite HE. cbn [bind].
  set (a := negb (eqns (e_namespace e) (e_namespace ref))).
  set (b := negb (order (e_subspace e) (e_subspace ref) =? 0)%Z).
  set (td := AbsDiffuint64 (e_time e) (e_time ref)). set (c := e_time ref <? e_time e).
  eexists. split; [reflexivity|]. intros rest sched HW. unfold DecodeStreamEntryRelativeEntry.
  destruct (entry_header a b c td (e_length e)) as (Ha & Hb & Hc & Hx & Hy).
  set (h := u8 _) in *. clearbody h. rewrite <- !app_assoc.
  rewrite NextAbsolute_all by lens. cbn [bind app]. rewrite index_0. cbn [bind].
  unfold Prune. cbn [g_array g_future g_sched]. change (N.to_nat 1) with 1%nat. cbn [skipn].
  rewrite Ha, Hb, Hc, Hx, Hy.
  (* namespace *)
  match goal with |- context[bind (if a then _ else _) ?k] =>
    assert (EN : exists sc, (if a then c_dec ns (Stream ((if a then c_enc ns (e_namespace e) else []) ++
      (if b then c_enc ss (e_subspace e) else []) ++ pe ++ EncodeIntMax64 td ++ EncodeIntMax64 (e_length e) ++ c_enc ds (e_digest e) ++ rest) [] (tl sched))
      else Ok (e_namespace ref, Stream ((if a then c_enc ns (e_namespace e) else []) ++
      (if b then c_enc ss (e_subspace e) else []) ++ pe ++ EncodeIntMax64 td ++ EncodeIntMax64 (e_length e) ++ c_enc ds (e_digest e) ++ rest) [] (tl sched)))
      = Ok (e_namespace e, Stream ((if b then c_enc ss (e_subspace e) else []) ++ pe ++ EncodeIntMax64 td ++ EncodeIntMax64 (e_length e) ++ c_enc ds (e_digest e) ++ rest) [] sc)) end.
  { unfold a. destruct (eqns (e_namespace e) (e_namespace ref)) eqn:EQ; cbn [negb].
    - apply eqns_eq in EQ. rewrite EQ. eexists. reflexivity.
    - destruct (HN ((if b then c_enc ss (e_subspace e) else []) ++ pe ++ EncodeIntMax64 td ++ EncodeIntMax64 (e_length e) ++ c_enc ds (e_digest e) ++ rest) (tl sched)) as [sc E]; [lia|].
      eauto. }
  destruct EN as [sc1 EN]. unfold bytes in *. rewrite EN. clear EN. cbn [bind].
  assert (EN : exists sc, (if b then c_dec ss (Stream ((if b then c_enc ss (e_subspace e) else []) ++ pe ++ EncodeIntMax64 td ++ EncodeIntMax64 (e_length e) ++ c_enc ds (e_digest e) ++ rest) [] sc1)
      else Ok (e_subspace ref, Stream ((if b then c_enc ss (e_subspace e) else []) ++ pe ++ EncodeIntMax64 td ++ EncodeIntMax64 (e_length e) ++ c_enc ds (e_digest e) ++ rest) [] sc1))
      = Ok (e_subspace e, Stream (pe ++ EncodeIntMax64 td ++ EncodeIntMax64 (e_length e) ++ c_enc ds (e_digest e) ++ rest) [] sc)).
  { unfold b. destruct (Z.eqb_spec (order (e_subspace e) (e_subspace ref)) 0) as [EQ|EQ]; cbn [negb].
    - apply order_eq in EQ. rewrite EQ. eexists. reflexivity.
    - destruct (HU (pe ++ EncodeIntMax64 td ++ EncodeIntMax64 (e_length e) ++ c_enc ds (e_digest e) ++ rest) sc1) as [sc E]; [lia|].
      eauto. }
  destruct EN as [sc2 EN]. unfold bytes in *. rewrite EN. clear EN. cbn [bind].
  assert (HTD : td < 2 ^ 64) by (apply AbsDiff_lt; auto).
  pose proof (EncodeIntMax64_len td) as L1. pose proof (EncodeIntMax64_len (e_length e)) as L2.
  pose proof (width64 td) as W1. pose proof (width64 (e_length e)) as W2. fold w in HW.
  pose proof (DecodeRelPathStream_arrived pp (e_path e) (e_path ref) pe CP HP HE) as HPA. fold w in HPA.
  destruct (HPA (EncodeIntMax64 td ++ EncodeIntMax64 (e_length e) ++ c_enc ds (e_digest e) ++ rest) sc2) as [sc3 E3]; [lens|].
  cbn beta in E3. unfold bytes in *. rewrite E3. clear E3. cbn [bind].
  arr (stream_int_arrived td HTD). arr (stream_int_arrived (e_length e) HL). arr HD.
  eexists. f_equal. f_equal.
  assert (ET : (if c then add64 (e_time ref) td else sub64 (e_time ref) td) = e_time e).
  { unfold c, td. destruct (N.ltb_spec (e_time ref) (e_time e)); [apply add64_diff|apply sub64_diff]; auto; lia. }
  rewrite ET. destruct e; reflexivity.
Qed.

Lemma entry_relative_range e outer :
  codec_path pp (e_path e) -> share_first (e_path e) (r_start (path_range outer)) ->
  (r_open (path_range outer) = false -> share_first (e_path e) (r_end (path_range outer))) ->
  codec_arrived ss (e_subspace e) -> codec_arrived ds (e_digest e) ->
  e_time e < 2 ^ 64 -> r_start (time_range outer) < 2 ^ 64 ->
  (r_open (time_range outer) = false -> r_end (time_range outer) < 2 ^ 64) -> e_length e < 2 ^ 64 ->
  exists b, EncodeEntryRelativeRange3d ss ds order pp e outer = Ok b
    /\ decodes_arrived (DecodeStreamEntryRelativeRange3d ss ds pp outer (e_namespace e)) b e (w - 2 - len (c_enc ds (e_digest e))).
Proof.
  intros HP HS HE HU HD HT HTS HTE HL.
  unfold EncodeEntryRelativeRange3d.
  set (t := time_range outer) in *. set (p := path_range outer) in *.
  set (toStart := AbsDiffuint64 (e_time e) (r_start t)).
  set (td := if r_open t then toStart else N.min toStart (AbsDiffuint64 (e_time e) (r_end t))).
  set (b := negb (order (e_subspace e) (r_start (subspace_range outer)) =? 0)%Z).
  (* the path *)
  assert (PE : exists f pe, (if r_open p then do x <- EncodeRelativePath pp (e_path e) (r_start p); Ok (true, x)
     else do cs <- CommonPrefix (e_path e) (r_start p);
          do ce <- CommonPrefix (e_path e) (r_end p);
          if len ce <=? len cs
          then do x <- EncodeRelativePath pp (e_path e) (r_start p); Ok (true, x)
          else do x <- EncodeRelativePath pp (e_path e) (r_end p); Ok (false, x)) = Ok (f, pe)
     /\ EncodeRelativePath pp (e_path e) (if f then r_start p else r_end p) = Ok pe
     /\ (f = false -> r_open p = false)).
  { apply (EncodeRelativePath_total pp) in HS. destruct HS as [ps EPS]. destruct (r_open p) eqn:OP.
    - exists true, ps. rewrite EPS. repeat split; auto.
    - specialize (HE eq_refl). apply (EncodeRelativePath_total pp) in HE. destruct HE as [pe EPE].
      assert (C1 : exists cs, CommonPrefix (e_path e) (r_start p) = Ok cs).
      { unfold EncodeRelativePath in EPS. destruct (CommonPrefix (e_path e) (r_start p)); try discriminate. eauto. }
      assert (C2 : exists cs, CommonPrefix (e_path e) (r_end p) = Ok cs).
      { unfold EncodeRelativePath in EPE. destruct (CommonPrefix (e_path e) (r_end p)); try discriminate. eauto. }
      destruct C1 as [cs C1], C2 as [ce C2]. rewrite C1, C2. cbn [bind].
      destruct (len ce <=? len cs).
      + exists true, ps. rewrite EPS. repeat split; auto.
      + exists false, pe. rewrite EPE. repeat split; auto. }
  destruct PE as (f & pe & E1 & E2 & E3). rewrite E1. clear E1. cbn [bind].
  set (g := td =? toStart).
  match goal with |- context[flag 16 ?x] => set (add := x) end.
  eexists. split; [reflexivity|]. intros rest sched HW. unfold DecodeStreamEntryRelativeRange3d.
  fold t. fold p.
  destruct (range_header b f g add td (e_length e)) as (Hb & Hf & Hg & Ha & Hx & Hy).
  set (h := u8 _) in *. clearbody h. rewrite <- !app_assoc.
  rewrite NextAbsolute_all by (clear Hb Hf Hg Ha Hx Hy; lens). cbn [bind app]. rewrite index_0. cbn [bind].
  unfold Prune. cbn [g_array g_future g_sched]. change (N.to_nat 1) with 1%nat. cbn [skipn].
  rewrite Ha, Hb, Hf, Hg, Hx, Hy. clear Hb Hf Hg Ha Hx Hy.
  assert (EN : exists sc, (if b then c_dec ss (Stream ((if b then c_enc ss (e_subspace e) else []) ++ pe ++ EncodeIntMax64 td ++ EncodeIntMax64 (e_length e) ++ c_enc ds (e_digest e) ++ rest) [] (tl sched))
      else Ok (r_start (subspace_range outer), Stream ((if b then c_enc ss (e_subspace e) else []) ++ pe ++ EncodeIntMax64 td ++ EncodeIntMax64 (e_length e) ++ c_enc ds (e_digest e) ++ rest) [] (tl sched)))
      = Ok (e_subspace e, Stream (pe ++ EncodeIntMax64 td ++ EncodeIntMax64 (e_length e) ++ c_enc ds (e_digest e) ++ rest) [] sc)).
  { unfold b. destruct (Z.eqb_spec (order (e_subspace e) (r_start (subspace_range outer))) 0) as [EQ|EQ]; cbn [negb].
    - apply order_eq in EQ. rewrite EQ. eexists. reflexivity.
    - destruct (HU (pe ++ EncodeIntMax64 td ++ EncodeIntMax64 (e_length e) ++ c_enc ds (e_digest e) ++ rest) (tl sched)) as [sc E]; [lia|].
      eauto. }
  destruct EN as [sc2 EN]. unfold bytes in *. rewrite EN. clear EN. cbn [bind].
  assert (HTD : td < 2 ^ 64).
  { unfold td. assert (toStart < 2 ^ 64) by (apply AbsDiff_lt; auto). destruct (r_open t); lia. }
  pose proof (EncodeIntMax64_len td) as L1. pose proof (EncodeIntMax64_len (e_length e)) as L2.
  pose proof (width64 td) as W1. pose proof (width64 (e_length e)) as W2. fold w in HW.
  pose proof (DecodeRelPathStream_arrived pp (e_path e) _ pe CP HP E2) as HPA. fold w in HPA.
  assert (EP : exists sc, (if f then DecodeRelPathStream pp (Stream (pe ++ EncodeIntMax64 td ++ EncodeIntMax64 (e_length e) ++ c_enc ds (e_digest e) ++ rest) [] sc2) (r_start p)
     else if r_open p then Panic else DecodeRelPathStream pp (Stream (pe ++ EncodeIntMax64 td ++ EncodeIntMax64 (e_length e) ++ c_enc ds (e_digest e) ++ rest) [] sc2) (r_end p))
     = Ok (e_path e, Stream (EncodeIntMax64 td ++ EncodeIntMax64 (e_length e) ++ c_enc ds (e_digest e) ++ rest) [] sc)).
  { destruct (HPA (EncodeIntMax64 td ++ EncodeIntMax64 (e_length e) ++ c_enc ds (e_digest e) ++ rest) sc2) as [sc3 E4]; [lens|].
    cbn beta in E4. destruct f; [eauto|]. rewrite (E3 eq_refl). eauto. }
  destruct EP as [sc3 EP]. unfold bytes in *. rewrite EP. clear EP. cbn [bind].
  arr (stream_int_arrived td HTD).
  assert (ET : (if g then Ok (if add then add64 (r_start t) td else sub64 (r_start t) td)
      else if r_open t then Err else Ok (if add then add64 (r_end t) td else sub64 (r_end t) td)) = Ok (e_time e)).
  { subst add. destruct g eqn:Eg; cbn [andb negb orb]; rewrite ?orb_false_r.
    - apply N.eqb_eq in Eg. rewrite Eg. unfold toStart.
      destruct (N.leb_spec (r_start t) (e_time e)); destruct (r_open t); cbn [negb]; f_equal;
        try (apply add64_diff; auto; lia); apply sub64_diff; auto; lia.
    - apply N.eqb_neq in Eg. destruct (r_open t) eqn:OT; [unfold td in Eg; congruence|].
      specialize (HTE eq_refl). cbn [negb].
      assert (EQ2 : td = AbsDiffuint64 (e_time e) (r_end t)) by (unfold td in *; lia). rewrite EQ2.
      destruct (N.leb_spec (r_end t) (e_time e)); f_equal;
        [apply add64_diff; auto; lia|apply sub64_diff; auto; lia]. }
  rewrite ET. cbn [bind]. arr (stream_int_arrived (e_length e) HL). arr HD.
  eexists. f_equal. f_equal. destruct e; reflexivity.
Qed.
End Entries.
