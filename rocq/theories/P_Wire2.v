(** Proofs about the messages that carry an entry, an area or a 3d range. *)
From Verif Require Import Base M_Order M_Encoding M_Paths M_Ranges M_Areas M_Entry M_Stream M_Wire M_Rel M_Wire2
  S_Order S_Wire S_Rel S_Wire2 P_Order P_Encoding P_Paths P_Stream P_Wire P_Rel P_AreaCodec P_RangeCodec.
Local Open Scope N_scope.

Lemma Prune_arrived n pre rest sched : n = len pre ->
  Prune n (Stream (pre ++ rest) [] sched) = Stream rest [] sched.
Proof. intros H. unfold Prune. cbn [g_array g_future g_sched]. rewrite skipn_lenN by auto. reflexivity. Qed.

Section Data.
Context {T : Type}.
Variables (ns ss ds : codec bytes) (order : bytes -> bytes -> rel) (pp : path_params) (tok : codec T).
Variables (eqns : bytes -> bytes -> bool) (ha : N -> N -> area) (hn : N -> N -> bytes).
Hypothesis CP : codec_params pp.
Hypothesis order_eq : forall a b, order a b = 0%Z <-> a = b.
Hypothesis eqns_eq : forall a b, eqns a b = true <-> a = b.

Notation entry_ok := (entry_ok ns ss ds pp).
Notation entry_need := (entry_need ds pp).

Lemma entry_ok_decodes e ref : entry_ok e ref ->
  exists b, EncodeEntryRelativeEntry ns ss ds eqns order pp e ref = Ok b
    /\ decodes_arrived (DecodeStreamEntryRelativeEntry ns ss ds pp ref) b e (entry_need e).
Proof.
  intros (H1 & H2 & H3 & H4 & H5 & H6 & H7 & H8). apply entry_relative_entry; auto.
Qed.

Lemma static_width h : h < 256 -> h <> 2 -> h <> 4 -> h <> 8 ->
  CompactWidthFromEndOfByte (u8 (N.lor 96 (CompactWidthOr 0 h))) = GetWidthMax64Int h.
Proof.
  intros H H2 H4 H8. unfold CompactWidthOr, CompactWidthEndMasks, GetWidthMax64Int.
  change (2 ^ 8) with 256. rewrite (proj2 (N.ltb_lt _ _) H), (proj2 (N.eqb_neq _ _) H2), (proj2 (N.eqb_neq _ _) H4), (proj2 (N.eqb_neq _ _) H8).
  destruct (h =? 1); reflexivity.
Qed.

Lemma data_send_entry ref (m : msg_data_entry T) :
  entry_ok (de_entry m) ref -> codec_arrived tok (de_dynamic m) ->
  de_static m < 256 -> ~ In (de_static m) [2; 4; 8] ->
  (de_offset m = 0 \/ de_offset m = e_length (de_entry m)) ->
  exists b, EncodeDataSendEntry ns ss ds eqns order pp tok ref m = Ok b
    /\ decodes_arrived (DecodeDataSendEntry ns ss ds pp ha hn tok ref) b m (entry_need (de_entry m)).
Proof.
  intros HE HT HH HI HO. destruct (entry_ok_decodes _ _ HE) as (e & EE & ED).
  unfold EncodeDataSendEntry. rewrite EE. cbn [bind]. eexists. split; [reflexivity|].
  intros rest sched HN. unfold DecodeDataSendEntry.
  pose proof (static_width (de_static m) HH) as HW.
  cbn [In] in HI. assert (HW' := HW ltac:(intuition) ltac:(intuition) ltac:(intuition)). clear HW HI.
  set (h := u8 (N.lor 96 _)) in *. set (c := u8 (N.lor (N.lor _ _) 16)).
  assert (Hc : has c 128 = false /\ has c 16 = true
    /\ (if has c 32 then e_length (de_entry m) else 0) = de_offset m).
  { unfold c. destruct (N.eqb_spec (de_offset m) 0) as [E0|E0].
    - rewrite E0. repeat split; reflexivity.
    - destruct HO as [HO|HO]; [congruence|]. rewrite (proj2 (N.eqb_eq _ _) HO). repeat split; cbn; auto. }
  destruct Hc as (C1 & C2 & C3). clearbody h c. rewrite <- !app_assoc.
  rewrite NextAbsolute_all by lens. cbn [bind app]. rewrite index_0, index_1. cbn [bind].
  change (h :: c :: EncodeIntMax64 (de_static m) ++ c_enc tok (de_dynamic m) ++ e ++ rest)
    with ([h; c] ++ EncodeIntMax64 (de_static m) ++ c_enc tok (de_dynamic m) ++ e ++ rest).
  rewrite Prune_arrived by reflexivity.
  rewrite HW', C1. cbn [negb andb].
  assert (HH' : de_static m < 2 ^ 64) by (eapply N.lt_trans; [exact HH|reflexivity]).
  arr (stream_int_arrived (de_static m) HH'). arr HT.
  unfold decode_sent_entry. rewrite C2. arr ED.
  eexists. rewrite C3. destruct m; reflexivity.
Qed.

Lemma bind_payload_request ref m :
  entry_ok (rp_entry m) ref -> rp_capability m < 2 ^ 64 -> rp_offset m < 2 ^ 64 ->
  exists b, EncodeDataBindPayloadRequest ns ss ds eqns order pp ref m = Ok b
    /\ decodes_arrived (DecodeDataBindPayloadRequest ns ss ds pp ha hn ref) b m (entry_need (rp_entry m)).
Proof.
  intros HE HC HO. destruct (entry_ok_decodes _ _ HE) as (e & EE & ED).
  unfold EncodeDataBindPayloadRequest. rewrite EE. cbn [bind]. eexists. split; [reflexivity|].
  intros rest sched HN. unfold DecodeDataBindPayloadRequest.
  set (h := u8 (CompactWidthOr 108 _)). set (c := u8 (N.lor (N.lor _ _) 16)).
  assert (Hh : CompactWidthFromEndOfByte h = GetWidthMax64Int (rp_capability m)).
  { unfold h. destruct (width64 (rp_capability m)) as [ -> | [ -> | [ -> | -> ]]]; reflexivity. }
  assert (Hc : has c 16 = true /\ has c 128 = negb (rp_offset m =? 0)
    /\ ((rp_offset m =? 0) = false -> CompactWidthFromEndOfByte (N.shiftr (N.land c 96) 5) = GetWidthMax64Int (rp_offset m))).
  { unfold c. destruct (rp_offset m =? 0); [repeat split; try reflexivity; discriminate|].
    destruct (width64 (rp_offset m)) as [ -> | [ -> | [ -> | -> ]]]; repeat split; reflexivity. }
  destruct Hc as (C1 & C2 & C3). clearbody h c. rewrite <- !app_assoc.
  rewrite NextAbsolute_all by lens. cbn [bind app]. rewrite index_0, index_1. cbn [bind].
  rewrite Hh, C2.
  pose proof (EncodeIntMax64_len (rp_capability m)) as LC. pose proof (EncodeIntMax64_len (rp_offset m)) as LO.
  rewrite NextAbsolute_all by lens. cbn [bind].
  set (ec := EncodeIntMax64 (rp_capability m)) in *.
  destruct (N.eqb_spec (rp_offset m) 0) as [E0|E0]; cbn [negb].
  - change (h :: c :: ec ++ [] ++ e ++ rest) with ([h; c] ++ ec ++ e ++ rest).
    rewrite slice_app by lens. cbn [bind].
    change ([h; c] ++ ec ++ e ++ rest) with (([h; c] ++ ec) ++ e ++ rest).
    rewrite Prune_arrived by lens.
    unfold decode_sent_entry. rewrite C1. arr ED.
    eexists. unfold ec. rewrite int64_or_zero_ok by auto. destruct m; cbn in *. subst. reflexivity.
  - rewrite (C3 eq_refl).
    set (eo := EncodeIntMax64 (rp_offset m)) in *.
    change (h :: c :: ec ++ eo ++ e ++ rest) with ([h; c] ++ ec ++ eo ++ e ++ rest).
    rewrite slice_app by lens. cbn [bind].
    rewrite (app_assoc [h; c]). rewrite slice_app by lens. cbn [bind].
    rewrite (app_assoc ([h; c] ++ ec)). rewrite Prune_arrived by lens.
    unfold decode_sent_entry. rewrite C1. arr ED.
    eexists. unfold ec, eo. rewrite !int64_or_zero_ok by auto. destruct m; reflexivity.
Qed.
End Data.

(** ** Area of interest *)
Lemma bind_aoi_no_limit bits ss order pp outer granted m :
  codec_params pp -> (forall a b, order a b = 0%Z <-> a = b) ->
  ba_authorisation m < 2 ^ bits -> ba_authorisation m < 2 ^ 64 ->
  granted (ba_authorisation m) = outer ->
  aoi_max_count (ba_aoi m) = 0 -> aoi_max_size (ba_aoi m) = 0 ->
  let inner := aoi_area (ba_aoi m) in
  codec_path pp (area_path inner) -> area_path outer <> [] -> prefix_of (area_path outer) (area_path inner) ->
  area_any inner = false -> area_any outer = false -> area_subspace inner = area_subspace outer ->
  times_ok (area_times inner) (area_times outer) ->
  r_start (area_times inner) - r_start (area_times outer) < 256 ->
  exists b a, EncodeSetupBindAreaOfInterest bits ss order pp outer m = Ok b /\ same_area a inner
    /\ decodes_arrived (DecodeSetupBindAreaOfInterest pp granted) b (MsgBindAoi (AOI a 0 0) (ba_authorisation m))
         (GetWidthMax32Int (max_component_length pp)).
Proof.
  intros CP OE HB HH HG HC HS inner HP HN HPre HA1 HA2 HSub HT HD.
  destruct (area_in_area_stream order pp CP OE (Codec ss (fun _ => Panic)) inner outer) as (b & a & EB & SA & DA); auto.
  cbn [c_enc] in EB.
  assert (DA' : decodes_arrived (DecodeStreamAreaInArea nil_codec pp outer) b a (GetWidthMax32Int (max_component_length pp))).
  { intros rest sched HR. destruct (DA rest sched HR) as [sc E]. exists sc. exact E. }
  clear DA.
  unfold EncodeSetupBindAreaOfInterest. fold inner. rewrite EB. cbn [bind]. rewrite HC, HS. cbn [N.eqb andb].
  eexists. exists a. split; [reflexivity|]. split; [exact SA|].
  intros rest sched HR. unfold DecodeSetupBindAreaOfInterest. rewrite (N.mod_small _ _ HB).
  change (negb (u8 0 =? 0) || negb (u8 0 =? 0)) with false. cbn match.
  set (h := u8 (CompactWidthOr 40 _)).
  assert (Hh : CompactWidthFromEndOfByte h = GetWidthMax64Int (ba_authorisation m) /\ has h 4 = false).
  { unfold h. destruct (width64 (ba_authorisation m)) as [ -> | [ -> | [ -> | -> ]]]; split; reflexivity. }
  destruct Hh as [Hw H4]. clearbody h.
  pose proof (EncodeIntMax64_len (ba_authorisation m)) as EL. pose proof (int64_or_zero_ok _ HH) as EZ.
  set (e := EncodeIntMax64 (ba_authorisation m)) in *. rewrite <- !app_assoc.
  rewrite NextAbsolute_all by lens. cbn [bind app]. cbn [g_array]. rewrite index_0. cbn [bind]. rewrite Hw.
  rewrite NextAbsolute_all by lens. cbn [bind]. cbn [g_array].
  change (h :: e ++ b ++ rest) with ([h] ++ e ++ b ++ rest). rewrite slice_app by lens. cbn [bind].
  rewrite (app_assoc [h]). rewrite Prune_arrived by lens.
  rewrite EZ, HG. arr DA'. rewrite H4. cbn [negb]. eauto.
Qed.

(** The limit flag is never set. *)
Lemma aoi_header_no_limit w v : In w [1; 2; 4; 8] -> In v [0; 4] -> has (u8 (CompactWidthOr 40 (N.lor (u8 w) v))) 4 = false.
Proof.
  intros HW HV. cbn [In] in *.
  destruct HW as [ <- | [ <- | [ <- | [ <- | [] ]]]]; destruct HV as [ <- | [ <- | [] ]]; reflexivity.
Qed.

(** ** Reconciliation messages: the fields before the range *)

(** Keeps [lia] from looking at a hypothesis. *)
Definition hide (P : Prop) : Prop := P.
Ltac hd H := match type of H with ?P => change (hide P) in H end.

(** All combinations of flags and widths, checked by computation. *)
Lemma width64_in x : In (GetWidthMax64Int x) [1; 2; 4; 8].
Proof. destruct (width64 x) as [->|[->|[->| ->]]]; cbn; auto. Qed.
Lemma all_widths (f : N -> bool) x : forallb f [1; 2; 4; 8] = true -> f (GetWidthMax64Int x) = true.
Proof. intros H. rewrite forallb_forall in H. apply H, width64_in. Qed.
Lemma all_bools (f : bool -> bool) b : forallb f [true; false] = true -> f b = true.
Proof. intros H. rewrite forallb_forall in H. apply H. destruct b; cbn; auto. Qed.

Definition fingerprint_ok (nf sS sR none : bool) (ws wr wc : N) : bool :=
  let first := N.lor (N.lor (N.lor (N.lor 64 (flag 8 nf)) 4) (flag 2 sS)) (flag 1 sR) in
  let widths := N.lor
    (if sS then 0 else u8 (N.shiftl (CompactWidthOr 0 wr) 6))
    (if sR then 0 else u8 (N.shiftl (CompactWidthOr 0 ws) 4)) in
  let second := if none then widths else u8 (CompactWidthOr (N.lor widths 8) wc) in
  eqb (has first 8) nf && has first 4 && eqb (has first 2) sS && eqb (has first 1) sR
  && eqb (has second 8) (negb none)
  && (none || (pow2 (N.land second 3) =? wc))
  && (sS || (pow2 (N.shiftr second 6) =? wr))
  && (sR || (pow2 (N.land (N.shiftr second 4) 3) =? ws)).

Definition announce_ok (want sort sS sR none : bool) (ws wr wc : N) : bool :=
  let first := N.lor (N.lor (N.lor (N.lor 80 (flag 8 want)) 4) (flag 2 sS)) (flag 1 sR) in
  let code t := CompactWidthOr 0 t in
  let handles :=
    if negb sS && negb sR then u8 (N.shiftl (N.lor (u8 (N.shiftl (code ws) 2)) (code wr)) 4)
    else if negb sS && sR then u8 (N.shiftl (code ws) 6)
    else if sS && negb sR then u8 (N.shiftl (code wr) 4)
    else 0 in
  let second := N.lor (N.lor (N.lor handles (N.shiftl (code wc) 2)) (flag 2 sort)) (flag 1 (negb none)) in
  eqb (has first 8) want && has first 4 && eqb (has first 2) sS && eqb (has first 1) sR
  && eqb (has second 1) (negb none) && eqb (has second 2) sort
  && (pow2 (N.shiftr (N.land second 12) 2) =? wc)
  && (sS || (pow2 (N.shiftr second 6) =? ws))
  && (sR || (pow2 (N.land (N.shiftr second 4) 3) =? wr)).

Ltac header_facts K :=
  rewrite !andb_true_iff in K; rewrite ?eqb_true_iff, ?N.eqb_eq in K; rewrite ?orb_true_iff in K;
  decompose [and] K; clear K;
  repeat match goal with |- _ /\ _ => split end; auto;
  intros ->; repeat match goal with H : _ \/ _ |- _ => destruct H; try discriminate end; apply N.eqb_eq; auto.

Lemma fingerprint_header (nf sS sR none : bool) (s r c : N) :
  let first := N.lor (N.lor (N.lor (N.lor 64 (flag 8 nf)) 4) (flag 2 sS)) (flag 1 sR) in
  let widths := N.lor
    (if sS then 0 else u8 (N.shiftl (CompactWidthOr 0 (GetWidthMax64Int r)) 6))
    (if sR then 0 else u8 (N.shiftl (CompactWidthOr 0 (GetWidthMax64Int s)) 4)) in
  let second := if none then widths
                else u8 (CompactWidthOr (N.lor widths 8) (GetWidthMax64Int c)) in
  has first 8 = nf /\ has first 4 = true /\ has first 2 = sS /\ has first 1 = sR
  /\ has second 8 = negb none
  /\ (none = false -> pow2 (N.land second 3) = GetWidthMax64Int c)
  /\ (sS = false -> pow2 (N.shiftr second 6) = GetWidthMax64Int r)
  /\ (sR = false -> pow2 (N.land (N.shiftr second 4) 3) = GetWidthMax64Int s).
Proof.
  assert (K : fingerprint_ok nf sS sR none (GetWidthMax64Int s) (GetWidthMax64Int r) (GetWidthMax64Int c) = true).
  { apply (all_widths (fun wc => fingerprint_ok nf sS sR none (GetWidthMax64Int s) (GetWidthMax64Int r) wc)).
    destruct nf, sS, sR, none;
    match goal with |- forallb (fun wc => fingerprint_ok ?a ?b ?c ?d _ _ wc) _ = true =>
      apply (all_widths (fun wr => forallb (fun wc => fingerprint_ok a b c d (GetWidthMax64Int s) wr wc) [1; 2; 4; 8]));
      apply (all_widths (fun ws => forallb (fun wr => forallb (fun wc => fingerprint_ok a b c d ws wr wc) [1; 2; 4; 8]) [1; 2; 4; 8]))
    end; vm_compute; reflexivity. }
  unfold fingerprint_ok in K. cbv zeta in *. header_facts K.
Qed.

Lemma decodes_if {A} (c : bool) (d : stream -> res (A * stream)) b (a x : A) :
  (c = false -> decodes d b a) -> (c = true -> x = a) ->
  decodes (fun s => if c then Ok (x, s) else d s) (if c then [] else b) a.
Proof.
  intros H1 H2. destruct c; auto. rewrite (H2 eq_refl). apply decodes_ret.
Qed.

Section Reconciliation.
Context {F : Type}.
Variables (bits : N) (ss : codec bytes) (order : bytes -> bytes -> rel) (pp : path_params) (pv : privy).
Variable hr : N -> N -> range3d.

Lemma send_fingerprint neutral (isneutral : F -> bool) (fp : codec F) m r :
  (isneutral (fm_fingerprint m) = true -> fm_fingerprint m = neutral) ->
  (isneutral (fm_fingerprint m) = false -> codec_ok fp (fm_fingerprint m)) ->
  fm_sender m < 2 ^ bits -> fm_receiver m < 2 ^ bits -> fm_covers m < 2 ^ bits ->
  fm_sender m < 2 ^ 64 -> fm_receiver m < 2 ^ 64 -> fm_covers m < 2 ^ 64 ->
  fm_covers m <> 1 ->
  (fm_sender m = pv_sender pv /\ fm_receiver m = pv_receiver pv
   \/ GetWidthMax64Int (fm_sender m) = GetWidthMax64Int (fm_receiver m)) ->
  EncodeRange3dRelative (c_enc ss) order pp (fm_range m) (pv_range pv) = Ok r ->
  exists pre, EncodeReconciliationSendFingerprint bits ss order pp pv isneutral (c_enc fp) m = Ok (pre ++ r)
    /\ fields_decode ss pp (pv_range pv)
         (DecodeReconciliationSendFingerprint ss pp pv hr neutral (c_dec fp)) pre r
         (fun x => MsgFingerprint x (fm_fingerprint m) (fm_sender m) (fm_receiver m) (fm_covers m) true).
Proof.
  intros N1 N2 B1 B2 B3 H1 H2 H3 HC HW ER.
  unfold EncodeReconciliationSendFingerprint. rewrite ER. cbn [bind].
  rewrite !(N.mod_small _ (2 ^ bits)) by auto.
  rewrite (proj2 (N.eqb_neq _ _) HC).
  set (nf := isneutral (fm_fingerprint m)) in *.
  set (sS := fm_sender m =? pv_sender pv). set (sR := fm_receiver m =? pv_receiver pv).
  destruct (fingerprint_header nf sS sR false (fm_sender m) (fm_receiver m) (fm_covers m)) as (A1 & A2 & A3 & A4 & A5 & A6 & A7 & A8).
  set (first := N.lor (N.lor (N.lor (N.lor 64 (flag 8 nf)) 4) (flag 2 sS)) (flag 1 sR)) in *.
  set (second := u8 (CompactWidthOr _ (GetWidthMax64Int (fm_covers m)))) in *.
  cbn match in A6. specialize (A6 eq_refl).
  set (pre := [first; second] ++ EncodeIntMax64 (fm_covers m) ++ (if sS then [] else EncodeIntMax64 (fm_sender m))
      ++ (if sR then [] else EncodeIntMax64 (fm_receiver m)) ++ (if nf then [] else c_enc fp (fm_fingerprint m))).
  exists pre. split; [unfold pre; rewrite <- !app_assoc; reflexivity|].
  intros s rest T. unfold pre in T. rewrite <- !app_assoc in T. cbn [app] in T.
  unfold DecodeReconciliationSendFingerprint.
  clearbody first second. hd A1. hd A2. hd A3. hd A4. hd A5. hd A6. hd A7. hd A8.
  nx. ix. ix. unfold hide in A1, A2, A3, A4, A5, A6. rewrite A5. cbn [negb]. rewrite A1, A2, A3, A4, A6.
  clear A1 A2 A3 A4 A5 A6.
  set (rst := r ++ rest) in *.
  assert (T2 : total (Prune 2 s0) = EncodeIntMax64 (fm_covers m) ++ (if sS then [] else EncodeIntMax64 (fm_sender m))
      ++ (if sR then [] else EncodeIntMax64 (fm_receiver m)) ++ (if nf then [] else c_enc fp (fm_fingerprint m)) ++ rst).
  { pr [first; second] (EncodeIntMax64 (fm_covers m) ++ (if sS then [] else EncodeIntMax64 (fm_sender m))
      ++ (if sR then [] else EncodeIntMax64 (fm_receiver m)) ++ (if nf then [] else c_enc fp (fm_fingerprint m)) ++ rst). }
  destruct (stream_int_decodes _ H3 _ _ T2) as (s1 & -> & T3). cbn [bind].
  assert (D4 : decodes (fun s => if sS then Ok (pv_sender pv, s) else stream_int (pow2 (N.shiftr second 6)) s)
    (if sS then [] else EncodeIntMax64 (fm_sender m)) (fm_sender m)).
  { apply decodes_if.
    - intros E. rewrite (A7 E). destruct HW as [[HW _]| <- ]; [|apply stream_int_decodes; auto].
      unfold sS in E. apply N.eqb_neq in E. congruence.
    - intros E. apply N.eqb_eq in E. auto. }
  destruct (D4 _ _ T3) as (s2 & E2 & T4). rewrite E2. cbn [bind].
  assert (D5 : decodes (fun s => if sR then Ok (pv_receiver pv, s) else stream_int (pow2 (N.land (N.shiftr second 4) 3)) s)
    (if sR then [] else EncodeIntMax64 (fm_receiver m)) (fm_receiver m)).
  { apply decodes_if.
    - intros E. rewrite (A8 E). destruct HW as [[_ HW]| -> ]; [|apply stream_int_decodes; auto].
      unfold sR in E. apply N.eqb_neq in E. congruence.
    - intros E. apply N.eqb_eq in E. auto. }
  destruct (D5 _ _ T4) as (s3 & E3 & T5). rewrite E3. cbn [bind].
  assert (D6 : decodes (fun s => if nf then Ok (neutral, s) else c_dec fp s)
    (if nf then [] else c_enc fp (fm_fingerprint m)) (fm_fingerprint m)).
  { apply decodes_if; auto. intros E. symmetry. auto. }
  destruct (D6 _ _ T5) as (s4 & E4 & T6). rewrite E4. cbn [bind].
  exists s4. split; [exact T6|]. unfold range_or_zero.
  destruct (range_stream ss pp (pv_range pv) _) as [[[x|] ?]| | | |]; reflexivity.
Qed.

Lemma announce_header (want sort sS sR none : bool) (s r c : N) :
  let first := N.lor (N.lor (N.lor (N.lor 80 (flag 8 want)) 4) (flag 2 sS)) (flag 1 sR) in
  let code t := CompactWidthOr 0 (GetWidthMax64Int t) in
  let handles :=
    if negb sS && negb sR then u8 (N.shiftl (N.lor (u8 (N.shiftl (code s) 2)) (code r)) 4)
    else if negb sS && sR then u8 (N.shiftl (code s) 6)
    else if sS && negb sR then u8 (N.shiftl (code r) 4)
    else 0 in
  let second := N.lor (N.lor (N.lor handles (N.shiftl (code c) 2)) (flag 2 sort)) (flag 1 (negb none)) in
  has first 8 = want /\ has first 4 = true /\ has first 2 = sS /\ has first 1 = sR
  /\ has second 1 = negb none /\ has second 2 = sort
  /\ pow2 (N.shiftr (N.land second 12) 2) = GetWidthMax64Int c
  /\ (sS = false -> pow2 (N.shiftr second 6) = GetWidthMax64Int s)
  /\ (sR = false -> pow2 (N.land (N.shiftr second 4) 3) = GetWidthMax64Int r).
Proof.
  assert (K : announce_ok want sort sS sR none (GetWidthMax64Int s) (GetWidthMax64Int r) (GetWidthMax64Int c) = true).
  { apply (all_widths (fun wc => announce_ok want sort sS sR none (GetWidthMax64Int s) (GetWidthMax64Int r) wc)).
    destruct want, sort, sS, sR, none;
    match goal with |- forallb (fun wc => announce_ok ?z ?a ?b ?c ?d _ _ wc) _ = true =>
      apply (all_widths (fun wr => forallb (fun wc => announce_ok z a b c d (GetWidthMax64Int s) wr wc) [1; 2; 4; 8]));
      apply (all_widths (fun ws => forallb (fun wr => forallb (fun wc => announce_ok z a b c d ws wr wc) [1; 2; 4; 8]) [1; 2; 4; 8]))
    end; vm_compute; reflexivity. }
  unfold announce_ok in K. cbv zeta beta in *. header_facts K.
Qed.

Lemma has_252 l : l < 252 -> has l 252 = false.
Proof.
  intros H. unfold has. apply N.eqb_neq. intros E.
  assert (L : N.land l 252 <= l).
  { apply N.ldiff_le. apply N.bits_inj. intros i. rewrite N.ldiff_spec, N.land_spec, N.bits_0.
    destruct (N.testbit l i), (N.testbit 252 i); reflexivity. }
  lia.
Qed.

Lemma announce_entries m r :
  an_sender m < 2 ^ bits -> an_receiver m < 2 ^ bits -> an_count m < 2 ^ bits ->
  an_sender m < 2 ^ 64 -> an_receiver m < 2 ^ 64 -> an_count m < 2 ^ 64 ->
  an_covers m < 252 -> an_covers m <> 1 ->
  EncodeRange3dRelative (c_enc ss) order pp (an_range m) (pv_range pv) = Ok r ->
  exists pre, EncodeReconciliationAnnounceEntries bits ss order pp pv m = Ok (pre ++ r)
    /\ fields_decode ss pp (pv_range pv) (DecodeReconciliationAnnounceEntries ss pp pv hr) pre r
         (fun x => MsgAnnounce x (an_count m) (an_want m) (an_sort m) (an_sender m) (an_receiver m) (an_covers m) true).
Proof.
  intros B1 B2 B3 H1 H2 H3 HC HC1 ER.
  unfold EncodeReconciliationAnnounceEntries. rewrite ER. cbn [bind].
  rewrite !(N.mod_small _ (2 ^ bits)) by auto.
  rewrite (proj2 (N.eqb_neq _ _) HC1), (proj2 (N.leb_gt _ _) HC).
  set (sS := an_sender m =? pv_sender pv). set (sR := an_receiver m =? pv_receiver pv).
  destruct (announce_header (an_want m) (an_sort m) sS sR false (an_sender m) (an_receiver m) (an_count m))
    as (A1 & A2 & A3 & A4 & A5 & A6 & A7 & A8 & A9).
  set (first := N.lor (N.lor (N.lor (N.lor 80 (flag 8 (an_want m))) 4) (flag 2 sS)) (flag 1 sR)) in *.
  set (second := N.lor _ (flag 1 (negb false))) in *.
  set (pre := [first; second] ++ [an_covers m] ++ (if sS then [] else EncodeIntMax64 (an_sender m))
      ++ (if sR then [] else EncodeIntMax64 (an_receiver m)) ++ EncodeIntMax64 (an_count m)).
  exists pre. split; [unfold pre; rewrite <- !app_assoc; reflexivity|].
  intros s rest T. unfold pre in T. rewrite <- !app_assoc in T. cbn [app] in T.
  unfold DecodeReconciliationAnnounceEntries.
  clearbody first second. hd A1. hd A2. hd A3. hd A4. hd A5. hd A6. hd A7. hd A8. hd A9.
  nx. ix. ix. unfold hide in A1, A2, A3, A4, A5, A6, A7. rewrite A5. cbn [negb]. rewrite A1, A2, A3, A4, A6, A7.
  clear A1 A2 A3 A4 A5 A6 A7.
  set (rst := r ++ rest) in *.
  assert (T2 : total (Prune 2 s0) = an_covers m :: (if sS then [] else EncodeIntMax64 (an_sender m))
      ++ (if sR then [] else EncodeIntMax64 (an_receiver m)) ++ EncodeIntMax64 (an_count m) ++ rst).
  { pr [first; second] (an_covers m :: (if sS then [] else EncodeIntMax64 (an_sender m))
      ++ (if sR then [] else EncodeIntMax64 (an_receiver m)) ++ EncodeIntMax64 (an_count m) ++ rst). }
  set (s1 := Prune 2 s0) in *. clearbody s1.
  nx. ix. rewrite has_252 by auto. cbn [bind].
  assert (T3 : total (Prune 1 s2) = (if sS then [] else EncodeIntMax64 (an_sender m))
      ++ (if sR then [] else EncodeIntMax64 (an_receiver m)) ++ EncodeIntMax64 (an_count m) ++ rst).
  { pr [an_covers m] ((if sS then [] else EncodeIntMax64 (an_sender m))
      ++ (if sR then [] else EncodeIntMax64 (an_receiver m)) ++ EncodeIntMax64 (an_count m) ++ rst). }
  assert (D4 : decodes (fun s => if sS then Ok (pv_sender pv, s) else stream_int (pow2 (N.shiftr second 6)) s)
    (if sS then [] else EncodeIntMax64 (an_sender m)) (an_sender m)).
  { apply decodes_if.
    - intros E. rewrite (A8 E). apply stream_int_decodes; auto.
    - intros E. apply N.eqb_eq in E. auto. }
  destruct (D4 _ _ T3) as (s4 & E2 & T4). rewrite E2. cbn [bind].
  assert (D5 : decodes (fun s => if sR then Ok (pv_receiver pv, s) else stream_int (pow2 (N.land (N.shiftr second 4) 3)) s)
    (if sR then [] else EncodeIntMax64 (an_receiver m)) (an_receiver m)).
  { apply decodes_if.
    - intros E. rewrite (A9 E). apply stream_int_decodes; auto.
    - intros E. apply N.eqb_eq in E. auto. }
  destruct (D5 _ _ T4) as (s5 & E3 & T5). rewrite E3. cbn [bind].
  destruct (stream_int_decodes _ H3 _ _ T5) as (s6 & -> & T6). cbn [bind].
  exists s6. split; [exact T6|]. unfold range_or_zero.
  destruct (range_stream ss pp (pv_range pv) _) as [[[x|] ?]| | | |]; reflexivity.
Qed.
End Reconciliation.

Lemma send_entry_header same a :
  let h := N.lor (N.lor (N.lor 80 (flag 8 same)) 4) (CompactWidthOr 0 (GetWidthMax64Int a)) in
  has h 8 = same /\ has h 4 = true /\ pow2 (N.land h 3) = GetWidthMax64Int a.
Proof. destruct (width64 a) as [ -> | [ -> | [ -> | -> ]]]; destruct same; repeat split; reflexivity. Qed.

Section SendEntry.
Context {T : Type}.
Variables (bits : N) (ns ss ds : codec bytes) (order : bytes -> bytes -> rel) (pp : path_params) (tok : codec T) (pv : privy).
Variable (eqns : bytes -> bytes -> bool).
Hypothesis CP : codec_params pp.
Hypothesis order_eq : forall a b, order a b = 0%Z <-> a = b.
Hypothesis eqns_eq : forall a b, eqns a b = true <-> a = b.

(** The token handle is the previous one, or above 63. *)
Lemma send_entry m :
  entry_ok ns ss ds pp (le_entry m) (pv_entry pv) -> codec_arrived tok (le_dynamic m) ->
  le_available m < 2 ^ bits -> le_available m < 2 ^ 64 ->
  (le_static m = pv_static pv \/ 63 < le_static m /\ le_static m < 2 ^ bits /\ le_static m < 2 ^ 64) ->
  exists b, EncodeReconciliationSendEntry bits ss order pp pv ns ds eqns tok m = Ok b
    /\ decodes_arrived (DecodeReconciliationSendEntry ss pp pv ns ds true tok) b m (entry_need ds pp (le_entry m)).
Proof.
  intros HE HT B1 H1 HS.
  destruct (entry_ok_decodes ns ss ds order pp eqns CP order_eq eqns_eq _ _ HE) as (e & EE & ED).
  unfold EncodeReconciliationSendEntry. rewrite EE. cbn [bind]. eexists. split; [reflexivity|].
  intros rest sched HN. unfold DecodeReconciliationSendEntry. rewrite (N.mod_small _ _ B1).
  set (tl := EncodeIntMax64 (le_available m) ++ c_enc tok (le_dynamic m) ++ e ++ rest).
  assert (FIN : forall sc, exists sched', (do (av, s3) <- stream_int (GetWidthMax64Int (le_available m)) (Stream tl [] sc);
      do (t, s4) <- c_dec tok s3; do (e0, s5) <- DecodeStreamEntryRelativeEntry ns ss ds pp (pv_entry pv) s4;
      Ok (MsgLengthyEntry e0 av (le_static m) t, s5)) = Ok (m, Stream rest [] sched')).
  { intros sc. unfold tl. arr (stream_int_arrived _ H1). arr HT. arr ED. destruct m; eauto. }
  destruct (send_entry_header (le_static m =? pv_static pv) (le_available m)) as (A1 & A2 & A3).
  set (h := N.lor (N.lor (N.lor 80 _) 4) _) in *. clearbody h.
  rewrite <- !app_assoc. fold tl.
  destruct (N.eqb_spec (le_static m) (pv_static pv)) as [ES|ES]; cbn [negb andb app].
  - change (h :: tl) with ([h] ++ tl). rewrite NextAbsolute_all by (clear; lens). cbn [bind].
    change ([h] ++ tl) with (h :: tl) at 1. rewrite index_0. cbn [bind]. rewrite A1, A2, A3. rewrite Prune_arrived by reflexivity.
    cbn [bind]. rewrite <- ES. apply FIN.
  - destruct HS as [HS|(HS & BS & H64)]; [congruence|].
    rewrite (N.mod_small _ _ BS). rewrite (proj2 (N.ltb_lt _ _) HS).
    rewrite (proj2 (N.ltb_ge (le_static m) 63)) by lia.
    set (w := GetWidthMax64Int (le_static m)) in *.
    match goal with |- context[h :: ?x ++ _] => assert (EX : exists z, x = [z] /\ (z <? 63) = false
      /\ (if has z 255 then 8 else if has z 191 then 4 else if has z 127 then 2 else 1) = w) end.
    { destruct (width64 (le_static m)) as [E|[E|[E|E]]]; fold w in E; rewrite E; eexists; repeat split; reflexivity. }
    destruct EX as (z & -> & Z1 & Z2).
    pose proof (EncodeIntMax64_len (le_static m)) as EL. pose proof (int64_or_zero_ok _ H64) as EZ. fold w in EL.
    set (es := EncodeIntMax64 (le_static m)) in *. clearbody w es.
    cbn [app]. rewrite NextAbsolute_all by (clear; lens). cbn [bind]. rewrite index_0. cbn [bind]. rewrite A1, A2, A3.
    rewrite NextAbsolute_all by (clear; lens). cbn [bind]. rewrite index_1. cbn [bind]. rewrite Z2.
    rewrite NextAbsolute_all by (clear - EL; lens). cbn [bind]. rewrite Z1.
    change (h :: z :: es ++ tl) with ([h; z] ++ es ++ tl). rewrite slice_app by (clear - EL; lens). cbn [bind].
    rewrite (app_assoc [h; z]). rewrite Prune_arrived by (clear - EL; lens). rewrite EZ. apply FIN.
Qed.
End SendEntry.
