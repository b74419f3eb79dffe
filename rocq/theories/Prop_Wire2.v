(** C42, C44, C45, C46: data, setup and reconciliation messages, dispatch. *)
From Verif Require Import Base M_Order M_Encoding M_Paths M_Ranges M_Areas M_Entry M_Stream M_Wire M_Rel M_Wire2
  S_Order S_Wire S_Rel S_Wire2 P_Order P_Encoding P_Paths P_Stream P_Wire P_Rel P_AreaCodec P_RangeCodec P_Wire2 Prop_Rel.
Local Open Scope N_scope.

(** ** Names for the examples and witnesses *)
Definition w_ref := Entry [110] [97] [100; 101] [[1]; [2]] 1000 7.
Definition w_entry := Entry [110] [98] [102; 103] [[1]; [9; 9]] 900 70000.
Lemma w_entry_ok : entry_ok (fixed_codec 1) (fixed_codec 1) (fixed_codec 2) rel_pp w_entry w_ref.
Proof.
  split; [apply rel_path; reflexivity|]. split; [exists [1], [[9; 9]], [[2]]; split; reflexivity|].
  repeat split; try (apply fixed_codec_arrived; reflexivity).
Qed.
Definition no_area (a b : N) : area := Area [] [] (Range 0 0 true) true.
Definition no_namespace (a b : N) : bytes := [].

Lemma Ok_inj {A} (x y : A) : Ok x = Ok y -> y = x.
Proof. congruence. Qed.

(** * C42: data messages *)

(** Metadata and payload replies round trip for all values, all following bytes
    and all ways in which the bytes arrive. *)
Theorem C42_metadata m : mm_sender m < 2 ^ 64 -> mm_receiver m < 2 ^ 64 ->
  decodes DecodeDataSetEagerness (EncodeDataSetEagerness m) m.
Proof. apply set_eagerness_decodes. Qed.
Print Assumptions C42_metadata.

Theorem C42_reply_payload handle : handle < 2 ^ 64 ->
  decodes DecodeDataReplyPayload (EncodeDataReplyPayload handle) handle.
Proof. apply reply_payload_decodes. Qed.
Print Assumptions C42_reply_payload.

(** A payload request: for entries as in C20, once everything has arrived. *)
Theorem C42_bind_payload_request_partial ns ss ds eqns order pp ha hn ref m :
  codec_params pp -> (forall a b, order a b = 0%Z <-> a = b) -> (forall a b, eqns a b = true <-> a = b) ->
  entry_ok ns ss ds pp (rp_entry m) ref -> rp_capability m < 2 ^ 64 -> rp_offset m < 2 ^ 64 ->
  exists b, EncodeDataBindPayloadRequest ns ss ds eqns order pp ref m = Ok b
    /\ decodes_arrived (DecodeDataBindPayloadRequest ns ss ds pp ha hn ref) b m (entry_need ds pp (rp_entry m)).
Proof. intros. apply bind_payload_request; auto. Qed.
Print Assumptions C42_bind_payload_request_partial.

(** A sent entry: moreover only for an offset of 0 or the payload's length, and
    for handles below 256 other than 2, 4 and 8. *)
Theorem C42_send_entry_partial (T : Type) ns ss ds eqns order pp ha hn (tok : codec T) ref m :
  codec_params pp -> (forall a b, order a b = 0%Z <-> a = b) -> (forall a b, eqns a b = true <-> a = b) ->
  entry_ok ns ss ds pp (de_entry m) ref -> codec_arrived tok (de_dynamic m) ->
  de_static m < 256 -> ~ In (de_static m) [2; 4; 8] ->
  (de_offset m = 0 \/ de_offset m = e_length (de_entry m)) ->
  exists b, EncodeDataSendEntry ns ss ds eqns order pp tok ref m = Ok b
    /\ decodes_arrived (DecodeDataSendEntry ns ss ds pp ha hn tok ref) b m (entry_need ds pp (de_entry m)).
Proof. intros. apply data_send_entry; auto. Qed.
Print Assumptions C42_send_entry_partial.

(** A payload: when it has arrived with its header and nothing follows it. *)
Theorem C42_send_payload_partial b sched : len b < 2 ^ 63 ->
  exists sched', DecodeDataSendPayload (Stream (EncodeDataSendPayload (MsgPayload (len b) b)) [] sched)
    = Ok (MsgPayload (len b) b, Stream [] [] sched').
Proof. apply data_send_payload_alone. Qed.
Print Assumptions C42_send_payload_partial.

Definition w_send := MsgDataEntry (T := bytes) w_entry 77 [3] 70000.
Definition w_request := MsgRequestPayload w_entry 1234 5678.
Example C42_instance :
  (exists b, EncodeDataBindPayloadRequest (fixed_codec 1) (fixed_codec 1) (fixed_codec 2) rel_eq OrderBytes rel_pp w_ref w_request = Ok b
    /\ DecodeDataBindPayloadRequest (fixed_codec 1) (fixed_codec 1) (fixed_codec 2) rel_pp no_area no_namespace w_ref (Stream (b ++ [5]) [] [])
       = Ok (w_request, Stream [5] [] []))
  /\ (exists b, EncodeDataSendEntry (fixed_codec 1) (fixed_codec 1) (fixed_codec 2) rel_eq OrderBytes rel_pp (fixed_codec 1) w_ref w_send = Ok b
    /\ DecodeDataSendEntry (fixed_codec 1) (fixed_codec 1) (fixed_codec 2) rel_pp no_area no_namespace (fixed_codec 1) w_ref (Stream (b ++ [5]) [] [])
       = Ok (w_send, Stream [5] [] [])).
Proof.
  split.
  - destruct (C42_bind_payload_request_partial (fixed_codec 1) (fixed_codec 1) (fixed_codec 2) rel_eq OrderBytes rel_pp no_area no_namespace w_ref w_request)
      as (b & E & _); try reflexivity; [apply rel_pp_ok|apply rel_order_eq|apply rel_eq_eq|apply w_entry_ok|].
    exists b. split; [exact E|]. vm_compute in E. injection E as <-. vm_compute. reflexivity.
  - destruct (C42_send_entry_partial bytes (fixed_codec 1) (fixed_codec 1) (fixed_codec 2) rel_eq OrderBytes rel_pp no_area no_namespace (fixed_codec 1) w_ref w_send)
      as (b & E & _); try reflexivity;
      [apply rel_pp_ok|apply rel_order_eq|apply rel_eq_eq|apply w_entry_ok|apply fixed_codec_arrived; reflexivity|cbn; lia|cbn; auto|].
    exists b. split; [exact E|]. vm_compute in E. injection E as <-. vm_compute. reflexivity.
Qed.

(** Missing, and false. A static token handle from 256 on never arrives: whatever
    is decoded has a handle below 256. *)
Theorem C42_send_entry_handle_refuted (T : Type) ns ss ds eqns order pp ha hn (tok : codec T) ref ref' m b s rest m' s' :
  256 <= de_static m -> EncodeDataSendEntry ns ss ds eqns order pp tok ref m = Ok b -> total s = b ++ rest ->
  DecodeDataSendEntry ns ss ds pp ha hn tok ref' s = Ok (m', s') -> de_static m' < 256.
Proof.
  intros HH EB TT ED. unfold EncodeDataSendEntry in EB.
  destruct (EncodeEntryRelativeEntry _ _ _ _ _ _ _ _) as [e| | | |]; try discriminate EB. cbn [bind] in EB.
  apply Ok_inj in EB. subst b. unfold DecodeDataSendEntry in ED.
  assert (HW : u8 (N.lor 96 (CompactWidthOr 0 (de_static m))) = 96).
  { unfold CompactWidthOr, CompactWidthEndMasks. rewrite !(proj2 (N.eqb_neq _ _)) by lia. reflexivity. }
  rewrite HW in TT. set (c := u8 _) in TT. clearbody c. rewrite <- !app_assoc in TT. cbn [app] in TT.
  assert (EW : exists x l, EncodeIntMax64 (de_static m) = x :: l /\ x < 256).
  { assert (WF : wf_bytes (EncodeIntMax64 (de_static m))).
    { unfold EncodeIntMax64. destruct (width64 (de_static m)) as [ -> | [ -> | [ -> | -> ]]]; apply be_encode_wf. }
    pose proof (EncodeIntMax64_len (de_static m)) as EL. pose proof (width64 (de_static m)) as W.
    destruct (EncodeIntMax64 (de_static m)) as [|x l]; [unfold len in EL; cbn in EL; lia|].
    inversion WF; subst. eauto. }
  destruct EW as (x & l & EX & HX). rewrite EX in TT. cbn [app] in TT.
  set (tl := l ++ c_enc tok (de_dynamic m) ++ e ++ rest) in TT. clearbody tl.
  destruct (NextAbsolute_spec 2 s) as (s1 & E1 & T1 & L1); [rewrite TT; lens|]. rewrite E1 in ED. cbn [bind] in ED.
  rewrite TT in T1. rewrite !index_total in ED by lia. rewrite T1, index_0, index_1 in ED. cbn [bind] in ED.
  change (CompactWidthFromEndOfByte 96) with 1 in ED.
  assert (T2 : total (Prune 2 s1) = x :: tl) by (rewrite Prune_total by lia; rewrite T1; reflexivity).
  set (s2 := Prune 2 s1) in *. clearbody s2.
  unfold stream_int in ED at 1.
  destruct (NextAbsolute_spec 1 s2) as (s3 & E3 & T3 & L3); [rewrite T2; lens|]. rewrite E3 in ED. cbn [bind] in ED.
  rewrite T2 in T3. rewrite slice_total in ED by lia. rewrite T3 in ED.
  change (slice (x :: tl) 0 1) with (slice (x :: tl) 0 1) in ED.
  assert (ES : slice (x :: tl) 0 1 = Ok [x]).
  { change (x :: tl) with ([] ++ [x] ++ tl). apply slice_app; reflexivity. }
  rewrite ES in ED. cbn [bind] in ED. change (DecodeIntMax64 [x]) with (Ok (be_decode [x])) in ED. cbn [bind] in ED.
  repeat match type of ED with
  | bind ?x _ = Ok _ => destruct x as [?| | | |] eqn:?; cbn [bind] in ED; try discriminate ED
  | (let '(_, _) := ?p in _) = Ok _ => destruct p
  end. injection ED as <- <-. cbn. lia.
Qed.
Print Assumptions C42_send_entry_handle_refuted.

(** A handle of 2 is read as two bytes; an offset inside the payload is not
    written, and the decoder takes it from the entry; the payload message prunes
    the bytes that follow it, and panics when the payload comes after its header;
    so does a payload request whose offset comes late. *)
Theorem C42_data_refuted :
  (exists m b m' s', de_static m = 2 /\ entry_ok (fixed_codec 1) (fixed_codec 1) (fixed_codec 2) rel_pp (de_entry m) w_ref
     /\ EncodeDataSendEntry (fixed_codec 1) (fixed_codec 1) (fixed_codec 2) rel_eq OrderBytes rel_pp (fixed_codec 1) w_ref m = Ok b
     /\ DecodeDataSendEntry (fixed_codec 1) (fixed_codec 1) (fixed_codec 2) rel_pp no_area no_namespace (fixed_codec 1) w_ref (Stream (b ++ repeat 0 20) [] []) = Ok (m', s')
     /\ de_static m' = 515)
  /\ (exists m b m' s', de_offset m = 700 /\ entry_ok (fixed_codec 1) (fixed_codec 1) (fixed_codec 2) rel_pp (de_entry m) w_ref
     /\ EncodeDataSendEntry (fixed_codec 1) (fixed_codec 1) (fixed_codec 2) rel_eq OrderBytes rel_pp (fixed_codec 1) w_ref m = Ok b
     /\ DecodeDataSendEntry (fixed_codec 1) (fixed_codec 1) (fixed_codec 2) rel_pp no_area no_namespace (fixed_codec 1) w_ref (Stream (b ++ repeat 0 20) [] []) = Ok (m', s')
     /\ de_offset m' <> 700)
  /\ (exists b rest s', b <> [] /\ rest <> []
     /\ DecodeDataSendPayload (Stream (EncodeDataSendPayload (MsgPayload (len b) b) ++ rest) [] []) = Ok (MsgPayload (len b) b, s')
     /\ total s' = [])
  /\ (exists b s, total s = EncodeDataSendPayload (MsgPayload (len b) b) /\ DecodeDataSendPayload s = Panic)
  /\ (exists b s, EncodeDataBindPayloadRequest (fixed_codec 1) (fixed_codec 1) (fixed_codec 2) rel_eq OrderBytes rel_pp w_ref w_request = Ok b
     /\ total s = b
     /\ DecodeDataBindPayloadRequest (fixed_codec 1) (fixed_codec 1) (fixed_codec 2) rel_pp no_area no_namespace w_ref s = Panic).
Proof.
  split; [|split; [|split; [|split]]].
  - exists (MsgDataEntry w_entry 2 [3] 0).
    destruct (EncodeDataSendEntry (fixed_codec 1) (fixed_codec 1) (fixed_codec 2) rel_eq OrderBytes rel_pp (fixed_codec 1) w_ref
      (MsgDataEntry w_entry 2 [3] 0)) as [b| | | |] eqn:E; try (vm_compute in E; discriminate).
    exists b. vm_compute in E. injection E as <-. eexists. eexists. split; [reflexivity|]. split; [apply w_entry_ok|].
    split; [reflexivity|]. split; [vm_compute; reflexivity|reflexivity].
  - exists (MsgDataEntry w_entry 77 [3] 700).
    destruct (EncodeDataSendEntry (fixed_codec 1) (fixed_codec 1) (fixed_codec 2) rel_eq OrderBytes rel_pp (fixed_codec 1) w_ref
      (MsgDataEntry w_entry 77 [3] 700)) as [b| | | |] eqn:E; try (vm_compute in E; discriminate).
    exists b. vm_compute in E. injection E as <-. eexists. eexists. split; [reflexivity|]. split; [apply w_entry_ok|].
    split; [reflexivity|]. split; [vm_compute; reflexivity|discriminate].
  - exists [1; 2], [7; 8; 9]. eexists. split; [discriminate|]. split; [discriminate|]. split; [vm_compute; reflexivity|reflexivity].
  - exists [1; 2], (Stream [] [100; 2; 1; 2] []). split; [reflexivity|vm_compute; reflexivity].
  - destruct (EncodeDataBindPayloadRequest (fixed_codec 1) (fixed_codec 1) (fixed_codec 2) rel_eq OrderBytes rel_pp w_ref w_request)
      as [b| | | |] eqn:E; try (vm_compute in E; discriminate).
    exists b, (Stream [] b []). split; [reflexivity|]. vm_compute in E. injection E as <-. split; [reflexivity|vm_compute; reflexivity].
Qed.
Print Assumptions C42_data_refuted.

(** * C44: setup messages *)

(** Capabilities and static tokens round trip, whatever follows and however the
    bytes arrive. *)
Theorem C44_read_capability (K Sig : Type) bits (enc_cap : K -> bytes) dec_cap (sg : codec Sig) m :
  ms_handle m < 2 ^ bits -> ms_handle m < 2 ^ 64 ->
  decodes dec_cap (enc_cap (ms_capability m)) (ms_capability m) -> codec_ok sg (ms_signature m) ->
  decodes (DecodeSetupBindReadCapability dec_cap sg) (EncodeSetupBindReadCapability bits enc_cap sg m) m.
Proof. apply read_cap_decodes. Qed.
Print Assumptions C44_read_capability.

Theorem C44_static_token (K : Type) (t : codec K) token : codec_ok t token ->
  decodes (DecodeSetupBindStaticToken t) (EncodeSetupBindStaticToken t token) token.
Proof. apply static_token_decodes. Qed.
Print Assumptions C44_static_token.

(** An area of interest without limits, for areas as in C22 within a granted area
    of the same subspace. *)
Theorem C44_area_partial bits ss order pp outer granted m :
  codec_params pp -> (forall a b, order a b = 0%Z <-> a = b) ->
  ba_authorisation m < 2 ^ bits -> ba_authorisation m < 2 ^ 64 ->
  granted (ba_authorisation m) = outer ->
  aoi_max_count (ba_aoi m) = 0 -> aoi_max_size (ba_aoi m) = 0 ->
  let inner := aoi_area (ba_aoi m) in
  codec_path pp (area_path inner) -> area_path outer <> [] -> prefix_of (area_path outer) (area_path inner) ->
  area_any inner = false -> area_any outer = false -> area_subspace inner = area_subspace outer ->
  times_ok (area_times inner) (area_times outer) ->
  r_start (area_times inner) - r_start (area_times outer) < 256 ->
  exists b a, EncodeSetupBindAreaOfInterest bits ss order pp outer m = Ok b /\ same_area a inner
    /\ decodes_arrived (DecodeSetupBindAreaOfInterest pp granted) b (MsgBindAoi (AOI a 0 0) (ba_authorisation m))
         (GetWidthMax32Int (max_component_length pp)).
Proof. apply bind_aoi_no_limit. Qed.
Print Assumptions C44_area_partial.

Definition w_bind := MsgBindAoi (AOI C22_inner 0 0) 500.
Example C44_instance :
  (exists b, EncodeSetupBindAreaOfInterest 64 (fun x => x) OrderBytes rel_pp C22_outer w_bind = Ok b
    /\ DecodeSetupBindAreaOfInterest rel_pp (fun h => if h =? 500 then C22_outer else C22_any) (Stream (b ++ [7]) [] [])
       = Ok (w_bind, Stream [7] [] []))
  /\ DecodeSetupBindReadCapability (c_dec (fixed_codec 2)) (fixed_codec 1)
       (Stream [] (EncodeSetupBindReadCapability 64 (fun x => x) (fixed_codec 1) (MsgReadCap [1; 2] 900 [3]) ++ [4]) [])
     = Ok (MsgReadCap [1; 2] 900 [3], Stream [] [4] []).
Proof.
  split; [|vm_compute; reflexivity].
  destruct (C44_area_partial 64 (fun x => x) OrderBytes rel_pp C22_outer (fun h => if h =? 500 then C22_outer else C22_any) w_bind)
    as (b & a & E & _); try reflexivity; try discriminate.
  - apply rel_pp_ok.
  - apply rel_order_eq.
  - apply rel_path. reflexivity.
  - exists [[2; 3]]. reflexivity.
  - unfold times_ok; cbn. repeat split; try lia; try discriminate.
  - exists b. split; [exact E|]. vm_compute in E. injection E as <-. vm_compute. reflexivity.
Qed.

(** The decoder by itself would read the limits: from a header with the flag and the widths as the
    specification has them (no encoder of /repo makes it), for any bytes that decode to an area. *)
Theorem C44_limits_read pp granted auth h l ab a need count size :
  auth < 2 ^ 64 -> count < 2 ^ 64 -> size < 2 ^ 64 ->
  CompactWidthFromEndOfByte h = GetWidthMax64Int auth -> has h 4 = true ->
  CompactWidthFromEndOfByte (N.shiftr l 6) = GetWidthMax64Int count ->
  CompactWidthFromEndOfByte (N.shiftr l 4) = GetWidthMax64Int size ->
  decodes_arrived (DecodeStreamAreaInArea nil_codec pp (granted auth)) ab a need ->
  decodes_arrived (DecodeSetupBindAreaOfInterest pp granted)
    ([h] ++ EncodeIntMax64 auth ++ ab ++ [l] ++ EncodeIntMax64 count ++ EncodeIntMax64 size)
    (MsgBindAoi (AOI a count size) auth) need.
Proof.
  intros HA HC HS Hw H4 Hc Hs DA rest sched HR. unfold DecodeSetupBindAreaOfInterest.
  pose proof (EncodeIntMax64_len auth) as EL. pose proof (int64_or_zero_ok _ HA) as EZ.
  pose proof (EncodeIntMax64_len count) as CL. pose proof (int64_or_zero_ok _ HC) as CZ.
  pose proof (EncodeIntMax64_len size) as SL. pose proof (int64_or_zero_ok _ HS) as SZ.
  set (e := EncodeIntMax64 auth) in *. set (c := EncodeIntMax64 count) in *. set (z := EncodeIntMax64 size) in *. rewrite <- !app_assoc.
  rewrite NextAbsolute_all by lens. cbn [bind app]. cbn [g_array]. rewrite index_0. cbn [bind]. rewrite Hw.
  rewrite NextAbsolute_all by lens. cbn [bind]. cbn [g_array].
  change (h :: e ++ ab ++ l :: c ++ z ++ rest) with ([h] ++ e ++ ab ++ [l] ++ c ++ z ++ rest). rewrite slice_app by lens. cbn [bind].
  rewrite (app_assoc [h]). rewrite Prune_arrived by lens. rewrite EZ.
  arr DA. rewrite H4. cbn [negb app].
  rewrite NextAbsolute_all by lens. cbn [bind g_array]. rewrite index_0. cbn [bind]. rewrite Hc, Hs.
  rewrite NextAbsolute_all by lens. cbn [bind g_array].
  change (l :: c ++ z ++ rest) with ([l] ++ c ++ z ++ rest). rewrite slice_app by lens. cbn [bind].
  replace (slice ([l] ++ c ++ z ++ rest) (1 + GetWidthMax64Int count) (1 + GetWidthMax64Int count + GetWidthMax64Int size)) with (Ok z)
    by (symmetry; rewrite (app_assoc [l]); apply slice_app; lens).
  cbn [bind]. replace ([l] ++ c ++ z ++ rest) with (([l] ++ c ++ z) ++ rest) by (rewrite <- !app_assoc; reflexivity).
  rewrite Prune_arrived by lens. rewrite CZ, SZ. eauto.
Qed.
Print Assumptions C44_limits_read.

Example C44_instance_limits :
  match EncodeAreaInArea (fun x => x) OrderBytes rel_pp C22_inner C22_outer with
  | Ok ab => DecodeSetupBindAreaOfInterest rel_pp (fun _ => C22_outer)
       (Stream ([45] ++ EncodeIntMax64 500 ++ ab ++ [64] ++ EncodeIntMax64 300 ++ EncodeIntMax64 9 ++ [7]) [] [])
     = Ok (MsgBindAoi (AOI C22_inner 300 9) 500, Stream [7] [] [])
  | _ => False
  end.
Proof. vm_compute. reflexivity. Qed.

(** Missing, and false: no limit ever arrives. Whatever is decoded from the bytes
    of an area of interest has no limits. *)
Theorem C44_limits_refuted bits ss order pp outer granted m b s rest m' s' :
  EncodeSetupBindAreaOfInterest bits ss order pp outer m = Ok b -> total s = b ++ rest ->
  DecodeSetupBindAreaOfInterest pp granted s = Ok (m', s') ->
  aoi_max_count (ba_aoi m') = 0 /\ aoi_max_size (ba_aoi m') = 0.
Proof.
  intros EB TT ED.
  assert (HB : exists h t, b = h :: t /\ has h 4 = false).
  { unfold EncodeSetupBindAreaOfInterest in EB.
    destruct (EncodeAreaInArea _ _ _ _ _) as [a| | | |]; try discriminate EB. cbn [bind] in EB.
    match type of EB with context[CompactWidthOr 40 ?x] => assert (H4 : has (u8 (CompactWidthOr 40 x)) 4 = false) end.
    { apply aoi_header_no_limit.
      - destruct (width64 (ba_authorisation m mod 2 ^ bits)) as [ -> | [ -> | [ -> | -> ]]]; cbn; auto.
      - destruct (negb _ || negb _); cbn; auto. }
    destruct ((aoi_max_count (ba_aoi m) =? 0) && (aoi_max_size (ba_aoi m) =? 0)); injection EB as <-; eauto. }
  destruct HB as (h & t & -> & H4). cbn [app] in TT. unfold DecodeSetupBindAreaOfInterest in ED.
  destruct (NextAbsolute_spec 1 s) as (s1 & E1 & T1 & L1); [rewrite TT; lens|]. rewrite E1 in ED. cbn [bind] in ED.
  rewrite TT in T1. rewrite index_total in ED by lia. rewrite T1, index_0 in ED. cbn [bind] in ED. rewrite H4 in ED.
  cbn [negb] in ED.
  repeat match type of ED with
  | bind ?x _ = Ok _ => destruct x as [?| | | |] eqn:?; cbn [bind] in ED; try discriminate ED
  | (let '(_, _) := ?p in _) = Ok _ => destruct p
  end. injection ED as <- <-. split; reflexivity.
Qed.
Print Assumptions C44_limits_refuted.

(** With a limit the authorisation may arrive wrong as well, and the bytes of the
    limits are left in the stream; an encoded subspace calls a decoder that is
    not there. *)
Theorem C44_area_refuted :
  (exists m b m' s', aoi_max_count (ba_aoi m) = 9 /\ ba_authorisation m = 5
     /\ EncodeSetupBindAreaOfInterest 64 (fun x => x) OrderBytes rel_pp C22_outer m = Ok b
     /\ DecodeSetupBindAreaOfInterest rel_pp (fun h => C22_outer) (Stream (b ++ repeat 0 8) [] []) = Ok (m', s')
     /\ total s' = [0; 9; 0] ++ repeat 0 8)
  /\ (exists m b m' s', aoi_max_count (ba_aoi m) = 9 /\ ba_authorisation m = 258
     /\ EncodeSetupBindAreaOfInterest 64 (fun x => x) OrderBytes rel_pp C22_outer m = Ok b
     /\ DecodeSetupBindAreaOfInterest rel_pp (fun h => C22_outer) (Stream (b ++ repeat 0 80) [] []) = Ok (m', s')
     /\ ba_authorisation m' = 1)
  /\ (exists m b, EncodeSetupBindAreaOfInterest 64 (fun x => x) OrderBytes rel_pp C22_any m = Ok b
     /\ aoi_max_count (ba_aoi m) = 0 /\ aoi_max_size (ba_aoi m) = 0
     /\ DecodeSetupBindAreaOfInterest rel_pp (fun h => C22_any) (Stream (b ++ [7]) [] []) = Panic).
Proof.
  split; [|split].
  - exists (MsgBindAoi (AOI C22_inner 9 0) 5).
    destruct (EncodeSetupBindAreaOfInterest 64 (fun x => x) OrderBytes rel_pp C22_outer (MsgBindAoi (AOI C22_inner 9 0) 5))
      as [b| | | |] eqn:E; try (vm_compute in E; discriminate).
    exists b. vm_compute in E. injection E as <-. eexists. eexists. split; [reflexivity|]. split; [reflexivity|]. split; [reflexivity|]. split; [vm_compute; reflexivity|reflexivity].
  - exists (MsgBindAoi (AOI C22_inner 9 0) 258).
    destruct (EncodeSetupBindAreaOfInterest 64 (fun x => x) OrderBytes rel_pp C22_outer (MsgBindAoi (AOI C22_inner 9 0) 258))
      as [b| | | |] eqn:E; try (vm_compute in E; discriminate).
    exists b. vm_compute in E. injection E as <-. eexists. eexists. split; [reflexivity|]. split; [reflexivity|]. split; [reflexivity|]. split; [vm_compute; reflexivity|reflexivity].
  - exists (MsgBindAoi (AOI C22_inner 0 0) 5).
    destruct (EncodeSetupBindAreaOfInterest 64 (fun x => x) OrderBytes rel_pp C22_any (MsgBindAoi (AOI C22_inner 0 0) 5))
      as [b| | | |] eqn:E; try (vm_compute in E; discriminate).
    exists b. vm_compute in E. injection E as <-. split; [reflexivity|]. split; [reflexivity|]. split; [reflexivity|]. vm_compute. reflexivity.
Qed.
Print Assumptions C44_area_refuted.

(** * C45: reconciliation messages *)

(** A payload round trips, whatever follows and however it arrives. *)
Theorem C45_send_payload bits b : len b < 2 ^ 63 -> len b < 2 ^ bits ->
  decodes DecodeReconciliationSendPayload (EncodeReconciliationSendPayload bits (MsgPayload (len b) b))
    (MsgPayload (len b) b).
Proof. apply reconciliation_send_payload_decodes. Qed.
Print Assumptions C45_send_payload.

(** A fingerprint: all fields but the range arrive, if the message covers a
    message other than message 1 and the handles are those sent before or
    need the same number of bytes. The range never arrives, see below. *)
Theorem C45_fingerprint_partial (F : Type) bits ss order pp pv hr neutral (isneutral : F -> bool) (fp : codec F) m r :
  (isneutral (fm_fingerprint m) = true -> fm_fingerprint m = neutral) ->
  (isneutral (fm_fingerprint m) = false -> codec_ok fp (fm_fingerprint m)) ->
  fm_sender m < 2 ^ bits -> fm_receiver m < 2 ^ bits -> fm_covers m < 2 ^ bits ->
  fm_sender m < 2 ^ 64 -> fm_receiver m < 2 ^ 64 -> fm_covers m < 2 ^ 64 ->
  fm_covers m <> 1 ->
  (fm_sender m = pv_sender pv /\ fm_receiver m = pv_receiver pv
   \/ GetWidthMax64Int (fm_sender m) = GetWidthMax64Int (fm_receiver m)) ->
  EncodeRange3dRelative (c_enc ss) order pp (fm_range m) (pv_range pv) = Ok r ->
  exists pre, EncodeReconciliationSendFingerprint bits ss order pp pv isneutral (c_enc fp) m = Ok (pre ++ r)
    /\ fields_decode ss pp (pv_range pv)
         (DecodeReconciliationSendFingerprint ss pp pv hr neutral (c_dec fp)) pre r
         (fun x => MsgFingerprint x (fm_fingerprint m) (fm_sender m) (fm_receiver m) (fm_covers m) true).
Proof. apply send_fingerprint. Qed.
Print Assumptions C45_fingerprint_partial.

(** An announcement: likewise, for all handles, if it covers a message below 252
    other than message 1. *)
Theorem C45_announce_partial bits ss order pp pv hr m r :
  an_sender m < 2 ^ bits -> an_receiver m < 2 ^ bits -> an_count m < 2 ^ bits ->
  an_sender m < 2 ^ 64 -> an_receiver m < 2 ^ 64 -> an_count m < 2 ^ 64 ->
  an_covers m < 252 -> an_covers m <> 1 ->
  EncodeRange3dRelative (c_enc ss) order pp (an_range m) (pv_range pv) = Ok r ->
  exists pre, EncodeReconciliationAnnounceEntries bits ss order pp pv m = Ok (pre ++ r)
    /\ fields_decode ss pp (pv_range pv) (DecodeReconciliationAnnounceEntries ss pp pv hr) pre r
         (fun x => MsgAnnounce x (an_count m) (an_want m) (an_sort m) (an_sender m) (an_receiver m) (an_covers m) true).
Proof. apply announce_entries. Qed.
Print Assumptions C45_announce_partial.

(** An entry as in C20, with the token handle sent before or one above 63, if the
    token is decoded before the entry. *)
Theorem C45_send_entry_partial (T : Type) bits ns ss ds order pp (tok : codec T) pv eqns m :
  codec_params pp -> (forall a b, order a b = 0%Z <-> a = b) -> (forall a b, eqns a b = true <-> a = b) ->
  entry_ok ns ss ds pp (le_entry m) (pv_entry pv) -> codec_arrived tok (le_dynamic m) ->
  le_available m < 2 ^ bits -> le_available m < 2 ^ 64 ->
  (le_static m = pv_static pv \/ 63 < le_static m /\ le_static m < 2 ^ bits /\ le_static m < 2 ^ 64) ->
  exists b, EncodeReconciliationSendEntry bits ss order pp pv ns ds eqns tok m = Ok b
    /\ decodes_arrived (DecodeReconciliationSendEntry ss pp pv ns ds true tok) b m (entry_need ds pp (le_entry m)).
Proof. intros CP OE EE. apply send_entry; auto. Qed.
Print Assumptions C45_send_entry_partial.

Definition w_range := Range3d (Range [97] [99] false) (Range [[1]] [[1]; [9]] false) (Range 5 100 false).
Definition w_range2 := Range3d (Range [97] [98] false) (Range [[1]; [4]] [[1]; [5]] false) (Range 50 60 false).
Definition w_privy := Privy 3 4 w_range 20 w_ref.
Definition w_fp := MsgFingerprint w_range2 [5; 5] 300 400 70000 true.
Definition w_announce := MsgAnnounce w_range2 90 true false 3 70000 251 true.
Definition w_lengthy := MsgLengthyEntry (T := bytes) w_entry 1000 700 [3].

Example C45_instance :
  (exists b m' s', EncodeReconciliationSendFingerprint 64 (fixed_codec 1) OrderBytes rel_pp w_privy (fun _ => false) (fun x => x) w_fp = Ok b
    /\ DecodeReconciliationSendFingerprint (fixed_codec 1) rel_pp w_privy (fun _ _ => w_range) [] (c_dec (fixed_codec 2))
         (Stream (b ++ [1; 2; 3; 4; 5; 6; 7; 8]) [] []) = Ok (m', s')
    /\ fm_fingerprint m' = [5; 5] /\ fm_sender m' = 300 /\ fm_receiver m' = 400 /\ fm_covers m' = 70000)
  /\ (exists b m' s', EncodeReconciliationAnnounceEntries 64 (fixed_codec 1) OrderBytes rel_pp w_privy w_announce = Ok b
    /\ DecodeReconciliationAnnounceEntries (fixed_codec 1) rel_pp w_privy (fun _ _ => w_range)
         (Stream (b ++ [1; 2; 3; 4; 5; 6; 7; 8]) [] []) = Ok (m', s')
    /\ an_count m' = 90 /\ an_want m' = true /\ an_sort m' = false /\ an_sender m' = 3 /\ an_receiver m' = 70000 /\ an_covers m' = 251)
  /\ (exists b, EncodeReconciliationSendEntry 64 (fixed_codec 1) OrderBytes rel_pp w_privy (fixed_codec 1) (fixed_codec 2) rel_eq (fixed_codec 1) w_lengthy = Ok b
    /\ DecodeReconciliationSendEntry (fixed_codec 1) rel_pp w_privy (fixed_codec 1) (fixed_codec 2) true (fixed_codec 1) (Stream (b ++ [7]) [] [])
       = Ok (w_lengthy, Stream [7] [] [])).
Proof.
  split; [|split].
  - destruct (EncodeReconciliationSendFingerprint 64 (fixed_codec 1) OrderBytes rel_pp w_privy (fun _ => false) (fun x => x) w_fp)
      as [b| | | |] eqn:E; try (vm_compute in E; discriminate).
    exists b. vm_compute in E. injection E as <-. eexists. eexists. split; [reflexivity|]. split; [vm_compute; reflexivity|].
    repeat split.
  - destruct (EncodeReconciliationAnnounceEntries 64 (fixed_codec 1) OrderBytes rel_pp w_privy w_announce)
      as [b| | | |] eqn:E; try (vm_compute in E; discriminate).
    exists b. vm_compute in E. injection E as <-. eexists. eexists. split; [reflexivity|]. split; [vm_compute; reflexivity|].
    repeat split.
  - destruct (C45_send_entry_partial bytes 64 (fixed_codec 1) (fixed_codec 1) (fixed_codec 2) OrderBytes rel_pp (fixed_codec 1) w_privy rel_eq w_lengthy)
      as (b & E & _); try reflexivity;
      [apply rel_pp_ok|apply rel_order_eq|apply rel_eq_eq|apply w_entry_ok|apply fixed_codec_arrived; reflexivity|right; repeat split; cbn; lia|].
    exists b. split; [exact E|]. vm_compute in E. injection E as <-. vm_compute. reflexivity.
Qed.

(** Missing, and false: no range that contains anything is ever decoded, … *)
Lemma range_or_zero_empty ss pp ref s r s' :
  range_or_zero ss pp ref s = Ok (r, s') -> forall p, ~ in_range3d r p.
Proof.
  unfold range_or_zero. pose proof (range_stream_spec ss pp ref s) as S. destruct (range_stream ss pp ref s) as [[[x|] s2]| | | |]; intros H; try discriminate.
  - injection H as <- <-. eapply C21_stream_refuted; eauto.
  - injection H as <- <-. intros p (_ & _ & [H1 [H2|H2]]); [discriminate|]. cbn in H1, H2. lia.
Qed.

Theorem C45_range_refuted (F : Type) ss pp pv hr neutral (dec_fp : stream -> res (F * stream)) s :
  (forall m s', DecodeReconciliationSendFingerprint ss pp pv hr neutral dec_fp s = Ok (m, s') ->
     forall p, ~ in_range3d (fm_range m) p)
  /\ (forall m s', DecodeReconciliationAnnounceEntries ss pp pv hr s = Ok (m, s') ->
     forall p, ~ in_range3d (an_range m) p).
Proof.
  split.
  - intros m s' H. unfold DecodeReconciliationSendFingerprint in H.
    repeat match type of H with
    | bind ?x _ = Ok _ => destruct x as [?| | | |] eqn:?; cbn [bind] in H; try discriminate H
    | (let '(_, _) := ?p in _) = Ok _ => destruct p
    end. injection H as <- <-. cbn [fm_range]. eapply range_or_zero_empty; eauto.
  - intros m s' H. unfold DecodeReconciliationAnnounceEntries in H. cbv zeta in H.
    repeat match type of H with
    | bind ?x _ = Ok _ => destruct x as [?| | | |] eqn:?; cbn [bind] in H; try discriminate H
    | (let '(_, _) := ?p in _) = Ok _ => destruct p
    end. injection H as <- <-. cbn [an_range]. eapply range_or_zero_empty; eauto.
Qed.
Print Assumptions C45_range_refuted.

(** … and a message that covers message 1, which the encoders take for none,
    always arrives as one that covers message 0. *)
Theorem C45_covers_refuted (F : Type) bits ss order pp pv pv' hr (neutral : F) (isneutral : F -> bool) (enc_fp : F -> bytes) (dec_fp : stream -> res (F * stream)) b s rest :
  total s = b ++ rest ->
  (forall m m' s', fm_covers m = 1 -> EncodeReconciliationSendFingerprint bits ss order pp pv isneutral enc_fp m = Ok b ->
     DecodeReconciliationSendFingerprint ss pp pv' hr neutral dec_fp s = Ok (m', s') ->
     fm_covers m' = 0 /\ fm_does_cover m' = true)
  /\ (forall m m' s', an_covers m = 1 -> EncodeReconciliationAnnounceEntries bits ss order pp pv m = Ok b ->
     DecodeReconciliationAnnounceEntries ss pp pv' hr s = Ok (m', s') ->
     an_covers m' = 0 /\ an_does_cover m' = true).
Proof.
  intros TT. split.
  - intros m m' s' HC EB ED.
    assert (HB : exists h c t, b = h :: c :: t /\ has c 8 = false).
    { unfold EncodeReconciliationSendFingerprint in EB. rewrite HC in EB. cbn [N.eqb Pos.eqb] in EB.
      destruct (EncodeRange3dRelative _ _ _ _ _) as [r| | | |]; try discriminate EB. cbn [bind] in EB.
      destruct (fingerprint_header (isneutral (fm_fingerprint m)) (fm_sender m =? pv_sender pv) (fm_receiver m =? pv_receiver pv) true
        (fm_sender m mod 2 ^ bits) (fm_receiver m mod 2 ^ bits) 0) as (_ & _ & _ & _ & H8 & _).
      apply Ok_inj in EB. rewrite EB. cbn [app]. eexists. eexists. eexists. split; [reflexivity|]. exact H8. }
    destruct HB as (h & c & t & -> & H8). cbn [app] in TT. unfold DecodeReconciliationSendFingerprint in ED.
    destruct (NextAbsolute_spec 2 s) as (s1 & E1 & T1 & L1); [rewrite TT; lens|]. rewrite E1 in ED. cbn [bind] in ED.
    rewrite TT in T1. rewrite !index_total in ED by lia. rewrite T1, index_0, index_1 in ED. cbn [bind] in ED. rewrite H8 in ED.
    cbn [bind] in ED.
    repeat match type of ED with
    | bind ?x _ = Ok _ => destruct x as [?| | | |] eqn:?; cbn [bind] in ED; try discriminate ED
    | (let '(_, _) := ?p in _) = Ok _ => destruct p
    end. injection ED as <- <-. split; reflexivity.
  - intros m m' s' HC EB ED.
    assert (HB : exists h c t, b = h :: c :: t /\ has c 1 = false).
    { unfold EncodeReconciliationAnnounceEntries in EB. rewrite HC in EB. cbn [N.eqb Pos.eqb] in EB.
      destruct (EncodeRange3dRelative _ _ _ _ _) as [r| | | |]; try discriminate EB. cbn [bind] in EB.
      destruct (announce_header (an_want m) (an_sort m) (an_sender m =? pv_sender pv) (an_receiver m =? pv_receiver pv) true
        (an_sender m mod 2 ^ bits) (an_receiver m mod 2 ^ bits) (an_count m mod 2 ^ bits)) as (_ & _ & _ & _ & H8 & _).
      apply Ok_inj in EB. rewrite EB. cbn [app]. eexists. eexists. eexists. split; [reflexivity|]. exact H8. }
    destruct HB as (h & c & t & -> & H8). cbn [app] in TT. unfold DecodeReconciliationAnnounceEntries in ED.
    destruct (NextAbsolute_spec 2 s) as (s1 & E1 & T1 & L1); [rewrite TT; lens|]. rewrite E1 in ED. cbn [bind] in ED.
    rewrite TT in T1. rewrite !index_total in ED by lia. rewrite T1, index_0, index_1 in ED. cbn [bind] in ED. rewrite H8 in ED.
    cbn [bind] in ED.
    repeat match type of ED with
    | bind ?x _ = Ok _ => destruct x as [?| | | |] eqn:?; cbn [bind] in ED; try discriminate ED
    | (let '(_, _) := ?p in _) = Ok _ => destruct p
    end. injection ED as <- <-. split; reflexivity.
Qed.
Print Assumptions C45_covers_refuted.

(** Handles of different widths, a covered message from 252 on, a new token handle
    up to 63 and an entry decoded before the token arrive wrong. *)
Theorem C45_reconciliation_refuted :
  (exists m b m' s', fm_sender m = 300 /\ fm_receiver m = 5
     /\ EncodeReconciliationSendFingerprint 64 (fixed_codec 1) OrderBytes rel_pp w_privy (fun _ => false) (fun x => x) m = Ok b
     /\ DecodeReconciliationSendFingerprint (fixed_codec 1) rel_pp w_privy (fun _ _ => w_range) [] (c_dec (fixed_codec 2))
         (Stream (b ++ repeat 0 20) [] []) = Ok (m', s')
     /\ fm_sender m' = 1)
  /\ (exists m b m' s', an_covers m = 252
     /\ EncodeReconciliationAnnounceEntries 64 (fixed_codec 1) OrderBytes rel_pp w_privy m = Ok b
     /\ DecodeReconciliationAnnounceEntries (fixed_codec 1) rel_pp w_privy (fun _ _ => w_range)
         (Stream (b ++ repeat 0 20) [] []) = Ok (m', s')
     /\ an_covers m' <> 252)
  /\ (forall h, In h [5; 63] -> exists m b, le_static m = h /\ entry_ok (fixed_codec 1) (fixed_codec 1) (fixed_codec 2) rel_pp (le_entry m) w_ref
     /\ EncodeReconciliationSendEntry 64 (fixed_codec 1) OrderBytes rel_pp w_privy (fixed_codec 1) (fixed_codec 2) rel_eq (fixed_codec 1) m = Ok b
     /\ forall m' s', DecodeReconciliationSendEntry (fixed_codec 1) rel_pp w_privy (fixed_codec 1) (fixed_codec 2) true (fixed_codec 1)
          (Stream (b ++ repeat 0 20) [] []) = Ok (m', s') -> m' <> m)
  /\ (exists b, EncodeReconciliationSendEntry 64 (fixed_codec 1) OrderBytes rel_pp w_privy (fixed_codec 1) (fixed_codec 2) rel_eq (fixed_codec 1) w_lengthy = Ok b
     /\ forall m' s', DecodeReconciliationSendEntry (fixed_codec 1) rel_pp w_privy (fixed_codec 1) (fixed_codec 2) false (fixed_codec 1)
          (Stream (b ++ repeat 0 20) [] []) = Ok (m', s') -> m' <> w_lengthy).
Proof.
  split; [|split; [|split]].
  - exists (MsgFingerprint w_range2 [5; 5] 300 5 70000 true).
    destruct (EncodeReconciliationSendFingerprint 64 (fixed_codec 1) OrderBytes rel_pp w_privy (fun _ => false) (fun x => x)
      (MsgFingerprint w_range2 [5; 5] 300 5 70000 true))
      as [b| | | |] eqn:E; try (vm_compute in E; discriminate).
    exists b. vm_compute in E. injection E as <-. eexists. eexists. split; [reflexivity|]. split; [reflexivity|].
    split; [reflexivity|]. split; [vm_compute; reflexivity|reflexivity].
  - exists (MsgAnnounce w_range2 90 true false 3 70000 252 true).
    destruct (EncodeReconciliationAnnounceEntries 64 (fixed_codec 1) OrderBytes rel_pp w_privy (MsgAnnounce w_range2 90 true false 3 70000 252 true))
      as [b| | | |] eqn:E; try (vm_compute in E; discriminate).
    exists b. vm_compute in E. injection E as <-. eexists. eexists. split; [reflexivity|].
    split; [reflexivity|]. split; [vm_compute; reflexivity|discriminate].
  - intros h Hh. exists (MsgLengthyEntry w_entry 1000 h [3]). cbn [le_static].
    destruct Hh as [ <- | [ <- | [] ]].
    + destruct (EncodeReconciliationSendEntry 64 (fixed_codec 1) OrderBytes rel_pp w_privy (fixed_codec 1) (fixed_codec 2) rel_eq (fixed_codec 1)
        (MsgLengthyEntry w_entry 1000 5 [3])) as [b| | | |] eqn:E; try (vm_compute in E; discriminate).
      exists b. split; [reflexivity|]. split; [apply w_entry_ok|]. split; [reflexivity|]. vm_compute in E. injection E as <-.
      intros m' s' H. vm_compute in H. first [discriminate H | injection H as <- <-; discriminate].
    + destruct (EncodeReconciliationSendEntry 64 (fixed_codec 1) OrderBytes rel_pp w_privy (fixed_codec 1) (fixed_codec 2) rel_eq (fixed_codec 1)
        (MsgLengthyEntry w_entry 1000 63 [3])) as [b| | | |] eqn:E; try (vm_compute in E; discriminate).
      exists b. split; [reflexivity|]. split; [apply w_entry_ok|]. split; [reflexivity|]. vm_compute in E. injection E as <-.
      intros m' s' H. vm_compute in H. first [discriminate H | injection H as <- <-; discriminate].
  - destruct (EncodeReconciliationSendEntry 64 (fixed_codec 1) OrderBytes rel_pp w_privy (fixed_codec 1) (fixed_codec 2) rel_eq (fixed_codec 1)
        w_lengthy) as [b| | | |] eqn:E; try (vm_compute in E; discriminate).
    exists b. split; [reflexivity|]. vm_compute in E. injection E as <-.
    intros m' s' H. vm_compute in H. first [discriminate H | injection H as <- <-; discriminate].
Qed.
Print Assumptions C45_reconciliation_refuted.

(** * C46: dispatch *)

(** [b] starts with a byte that the dispatcher hands to the decoder of [k]. *)
Definition dispatches (b : bytes) (awaiting : bool) (remaining : N) (k : msg_kind) : Prop :=
  exists h t, b = h :: t /\ dispatch h awaiting remaining = Calls k.

(** Control messages, replies, payload requests, fingerprints and intersection
    messages go to their decoder, whatever they contain and whatever the state of
    the tracker. The other reconciliation messages share their header bytes: they
    go to their decoder if the tracker expects them. *)
Theorem C46_dispatch_partial :
  (forall m aw n, dispatches (EncodeControlIssueGuarantee m) aw n ControlIssueGuarantee
     /\ dispatches (EncodeControlAbsolve m) aw n ControlAbsolve
     /\ dispatches (EncodeControlPlead m) aw n ControlPlead)
  /\ (forall m aw n, dispatches (EncodeControlAnnounceDropping m) aw n ControlAnnounceDropping
     /\ dispatches (EncodeControlApologise m) aw n ControlApologise)
  /\ (forall m aw n, dispatches (EncodeControlFree m) aw n ControlFree)
  /\ (forall h aw n, dispatches (EncodeDataReplyPayload h) aw n DataReplyPayload)
  /\ (forall ns ss ds eqns order pp ref m b aw n, EncodeDataBindPayloadRequest ns ss ds eqns order pp ref m = Ok b ->
       dispatches b aw n DataBindPayloadRequest)
  /\ (forall (F : Type) bits ss order pp pv isn (fp : F -> bytes) m b aw n,
       EncodeReconciliationSendFingerprint bits ss order pp pv isn fp m = Ok b ->
       dispatches b aw n ReconciliationSendFingerprint)
  /\ (forall (G : Type) (g : codec G) m aw n, dispatches (EncodePaiBindFragment g m) aw n PaiBindFragment)
  /\ (forall (G : Type) (g : codec G) m aw n, dispatches (EncodePaiReplyFragment g m) aw n PaiReplyFragment)
  /\ (forall m aw n, dispatches (EncodePaiRequestSubspaceCapability m) aw n PaiRequestSubspaceCapability)
  /\ (forall (K Sig : Type) (k : codec K) (sg : codec Sig) m aw n,
       dispatches (EncodePaiReplySubspaceCapability k sg m) aw n PaiReplySubspaceCapability)
  /\ (forall bits m n, dispatches (EncodeReconciliationSendPayload bits m) true n ReconciliationSendPayload)
  /\ (forall bits ss order pp pv m b, EncodeReconciliationAnnounceEntries bits ss order pp pv m = Ok b ->
       dispatches b false 0 ReconciliationAnnounceEntries)
  /\ (forall (T : Type) bits ss order pp pv ns ds eqns (tok : codec T) m b n, 0 < n ->
       EncodeReconciliationSendEntry bits ss order pp pv ns ds eqns tok m = Ok b ->
       dispatches b false n ReconciliationSendEntry).
Proof.
  assert (W : forall x (P : N -> Prop), P 1 -> P 2 -> P 4 -> P 8 -> P (GetWidthMax64Int x)).
  { intros x P P1 P2 P4 P8. destruct (width64 x) as [ -> | [ -> | [ -> | -> ]]]; auto. }
  repeat match goal with |- _ /\ _ => split end; intros;
    try match goal with |- _ /\ _ => repeat split end.
  1-3: unfold EncodeControlIssueGuarantee, EncodeControlAbsolve, EncodeControlPlead, encode_amount, dispatches;
       eexists; eexists; (split; [reflexivity|]); apply (W (ma_amount m)); reflexivity.
  1-2: unfold EncodeControlAnnounceDropping, EncodeControlApologise, dispatches;
       eexists; eexists; (split; [reflexivity|]); destruct (mc_channel m); reflexivity.
  - eexists; eexists; (split; [reflexivity|]). apply (W (mf_handle m)); reflexivity.
  - eexists; eexists; (split; [reflexivity|]). apply (W h); reflexivity.
  - unfold EncodeDataBindPayloadRequest in H. destruct (EncodeEntryRelativeEntry _ _ _ _ _ _ _ _); try discriminate H.
    cbn [bind] in H. apply Ok_inj in H. rewrite H. eexists; eexists; (split; [reflexivity|]).
    apply (W (rp_capability m)); reflexivity.
  - unfold EncodeReconciliationSendFingerprint in H. destruct (EncodeRange3dRelative _ _ _ _ _); try discriminate H.
    cbn [bind] in H. apply Ok_inj in H. rewrite H. eexists; eexists; (split; [reflexivity|]).
    destruct (isn (fm_fingerprint m)), (fm_sender m =? pv_sender pv), (fm_receiver m =? pv_receiver pv); reflexivity.
  - eexists; eexists; (split; [reflexivity|]). destruct (mb_secondary m); reflexivity.
  - eexists; eexists; (split; [reflexivity|]). apply (W (mr_handle m)); reflexivity.
  - eexists; eexists; (split; [reflexivity|]). apply (W (mq_handle m)); reflexivity.
  - eexists; eexists; (split; [reflexivity|]). apply (W (mp_handle m)); reflexivity.
  - eexists; eexists; (split; [reflexivity|]). apply (W (my_amount m mod 2 ^ bits)); reflexivity.
  - unfold EncodeReconciliationAnnounceEntries in H. destruct (EncodeRange3dRelative _ _ _ _ _); try discriminate H.
    cbn [bind] in H. apply Ok_inj in H. rewrite H. eexists; eexists; (split; [reflexivity|]).
    destruct (an_want m), (an_sender m =? pv_sender pv), (an_receiver m =? pv_receiver pv); reflexivity.
  - unfold EncodeReconciliationSendEntry in H0. destruct (EncodeEntryRelativeEntry _ _ _ _ _ _ _ _); try discriminate H0.
    cbn [bind] in H0. apply Ok_inj in H0. rewrite H0. eexists; eexists; (split; [reflexivity|]).
    assert (D : forall h, In h [84; 85; 86; 87; 92; 93; 94; 95] -> dispatch h false n = Calls ReconciliationSendEntry).
    { assert (EN : (0 <? n) = true) by (apply N.ltb_lt; auto).
      intros h. cbn [In]. unfold dispatch. rewrite EN.
      intros HH; repeat (destruct HH as [ <- |HH]; [reflexivity|]); destruct HH. }
    apply D. destruct (width64 (le_available m mod 2 ^ bits)) as [ -> | [ -> | [ -> | -> ]]];
      destruct (le_static m =? pv_static pv); vm_compute; auto 9.
Qed.
Print Assumptions C46_dispatch_partial.

Example C46_instance : dispatches (EncodeControlPlead (MsgAmount ControlPlead DataChannel 700)) true 3 ControlPlead
  /\ dispatches (EncodePaiBindFragment (fixed_codec 1) (MsgBind [9] true)) false 0 PaiBindFragment.
Proof. split; apply C46_dispatch_partial. Qed.

(** Missing, and false. Sent entries, payloads and metadata are always taken for
    fingerprints; setup messages start no decoder at all, so that the loop meets
    their first byte for ever; no byte leads to the termination of a payload. *)
Theorem C46_dispatch_refuted :
  (forall (T : Type) ns ss ds eqns order pp (tok : codec T) ref m b aw n, EncodeDataSendEntry ns ss ds eqns order pp tok ref m = Ok b ->
     dispatches b aw n ReconciliationSendFingerprint)
  /\ (forall m aw n, dispatches (EncodeDataSendPayload m) aw n ReconciliationSendFingerprint)
  /\ (forall m aw n, dispatches (EncodeDataSetEagerness m) aw n ReconciliationSendFingerprint)
  /\ (forall (K Sig : Type) bits (cap : K -> bytes) (sg : codec Sig) m aw n,
       exists h t, EncodeSetupBindReadCapability bits cap sg m = h :: t /\ dispatch h aw n = Nothing)
  /\ (forall (K : Type) (tok : codec K) token aw n,
       exists h t, EncodeSetupBindStaticToken tok token = h :: t /\ dispatch h aw n = Nothing)
  /\ (forall bits ss order pp outer m b aw n, EncodeSetupBindAreaOfInterest bits ss order pp outer m = Ok b ->
       exists h t, b = h :: t /\ dispatch h aw n = Nothing)
  /\ (forall h aw n k, dispatch h aw n = Calls k \/ dispatch h aw n = Reports k -> k <> ReconciliationTerminatePayload)
  /\ (forall n, dispatches EncodeReconciliationTerminatePayload true n ReconciliationSendPayload).
Proof.
  assert (W : forall x (P : N -> Prop), P 1 -> P 2 -> P 4 -> P 8 -> P (GetWidthMax64Int x)).
  { intros x P P1 P2 P4 P8. destruct (width64 x) as [ -> | [ -> | [ -> | -> ]]]; auto. }
  repeat match goal with |- _ /\ _ => split end; intros.
  - unfold EncodeDataSendEntry in H. destruct (EncodeEntryRelativeEntry _ _ _ _ _ _ _ _); try discriminate H.
    cbn [bind] in H. apply Ok_inj in H. rewrite H. eexists; eexists; (split; [reflexivity|]).
    unfold CompactWidthOr, CompactWidthEndMasks.
    destruct (de_static m =? 1); [reflexivity|]. destruct (de_static m =? 2); [reflexivity|].
    destruct (de_static m =? 4); [reflexivity|]. destruct (de_static m =? 8); reflexivity.
  - eexists; eexists; (split; [reflexivity|]). apply (W (my_amount m)); reflexivity.
  - eexists; eexists; (split; [reflexivity|]). destruct (mm_eager m); reflexivity.
  - eexists; eexists; (split; [reflexivity|]). apply (W (ms_handle m mod 2 ^ bits)); reflexivity.
  - eexists; eexists; split; reflexivity.
  - unfold EncodeSetupBindAreaOfInterest in H. destruct (EncodeAreaInArea _ _ _ _ _); try discriminate H. cbn [bind] in H.
    destruct (_ && _); apply Ok_inj in H; rewrite H; eexists; eexists; (split; [reflexivity|]);
      destruct (negb _ || negb _); apply (W (ba_authorisation m mod 2 ^ bits)); reflexivity.
  - intros ->. unfold dispatch in H. destruct H as [H|H];
    repeat (match type of H with context[if ?c then _ else _] => destruct c end; try discriminate H).
  - eexists; eexists; split; reflexivity.
Qed.
Print Assumptions C46_dispatch_refuted.
