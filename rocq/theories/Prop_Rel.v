(** C20, C21, C22, C63, C64: the relative codecs. *)
From Verif Require Import Base M_Order M_Encoding M_Paths M_Ranges M_Areas M_Entry M_Stream M_Wire M_Rel S_Order S_Wire S_Rel
  P_Order P_Encoding P_Paths P_Stream P_Wire P_Rel P_AreaCodec P_RangeCodec.
Local Open Scope N_scope.

(** ** Names for the examples and witnesses *)
Definition rel_pp := PathParams 64 50 50 50.
Definition rel_eq (a b : bytes) : bool := (OrderBytes a b =? 0)%Z.

Lemma rel_pp_ok : codec_params rel_pp.
Proof. repeat split. Qed.
Lemma rel_order_eq a b : OrderBytes a b = 0%Z <-> a = b.
Proof. split; [intros H; apply (order_eqb0 _ _ OrderBytes_total); rewrite H; reflexivity|]. intros ->. apply (order_refl _ _ OrderBytes_total). Qed.
Lemma rel_eq_eq a b : rel_eq a b = true <-> a = b.
Proof. unfold rel_eq. rewrite Z.eqb_eq. apply rel_order_eq. Qed.
Lemma rel_path p : forallb (fun c => len c <=? 50) p && (len p <=? 50) = true -> codec_path rel_pp p.
Proof.
  intros H. apply andb_true_iff in H. destruct H as [H1 H2]. split; [apply N.leb_le; auto|].
  apply Forall_forall. intros c Hc. rewrite forallb_forall in H1. apply N.leb_le, H1, Hc.
Qed.

(** * C20: entries relative to entries *)

(** For entries whose paths share their first component, when the whole encoding
    has arrived and, with long maximal components, a few bytes more. *)
Theorem C20_roundtrip_partial ns ss ds eqns order pp e ref :
  codec_params pp -> (forall a b, order a b = 0%Z <-> a = b) -> (forall a b, eqns a b = true <-> a = b) ->
  codec_path pp (e_path e) -> share_first (e_path e) (e_path ref) ->
  codec_arrived ns (e_namespace e) -> codec_arrived ss (e_subspace e) -> codec_arrived ds (e_digest e) ->
  e_time e < 2 ^ 64 -> e_time ref < 2 ^ 64 -> e_length e < 2 ^ 64 ->
  exists b, EncodeEntryRelativeEntry ns ss ds eqns order pp e ref = Ok b
    /\ decodes_arrived (DecodeStreamEntryRelativeEntry ns ss ds pp ref) b e
         (GetWidthMax32Int (max_component_length pp) - 2 - len (c_enc ds (e_digest e))).
Proof. intros. apply entry_relative_entry; auto. Qed.
Print Assumptions C20_roundtrip_partial.

(** Missing: entries without a common first component end the process … *)
Theorem C20_no_common_prefix_refuted ns ss ds eqns order pp e ref :
  ~ share_first (e_path e) (e_path ref) ->
  EncodeEntryRelativeEntry ns ss ds eqns order pp e ref = Fatal.
Proof.
  intros H. unfold EncodeEntryRelativeEntry.
  assert (E : EncodeRelativePath pp (e_path e) (e_path ref) = Fatal).
  { destruct (EncodeRelativePath pp (e_path e) (e_path ref)) as [b| | | |] eqn:E; auto;
    try (unfold EncodeRelativePath in E; destruct (CommonPrefix _ _); discriminate).
    exfalso. apply H. apply (EncodeRelativePath_total pp). eauto. }
  rewrite E. reflexivity.
Qed.
Print Assumptions C20_no_common_prefix_refuted.

(** … and a decoder called before the encoding has arrived can panic. *)
Definition C20_ref := Entry [110] [97] [100; 101] [[1]; [2]] 1000 7.
Definition C20_entry := Entry [110] [98] [102; 103] [[1]; repeat 9 20] 900 70000.
Theorem C20_slow_arrival_refuted :
  exists c1 c2 pp e ref b s,
    EncodeEntryRelativeEntry c1 c1 c2 rel_eq OrderBytes pp e ref = Ok b /\ total s = b
    /\ codec_ok c1 (e_namespace e) /\ codec_ok c1 (e_subspace e) /\ codec_ok c2 (e_digest e)
    /\ codec_path pp (e_path e) /\ share_first (e_path e) (e_path ref)
    /\ DecodeStreamEntryRelativeEntry c1 c1 c2 pp ref s = Panic.
Proof.
  destruct (EncodeEntryRelativeEntry (fixed_codec 1) (fixed_codec 1) (fixed_codec 2) rel_eq OrderBytes rel_pp C20_entry C20_ref)
    as [b| | | |] eqn:E; try (vm_compute in E; discriminate).
  exists (fixed_codec 1), (fixed_codec 2), rel_pp, C20_entry, C20_ref, b, (Stream [] b []).
  split; [exact E|]. vm_compute in E. injection E as <-.
  split; [reflexivity|]. split; [apply fixed_codec_ok; reflexivity|]. split; [apply fixed_codec_ok; reflexivity|].
  split; [apply fixed_codec_ok; reflexivity|]. split; [apply rel_path; reflexivity|].
  split; [exists [1], [repeat 9 20], [[2]]; split; reflexivity|]. vm_compute. reflexivity.
Qed.
Print Assumptions C20_slow_arrival_refuted.

Example C20_instance : exists b, EncodeEntryRelativeEntry (fixed_codec 1) (fixed_codec 1) (fixed_codec 2) rel_eq OrderBytes rel_pp C20_entry C20_ref = Ok b
  /\ DecodeStreamEntryRelativeEntry (fixed_codec 1) (fixed_codec 1) (fixed_codec 2) rel_pp C20_ref (Stream (b ++ [5]) [] []) = Ok (C20_entry, Stream [5] [] []).
Proof.
  assert (H : exists b, EncodeEntryRelativeEntry (fixed_codec 1) (fixed_codec 1) (fixed_codec 2) rel_eq OrderBytes rel_pp C20_entry C20_ref = Ok b
    /\ decodes_arrived (DecodeStreamEntryRelativeEntry (fixed_codec 1) (fixed_codec 1) (fixed_codec 2) rel_pp C20_ref) b C20_entry
         (GetWidthMax32Int (max_component_length rel_pp) - 2 - len (c_enc (fixed_codec 2) (e_digest C20_entry)))).
  { apply C20_roundtrip_partial; try reflexivity; try (apply fixed_codec_arrived; reflexivity).
    - apply rel_pp_ok.
    - apply rel_order_eq.
    - apply rel_eq_eq.
    - apply rel_path. reflexivity.
    - exists [1], [repeat 9 20], [[2]]. split; reflexivity. }
  destruct H as (b & E & _). exists b. split; [exact E|]. vm_compute in E. injection E as <-. vm_compute. reflexivity.
Qed.

(** * C63: entries relative to ranges *)

(** For entries whose path shares its first component with the start of the path
    range and, if it is closed, with its end; for timestamps within the time range
    or not; once everything has arrived. *)
Theorem C63_roundtrip_partial ss ds order pp e outer :
  codec_params pp -> (forall a b, order a b = 0%Z <-> a = b) ->
  codec_path pp (e_path e) -> share_first (e_path e) (r_start (path_range outer)) ->
  (r_open (path_range outer) = false -> share_first (e_path e) (r_end (path_range outer))) ->
  codec_arrived ss (e_subspace e) -> codec_arrived ds (e_digest e) ->
  e_time e < 2 ^ 64 -> r_start (time_range outer) < 2 ^ 64 ->
  (r_open (time_range outer) = false -> r_end (time_range outer) < 2 ^ 64) -> e_length e < 2 ^ 64 ->
  exists b, EncodeEntryRelativeRange3d ss ds order pp e outer = Ok b
    /\ decodes_arrived (DecodeStreamEntryRelativeRange3d ss ds pp outer (e_namespace e)) b e
         (GetWidthMax32Int (max_component_length pp) - 2 - len (c_enc ds (e_digest e))).
Proof. intros. apply entry_relative_range; auto. Qed.
Print Assumptions C63_roundtrip_partial.

(** Missing: entries of the range that have no component in common with a bound
    of it. With an open path range the process ends … *)
Definition C63_open := Range3d (Range [] [] true) (Range [[1]] [] true) (Range 0 0 true).
Definition C63_entry := Entry [110] [98] [102; 103] [[2]; [3]] 900 70000.
Theorem C63_open_range_refuted :
  exists pp e outer, in_range3d outer (Position (e_subspace e) (e_path e) (e_time e)) /\ codec_path pp (e_path e)
    /\ EncodeEntryRelativeRange3d (fixed_codec 1) (fixed_codec 2) OrderBytes pp e outer = Fatal.
Proof.
  exists rel_pp, C63_entry, C63_open. split; [|split; [apply rel_path|]; reflexivity].
  split; [|split]; (split; [|left; reflexivity]); cbn.
  - intros H. destruct (OrderBytes_decides [98] []) as [[H1 H2]|[[H1 H2]|[H1 H2]]]; vm_compute in H1; try discriminate.
    eapply sto_irrefl, sto_trans; eauto; apply OrderBytes_total.
  - intros H. destruct (OrderPath_decides [[2]; [3]] [[1]]) as [[H1 H2]|[[H1 H2]|[H1 H2]]]; vm_compute in H1; try discriminate.
    eapply sto_irrefl, sto_trans; eauto; apply OrderPath_total.
  - lia.
Qed.
Print Assumptions C63_open_range_refuted.

(** … and with a closed one the encoder fails, even if the entry shares
    components with the other bound. *)
Definition C63_closed := Range3d (Range [] [] true) (Range [[1]] [[2]; [9]] false) (Range 0 0 true).
Theorem C63_closed_range_refuted :
  exists pp e outer, in_range3d outer (Position (e_subspace e) (e_path e) (e_time e)) /\ codec_path pp (e_path e)
    /\ share_first (e_path e) (r_end (path_range outer))
    /\ EncodeEntryRelativeRange3d (fixed_codec 1) (fixed_codec 2) OrderBytes pp e outer = Err.
Proof.
  exists rel_pp, C63_entry, C63_closed.
  split; [|split; [apply rel_path; reflexivity|split; [|reflexivity]]].
  - split; [|split]; cbn.
    + split; [|left; reflexivity]. intros H. destruct (OrderBytes_decides [98] []) as [[H1 H2]|[[H1 H2]|[H1 H2]]]; vm_compute in H1; try discriminate.
      eapply sto_irrefl, sto_trans; eauto; apply OrderBytes_total.
    + split.
      * intros H. destruct (OrderPath_decides [[2]; [3]] [[1]]) as [[H1 H2]|[[H1 H2]|[H1 H2]]]; vm_compute in H1; try discriminate.
        eapply sto_irrefl, sto_trans; eauto; apply OrderPath_total.
      * right. destruct (OrderPath_decides [[2]; [3]] [[2]; [9]]) as [[H1 H2]|[[H1 H2]|[H1 H2]]]; vm_compute in H1; try discriminate. exact H2.
    + split; [cbn; lia|left; reflexivity].
  - exists [2], [[3]], [[9]]. split; reflexivity.
Qed.
Print Assumptions C63_closed_range_refuted.

Definition C63_outer := Range3d (Range [97] [99] false) (Range [[2]] [[2]; [9]] false) (Range 100 1000 false).
Example C63_instance : exists b, EncodeEntryRelativeRange3d (fixed_codec 1) (fixed_codec 2) OrderBytes rel_pp C63_entry C63_outer = Ok b
  /\ DecodeStreamEntryRelativeRange3d (fixed_codec 1) (fixed_codec 2) rel_pp C63_outer [110] (Stream (b ++ [5]) [] []) = Ok (C63_entry, Stream [5] [] []).
Proof.
  assert (H : exists b, EncodeEntryRelativeRange3d (fixed_codec 1) (fixed_codec 2) OrderBytes rel_pp C63_entry C63_outer = Ok b
    /\ decodes_arrived (DecodeStreamEntryRelativeRange3d (fixed_codec 1) (fixed_codec 2) rel_pp C63_outer [110]) b C63_entry
         (GetWidthMax32Int (max_component_length rel_pp) - 2 - len (c_enc (fixed_codec 2) (e_digest C63_entry)))).
  { apply (C63_roundtrip_partial _ _ _ _ C63_entry); try reflexivity; try (apply fixed_codec_arrived; reflexivity).
    - apply rel_pp_ok.
    - apply rel_order_eq.
    - apply rel_path. reflexivity.
    - exists [2], [[3]], []. split; reflexivity.
    - exists [2], [[3]], [[9]]. split; reflexivity. }
  destruct H as (b & E & _). exists b. split; [exact E|]. vm_compute in E. injection E as <-. vm_compute. reflexivity.
Qed.

(** * C21: 3d ranges relative to 3d ranges *)

(** The round trip holds in a narrow case only: the path range is open and starts
    at a non-empty prefix of the start of the reference, its unused end shares a
    component with that start; the time range is open and starts with that of the
    reference; the subspace range does not end where that of the reference starts. *)
Theorem C21_roundtrip_partial order pp ss r ref rest :
  codec_params pp -> (forall a b, order a b = 0%Z <-> a = b) ->
  max_component_count pp < 256 ->
  codec_path pp (r_start (path_range r)) -> r_start (path_range r) <> [] ->
  prefix_of (r_start (path_range r)) (r_start (path_range ref)) ->
  r_open (path_range r) = true -> share_first (r_end (path_range r)) (r_start (path_range ref)) ->
  r_open (time_range r) = true -> r_start (time_range r) = r_start (time_range ref) -> r_start (time_range r) < 2 ^ 64 ->
  scheme_ok ss (r_start (subspace_range r)) -> (r_open (subspace_range r) = false -> scheme_ok ss (r_end (subspace_range r))) ->
  (r_open (subspace_range r) = true -> r_open (subspace_range ref) = true ->
   r_start (subspace_range r) = r_start (subspace_range ref)) ->
  (r_open (subspace_range r) = false -> r_open (subspace_range ref) = false ->
   r_end (subspace_range r) <> r_start (subspace_range ref)) ->
  exists b, EncodeRange3dRelative (enc ss) order pp r ref = Ok b
    /\ exists r', DecodeRange3dRelative ss pp (b ++ rest) ref = Ok r'
      /\ same_range (subspace_range r') (subspace_range r)
      /\ same_range (path_range r') (path_range r) /\ same_range (time_range r') (time_range r).
Proof. intros. apply range_relative; auto. Qed.
Print Assumptions C21_roundtrip_partial.

Definition C21_ref := Range3d (Range [97] [99] false) (Range [[1]; [2]] [] true) (Range 100 0 true).
Definition C21_range := Range3d (Range [98] [99] false) (Range [[1]] [[1]] true) (Range 100 0 true).
Example C21_instance : exists b, EncodeRange3dRelative (enc (fixed_scheme 1)) OrderBytes rel_pp C21_range C21_ref = Ok b
  /\ DecodeRange3dRelative (fixed_scheme 1) rel_pp b C21_ref
     = Ok (Range3d (Range [98] [99] false) (Range [[1]] [] true) (Range 100 0 true)).
Proof.
  pose proof (C21_roundtrip_partial OrderBytes rel_pp (fixed_scheme 1) C21_range C21_ref []) as H.
  destruct H as (b & E & _); try (apply fixed_scheme_ok; reflexivity); try reflexivity; try discriminate.
  - apply rel_pp_ok.
  - apply rel_order_eq.
  - apply rel_path. reflexivity.
  - exists [[2]]. reflexivity.
  - exists [1], [], [[2]]. split; reflexivity.
  - intros _. apply fixed_scheme_ok. reflexivity.
  - exists b. split; [exact E|]. vm_compute in E. injection E as <-. vm_compute. reflexivity.
Qed.

(** No range with a closed time range is ever decoded from bytes, whatever the
    bytes: the end is always 0 (the decoder stores it into the start). *)
Theorem C21_closed_times_refuted ss pp b ref r :
  DecodeRange3dRelative ss pp b ref = Ok r ->
  r_open (time_range r) = true \/ (forall t, ~ in_range N.lt (time_range r) t).
Proof.
  intros H. apply DecodeRange3dRelative_end in H. destruct (r_open (time_range r)) eqn:O; auto. right.
  intros t [_ [H2|H2]]; [congruence|]. rewrite H in H2. lia.
Qed.
Print Assumptions C21_closed_times_refuted.

(** No range that contains a position is ever decoded from a stream, whatever the
    bytes: the subspace range is empty. *)
Theorem C21_stream_refuted ss pp ref s r s' :
  DecodeStreamRange3dRelative ss pp ref s = Ok (r, s') -> forall p, ~ in_range3d r p.
Proof.
  intros H p (H1 & _). apply DecodeStreamRange3dRelative_subspace in H. destruct H as [E1 E2].
  destruct H1 as [_ [H1|H1]]; [congruence|]. rewrite E1 in H1.
  destruct (OrderBytes_decides [] (pos_subspace p)) as [[H2 H3]|[[H2 H3]|[H2 H3]]].
  - eapply sto_irrefl, sto_trans; eauto; apply OrderBytes_total.
  - rewrite <- H3 in H1. eapply sto_irrefl; eauto; apply OrderBytes_total.
  - destruct (pos_subspace p); vm_compute in H2; discriminate.
Qed.
Print Assumptions C21_stream_refuted.

(** An encoded range that is not decoded: the full 3d range, relative to itself,
    ends the process. *)
Definition C21_full := Range3d (Range [] [] true) (Range [] [] true) (Range 0 0 true).
Theorem C21_full_refuted : exists r, EncodeRange3dRelative (enc (fixed_scheme 1)) OrderBytes rel_pp r r = Fatal.
Proof. exists C21_full. vm_compute. reflexivity. Qed.
Print Assumptions C21_full_refuted.

(** A range whose subspaces end where those of the reference start is encoded with
    a header the decoder rejects. *)
Theorem C21_adjacent_subspaces_refuted :
  exists r ref b, valid_range3d r /\ valid_range3d ref
    /\ EncodeRange3dRelative (enc (fixed_scheme 1)) OrderBytes rel_pp r ref = Ok b
    /\ DecodeRange3dRelative (fixed_scheme 1) rel_pp b ref = Err.
Proof.
  exists (Range3d (Range [97] [98] false) (Range [[1]] [[1]] true) (Range 100 0 true)),
    (Range3d (Range [98] [99] false) (Range [[1]; [2]] [] true) (Range 100 0 true)).
  eexists. split; [|split; [|split; [reflexivity|vm_compute; reflexivity]]].
  - split; [|split; left; reflexivity]. right.
    destruct (OrderBytes_decides [97] [98]) as [[H1 H2]|[[H1 H2]|[H1 H2]]]; vm_compute in H1; try discriminate. exact H2.
  - split; [|split; left; reflexivity]. right.
    destruct (OrderBytes_decides [98] [99]) as [[H1 H2]|[[H1 H2]|[H1 H2]]]; vm_compute in H1; try discriminate. exact H2.
Qed.
Print Assumptions C21_adjacent_subspaces_refuted.

(** * C22: areas in areas *)

(** Both areas name the same subspace, the outer path is not empty, the inner start
    is no nearer to the outer end than to the outer start (an open end counting as
    2^64 - 15), and if the outer end is open and the inner is not, the inner end is
    no nearer to that number than to the inner start ([times_ok]). *)
Theorem C22_roundtrip_partial order pp ss dec_ss inner outer rest :
  codec_params pp -> (forall a b, order a b = 0%Z <-> a = b) ->
  codec_path pp (area_path inner) -> area_path outer <> [] -> prefix_of (area_path outer) (area_path inner) ->
  area_any inner = false -> area_any outer = false -> area_subspace inner = area_subspace outer ->
  times_ok (area_times inner) (area_times outer) ->
  exists b, EncodeAreaInArea ss order pp inner outer = Ok b
    /\ exists a, DecodeAreaInArea dec_ss pp (b ++ rest) outer = Ok a /\ same_area a inner.
Proof. intros. apply area_in_area; auto. Qed.
Print Assumptions C22_roundtrip_partial.

(** From a stream, for areas whose starts differ by less than 256; the outer area
    may have any subspace. *)
Theorem C22_stream_partial order pp ss inner outer :
  codec_params pp -> (forall a b, order a b = 0%Z <-> a = b) ->
  codec_path pp (area_path inner) -> area_path outer <> [] -> prefix_of (area_path outer) (area_path inner) ->
  area_any inner = false ->
  (area_any outer = true /\ area_subspace inner <> [] /\ codec_arrived ss (area_subspace inner)
   \/ area_any outer = false /\ area_subspace inner = area_subspace outer) ->
  times_ok (area_times inner) (area_times outer) ->
  r_start (area_times inner) - r_start (area_times outer) < 256 ->
  exists b a, EncodeAreaInArea (c_enc ss) order pp inner outer = Ok b /\ same_area a inner
    /\ decodes_arrived (DecodeStreamAreaInArea ss pp outer) b a (GetWidthMax32Int (max_component_length pp)).
Proof. intros. apply area_in_area_stream; auto. Qed.
Print Assumptions C22_stream_partial.

Definition C22_outer := Area [97] [[1]] (Range 1000 90000 false) false.
Definition C22_inner := Area [97] [[1]; [2; 3]] (Range 1200 80000 false) false.
Definition C22_any := Area [] [[1]] (Range 1000 0 true) true.
Example C22_instance :
  (exists b, EncodeAreaInArea (fun x => x) OrderBytes rel_pp C22_inner C22_outer = Ok b
    /\ DecodeAreaInArea (fun x => Ok x) rel_pp b C22_outer = Ok C22_inner)
  /\ (exists b, EncodeAreaInArea (fun x => x) OrderBytes rel_pp C22_inner C22_any = Ok b
    /\ DecodeStreamAreaInArea (fixed_codec 1) rel_pp C22_any (Stream (b ++ [7]) [] []) = Ok (C22_inner, Stream [7] [] [])).
Proof.
  split.
  - destruct (C22_roundtrip_partial OrderBytes rel_pp (fun x => x) (fun x => Ok x) C22_inner C22_outer []) as (b & E & _);
      try reflexivity; try discriminate.
    + apply rel_pp_ok.
    + apply rel_order_eq.
    + apply rel_path. reflexivity.
    + exists [[2; 3]]. reflexivity.
    + unfold times_ok; cbn. repeat split; try lia; try discriminate.
    + exists b. split; [exact E|]. vm_compute in E. injection E as <-. vm_compute. reflexivity.
  - destruct (C22_stream_partial OrderBytes rel_pp (fixed_codec 1) C22_inner C22_any) as (b & a & E & _);
      try reflexivity; try discriminate.
    + apply rel_pp_ok.
    + apply rel_order_eq.
    + apply rel_path. reflexivity.
    + exists [[2; 3]]. reflexivity.
    + left. split; [reflexivity|split; [discriminate|]]. apply fixed_codec_arrived. reflexivity.
    + unfold times_ok, REALLY_BIG_INT; cbn. repeat split; try lia; try discriminate.
    + exists b. split; [exact E|]. vm_compute in E. injection E as <-. vm_compute. reflexivity.
Qed.

(** Missing, and false: an outer area without a path (such as a whole subspace)
    ends the process, whatever the inner area. *)
Theorem C22_empty_path_refuted ss order pp inner outer :
  area_path outer = [] -> EncodeAreaInArea ss order pp inner outer = Fatal.
Proof.
  intros H. unfold EncodeAreaInArea. rewrite H.
  assert (E : EncodeRelativePath pp (area_path inner) [] = Fatal).
  { unfold EncodeRelativePath, CommonPrefix. destruct (area_path inner); reflexivity. }
  rewrite E. reflexivity.
Qed.
Print Assumptions C22_empty_path_refuted.

(** An area with any subspace is never decoded, whatever the bytes. *)
Theorem C22_any_subspace_refuted dec_ss pp b outer a :
  DecodeAreaInArea dec_ss pp b outer = Ok a -> area_any a = false.
Proof.
  unfold DecodeAreaInArea. intros H.
  repeat match type of H with
  | bind ?x _ = Ok _ => destruct x as [?| | | |] eqn:?; cbn [bind] in H; try discriminate H
  | (let '(_, _) := ?p in _) = Ok _ => destruct p
  | (if ?c then _ else _) = Ok _ => destruct c
  end; injection H as <-; reflexivity.
Qed.
Print Assumptions C22_any_subspace_refuted.

Theorem C22_any_subspace_stream_refuted ss pp outer s a s' :
  DecodeStreamAreaInArea ss pp outer s = Ok (a, s') -> area_any a = false.
Proof.
  unfold DecodeStreamAreaInArea. intros H.
  repeat match type of H with
  | bind ?x _ = Ok _ => destruct x as [?| | | |] eqn:?; cbn [bind] in H; try discriminate H
  | (let '(_, _) := ?p in _) = Ok _ => destruct p
  | (if ?c then _ else _) = Ok _ => destruct c
  end; injection H as <- <-; reflexivity.
Qed.
Print Assumptions C22_any_subspace_stream_refuted.

(** [inner] is nested in [outer], as sets. *)
Definition nested (inner outer : area) : Prop := forall p, in_area inner p -> in_area outer p.

Lemma nested_intro inner outer :
  (area_any outer = true \/ area_any inner = false /\ area_subspace outer = area_subspace inner) ->
  prefix_of (area_path outer) (area_path inner) ->
  r_start (area_times outer) <= r_start (area_times inner) ->
  (r_open (area_times outer) = true \/ r_open (area_times inner) = false /\ r_end (area_times inner) <= r_end (area_times outer)) ->
  nested inner outer.
Proof.
  intros H1 [x H2] H3 H4 p (P1 & (P2 & P3) & [y P4]). split; [|split; [split|]].
  - destruct H1 as [H1|[H1 H1']]; auto. right. rewrite H1'. destruct P1 as [P1|P1]; [congruence|auto].
  - lia.
  - destruct H4 as [H4|[H4 H4']]; auto. destruct P3 as [P3|P3]; [congruence|]. right. lia.
  - exists (x ++ y). rewrite P4, H2, app_assoc. reflexivity.
Qed.

(** A start nearer to the outer end is subtracted from the outer start. *)
Theorem C22_late_start_refuted :
  exists inner outer b a, nested inner outer /\ area_path outer <> [] /\ area_any inner = false
    /\ area_any outer = false
    /\ EncodeAreaInArea (fun x => x) OrderBytes rel_pp inner outer = Ok b
    /\ DecodeAreaInArea (fun x => Ok x) rel_pp b outer = Ok a
    /\ r_start (area_times inner) = 90 /\ r_start (area_times a) = 2 ^ 64 - 10.
Proof.
  exists (Area [97] [[1]; [2]] (Range 90 95 false) false), (Area [97] [[1]] (Range 0 100 false) false).
  eexists _, _. split; [|split; [discriminate|split; [reflexivity|split; [reflexivity|split; [reflexivity|]]]]].
  - apply nested_intro; cbn; [right; auto|exists [[2]]; reflexivity|lia|right; split; [reflexivity|lia]].
  - split; [vm_compute; reflexivity|]. split; reflexivity.
Qed.
Print Assumptions C22_late_start_refuted.

(** In an outer area with open end, a late inner end is subtracted from the unused
    end of the outer range. *)
Theorem C22_late_end_refuted :
  exists inner outer b a, nested inner outer /\ area_path outer <> [] /\ area_any inner = false
    /\ area_any outer = false
    /\ EncodeAreaInArea (fun x => x) OrderBytes rel_pp inner outer = Ok b
    /\ DecodeAreaInArea (fun x => Ok x) rel_pp b outer = Ok a
    /\ r_end (area_times inner) = 2 ^ 64 - 100 /\ r_end (area_times a) = 2 ^ 64 - 85.
Proof.
  exists (Area [97] [[1]; [2]] (Range 0 (2 ^ 64 - 100) false) false), (Area [97] [[1]] (Range 0 0 true) false).
  eexists _, _. split; [|split; [discriminate|split; [reflexivity|split; [reflexivity|split; [reflexivity|]]]]].
  - apply nested_intro; cbn; [right; auto|exists [[2]]; reflexivity|lia|left; reflexivity].
  - split; [vm_compute; reflexivity|]. split; reflexivity.
Qed.
Print Assumptions C22_late_end_refuted.

(** A subspace encoded because the outer area has any is read from the wrong
    place (here it comes out as the bytes of the path). *)
Theorem C22_subspace_refuted :
  exists inner outer b a, nested inner outer /\ area_path outer <> [] /\ area_any inner = false
    /\ EncodeAreaInArea (fun x => x) OrderBytes rel_pp inner outer = Ok b
    /\ DecodeAreaInArea (dec (fixed_scheme 1)) rel_pp b outer = Ok a
    /\ area_subspace inner = [97] /\ area_subspace a = [1].
Proof.
  exists (Area [97] [[1]; [2]] (Range 5 9 false) false), (Area [] [[1]] (Range 0 100 false) true).
  eexists _, _. split; [|split; [discriminate|split; [reflexivity|split; [reflexivity|]]]].
  - apply nested_intro; cbn; [left; auto|exists [[2]]; reflexivity|lia|right; split; [reflexivity|lia]].
  - split; [vm_compute; reflexivity|]. split; reflexivity.
Qed.
Print Assumptions C22_subspace_refuted.

(** EncodeAreaInAreaLength is not the length of the encoding. *)
Theorem C22_length_refuted :
  exists inner outer b l, nested inner outer
    /\ EncodeAreaInArea (fun x => x) OrderBytes rel_pp inner outer = Ok b
    /\ EncodeAreaInAreaLength OrderBytes rel_pp inner outer = Ok l /\ len b = 8 /\ l = 5.
Proof.
  exists (Area [97] [[1]; [2; 2]] (Range 5 9 false) false), (Area [97] [[1]] (Range 0 100 false) false).
  eexists _, _. split; [|split; [reflexivity|split; [vm_compute; reflexivity|]]].
  - apply nested_intro; cbn; [right; auto|exists [[2; 2]]; reflexivity|lia|right; split; [reflexivity|lia]].
  - split; vm_compute; reflexivity.
Qed.
Print Assumptions C22_length_refuted.

(** How far off it is, for an inner area of the outer one that starts in the first half of its times, where an open end is
    said to be 2^64 - 15 as DecodeAreaInArea does. Missing are: the number of further components, their lengths except one
    byte each, all their bytes, and the end except one byte. So it is always too small. *)
Theorem C22_length order pp inner outer suffix b l :
  area_path inner = area_path outer ++ suffix -> area_path outer <> [] ->
  let it := area_times inner in let ot := area_times outer in
  let outerEnd := if r_open ot then 2 ^ 64 - 15 else r_end ot in
  (r_open it = true -> r_end it = 2 ^ 64 - 15) -> (r_open ot = true -> r_end ot = 2 ^ 64 - 15) ->
  (r_open ot = false -> r_open it = false) ->
  r_start ot <= r_start it -> (r_open it = false -> r_start it <= r_end it <= outerEnd) -> outerEnd <= 2 ^ 64 - 15 ->
  2 * r_start it <= r_start ot + outerEnd ->
  EncodeAreaInArea (fun x => x) order pp inner outer = Ok b -> EncodeAreaInAreaLength order pp inner outer = Ok l ->
  len b = l + GetWidthMax32Int (max_component_count pp)
            + fold_right (fun c n => (GetWidthMax32Int (max_component_length pp) - 1) + len c + n) 0 suffix
            + (if r_open it then 0 else len (EncodeIntMax64 (N.min (r_end it - r_start it) (outerEnd - r_end it))) - 1)
  /\ l < len b.
Proof.
  intros HP NE it ot oe OI OO OC S1 S2 S3 S4 HB HL.
  assert (CP : CommonPrefix (area_path inner) (area_path outer) = Ok (area_path outer)).
  { unfold CommonPrefix. rewrite HP.
    assert (CC : forall q, common_count (q ++ suffix) q = length q).
    { induction q as [|c q IH]; [destruct suffix; reflexivity|]. cbn [List.app common_count length].
      assert (R : (OrderBytes c c =? 0)%Z = true) by (apply Z.eqb_eq, rel_order_eq; reflexivity).
      try rewrite R. rewrite ?IH. reflexivity. }
    rewrite CC. destruct (area_path outer) as [|c q] eqn:E; [congruence|]. cbn [length].
    rewrite <- E. change (S (length q)) with (length (c :: q)). rewrite <- E. f_equal.
    rewrite E. rewrite firstn_app, firstn_all, Nat.sub_diag, firstn_O, app_nil_r. reflexivity. }
  unfold EncodeAreaInArea in HB. unfold EncodeAreaInAreaLength in HL. fold it ot in HB, HL.
  unfold EncodeRelativePath in HB. unfold EncodePathRelativeLength in HL. rewrite CP in HB, HL. cbn [bind] in HB, HL.
  assert (RB : REALLY_BIG_INT = 2 ^ 64 - 15) by reflexivity.
  assert (SK : skipn (length (area_path outer)) (area_path inner) = suffix).
  { rewrite HP, skipn_app, skipn_all, Nat.sub_diag. reflexivity. }
  assert (IE : (if negb (r_open it) then REALLY_BIG_INT else r_end it) = 2 ^ 64 - 15) by (destruct (r_open it); cbn [negb]; auto).
  assert (OE : (if negb (r_open ot) then REALLY_BIG_INT else r_end ot) = 2 ^ 64 - 15) by (destruct (r_open ot); cbn [negb]; auto).
  assert (OE' : (if r_open ot then REALLY_BIG_INT else r_end ot) = oe) by (unfold oe; rewrite RB; reflexivity).
  rewrite IE, OE in HL. rewrite OE' in HB.
  assert (L0 : r_start it <= oe) by lia.
  assert (E1 : sub64 (r_start it) (r_start ot) = r_start it - r_start ot) by (apply sub64_le; lia).
  assert (E2 : sub64 oe (r_start it) = oe - r_start it) by (apply sub64_le; lia).
  assert (E3 : sub64 (2 ^ 64 - 15) (r_start it) = 2 ^ 64 - 15 - r_start it) by (apply sub64_le; lia).
  rewrite E1, E2 in HB. rewrite E1, E3 in HL.
  rewrite (N.min_l (r_start it - r_start ot) (oe - r_start it)) in HB by lia.
  rewrite (N.min_l (r_start it - r_start ot) (2 ^ 64 - 15 - r_start it)) in HL by lia.
  rewrite (sub64_le (2 ^ 64 - 15) (2 ^ 64 - 15)), N.sub_diag, N.min_0_r in HL by lia.
  replace (N.to_nat (len (area_path outer))) with (length (area_path outer)) in HB by (unfold len; rewrite Nat2N.id; reflexivity). rewrite SK in HB. rewrite SK in HL.
  assert (G : len b = l + GetWidthMax32Int (max_component_count pp)
            + fold_right (fun c n => (GetWidthMax32Int (max_component_length pp) - 1) + len c + n) 0 suffix
            + (if r_open it then 0 else len (EncodeIntMax64 (N.min (r_end it - r_start it) (oe - r_end it))) - 1)).
  { injection HB as <-. match type of HL with Ok ?x = Ok _ => assert (EL : l = x) by congruence; subst l; clear HL end.
    rewrite !len_cons. rewrite ?len_app. rewrite EncodeIntMax64_len, EncodeIntMax32_len.
    assert (PE : len (EncodePath pp suffix) = GetWidthMax32Int (max_component_count pp) + len suffix
              + fold_right (fun c n => (GetWidthMax32Int (max_component_length pp) - 1) + len c + n) 0 suffix).
    { unfold EncodePath. rewrite len_app, EncodeIntMax32_len. pose proof (width32_pos (max_component_length pp)).
      assert (X : len (flat_map (fun c => EncodeIntMax32 (toT pp (len c)) (max_component_length pp) ++ c) suffix)
             = len suffix + fold_right (fun c n => (GetWidthMax32Int (max_component_length pp) - 1) + len c + n) 0 suffix); [|lia].
      clear -H. induction suffix as [|c q IH]; [reflexivity|]. cbn [flat_map fold_right]. rewrite !len_app, EncodeIntMax32_len, IH, len_cons. lia. }
    rewrite PE.
    assert (SS : len (if same_subspace order inner outer then [] else area_subspace inner) = (if same_subspace order inner outer then 0 else len (area_subspace inner)))
      by (destruct (same_subspace order inner outer); reflexivity).
    rewrite SS. destruct (r_open it) eqn:OT.
    - rewrite len_nil. lia.
    - destruct (S2 eq_refl) as [S5 S6]. rewrite (sub64_le (r_end it) (r_start it)), (sub64_le oe (r_end it)) by lia.
      rewrite EncodeIntMax64_len.
      assert (W0 : GetWidthMax64Int 0 = 1) by reflexivity. rewrite W0.
      assert (W1 : 1 <= GetWidthMax64Int (N.min (r_end it - r_start it) (oe - r_end it))).
      { unfold GetWidthMax64Int. repeat destruct (_ <? _); lia. }
      lia. }
  split; [exact G|]. pose proof (width32_pos (max_component_count pp)). lia.
Qed.
Print Assumptions C22_length.

Example C22_instance_length :
  exists b, EncodeAreaInArea (fun x => x) OrderBytes rel_pp C22_inner C22_outer = Ok b /\ len b = 9
    /\ EncodeAreaInAreaLength OrderBytes rel_pp C22_inner C22_outer = Ok 5.
Proof. eexists. split; [vm_compute; reflexivity|]. split; vm_compute; reflexivity. Qed.

(** From a stream, starts that differ by 256 or more are read as one byte. *)
Theorem C22_stream_start_refuted :
  exists inner outer b, nested inner outer /\ area_path outer <> [] /\ area_any inner = false /\ area_any outer = false
    /\ EncodeAreaInArea (fun x => x) OrderBytes rel_pp inner outer = Ok b
    /\ forall a s', DecodeStreamAreaInArea (fixed_codec 1) rel_pp outer (Stream b [] []) = Ok (a, s') -> ~ same_area a inner.
Proof.
  exists (Area [97] [[1]; [2]] (Range 1000 2000 false) false), (Area [97] [[1]] (Range 0 3000 false) false).
  eexists. split; [|split; [discriminate|split; [reflexivity|split; [reflexivity|split; [reflexivity|]]]]].
  - apply nested_intro; cbn; [right; auto|exists [[2]]; reflexivity|lia|right; split; [reflexivity|lia]].
  - intros a s' H. vm_compute in H. first [discriminate | injection H as <- <-; intros (_ & _ & H & _); discriminate H].
Qed.
Print Assumptions C22_stream_start_refuted.

(** * C64: entries in areas *)

(** The decoder returns the entry from the encoding the Willow specification
    describes, when it has arrived. (Missing: the encoder, which does not write
    that encoding; see the refutation.) *)
Theorem C64_decoder_partial ss ds pp e outer pe :
  codec_params pp -> codec_path pp (e_path e) ->
  EncodeRelativePath pp (e_path e) (area_path outer) = Ok pe ->
  in_area outer (Position (e_subspace e) (e_path e) (e_time e)) ->
  (area_any outer = true -> codec_arrived ss (e_subspace e)) -> codec_arrived ds (e_digest e) ->
  e_time e < 2 ^ 64 -> (r_open (area_times outer) = false -> r_end (area_times outer) < 2 ^ 64) -> e_length e < 2 ^ 64 ->
  decodes_arrived (DecodeStreamEntryInNamespaceArea ss ds pp outer (e_namespace e))
    (spec_entry_in_area (c_enc ss) (c_enc ds) pp e outer pe) e
    (GetWidthMax32Int (max_component_length pp) - 2 - len (c_enc ds (e_digest e))).
Proof. intros. apply spec_entry_in_area_arrived; auto. Qed.
Print Assumptions C64_decoder_partial.

(** Whatever the encoder writes for an entry of an area (with a path of fewer than
    48 components) is never decoded, however it arrives and whatever follows. *)
Theorem C64_roundtrip_refuted ss ds pp e outer b s rest :
  codec_params pp ->
  in_area outer (Position (e_subspace e) (e_path e) (e_time e)) -> e_time e < 2 ^ 64 ->
  len (area_path outer) < 48 ->
  EncodeEntryInNamespaceArea (c_enc ss) (c_enc ds) pp e outer = Ok b -> total s = b ++ rest ->
  DecodeStreamEntryInNamespaceArea ss ds pp outer (e_namespace e) s = if area_any outer then Err else Panic.
Proof. apply entry_in_area_unreadable; auto. Qed.
Print Assumptions C64_roundtrip_refuted.

(** What the encoder writes instead: in decimal text a number whose bits are the
    flags and width codes of the specification's header, the subspace exactly when
    the flag says it is absent, the path, and in decimal text the two widths (not
    the time difference and the length themselves), and the digest. *)
Definition text_value (t : bytes) : N := fold_left (fun v c => 10 * v + (c - 48)) t 0.
Definition is_text (t : bytes) : Prop := t <> [] /\ (forall c, In c t -> 48 <= c <= 57) /\ (len t > 1 -> hd 0 t <> 48).
Definition smallest_width (n w : N) : Prop :=
  In w [1; 2; 4; 8] /\ n < 256 ^ w /\ forall v, In v [1; 2; 4; 8] -> v < w -> 256 ^ v <= n.
Lemma width64_smallest n : n < 2 ^ 64 -> smallest_width n (GetWidthMax64Int n).
Proof.
  intros H. unfold GetWidthMax64Int, smallest_width.
  change (2 ^ 8) with 256. change (2 ^ 16) with 65536. change (2 ^ 32) with 4294967296.
  change (2 ^ 64) with 18446744073709551616 in H.
  assert (W : 256 ^ 1 = 256 /\ 256 ^ 2 = 65536 /\ 256 ^ 4 = 4294967296 /\ 256 ^ 8 = 18446744073709551616) by (repeat split).
  destruct W as (W1 & W2 & W4 & W8).
  destruct (N.ltb_spec n 256); [|destruct (N.ltb_spec n 65536); [|destruct (N.ltb_spec n 4294967296)]];
    rewrite ?W1, ?W2, ?W4, ?W8; (split; [cbn [In]; auto 6|]); (split; [assumption|]);
    intros v Hv L; cbn [In] in Hv;
    destruct Hv as [<-|[<-|[<-|[<-|[]]]]]; rewrite ?W1, ?W2, ?W4, ?W8; lia.
Qed.
Lemma itoa_text n : n < 256 -> is_text (itoa n) /\ text_value (itoa n) = n.
Proof.
  intros H. assert (K : In n (map N.of_nat (seq 0 256))) by (apply in_map_iff; exists (N.to_nat n); split; [lia|apply in_seq; lia]).
  assert (D : forallb (fun n => negb (len (itoa n) =? 0) && forallb (fun c => (48 <=? c) && (c <=? 57)) (itoa n)
     && ((len (itoa n) <=? 1) || negb (hd 0 (itoa n) =? 48)) && (text_value (itoa n) =? n)) (map N.of_nat (seq 0 256)) = true)
    by (vm_compute; reflexivity).
  rewrite forallb_forall in D. apply D in K. rewrite !andb_true_iff in K. destruct K as (((K1 & K2) & K3) & K4).
  rewrite forallb_forall in K2. split; [|apply N.eqb_eq; auto]. split; [|split].
  - intros E. rewrite E in K1. discriminate K1.
  - intros c Hc. apply K2 in Hc. apply andb_true_iff in Hc. destruct Hc as [A B]. apply N.leb_le in A, B. auto.
  - intros L. apply orb_true_iff in K3. destruct K3 as [K3|K3]; [apply N.leb_le in K3; lia|].
    apply negb_true_iff, N.eqb_neq in K3. auto.
Qed.
Theorem C64_written ss ds pp e outer pe :
  in_area outer (Position (e_subspace e) (e_path e) (e_time e)) ->
  EncodeRelativePath pp (e_path e) (area_path outer) = Ok pe ->
  e_time e < 2 ^ 64 -> (r_open (area_times outer) = false -> r_end (area_times outer) < 2 ^ 64) -> e_length e < 2 ^ 64 ->
  let t := area_times outer in
  let diff := if r_open t then e_time e - r_start t else N.min (e_time e - r_start t) (r_end t - e_time e) in
  exists header width1 width2 w1 w2,
    EncodeEntryInNamespaceArea ss ds pp e outer
      = Ok (header ++ (if area_any outer then [] else ss (e_subspace e)) ++ pe ++ width1 ++ width2 ++ ds (e_digest e))
    /\ is_text header /\ is_text width1 /\ is_text width2
    /\ text_value header = (if area_any outer then 128 else 0) + 64 + 16 * N.log2 w1 + 4 * N.log2 w2
    /\ text_value width1 = w1 /\ text_value width2 = w2 /\ smallest_width diff w1 /\ smallest_width (e_length e) w2.
Proof.
  intros IA EP HT HO HL t diff.
  assert (HD : (if r_open t then sub64 (e_time e) (r_start t)
                else N.min (sub64 (e_time e) (r_start t)) (sub64 (r_end t) (e_time e))) = diff).
  { destruct IA as (_ & (IT & IE) & _). cbn [pos_time] in *. subst t diff. destruct (r_open (area_times outer)).
    - apply sub64_le; lia.
    - destruct IE as [IE|IE]; [discriminate|]. rewrite !sub64_le by (try apply HO; auto; lia). reflexivity. }
  assert (HB : diff < 2 ^ 64).
  { subst diff. destruct (r_open t); [lia|]. pose proof (N.le_min_l (e_time e - r_start t) (r_end t - e_time e)). lia. }
  unfold EncodeEntryInNamespaceArea. rewrite (entry_area_header_ge e outer IA HT), EP. cbn [bind]. fold t. rewrite HD.
  exists (itoa ((if area_any outer then 128 else 0) + 64 + 16 * N.log2 (GetWidthMax64Int diff) + 4 * N.log2 (GetWidthMax64Int (e_length e)))),
    (itoa (GetWidthMax64Int diff)), (itoa (GetWidthMax64Int (e_length e))), (GetWidthMax64Int diff), (GetWidthMax64Int (e_length e)).
  pose proof (width64_smallest diff HB) as S1. pose proof (width64_smallest _ HL) as S2.
  split.
  { do 2 f_equal. f_equal.
    destruct (width64 diff) as [ -> | [ -> | [ -> | -> ]]], (width64 (e_length e)) as [ -> | [ -> | [ -> | -> ]]],
      (area_any outer); reflexivity. }
  assert (B : forall x, GetWidthMax64Int x < 256) by (intros x; destruct (width64 x) as [ -> | [ -> | [ -> | -> ]]]; reflexivity).
  destruct (itoa_text _ (B diff)) as [T1 V1]. destruct (itoa_text _ (B (e_length e))) as [T2 V2].
  match goal with |- is_text (itoa ?h) /\ _ => assert (BH : h < 256) end.
  { destruct (width64 diff) as [ -> | [ -> | [ -> | -> ]]], (width64 (e_length e)) as [ -> | [ -> | [ -> | -> ]]],
      (area_any outer); reflexivity. }
  destruct (itoa_text _ BH) as [T3 V3]. auto 12.
Qed.
Print Assumptions C64_written.

(** So the bytes do not determine the entry: two times, and two lengths, come out
    the same. *)
Theorem C64_forgets_refuted : exists e e' outer b,
  in_area outer (Position (e_subspace e) (e_path e) (e_time e))
  /\ in_area outer (Position (e_subspace e') (e_path e') (e_time e'))
  /\ e_time e <> e_time e' /\ e_length e <> e_length e'
  /\ EncodeEntryInNamespaceArea (fun x => x) (fun x => x) rel_pp e outer = Ok b
  /\ EncodeEntryInNamespaceArea (fun x => x) (fun x => x) rel_pp e' outer = Ok b.
Proof.
  exists (Entry [110] [98] [102; 103] [[1]; [3; 4]] 900 70000), (Entry [110] [98] [102; 103] [[1]; [3; 4]] 901 70001),
    (Area [98] [[1]] (Range 100 1000 false) false). eexists.
  split; [|split; [|split; [discriminate|split; [discriminate|split; vm_compute; reflexivity]]]];
    (repeat split; cbn; auto; try lia; exists [[3; 4]]; reflexivity).
Qed.
Print Assumptions C64_forgets_refuted.

Definition C64_area := Area [98] [[1]] (Range 100 1000 false) false.
Definition C64_entry := Entry [110] [98] [102; 103] [[1]; [3; 4]] 900 70000.
Example C64_instance_written :
  EncodeEntryInNamespaceArea (fun x => x) (fun x => x) rel_pp C64_entry C64_area
  = Ok ([55; 50] ++ [98] ++ [1; 1; 2; 3; 4] ++ [49] ++ [52] ++ [102; 103])
  /\ text_value [55; 50] = 64 + 4 * 2 /\ smallest_width 100 1 /\ smallest_width 70000 4.
Proof. repeat (split; [reflexivity|]). split; [apply (width64_smallest 100)|apply (width64_smallest 70000)]; reflexivity. Qed.
Example C64_instance : exists pe b,
  EncodeRelativePath rel_pp [[1]; [3; 4]] [[1]] = Ok pe
  /\ EncodeEntryInNamespaceArea (fun x => x) (fun x => x) rel_pp C64_entry C64_area = Ok b
  /\ DecodeStreamEntryInNamespaceArea (fixed_codec 1) (fixed_codec 2) rel_pp C64_area [110]
      (Stream (spec_entry_in_area (fun x => x) (fun x => x) rel_pp C64_entry C64_area pe) [] [])
     = Ok (C64_entry, Stream [] [] [])
  /\ DecodeStreamEntryInNamespaceArea (fixed_codec 1) (fixed_codec 2) rel_pp C64_area [110] (Stream b [] []) = Panic.
Proof.
  assert (IA : in_area C64_area (Position [98] [[1]; [3; 4]] 900)).
  { repeat split; cbn; auto; try lia. exists [[3; 4]]. reflexivity. }
  eexists _, _. split; [reflexivity|]. split; [reflexivity|]. split.
  - pose proof (C64_decoder_partial (fixed_codec 1) (fixed_codec 2) rel_pp C64_entry C64_area _ rel_pp_ok
      (rel_path (e_path C64_entry) eq_refl) eq_refl IA) as H.
    destruct (H ltac:(discriminate) (fixed_codec_arrived 2 (e_digest C64_entry) eq_refl) eq_refl (fun _ => eq_refl) eq_refl [] []) as [sc E]; [discriminate|].
    vm_compute. reflexivity.
  - refine (C64_roundtrip_refuted (fixed_codec 1) (fixed_codec 2) rel_pp C64_entry C64_area _ _ [] rel_pp_ok IA eq_refl eq_refl eq_refl _).
    symmetry. apply app_nil_r.
Qed.
