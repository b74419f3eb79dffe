(** C78: what the encoders put on the wire, bit by bit: every header bit, every field and every width, also where the decoders
    expect something else. *)
From Verif Require Import Base M_Order M_Encoding M_Paths M_Ranges M_Areas M_Entry M_Stream M_Wire M_Rel M_Wire2
  S_Order S_Wire P_Order P_Encoding P_Paths P_Rel P_Wire P_AreaCodec P_RangeCodec Prop_Rel Prop_Reading Prop_Grammar.
Local Open Scope N_scope.

(** ** Vocabulary *)

(** A number in the fewest of 1, 2, 4 and 8 bytes that hold it, the most significant first. *)
Definition is_num (n : N) (b : bytes) : Prop := smallest_width n (len b) /\ wf_bytes b /\ be_decode b = n.
(** Two bits of a header. *)
Definition pair_at (h i : N) : N := h / 2 ^ i mod 4.
(** The distance of two times. *)
Definition apart (a b : N) : N := N.max a b - N.min a b.
(** The number of components two paths begin with in common. *)
Fixpoint shared (a b : path) : N :=
  match a, b with c :: a', d :: b' => if list_eq_dec N.eq_dec c d then 1 + shared a' b' else 0 | _, _ => 0 end.

Lemma apart_diff a b : AbsDiffuint64 a b = apart a b.
Proof. unfold AbsDiffuint64, apart. destruct (N.ltb_spec a b); lia. Qed.
Lemma apart_bound a b : a < 2 ^ 64 -> b < 2 ^ 64 -> apart a b < 2 ^ 64.
Proof. unfold apart. lia. Qed.
Lemma num_written n : n < 2 ^ 64 -> is_num n (EncodeIntMax64 n).
Proof.
  intros H. unfold is_num. rewrite EncodeIntMax64_len. split; [apply width64_smallest; exact H|]. split; [apply EncodeIntMax64_wf|].
  pose proof (EncodeIntMax64_roundtrip n H) as R. unfold DecodeIntMax64 in R. destruct (_ || _); congruence.
Qed.
Lemma shared_count a b : N.of_nat (common_count a b) = shared a b.
Proof.
  revert b; induction a as [|c a IH]; intros [|d b]; cbn [common_count shared]; try reflexivity.
  destruct (list_eq_dec N.eq_dec c d) as [->|X].
  - rewrite (order_refl _ _ OrderBytes_total). cbn [Z.eqb]. rewrite <- IH. lia.
  - destruct (OrderBytes c d =? 0)%Z eqn:Q; [|reflexivity]. apply (order_eqb0 _ _ OrderBytes_total) in Q. contradiction.
Qed.
Lemma shared_common a b : common_len a b = shared a b.
Proof.
  rewrite <- shared_count. unfold common_len, CommonPrefix. pose proof (common_count_le a b). destruct (common_count a b) as [|n] eqn:E; [reflexivity|].
  unfold len. rewrite firstn_length_le by lia. reflexivity.
Qed.
(** All the widths there are. *)
Ltac widths := repeat match goal with |- context[GetWidthMax64Int ?d] => let E := fresh in destruct (width64 d) as [E|[E|[E|E]]]; rewrite E; clear E end.
Ltac header := rewrite ?EncodeIntMax64_len; widths; repeat match goal with b : bool |- _ => destruct b end; repeat split; reflexivity.

(** ** Values relative to others *)

(** An entry relative to an entry. Bit 7: the namespace follows; 6: the subspace follows; 5: the time is later; 4: nothing; 3-2: the width of
    the time difference; 1-0: the width of the length. *)
Theorem C78_entry_entry ns ss ds same_ns order pp e ref p :
  EncodeRelativePath pp (e_path e) (e_path ref) = Ok p ->
  e_time e < 2 ^ 64 -> e_time ref < 2 ^ 64 -> e_length e < 2 ^ 64 ->
  let other_ns := negb (same_ns (e_namespace e) (e_namespace ref)) in
  let other_ss := negb (order (e_subspace e) (e_subspace ref) =? 0)%Z in
  exists h t l,
    EncodeEntryRelativeEntry ns ss ds same_ns order pp e ref
    = Ok (h :: (if other_ns then c_enc ns (e_namespace e) else []) ++ (if other_ss then c_enc ss (e_subspace e) else [])
            ++ p ++ t ++ l ++ c_enc ds (e_digest e))
    /\ is_num (apart (e_time e) (e_time ref)) t /\ is_num (e_length e) l
    /\ h < 256 /\ N.testbit h 7 = other_ns /\ N.testbit h 6 = other_ss /\ N.testbit h 5 = (e_time ref <? e_time e) /\ N.testbit h 4 = false
    /\ width_at h 2 = len t /\ width_at h 0 = len l.
Proof.
  intros EP HT HR HL other_ns other_ss. unfold EncodeEntryRelativeEntry. rewrite EP. cbn [bind]. fold other_ns. fold other_ss. rewrite apart_diff.
  set (d := apart (e_time e) (e_time ref)). do 3 eexists. split; [reflexivity|]. split; [apply num_written, apart_bound; assumption|].
  split; [apply num_written; exact HL|]. generalize (e_length e) d. intros l d0. clearbody other_ns other_ss d. destruct (e_time ref <? e_time e); header.
Qed.
Print Assumptions C78_entry_entry.

(** Which of two is at least as near. *)
Lemma min_first a b : (N.min a b =? a) = (a <=? b).
Proof. destruct (N.leb_spec a b); [apply N.eqb_eq; lia|apply N.eqb_neq; lia]. Qed.
Lemma common_shared a b : (0 < shared a b) -> exists c, CommonPrefix a b = Ok c /\ len c = shared a b.
Proof.
  rewrite <- (shared_common a b). unfold common_len. destruct (CommonPrefix a b) as [c| | | |]; try lia. eauto.
Qed.

(** An entry relative to a 3d range. Bit 7: the subspace follows; 6: the path is relative to the start of the range, else to its end; 5: the
    time counts from the start, else from the end; 4: upwards; 3-2: the width of the time difference; 1-0: the width of the length. *)
Theorem C78_entry_range ss ds order pp e r q :
  let p := path_range r in let t := time_range r in
  let near_start := r_open p || (shared (e_path e) (r_end p) <=? shared (e_path e) (r_start p)) in
  let from_start := r_open t || (apart (e_time e) (r_start t) <=? apart (e_time e) (r_end t)) in
  let base := if from_start then r_start t else r_end t in
  (r_open p = false -> 0 < shared (e_path e) (r_start p) /\ 0 < shared (e_path e) (r_end p)) ->
  EncodeRelativePath pp (e_path e) (if near_start then r_start p else r_end p) = Ok q ->
  e_time e < 2 ^ 64 -> r_start t < 2 ^ 64 -> r_end t < 2 ^ 64 -> e_length e < 2 ^ 64 ->
  let other_ss := negb (order (e_subspace e) (r_start (subspace_range r)) =? 0)%Z in
  exists h d l,
    EncodeEntryRelativeRange3d ss ds order pp e r
    = Ok (h :: (if other_ss then c_enc ss (e_subspace e) else []) ++ q ++ d ++ l ++ c_enc ds (e_digest e))
    /\ is_num (apart (e_time e) base) d /\ is_num (e_length e) l
    /\ h < 256 /\ N.testbit h 7 = other_ss /\ N.testbit h 6 = near_start /\ N.testbit h 5 = from_start /\ N.testbit h 4 = (base <=? e_time e)
    /\ width_at h 2 = len d /\ width_at h 0 = len l.
Proof.
  intros p t near from base HS EQ HT HB HE HL other. unfold EncodeEntryRelativeRange3d. fold p. fold t. rewrite !apart_diff. fold other.
  assert (EP : (if r_open p then do x <- EncodeRelativePath pp (e_path e) (r_start p); Ok (true, x)
     else do cs <- CommonPrefix (e_path e) (r_start p); do ce <- CommonPrefix (e_path e) (r_end p);
          if len ce <=? len cs then do x <- EncodeRelativePath pp (e_path e) (r_start p); Ok (true, x)
          else do x <- EncodeRelativePath pp (e_path e) (r_end p); Ok (false, x)) = Ok (near, q)).
  { subst near. destruct (r_open p); cbn [orb] in *; [rewrite EQ; reflexivity|]. destruct (HS eq_refl) as [S1 S2].
    destruct (common_shared _ _ S1) as (cs & -> & L1). destruct (common_shared _ _ S2) as (ce & -> & L2). cbn [bind]. rewrite L1, L2.
    revert EQ. destruct (shared (e_path e) (r_end p) <=? shared (e_path e) (r_start p)); intros ->; reflexivity. }
  rewrite EP. cbn [bind]. clear EP.
  assert (ED : (if r_open t then apart (e_time e) (r_start t) else N.min (apart (e_time e) (r_start t)) (apart (e_time e) (r_end t))) = apart (e_time e) base).
  { subst base from. destruct (r_open t); cbn [orb]; [reflexivity|]. destruct (N.leb_spec (apart (e_time e) (r_start t)) (apart (e_time e) (r_end t))); lia. }
  assert (EF : ((if r_open t then apart (e_time e) (r_start t) else N.min (apart (e_time e) (r_start t)) (apart (e_time e) (r_end t))) =? apart (e_time e) (r_start t)) = from).
  { subst from. destruct (r_open t); cbn [orb]; [apply N.eqb_refl|apply min_first]. }
  rewrite EF, ED. clear EF ED.
  assert (EA : (if negb (r_open t) then (from && (r_start t <=? e_time e)) || (negb from && (r_end t <=? e_time e)) else from && (r_start t <=? e_time e)) = (base <=? e_time e)).
  { subst base from. destruct (r_open t); cbn [orb negb andb]; [reflexivity|]. destruct (apart (e_time e) (r_start t) <=? apart (e_time e) (r_end t)); cbn [andb negb orb]; [apply orb_false_r|reflexivity]. }
  rewrite EA. clear EA. do 3 eexists. split; [reflexivity|].
  assert (BB : base < 2 ^ 64) by (subst base; destruct from; assumption).
  split; [apply num_written, apart_bound; assumption|]. split; [apply num_written; exact HL|].
  generalize (apart (e_time e) base) (e_length e) (base <=? e_time e). clearbody other near from. clear. intros d l b. header.
Qed.
Print Assumptions C78_entry_range.
(** If the path shares no component with one of the ends of a closed range, nothing is written. *)
Theorem C78_entry_range_refuses ss ds order pp e r :
  r_open (path_range r) = false -> shared (e_path e) (r_start (path_range r)) = 0 \/ shared (e_path e) (r_end (path_range r)) = 0 ->
  EncodeEntryRelativeRange3d ss ds order pp e r = Err.
Proof.
  intros O H. unfold EncodeEntryRelativeRange3d. rewrite O.
  assert (Z : forall a b, shared a b = 0 -> CommonPrefix a b = Err).
  { intros a b. rewrite <- shared_count. unfold CommonPrefix. destruct (common_count a b); [reflexivity|lia]. }
  destruct H as [H|H]; rewrite (Z _ _ H); cbn [bind]; [reflexivity|].
  unfold CommonPrefix at 1. destruct (common_count (e_path e) (r_start (path_range r))); reflexivity.
Qed.
Print Assumptions C78_entry_range_refuses.

(** An area in an area. Bit 7: the subspace follows at the end; 6: there is no end time; 5: the start counts from the start of the outer area,
    else down from its end; 4: the end counts from the start of the inner area, else down from the end of the outer; 3-2 and 1-0: the widths
    of both, also where no end is written. Open ends count as 15 below 2^64. *)
Theorem C78_area ss order pp inner outer p :
  let it := area_times inner in let ot := area_times outer in
  let in_end := if r_open it then 2 ^ 64 - 15 else r_end it in
  let out_end := if r_open ot then 2 ^ 64 - 15 else r_end ot in
  r_start ot <= r_start it -> r_start it <= in_end -> in_end <= out_end -> out_end < 2 ^ 64 ->
  EncodeRelativePath pp (area_path inner) (area_path outer) = Ok p ->
  let other := negb (if area_any inner then area_any outer else negb (area_any outer) && (order (area_subspace inner) (area_subspace outer) =? 0)%Z) in
  exists h s e,
    EncodeAreaInArea ss order pp inner outer
    = Ok (h :: s ++ (if r_open it then [] else e) ++ p ++ (if other then ss (area_subspace inner) else []))
    /\ is_num (N.min (r_start it - r_start ot) (out_end - r_start it)) s
    /\ is_num (N.min (in_end - r_start it) (out_end - in_end)) e
    /\ h < 256 /\ N.testbit h 7 = other /\ N.testbit h 6 = r_open it
    /\ N.testbit h 5 = (r_start it - r_start ot <=? out_end - r_start it) /\ N.testbit h 4 = (in_end - r_start it <=? out_end - in_end)
    /\ width_at h 2 = len s /\ width_at h 0 = len e.
Proof.
  intros it ot ie oe H1 H2 H3 H4 EP other. unfold EncodeAreaInArea. fold it. fold ot. change REALLY_BIG_INT with (2 ^ 64 - 15). fold ie. fold oe.
  assert (ES : same_subspace order inner outer = negb other).
  { unfold other, same_subspace. rewrite negb_involutive. destruct (area_any inner), (area_any outer); reflexivity. }
  rewrite ES, negb_involutive, EP. rewrite !sub64_le by lia. cbn [bind]. rewrite !min_first.
  set (sd := N.min (r_start it - r_start ot) (oe - r_start it)). set (ed := N.min (ie - r_start it) (oe - ie)).
  replace (if negb other then [] else ss (area_subspace inner)) with (if other then ss (area_subspace inner) else []) by (destruct other; reflexivity).
  do 3 eexists. split; [reflexivity|]. split; [apply num_written; lia|]. split; [apply num_written; lia|].
  generalize (r_start it - r_start ot <=? oe - r_start it) (ie - r_start it <=? oe - ie) (r_open it). clearbody sd ed other. clear. intros a b c. header.
Qed.
Print Assumptions C78_area.

(** A 3d range relative to a 3d range. First byte, 7-6: where the start of the subspace range comes from, 1 the start of the reference, 2 its
    end, 3 it follows; 5-4: likewise the end, 0 if open; 3: the start path is relative to the start of the reference; 2: the path range is
    open; 1: the end path is relative to the start; 0: the time range is open. Second byte, 7: the start time counts from the start of the
    reference; 6: upwards; 5-4: its width; 3, 2, 1-0: likewise the end. An end path and an end time are written even for open ranges.
    - Of two open subspace ranges the start is taken for the start of the reference, whatever it is.
    - If the end of the subspace range is the start of the reference, the code of its start is lost.
    - Unless the range is closed and the reference open, the end time written is the distance to the start of the reference, whatever the
      header says. *)
Definition same_end {A} (order : A -> A -> rel) (r f : range A) (x y : A) : bool :=
  if r_open r then r_open f else negb (r_open f) && (order x y =? 0)%Z.
Theorem C78_range ss order pp r ref ps pe :
  let rs := subspace_range r in let fs := subspace_range ref in
  let rp := path_range r in let fp := path_range ref in
  let rt := time_range r in let ft := time_range ref in
  let start_from := if same_end order rs fs (r_start rs) (r_start fs) then 1 else if same_end order rs fs (r_start rs) (r_end fs) then 2 else 3 in
  let end_from := if r_open rs then 0 else if same_end order rs fs (r_end rs) (r_start fs) then 1
                  else if same_end order rs fs (r_end rs) (r_end fs) then 2 else 3 in
  let near_start := shared (r_start rp) (r_end fp) <=? shared (r_start rp) (r_start fp) in
  let end_near_start := shared (r_end rp) (r_end fp) <=? shared (r_end rp) (r_start fp) in
  let f_end := if r_open ft then 2 ^ 64 - 1 else r_end ft in
  let t_end := if r_open ft && r_open rt then 2 ^ 64 - 1 else r_end rt in
  let from_start := apart (r_start rt) (r_start ft) <=? apart (r_start rt) f_end in
  let end_from_start := apart t_end (r_start ft) <=? apart t_end f_end in
  r_start rt < 2 ^ 64 -> r_end rt < 2 ^ 64 -> r_start ft < 2 ^ 64 -> r_end ft < 2 ^ 64 ->
  EncodeRelativePath pp (r_start rp) (if near_start then r_start fp else r_end fp) = Ok ps ->
  EncodeRelativePath pp (r_end rp) (if end_near_start then r_start fp else r_end fp) = Ok pe ->
  exists h b t u,
    EncodeRange3dRelative ss order pp r ref
    = Ok (h :: b :: (if start_from =? 3 then ss (r_start rs) else []) ++ (if end_from =? 3 then ss (r_end rs) else []) ++ ps ++ pe ++ t ++ u)
    /\ h < 256 /\ pair_at h 6 = (if end_from =? 1 then 0 else start_from) /\ pair_at h 4 = end_from
    /\ N.testbit h 3 = near_start /\ N.testbit h 2 = r_open rp /\ N.testbit h 1 = (end_near_start && negb (r_open rp)) /\ N.testbit h 0 = r_open rt
    /\ b < 256 /\ N.testbit b 7 = from_start /\ N.testbit b 6 = ((if from_start then r_start ft else f_end) <=? r_start rt)
    /\ width_at b 4 = len t /\ is_num (apart (r_start rt) (if from_start then r_start ft else f_end)) t
    /\ N.testbit b 3 = end_from_start /\ N.testbit b 2 = ((if end_from_start then r_start ft else f_end) <=? t_end)
    /\ smallest_width (apart t_end (if end_from_start then r_start ft else f_end)) (width_at b 0)
    /\ is_num (apart t_end (if negb (r_open rt) && r_open ft && negb end_from_start then f_end else r_start ft)) u.
Proof.
  intros rs fs rp fp rt ft sf ef near enear fe te from efrom B1 B2 B3 B4 EP EQ. unfold EncodeRange3dRelative.
  fold rs fs rp fp rt ft. change (two64 - 1) with (2 ^ 64 - 1). fold fe te. cbv zeta. rewrite !apart_diff, !shared_common. fold near enear from efrom.
  assert (BF : fe < 2 ^ 64) by (subst fe; destruct (r_open ft); [reflexivity|exact B4]).
  assert (BT : te < 2 ^ 64) by (subst te; destruct (r_open ft && r_open rt); [reflexivity|exact B2]).
  assert (E1 : N.min (apart (r_start rt) (r_start ft)) (apart (r_start rt) fe) = apart (r_start rt) (if from then r_start ft else fe)).
  { subst from. destruct (N.leb_spec (apart (r_start rt) (r_start ft)) (apart (r_start rt) fe)); lia. }
  assert (E2 : N.min (apart te (r_start ft)) (apart te fe) = apart te (if efrom then r_start ft else fe)).
  { subst efrom. destruct (N.leb_spec (apart te (r_start ft)) (apart te fe)); lia. }
  rewrite E1, E2.
  assert (EI : forall x y (a b : bool), (if a then r_start rs else r_end rs) = x -> (if b then r_start fs else r_end fs) = y -> IsEqualRangeValue order rs a fs b = same_end order rs fs x y).
  { intros x y a b <- <-. unfold IsEqualRangeValue, same_end. destruct (r_open rs), (r_open fs); reflexivity. }
  rewrite (EI (r_start rs) (r_start fs) true true eq_refl eq_refl), (EI (r_start rs) (r_end fs) true false eq_refl eq_refl),
    (EI (r_end rs) (r_start fs) false true eq_refl eq_refl), (EI (r_end rs) (r_end fs) false false eq_refl eq_refl).
  assert (EU : (if negb (r_open rt) && r_open ft then EncodeIntMax64 (apart te (if efrom then r_start ft else fe)) else EncodeIntMax64 (apart te (r_start ft)))
               = EncodeIntMax64 (apart te (if negb (r_open rt) && r_open ft && negb efrom then fe else r_start ft))).
  { destruct (r_open rt), (r_open ft), efrom; reflexivity. }
  rewrite EU. clear EU.
  assert (F1 : (if from then r_start ft <=? r_start rt else fe <=? r_start rt) = ((if from then r_start ft else fe) <=? r_start rt)) by (destruct from; reflexivity).
  assert (F2 : (if efrom then r_start ft <=? te else fe <=? te) = ((if efrom then r_start ft else fe) <=? te)) by (destruct efrom; reflexivity).
  rewrite F1, F2. clear F1 F2.
  set (d := apart (r_start rt) (if from then r_start ft else fe)) in *. set (ed := apart te (if efrom then r_start ft else fe)) in *.
  set (eu := apart te (if negb (r_open rt) && r_open ft && negb efrom then fe else r_start ft)).
  assert (BD : d < 2 ^ 64) by (apply apart_bound; [assumption|destruct from; assumption]).
  assert (BED : ed < 2 ^ 64) by (apply apart_bound; [assumption|destruct efrom; assumption]).
  assert (BEU : eu < 2 ^ 64) by (apply apart_bound; [assumption|destruct (negb (r_open rt) && r_open ft && negb efrom); assumption]).
  generalize ((if from then r_start ft else fe) <=? r_start rt) ((if efrom then r_start ft else fe) <=? te). intros up eup.
  match goal with |- context[let '(e1, sStart) := ?x in @?k e1 sStart] => destruct x as [e1 s0] eqn:Q1 end.
  match goal with |- context[let '(e1, sStart) := ?x in @?k e1 sStart] => destruct x as [e2 s1] eqn:Q2 end.
  rewrite EP, EQ. cbn [bind].
  assert (HH : e2 = 64 * (if ef =? 1 then 0 else sf) + 16 * ef /\ s0 = (if sf =? 3 then ss (r_start rs) else []) /\ s1 = (if ef =? 3 then ss (r_end rs) else []) /\ sf < 4 /\ ef < 4).
  { subst sf ef. destruct (same_end order rs fs (r_start rs) (r_start fs)); [|destruct (same_end order rs fs (r_start rs) (r_end fs))]; injection Q1 as <- <-;
      (destruct (r_open rs); [|destruct (same_end order rs fs (r_end rs) (r_start fs)); [|destruct (same_end order rs fs (r_end rs) (r_end fs))]]; injection Q2 as <- <-; repeat split). }
  destruct HH as (-> & -> & -> & LS & LE). do 4 eexists. split; [reflexivity|].
  assert (S4 : In sf [0;1;2;3]) by (cbn [In]; lia). assert (E4 : In ef [0;1;2;3]) by (cbn [In]; lia).
  split; [|split; [|split; [|split; [|split; [|split; [|split]]]]]].
  1-7: cbn [In] in S4, E4; clear -S4 E4; clearbody sf ef near enear; generalize (r_open rp) (r_open rt); intros o1 o2;
       destruct S4 as [ <- |[ <- |[ <- |[ <- |[]]]]], E4 as [ <- |[ <- |[ <- |[ <- |[]]]]]; destruct near, enear, o1, o2; vm_compute; reflexivity.
  assert (NT : is_num d (EncodeIntMax64 d)) by (apply num_written; exact BD).
  assert (NU : is_num eu (EncodeIntMax64 eu)) by (apply num_written; exact BEU).
  assert (SM : smallest_width ed (GetWidthMax64Int ed)) by (apply width64_smallest; exact BED).
  rewrite EncodeIntMax64_len. clearbody from efrom d ed eu. clear -NT NU SM.
  match goal with |- ?b < 256 /\ _ => set (h := b) end.
  assert (FACTS : h < 256 /\ N.testbit h 7 = from /\ N.testbit h 6 = up /\ width_at h 4 = GetWidthMax64Int d /\ N.testbit h 3 = efrom /\ N.testbit h 2 = eup /\ width_at h 0 = GetWidthMax64Int ed).
  { subst h. clear. header. }
  clearbody h. destruct FACTS as (? & ? & ? & ? & ? & ? & X). rewrite X. auto 12.
Qed.
Print Assumptions C78_range.

(** ** Messages that carry an entry *)

Lemma code_pow n : 2 ^ CompactWidthEndMasks (GetWidthMax64Int n) = GetWidthMax64Int n.
Proof. widths; reflexivity. Qed.

(** DataSendEntry. First byte, 7-2: the kind, 24; 1-0: 1, 2 or 3 if the handle of the token is 2, 4 or 8, else 0, whatever its width. Second
    byte, 7: an offset is meant; 6: nothing; 5: the offset is the length; 4: the entry is relative to the one before; 3-0: nothing.
    No offset is written. *)
Theorem C78_data_entry {T} ns ss ds same_ns order pp (tok : codec T) current m e :
  EncodeEntryRelativeEntry ns ss ds same_ns order pp (de_entry m) current = Ok e -> de_static m < 2 ^ 64 ->
  let o := de_offset m in let l := e_length (de_entry m) in
  exists h b s,
    EncodeDataSendEntry ns ss ds same_ns order pp tok current m = Ok (h :: b :: s ++ c_enc tok (de_dynamic m) ++ e)
    /\ is_num (de_static m) s /\ h / 4 = 24
    /\ pair_at h 0 = (if de_static m =? 2 then 1 else if de_static m =? 4 then 2 else if de_static m =? 8 then 3 else 0)
    /\ b < 256 /\ N.testbit b 7 = negb ((o =? 0) || (o =? l)) /\ N.testbit b 6 = false
    /\ N.testbit b 5 = (negb (o =? 0) && (o =? l)) /\ N.testbit b 4 = true /\ b mod 16 = 0.
Proof.
  intros EE HS o l. unfold EncodeDataSendEntry. rewrite EE. cbn [bind]. fold o l. do 3 eexists. split; [reflexivity|]. split; [apply num_written; exact HS|].
  assert (HC : forall n, CompactWidthOr 0 n = if n =? 2 then 1 else if n =? 4 then 2 else if n =? 8 then 3 else 0).
  { intros n. unfold CompactWidthOr, CompactWidthEndMasks. destruct (N.eqb_spec n 1) as [->|]; [reflexivity|].
    destruct (n =? 2), (n =? 4), (n =? 8); reflexivity. }
  assert (HO : CompactWidthOr 0 (N.shiftl (GetWidthMax64Int o) 5) = 0) by (widths; reflexivity).
  rewrite HC, HO. split; [|split].
  1,2: destruct (de_static m =? 2), (de_static m =? 4), (de_static m =? 8); reflexivity.
  destruct (o =? 0), (o =? l); repeat split; reflexivity.
Qed.
Print Assumptions C78_data_entry.

(** DataBindPayloadRequest. First byte, 7-2: the kind, 27; 1-0: the width of the handle. Second byte, 7: an offset follows; 6-5: its width;
    4: the entry is relative to the one before; 3-0: nothing. *)
Theorem C78_payload_request ns ss ds same_ns order pp current m e :
  EncodeEntryRelativeEntry ns ss ds same_ns order pp (rp_entry m) current = Ok e -> rp_capability m < 2 ^ 64 -> rp_offset m < 2 ^ 64 ->
  exists h b c o,
    EncodeDataBindPayloadRequest ns ss ds same_ns order pp current m = Ok (h :: b :: c ++ (if rp_offset m =? 0 then [] else o) ++ e)
    /\ is_num (rp_capability m) c /\ is_num (rp_offset m) o /\ h / 4 = 27 /\ width_at h 0 = len c
    /\ b < 256 /\ N.testbit b 7 = negb (rp_offset m =? 0) /\ width_at b 5 = len o /\ N.testbit b 4 = true /\ b mod 16 = 0.
Proof.
  intros EE HC HO. unfold EncodeDataBindPayloadRequest. rewrite EE. cbn [bind]. do 4 eexists. split; [reflexivity|].
  split; [apply num_written; exact HC|]. split; [apply num_written; exact HO|].
  rewrite !EncodeIntMax64_len. destruct (N.eqb_spec (rp_offset m) 0) as [E|E]; [rewrite E|]; clear.
  - change (GetWidthMax64Int 0) with 1. widths; repeat split; reflexivity.
  - widths; repeat split; reflexivity.
Qed.
Print Assumptions C78_payload_request.

(** ReconciliationSendEntry. 7-4: the kind, 5; 3: the handle of the token is that of the message before; 2: the entry is relative to the one
    before; 1-0: the width of the available length. A handle below 63 is one byte; else a byte with its width in bits 7-6 and then the
    handle; but 63 itself is that byte only. *)
Theorem C78_send_entry {T} bits ss order pp pv ns ds same_ns (tok : codec T) m e :
  EncodeEntryRelativeEntry ns ss ds same_ns order pp (le_entry m) (pv_entry pv) = Ok e -> bits <= 64 ->
  let same := le_static m =? pv_static pv in
  exists h z s a,
    EncodeReconciliationSendEntry bits ss order pp pv ns ds same_ns tok m
    = Ok (h :: (if same then [] else if le_static m <? 63 then [le_static m] else if le_static m =? 63 then [z] else z :: s) ++ a ++ c_enc tok (le_dynamic m) ++ e)
    /\ is_num (le_available m mod 2 ^ bits) a /\ is_num (le_static m mod 2 ^ bits) s
    /\ h < 256 /\ h / 16 = 5 /\ N.testbit h 3 = same /\ N.testbit h 2 = true /\ width_at h 0 = len a
    /\ z < 256 /\ z mod 64 = 63 /\ width_at z 6 = len s.
Proof.
  intros EE HB same. unfold EncodeReconciliationSendEntry. fold same. rewrite EE. cbn [bind].
  assert (V : forall x, x mod 2 ^ bits < 2 ^ 64).
  { intros x. eapply N.lt_le_trans; [apply N.mod_lt, N.pow_nonzero; lia|]. apply N.pow_le_mono_r; lia. }
  set (w := GetWidthMax64Int (le_static m mod 2 ^ bits)).
  exists (N.lor (N.lor (N.lor 80 (flag 8 same)) 4) (CompactWidthOr 0 (GetWidthMax64Int (le_available m mod 2 ^ bits)))),
    (if w =? 1 then 63 else if w =? 2 then 127 else if w =? 4 then 191 else 255), (EncodeIntMax64 (le_static m mod 2 ^ bits)), (EncodeIntMax64 (le_available m mod 2 ^ bits)).
  split.
  { destruct same; cbn [negb andb]; [reflexivity|]. destruct (N.ltb_spec (le_static m) 63).
    - destruct (N.ltb_spec 63 (le_static m)); [lia|reflexivity].
    - destruct (N.eqb_spec (le_static m) 63) as [E|E]; destruct (N.ltb_spec 63 (le_static m)); try lia;
        subst w; destruct (width64 (le_static m mod 2 ^ bits)) as [W|[W|[W|W]]]; rewrite W; reflexivity. }
  split; [apply num_written, V|]. split; [apply num_written, V|]. rewrite !EncodeIntMax64_len. subst w. clear. clearbody same. generalize (le_available m mod 2 ^ bits) (le_static m mod 2 ^ bits).
  intros x y. header.
Qed.
Print Assumptions C78_send_entry.

(** ** Messages that carry an area or a range *)

(** SetupBindAreaOfInterest. 7-2: the kind, 10; 1-0: the width of the handle, unless the lowest byte of one of the limits is not 0: then the code of 4
    bytes if it has 4, else of 1. That limits follow is never said. They follow unless both are 0, behind a byte with their widths
    in bits 7-6 and 5-4. *)
Theorem C78_bind_aoi bits ss order pp outer m a :
  EncodeAreaInArea ss order pp (aoi_area (ba_aoi m)) outer = Ok a -> bits <= 64 ->
  let count := aoi_max_count (ba_aoi m) in let size := aoi_max_size (ba_aoi m) in
  let low := negb (count mod 256 =? 0) || negb (size mod 256 =? 0) in
  exists h auth w c s,
    EncodeSetupBindAreaOfInterest bits ss order pp outer m
    = Ok (h :: auth ++ a ++ (if (count =? 0) && (size =? 0) then [] else w :: c ++ s))
    /\ is_num (ba_authorisation m mod 2 ^ bits) auth /\ is_num (count mod 2 ^ bits) c /\ is_num (size mod 2 ^ bits) s
    /\ h / 4 = 10 /\ width_at h 0 = (if low then if len auth =? 4 then 4 else 1 else len auth)
    /\ w < 256 /\ width_at w 6 = len c /\ width_at w 4 = len s /\ w mod 16 = 0.
Proof.
  intros EA HB count size low. unfold EncodeSetupBindAreaOfInterest. rewrite EA. cbn [bind]. fold count size. change u8 with (fun x => x mod 256).
  cbv beta. fold low.
  assert (V : forall x, x mod 2 ^ bits < 2 ^ 64).
  { intros x. eapply N.lt_le_trans; [apply N.mod_lt, N.pow_nonzero; lia|]. apply N.pow_le_mono_r; lia. }
  set (x := ba_authorisation m mod 2 ^ bits). set (y := count mod 2 ^ bits). set (z := size mod 2 ^ bits).
  match goal with |- context[if (count =? 0) && (size =? 0) then Ok ([?h] ++ ?p ++ a) else Ok (_ ++ _ ++ _ ++ [?l] ++ _)] => exists h, p, l, (EncodeIntMax64 y), (EncodeIntMax64 z) end.
  split; [destruct (_ && _); [rewrite app_nil_r|]; reflexivity|].
  split; [apply num_written, V|]. split; [apply num_written, V|]. split; [apply num_written, V|].
  rewrite !EncodeIntMax64_len. clearbody x y z low. clear. header.
Qed.
Print Assumptions C78_bind_aoi.

(** ReconciliationSendFingerprint. First byte, 7-4: the kind, 4; 3: the fingerprint is the neutral one; 2: the range is relative to the one
    before; 1 and 0: the handles are those before. Second byte, 7-6: the width of the handle of the receiver if the sender is another, 5-4: that of
    the sender if the receiver is another (and not conversely); 3: a message is covered; 2: nothing; 1-0: the width of its number.
    The cover 1 is not written. *)
Theorem C78_fingerprint {F} bits ss order pp pv neutral (fp : F -> bytes) m r :
  EncodeRange3dRelative (c_enc ss) order pp (fm_range m) (pv_range pv) = Ok r -> bits <= 64 ->
  let same_s := fm_sender m =? pv_sender pv in let same_r := fm_receiver m =? pv_receiver pv in
  let none := fm_covers m =? 1 in let empty := neutral (fm_fingerprint m) in
  exists h b c s t,
    EncodeReconciliationSendFingerprint bits ss order pp pv neutral fp m
    = Ok (h :: b :: (if none then [] else c) ++ (if same_s then [] else s) ++ (if same_r then [] else t)
            ++ (if empty then [] else fp (fm_fingerprint m)) ++ r)
    /\ is_num (fm_covers m mod 2 ^ bits) c /\ is_num (fm_sender m mod 2 ^ bits) s /\ is_num (fm_receiver m mod 2 ^ bits) t
    /\ h / 16 = 4 /\ N.testbit h 3 = empty /\ N.testbit h 2 = true /\ N.testbit h 1 = same_s /\ N.testbit h 0 = same_r
    /\ b < 256 /\ width_at b 6 = (if same_s then 1 else len t) /\ width_at b 4 = (if same_r then 1 else len s)
    /\ N.testbit b 3 = negb none /\ N.testbit b 2 = false /\ width_at b 0 = (if none then 1 else len c).
Proof.
  intros ER HB same_s same_r none empty. unfold EncodeReconciliationSendFingerprint. fold same_s same_r none empty. rewrite ER. cbn [bind].
  assert (V : forall x, x mod 2 ^ bits < 2 ^ 64).
  { intros x. eapply N.lt_le_trans; [apply N.mod_lt, N.pow_nonzero; lia|]. apply N.pow_le_mono_r; lia. }
  do 5 eexists. split; [reflexivity|]. split; [apply num_written, V|]. split; [apply num_written, V|]. split; [apply num_written, V|].
  rewrite !EncodeIntMax64_len. generalize (fm_covers m mod 2 ^ bits) (fm_sender m mod 2 ^ bits) (fm_receiver m mod 2 ^ bits). intros x y z.
  clearbody same_s same_r none empty. clear. header.
Qed.
Print Assumptions C78_fingerprint.

(** ReconciliationAnnounceEntries. First byte, 7-4: the kind, 5; 3: a response is wanted; 2-0: as above. Second byte, 7-6: the width of the handle
    of the sender; 5-4: of the receiver; 3-2: of the count; 1: sorted; 0: a message is covered. A cover below 252 is one byte; else
    a byte 252 and the code of its width, and then the number. *)
Theorem C78_announce bits ss order pp pv m r :
  EncodeRange3dRelative (c_enc ss) order pp (an_range m) (pv_range pv) = Ok r -> bits <= 64 ->
  let same_s := an_sender m =? pv_sender pv in let same_r := an_receiver m =? pv_receiver pv in let none := an_covers m =? 1 in
  exists h b z c s t n,
    EncodeReconciliationAnnounceEntries bits ss order pp pv m
    = Ok (h :: b :: (if none then [] else if an_covers m <? 252 then [an_covers m] else z :: c)
            ++ (if same_s then [] else s) ++ (if same_r then [] else t) ++ n ++ r)
    /\ is_num (an_covers m mod 2 ^ bits) c /\ is_num (an_sender m mod 2 ^ bits) s /\ is_num (an_receiver m mod 2 ^ bits) t /\ is_num (an_count m mod 2 ^ bits) n
    /\ h / 16 = 5 /\ N.testbit h 3 = an_want m /\ N.testbit h 2 = true /\ N.testbit h 1 = same_s /\ N.testbit h 0 = same_r
    /\ b < 256 /\ width_at b 6 = (if same_s then 1 else len s) /\ width_at b 4 = (if same_r then 1 else len t) /\ width_at b 2 = len n
    /\ N.testbit b 1 = an_sort m /\ N.testbit b 0 = negb none
    /\ z / 4 = 63 /\ width_at z 0 = len c.
Proof.
  intros ER HB same_s same_r none. unfold EncodeReconciliationAnnounceEntries. fold same_s same_r none. rewrite ER. cbn [bind].
  assert (V : forall x, x mod 2 ^ bits < 2 ^ 64).
  { intros x. eapply N.lt_le_trans; [apply N.mod_lt, N.pow_nonzero; lia|]. apply N.pow_le_mono_r; lia. }
  do 7 eexists. split.
  { assert (FL : forall (x y : bytes), (if 252 <=? an_covers m then x else y) = if an_covers m <? 252 then y else x)
      by (intros x y; destruct (N.leb_spec 252 (an_covers m)), (N.ltb_spec (an_covers m) 252); auto; lia).
    rewrite FL. reflexivity. }
  split; [apply num_written, V|]. split; [apply num_written, V|]. split; [apply num_written, V|]. split; [apply num_written, V|].
  rewrite !EncodeIntMax64_len. generalize (an_covers m mod 2 ^ bits) (an_sender m mod 2 ^ bits) (an_receiver m mod 2 ^ bits) (an_count m mod 2 ^ bits) (an_want m) (an_sort m).
  clearbody same_s same_r none. clear. intros x y z v want sort. 
  split; [|split; [|split; [|split; [|split; [|split; [|split; [|split; [|split; [|split; [|split; [|split]]]]]]]]]]].
  all: clear x || idtac; header.
Qed.
Print Assumptions C78_announce.

(** ** The other messages *)

(** The number of a channel and of a type of handles, in the order of the specification; control messages have no channel of their own. *)
Definition channel_number (c : channel) : N :=
  match c with
  | ReconciliationChannel | ControlChannel => 0 | DataChannel => 1 | IntersectionChannel => 2 | CapabilityChannel => 3
  | AreaOfInterestChannel => 4 | PayloadRequestChannel => 5 | StaticTokenChannel => 6
  end.
Definition type_number (t : handle_type) : N :=
  match t with IntersectionHandle => 0 | CapabilityHandle => 1 | AreaOfInterestHandle => 2 | PayloadRequestHandle => 3 | StaticTokenHandle => 4 end.
(** A header that is [kind] in bits 7-2 and the width of [n] in bits 1-0. *)
Definition headed (kind n : N) (b : N) : Prop := b / 4 = kind /\ smallest_width n (width_at b 0).
Lemma headed_width kind n : n < 2 ^ 64 -> headed kind n (width_header (4 * kind) (GetWidthMax64Int n)).
Proof.
  intros H. pose proof (width64_smallest n H) as S. assert (D : forall i, i < 4 -> (4 * kind + i) / 4 = kind /\ width_at (4 * kind + i) 0 = 2 ^ i).
  { intros i L. split; [rewrite N.mul_comm, N.div_add_l, (N.div_small i 4) by lia; lia|].
    unfold width_at. change (2 ^ 0) with 1. rewrite N.div_1_r, (N.mul_comm 4), N.add_comm, N.mod_add, N.mod_small by lia. reflexivity. }
  unfold headed, width_header. revert S. destruct (width64 n) as [E|[E|[E|E]]]; rewrite E; intros S; cbn [N.eqb Pos.eqb].
  - rewrite <- (N.add_0_r (4 * kind)). destruct (D 0 ltac:(lia)) as [D1 D2]. rewrite D1, D2. auto.
  - destruct (D 1 ltac:(lia)) as [D1 D2]. rewrite D1, D2. auto.
  - destruct (D 2 ltac:(lia)) as [D1 D2]. rewrite D1, D2. auto.
  - destruct (D 3 ltac:(lia)) as [D1 D2]. rewrite D1, D2. auto.
Qed.
Lemma headed_u8 kind n b : kind < 64 -> headed kind n b -> headed kind n (u8 b).
Proof.
  intros L [K W]. unfold u8. rewrite N.mod_small; [split; assumption|]. pose proof (N.div_mod b 4 ltac:(lia)). pose proof (N.mod_lt b 4 ltac:(lia)). lia.
Qed.
Lemma headed_or kind n : kind < 64 -> n < 2 ^ 64 -> headed kind n (u8 (CompactWidthOr (4 * kind) (GetWidthMax64Int n))).
Proof.
  intros L H. replace (CompactWidthOr (4 * kind) (GetWidthMax64Int n)) with (width_header (4 * kind) (GetWidthMax64Int n)); [apply headed_u8, headed_width; assumption|].
  unfold CompactWidthOr, CompactWidthEndMasks, width_header.
  assert (X : (N.lor (4 * kind) 1 =? 4 * kind + 1) && (N.lor (4 * kind) 2 =? 4 * kind + 2) && (N.lor (4 * kind) 3 =? 4 * kind + 3) = true).
  { assert (LK : kind < 256) by lia. clear L. revert kind LK. apply all_bytes. vm_compute. reflexivity. }
  rewrite !andb_true_iff, !N.eqb_eq in X. destruct X as ((X1 & X2) & X3).
  widths; cbn [N.eqb Pos.eqb]; [rewrite N.lor_0_r; reflexivity|rewrite X1; reflexivity|rewrite X2; reflexivity|rewrite X3; reflexivity].
Qed.
Lemma u8_width n : u8 (GetWidthMax64Int n) = GetWidthMax64Int n.
Proof. widths; reflexivity. Qed.

(** Control messages: the number of the channel is in the upper bits of the second byte, or the lower of the only one. *)
Theorem C78_control m f c :
  ma_amount m < 2 ^ 64 -> mf_handle f < 2 ^ 64 ->
  exists a x,
    is_num (ma_amount m) a /\ is_num (mf_handle f) x
    /\ (exists h, headed 32 (ma_amount m) h /\ EncodeControlIssueGuarantee m = h :: 32 * channel_number (ma_channel m) :: a)
    /\ (exists h, headed 33 (ma_amount m) h /\ EncodeControlAbsolve m = h :: 32 * channel_number (ma_channel m) :: a)
    /\ (exists h, headed 34 (ma_amount m) h /\ EncodeControlPlead m = h :: 32 * channel_number (ma_channel m) :: a)
    /\ EncodeControlAnnounceDropping c = [144 + channel_number (mc_channel c)]
    /\ EncodeControlApologise c = [152 + channel_number (mc_channel c)]
    /\ (exists h, headed 35 (mf_handle f) h /\ EncodeControlFree f = h :: 32 * type_number (mf_type f) + (if mf_mine f then 16 else 0) :: x).
Proof.
  intros HA HF. exists (EncodeIntMax64 (ma_amount m)), (EncodeIntMax64 (mf_handle f)).
  split; [apply num_written; exact HA|]. split; [apply num_written; exact HF|].
  assert (CH : u8 (ChannelMaskStart 0 (ma_channel m)) = 32 * channel_number (ma_channel m)) by (destruct (ma_channel m); reflexivity).
  unfold EncodeControlIssueGuarantee, EncodeControlAbsolve, EncodeControlPlead, encode_amount. rewrite CH.
  split; [eexists; split; [apply headed_u8; [reflexivity|apply (headed_width 32 _ HA)]|reflexivity]|].
  split; [eexists; split; [apply headed_u8; [reflexivity|apply (headed_width 33 _ HA)]|reflexivity]|].
  split; [eexists; split; [apply headed_u8; [reflexivity|apply (headed_width 34 _ HA)]|reflexivity]|].
  split; [unfold EncodeControlAnnounceDropping; destruct (mc_channel c); reflexivity|].
  split; [unfold EncodeControlApologise; destruct (mc_channel c); reflexivity|].
  eexists; split; [apply headed_u8; [reflexivity|apply (headed_width 35 _ HF)]|]. unfold EncodeControlFree. destruct (mf_mine f), (mf_type f); reflexivity.
Qed.
Print Assumptions C78_control.

(** Private area intersection and setup. Where a handle belongs its width is written. *)
Theorem C78_pai {G K Sig} (g : codec G) (k : codec K) (sg : codec Sig) bits (enc_cap : K -> bytes) (b : msg_bind G) (r : msg_reply G) q (c : msg_capability K Sig) (rc : msg_read_cap K Sig) nonce token :
  mr_handle r < 2 ^ 64 -> mq_handle q < 2 ^ 64 -> mp_handle c < 2 ^ 64 -> bits <= 64 ->
  EncodeCommitmentReveal nonce = nonce
  /\ EncodePaiBindFragment g b = (if mb_secondary b then 6 else 4) :: c_enc g (mb_member b)
  /\ (exists h w, headed 2 (mr_handle r) h /\ smallest_width (mr_handle r) w /\ EncodePaiReplyFragment g r = h :: w :: c_enc g (mr_member r))
  /\ (exists h w, headed 3 (mq_handle q) h /\ smallest_width (mq_handle q) w /\ EncodePaiRequestSubspaceCapability q = [h; w])
  /\ (exists h w, headed 4 (mp_handle c) h /\ smallest_width (mp_handle c) w
        /\ EncodePaiReplySubspaceCapability k sg c = h :: w :: c_enc k (mp_capability c) ++ c_enc sg (mp_signature c))
  /\ (exists h x, headed 8 (ms_handle rc mod 2 ^ bits) h /\ is_num (ms_handle rc mod 2 ^ bits) x
        /\ EncodeSetupBindReadCapability bits enc_cap sg rc = h :: x ++ enc_cap (ms_capability rc) ++ c_enc sg (ms_signature rc))
  /\ EncodeSetupBindStaticToken k token = 48 :: c_enc k token.
Proof.
  intros HR HQ HC HB.
  assert (V : forall x, x mod 2 ^ bits < 2 ^ 64).
  { intros x. eapply N.lt_le_trans; [apply N.mod_lt, N.pow_nonzero; lia|]. apply N.pow_le_mono_r; lia. }
  split; [reflexivity|]. split; [reflexivity|].
  unfold EncodePaiReplyFragment, EncodePaiRequestSubspaceCapability, EncodePaiReplySubspaceCapability. rewrite !u8_width.
  split; [do 2 eexists; split; [apply (headed_width 2 _ HR)|split; [apply width64_smallest, HR|reflexivity]]|].
  split; [do 2 eexists; split; [apply (headed_width 3 _ HQ)|split; [apply width64_smallest, HQ|reflexivity]]|].
  split; [do 2 eexists; split; [apply (headed_width 4 _ HC)|split; [apply width64_smallest, HC|reflexivity]]|].
  split; [|reflexivity]. do 2 eexists. split; [apply (headed_or 8); [reflexivity|apply V]|]. split; [apply num_written, V|reflexivity].
Qed.
Print Assumptions C78_pai.

(** Payloads, eagerness, replies. *)
Theorem C78_payloads bits p m handle :
  my_amount p < 2 ^ 64 -> mm_sender m < 2 ^ 64 -> mm_receiver m < 2 ^ 64 -> handle < 2 ^ 64 -> bits <= 64 ->
  (exists h x, headed 25 (my_amount p) h /\ is_num (my_amount p) x /\ EncodeDataSendPayload p = h :: x ++ my_bytes p)
  /\ (exists b s t, is_num (mm_sender m) s /\ is_num (mm_receiver m) t
        /\ EncodeDataSetEagerness m = 104 + (if mm_eager m then 2 else 0) :: b :: s ++ t
        /\ b < 256 /\ width_at b 6 = len s /\ width_at b 4 = len t /\ b mod 16 = 0)
  /\ (exists h x, headed 28 handle h /\ is_num handle x /\ EncodeDataReplyPayload handle = h :: x)
  /\ (exists h x, headed 20 (my_amount p mod 2 ^ bits) h /\ is_num (my_amount p mod 2 ^ bits) x /\ EncodeReconciliationSendPayload bits p = h :: x ++ my_bytes p)
  /\ EncodeReconciliationTerminatePayload = [80].
Proof.
  intros HP HS HR HH HB.
  assert (V : my_amount p mod 2 ^ bits < 2 ^ 64).
  { eapply N.lt_le_trans; [apply N.mod_lt, N.pow_nonzero; lia|]. apply N.pow_le_mono_r; lia. }
  split; [do 2 eexists; split; [apply (headed_or 25 _ ltac:(reflexivity) HP)|split; [apply num_written, HP|reflexivity]]|].
  split.
  { do 3 eexists. split; [apply num_written, HS|]. split; [apply num_written, HR|]. unfold EncodeDataSetEagerness. split.
    - destruct (mm_eager m); reflexivity.
    - rewrite !EncodeIntMax64_len. clear. header. }
  split; [do 2 eexists; split; [apply (headed_or 28 _ ltac:(reflexivity) HH)|split; [apply num_written, HH|reflexivity]]|].
  split; [do 2 eexists; split; [apply (headed_or 20 _ ltac:(reflexivity) V)|split; [apply num_written, V|reflexivity]]|].
  reflexivity.
Qed.
Print Assumptions C78_payloads.

(** ** What is missing *)

(** The header of a relative range announces another width for the end time than is written. *)
Definition wide_range : range3d := Range3d (Range [1] [2] false) (Range [[1]] [[1]; [2]] false) (Range 0 70000 false).
Definition wide_ref : range3d := Range3d (Range [1] [2] false) (Range [[1]] [[1]; [2]] false) (Range 0 70001 false).
Theorem C78_range_refuted : exists r ref h b ps pe t u,
  EncodeRange3dRelative (fun x => x) OrderBytes rel_pp r ref = Ok (h :: b :: ps ++ pe ++ t ++ u)
  /\ EncodeRelativePath rel_pp (r_start (path_range r)) (r_start (path_range ref)) = Ok ps
  /\ EncodeRelativePath rel_pp (r_end (path_range r)) (r_end (path_range ref)) = Ok pe
  /\ len t = width_at b 4 /\ len u = 4 /\ width_at b 0 = 1.
Proof.
  exists wide_range, wide_ref, 104, 192, [1; 0], [2; 0], [0], [0; 1; 17; 112]. repeat split; vm_compute; reflexivity.
Qed.
Print Assumptions C78_range_refuted.
(** Two starts of open subspace ranges are written alike. *)
Theorem C78_open_refuted : exists r r' ref b,
  r_start (subspace_range r) <> r_start (subspace_range r')
  /\ EncodeRange3dRelative (fun x => x) OrderBytes rel_pp r ref = Ok b /\ EncodeRange3dRelative (fun x => x) OrderBytes rel_pp r' ref = Ok b.
Proof.
  exists (Range3d (Range [5] [] true) (Range [[1]] [[1]] false) (Range 0 7 false)), (Range3d (Range [6] [] true) (Range [[1]] [[1]] false) (Range 0 7 false)),
    (Range3d (Range [1] [] true) (Range [[1]] [[1]] false) (Range 0 9 false)).
  eexists. split; [discriminate|]. split; vm_compute; reflexivity.
Qed.
Print Assumptions C78_open_refuted.
Definition sent : entry := Entry [1] [2] [3] [[4]] 5 600.
Definition latin : codec bytes := Codec (fun b => b) (fun s => Err).
(** Two offsets in a payload are written alike. *)
Theorem C78_offset_refuted : exists m m' b,
  de_offset m <> de_offset m'
  /\ EncodeDataSendEntry latin latin latin (fun _ _ => true) OrderBytes rel_pp latin sent m = Ok b
  /\ EncodeDataSendEntry latin latin latin (fun _ _ => true) OrderBytes rel_pp latin sent m' = Ok b.
Proof.
  exists (MsgDataEntry sent 9 [7] 300), (MsgDataEntry sent 9 [7] 301). eexists. split; [discriminate|]. split; vm_compute; reflexivity.
Qed.
Print Assumptions C78_offset_refuted.
(** Two different handles in a request are written alike. *)
Theorem C78_handle_refuted : exists q q', mq_handle q <> mq_handle q' /\ EncodePaiRequestSubspaceCapability q = EncodePaiRequestSubspaceCapability q'.
Proof. exists (MsgRequest 300), (MsgRequest 301). split; [discriminate|vm_compute; reflexivity]. Qed.
Print Assumptions C78_handle_refuted.
(** The handle of the sender of a fingerprint has two bytes, and the header says one. *)
Theorem C78_fingerprint_refuted : exists m h b rest,
  fm_sender m = 300 /\ EncodeReconciliationSendFingerprint 64 latin OrderBytes rel_pp (Privy 4 5 wide_ref 3 sent) (fun _ => true) (fun _ : unit => []) m
    = Ok (h :: b :: [1; 44] ++ [7] ++ rest) /\ N.testbit h 1 = false /\ width_at b 6 = 1.
Proof.
  exists (MsgFingerprint wide_ref tt 300 7 1 false), 76. do 2 eexists. split; [reflexivity|]. split; [vm_compute; reflexivity|]. split; reflexivity.
Qed.
Print Assumptions C78_fingerprint_refuted.
(** Limits of an area of interest follow, and the header does not say so. *)
Definition small_area : area := Area [1] [[1]] (Range 5 50 false) false.
Theorem C78_limits_refuted : exists m h rest,
  aoi_max_count (ba_aoi m) = 3 /\ aoi_max_size (ba_aoi m) = 300
  /\ EncodeSetupBindAreaOfInterest 64 (fun x => x) OrderBytes rel_pp small_area m = Ok (h :: rest ++ [16; 3; 1; 44]) /\ N.testbit h 2 = false.
Proof.
  exists (MsgBindAoi (AOI small_area 3 300) 9), 40, [9; 32; 0; 0; 1; 0]. repeat split; vm_compute; reflexivity.
Qed.
Print Assumptions C78_limits_refuted.
(** The handles 63 and its like: the message for 63 is a beginning of the width byte of others. *)
Theorem C78_token_refuted : exists m b,
  le_static m = 63 /\ EncodeReconciliationSendEntry 64 latin OrderBytes rel_pp (Privy 4 5 wide_ref 3 sent) latin latin (fun _ _ => true) latin m = Ok b
  /\ g_static (tl b) = Ok (8, skipn 3 b) /\ le_available m = 8.
Proof. exists (MsgLengthyEntry sent 8 63 [7]). eexists. repeat split; vm_compute; reflexivity. Qed.
Print Assumptions C78_token_refuted.

(** ** Instances *)

Example C78_instance_entry :
  EncodeRelativePath rel_pp [[4]; [9; 9]] [[4]] = Ok [1; 1; 2; 9; 9]
  /\ EncodeEntryRelativeEntry latin latin latin (fun _ _ => true) OrderBytes rel_pp (Entry [1] [3] [8] [[4]; [9; 9]] 305 6) sent
     = Ok (100 :: [3] ++ [1; 1; 2; 9; 9] ++ [1; 44] ++ [6] ++ [8])
  /\ is_num 300 [1; 44] /\ is_num 6 [6] /\ N.testbit 100 6 = true /\ N.testbit 100 5 = true /\ width_at 100 2 = 2.
Proof.
  split; [vm_compute; reflexivity|]. split; [vm_compute; reflexivity|]. split; [apply (num_written 300); reflexivity|]. split; [apply (num_written 6); reflexivity|].
  repeat split; reflexivity.
Qed.
Example C78_instance_entry_range :
  EncodeEntryRelativeRange3d latin latin OrderBytes rel_pp (Entry [1] [2] [8] [[1]; [9]] 69990 6) wide_ref = Ok (192 :: [2] ++ [1; 1; 1; 9] ++ [11] ++ [6] ++ [8])
  /\ N.testbit 192 7 = true /\ N.testbit 192 6 = true /\ apart 69990 70001 = 11.
Proof. repeat split; vm_compute; reflexivity. Qed.
Example C78_instance_area :
  EncodeAreaInArea (fun x => x) OrderBytes rel_pp small_area (Area [1] [[1]] (Range 0 60 false) false) = Ok (32 :: [5] ++ [10] ++ [1; 0] ++ []).
Proof. vm_compute. reflexivity. Qed.
Example C78_instance_range :
  EncodeRange3dRelative (fun x => x) OrderBytes rel_pp wide_range wide_ref = Ok (104 :: 192 :: [1; 0] ++ [2; 0] ++ [0] ++ [0; 1; 17; 112])
  /\ pair_at 104 6 = 1 /\ pair_at 104 4 = 2.
Proof. repeat split; vm_compute; reflexivity. Qed.
Example C78_instance_announce :
  EncodeReconciliationAnnounceEntries 64 latin OrderBytes rel_pp (Privy 4 5 wide_ref 3 sent) (MsgAnnounce wide_ref 300 true false 4 900 253 true)
  = Ok (94 :: 21 :: (252 :: [253]) ++ [] ++ [3; 132] ++ [1; 44] ++ [104; 196; 1; 0; 2; 0; 0; 0; 1; 17; 113]).
Proof. vm_compute. reflexivity. Qed.
