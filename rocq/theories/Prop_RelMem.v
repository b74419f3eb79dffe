(** C88: decoding relative to a reference, with paths as slices in memory. *)
From Verif Require Import Base M_Order M_Encoding M_Paths M_Successor M_Ranges M_Areas M_Entry M_Stream M_Wire M_Rel M_RelMem
  S_Order S_Wire S_Rel P_Encoding P_Paths P_Wire P_Rel P_Stream P_RangeCodec P_Mem P_RelMem Prop_Rel.
Local Open Scope N_scope.

(** The reference with the whole arrays of its paths for the paths. *)
Definition whole (h : pheap) (ref : range3d) (fp : mrange) : range3d :=
  Range3d (subspace_range ref) (Range (array h (m_start fp)) (array h (m_end fp)) (m_open fp)) (time_range ref).

(** ** One path *)

(** Both functions return what they would with the whole array of the reference
    for the reference, and the path is put there if it is no longer. *)
Theorem C88_path extra pp enc s h ref : in_memory h ref ->
  match DecodeRelativePath pp enc (array h ref) with
  | Ok p => exists q h', DecodeRelativePath_at extra pp enc h ref = Ok (q, h') /\ placed h ref p q h'
  | Err => DecodeRelativePath_at extra pp enc h ref = Err
  | Panic => DecodeRelativePath_at extra pp enc h ref = Panic
  | Fatal => DecodeRelativePath_at extra pp enc h ref = Fatal
  | Hang => DecodeRelativePath_at extra pp enc h ref = Hang
  end
  /\ match DecodeRelPathStream pp s (array h ref) with
     | Ok (p, s') => exists q h', DecodeRelPathStream_at extra pp s h ref = Ok (q, h', s') /\ placed h ref p q h'
     | Err => DecodeRelPathStream_at extra pp s h ref = Err
     | Panic => DecodeRelPathStream_at extra pp s h ref = Panic
     | Fatal => DecodeRelPathStream_at extra pp s h ref = Fatal
     | Hang => DecodeRelPathStream_at extra pp s h ref = Hang
     end.
Proof. intros [H _]. split; [apply bytes_at|apply stream_at]; exact H. Qed.
Print Assumptions C88_path.

(** ** Ranges from a stream *)

Lemma first_byte s b s1 b1 : NextAbsolute 2 s = Ok (b, s1) -> index b 0 = Ok b1 -> exists t, total s = b1 :: t.
Proof.
  intros N1 I1. destruct (N.le_gt_cases 2 (len (total s))) as [L|L].
  - destruct (NextAbsolute_spec 2 s L) as (s1' & E & T & G). rewrite E in N1. injection N1 as <- <-.
    rewrite <- T. unfold total. unfold index in I1. destruct (g_array s1') as [|x l]; cbn in I1; [discriminate|].
    injection I1 as ->. eexists. reflexivity.
  - exfalso. unfold NextAbsolute, total in *. unfold len in *. rewrite app_length in L.
    destruct (match g_sched s with [] => (O, O) | x :: _ => x end) as [u v].
    cbn [arrive g_array g_future] in N1.
    destruct (N.leb_spec 2 (N.of_nat (length (g_array s ++ firstn u (g_future s))))) as [K|K].
    + rewrite app_length, firstn_length in K. lia.
    + destruct (N.ltb_spec (N.of_nat (length (g_array s ++ firstn u (g_future s))) + N.of_nat (length (skipn u (g_future s)))) 2) as [Q|Q]; [discriminate|].
      rewrite app_length, firstn_length, skipn_length in Q. lia.
Qed.

(** For every stream and every memory. The outcome, the subspaces, the times and
    what is left of the stream are those of the decoder on values. Of the paths,
    [b1] says which bound of the reference each is relative to. The end is decoded
    with what the start has left in the array of its reference, and then
    written over the start where both have room in the same array. *)
Theorem C88_range_exactly extra ss pp h ref fp s :
  in_memory h (m_start fp) -> in_memory h (m_end fp) ->
  match DecodeStreamRange3dRelative ss pp (whole h ref fp) s with
  | Ok (r, s') =>
      exists b1 t mr h', total s = b1 :: t
      /\ DecodeStreamRange3dRelative_at extra ss pp h ref fp s = Ok (subspace_range r, mr, time_range r, h', s')
      /\ let one := if has b1 8 then m_start fp else m_end fp in
         let two := if has b1 2 then m_start fp else m_end fp in
         let p1 := r_start (path_range r) in let p2 := r_end (path_range r) in
         let same := Nat.eqb (p_arr two) (p_arr one) && Nat.leb (length p1) (length (array h one)) in
         m_open mr = false
         /\ exists k suffix, (k <= length (array h two))%nat /\ p2 = firstn k (array h two) ++ suffix
            /\ seen h' (m_end mr) = (if same then firstn k (p1 ++ skipn (length p1) (array h two)) else firstn k (array h two)) ++ suffix
            /\ seen h' (m_start mr)
               = if same && Nat.leb (length p2) (length (array h two))
                 then firstn (length p1) (seen h' (m_end mr) ++ skipn (length p2) p1) else p1
  | Err => DecodeStreamRange3dRelative_at extra ss pp h ref fp s = Err
  | Panic => DecodeStreamRange3dRelative_at extra ss pp h ref fp s = Panic
  | Fatal => DecodeStreamRange3dRelative_at extra ss pp h ref fp s = Fatal
  | Hang => DecodeStreamRange3dRelative_at extra ss pp h ref fp s = Hang
  end.
Proof.
  intros [Hs _] [He _]. unfold DecodeStreamRange3dRelative, DecodeStreamRange3dRelative_at, whole.
  cbn [subspace_range path_range time_range r_start r_end r_open].
  destruct (NextAbsolute 2 s) as [[b s1]| | | |] eqn:N1; cbn [bind]; try reflexivity.
  destruct (index b 0) as [b1| | | |] eqn:I1; cbn [bind]; try reflexivity.
  destruct (index b 1) as [b2| | | |]; cbn [bind]; try reflexivity.
  destruct (match start_code b1 with CNone => Err | _ => Ok tt end) as [[]| | | |]; cbn [bind]; try reflexivity.
  destruct (match end_code b1 with CYes => _ | CRefEnd => _ | CRefStart => _ | CNone => _ end) as [[sStart s3]| | | |]; cbn [bind]; try reflexivity.
  destruct (first_byte _ _ _ _ N1 I1) as [t T].
  assert (B4 : N.land b1 4 =? 64 = false).
  { apply N.eqb_neq. intros E. assert (K : N.testbit (N.land b1 4) 6 = N.testbit 64 6) by (rewrite E; reflexivity).
    rewrite N.land_spec in K. change (N.testbit 4 6) with false in K. rewrite Bool.andb_false_r in K. discriminate. }
  rewrite B4.
  (* the two paths, for any pair of references *)
  assert (K : forall one two : pslice, (p_arr one < length h)%nat -> (p_arr two < length h)%nat ->
    match DecodeRelPathStream pp s3 (array h one) with
    | Ok (p1, s4) =>
        exists q1 h1, DecodeRelPathStream_at extra pp s3 h one = Ok (q1, h1, s4)
        /\ match DecodeRelPathStream pp s4 (array h two) with
           | Ok (p2, s5) =>
               exists q2 h2, DecodeRelPathStream_at extra pp s4 h1 two = Ok (q2, h2, s5)
               /\ exists k suffix, (k <= length (array h two))%nat /\ p2 = firstn k (array h two) ++ suffix
               /\ let same := Nat.eqb (p_arr two) (p_arr one) && Nat.leb (length p1) (length (array h one)) in
                  seen h2 q2 = (if same then firstn k (p1 ++ skipn (length p1) (array h two)) else firstn k (array h two)) ++ suffix
                  /\ seen h2 q1 = if same && Nat.leb (length p2) (length (array h two))
                                  then firstn (length p1) (seen h2 q2 ++ skipn (length p2) p1) else p1
           | Err => DecodeRelPathStream_at extra pp s4 h1 two = Err
           | Panic => DecodeRelPathStream_at extra pp s4 h1 two = Panic
           | Fatal => DecodeRelPathStream_at extra pp s4 h1 two = Fatal
           | Hang => DecodeRelPathStream_at extra pp s4 h1 two = Hang
           end
    | Err => DecodeRelPathStream_at extra pp s3 h one = Err
    | Panic => DecodeRelPathStream_at extra pp s3 h one = Panic
    | Fatal => DecodeRelPathStream_at extra pp s3 h one = Fatal
    | Hang => DecodeRelPathStream_at extra pp s3 h one = Hang
    end).
  { intros one two H1 H2. pose proof (stream_at extra pp s3 h one H1) as A.
    destruct (DecodeRelPathStream pp s3 (array h one)) as [[p1 s4]| | | |]; try exact A.
    destruct A as (q1 & h1 & A & P1). exists q1, h1. split; [exact A|].
    assert (H2' : (p_arr two < length h1)%nat) by (destruct P1 as (_ & _ & _ & G & _); lia).
    pose proof (placed_others _ _ _ _ _ two P1 H2) as L2.
    pose proof (stream_at extra pp s4 h1 two H2') as B.
    pose proof (rel_stream_length pp s4 (array h two) (array h1 two) L2) as C.
    destruct (DecodeRelPathStream pp s4 (array h two)) as [[p2 s5]| | | |] eqn:D; try (rewrite C in B; exact B).
    destruct (rel_stream_split _ _ _ _ _ D) as (k & suf & Lk & -> & Q).
    rewrite (Q _ L2) in B. destruct B as (q2 & h2 & B & P2). exists q2, h2. split; [exact B|].
    exists k, suf. split; [exact Lk|]. split; [reflexivity|]. cbn zeta.
    assert (Len : length (firstn k (array h1 two) ++ suf) = length (firstn k (array h two) ++ suf))
      by (rewrite !app_length, !firstn_length; lia).
    pose proof (placed_twice _ _ _ _ _ _ _ _ _ H1 H2 P1 P2) as S1.
    destruct P2 as (S2 & _). rewrite S2. rewrite Len in S1.
    split.
    - f_equal. destruct P1 as (_ & _ & _ & _ & F & Nn & O).
      destruct (Nat.eqb_spec (p_arr two) (p_arr one)) as [E|E]; cbn [andb].
      + destruct (Nat.leb_spec (length p1) (length (array h one))) as [L|L].
        * rewrite (array_arr h1 two one E). rewrite (proj2 (F L)). rewrite (array_arr h two one E). reflexivity.
        * rewrite (array_arr h1 two one E). rewrite (proj2 (Nn L)). rewrite (array_arr h two one E). reflexivity.
      + rewrite O by auto. reflexivity.
    - rewrite S1. reflexivity. }
  (* which references *)
  assert (W : forall one two : pslice, one = (if has b1 8 then m_start fp else m_end fp) ->
     two = (if has b1 2 then m_start fp else m_end fp) -> (p_arr one < length h)%nat /\ (p_arr two < length h)%nat).
  { intros ? ? -> ->. split; [destruct (has b1 8)|destruct (has b1 2)]; assumption. }
  destruct (W _ _ eq_refl eq_refl) as [W1 W2]. clear W. specialize (K _ _ W1 W2). revert K.
  destruct (has b1 8) eqn:E8; [|destruct (m_open fp) eqn:Eo; [reflexivity|]].
  all: destruct (DecodeRelPathStream pp s3 _) as [[p1 s4]| | | |]; intros K; try (rewrite K; reflexivity).
  all: destruct K as (q1 & h1 & A & K); rewrite A; cbn [bind]; revert K.
  all: destruct (has b1 2) eqn:E2; [|try rewrite Eo; try (destruct (m_open fp) eqn:Eo; [reflexivity|])].
  all: destruct (DecodeRelPathStream pp s4 _) as [[p2 s5]| | | |]; intros K; try (rewrite K; reflexivity).
  all: destruct K as (q2 & h2 & B & k & suf & Lk & Ep & S2 & S1); rewrite B; cbn [bind].
  all: destruct (stream_int _ s5) as [[sd s6]| | | |]; cbn [bind]; try reflexivity.
  all: destruct (if has b2 128 then _ else _) as [tStart| | | |]; cbn [bind]; try reflexivity.
  all: destruct (has b1 1).
  all: try (exists b1, t; eexists; exists h2; split; [exact T|]; split; [reflexivity|]; rewrite E8, E2;
            cbn [subspace_range path_range time_range r_start r_end r_open m_start m_end m_open]; cbn zeta;
            split; [reflexivity|]; exists k, suf; split; [exact Lk|]; split; [exact Ep|]; split; [exact S2|exact S1]).
  all: destruct (NextAbsolute _ s6) as [[c s7]| | | |]; cbn [bind]; try reflexivity.
  all: destruct (slice c 0 _) as [a| | | |]; cbn [bind]; try reflexivity.
  all: destruct (DecodeIntMax64 a) as [ed| | | |]; cbn [bind]; try reflexivity.
  all: destruct (if has b2 8 then _ else _) as [tEnd| | | |]; cbn [bind]; try reflexivity.
  all: exists b1, t; eexists; exists h2; split; [exact T|]; split; [reflexivity|]; rewrite E8, E2;
            cbn [subspace_range path_range time_range r_start r_end r_open m_start m_end m_open]; cbn zeta;
            split; [reflexivity|]; exists k, suf; split; [exact Lk|]; split; [exact Ep|]; split; [exact S2|exact S1].
Qed.
Print Assumptions C88_range_exactly.

(** The paths are the ones that were sent when the two are relative to paths in
    different arrays, or when the start is too long for the array of its reference. *)
Theorem C88_range_right extra ss pp h ref fp s b1 t r s' :
  in_memory h (m_start fp) -> in_memory h (m_end fp) -> total s = b1 :: t ->
  DecodeStreamRange3dRelative ss pp (whole h ref fp) s = Ok (r, s') ->
  let one := if has b1 8 then m_start fp else m_end fp in
  let two := if has b1 2 then m_start fp else m_end fp in
  p_arr one <> p_arr two \/ (length (array h one) < length (r_start (path_range r)))%nat ->
  exists mr h', DecodeStreamRange3dRelative_at extra ss pp h ref fp s = Ok (subspace_range r, mr, time_range r, h', s')
    /\ seen h' (m_start mr) = r_start (path_range r) /\ seen h' (m_end mr) = r_end (path_range r) /\ m_open mr = false.
Proof.
  intros Hs He T D one two A. pose proof (C88_range_exactly extra ss pp h ref fp s Hs He) as E. rewrite D in E.
  destruct E as (b1' & t' & mr & h' & T' & E & O & k & suf & Lk & Ep & S2 & S1). rewrite T in T'. injection T' as <- <-.
  fold one two in Lk, Ep, S2, S1. exists mr, h'.
  assert (F : Nat.eqb (p_arr two) (p_arr one) && Nat.leb (length (r_start (path_range r))) (length (array h one)) = false).
  { destruct A as [A|A].
    - destruct (Nat.eqb_spec (p_arr two) (p_arr one)); [congruence|reflexivity].
    - rewrite (proj2 (Nat.leb_gt _ _) A). apply Bool.andb_false_r. }
  rewrite F in S1, S2. cbn [andb] in S1. rewrite <- Ep in S2. auto.
Qed.
Print Assumptions C88_range_right.

(** Whatever was sent, when both are relative to paths of one array and it has room
    for both, one of the decoded paths is a prefix of the other. *)
Theorem C88_range_clash extra ss pp h ref fp s b1 t sr mr tr h' s' :
  in_memory h (m_start fp) -> in_memory h (m_end fp) -> total s = b1 :: t ->
  DecodeStreamRange3dRelative_at extra ss pp h ref fp s = Ok (sr, mr, tr, h', s') ->
  let one := if has b1 8 then m_start fp else m_end fp in
  let two := if has b1 2 then m_start fp else m_end fp in
  p_arr one = p_arr two ->
  (length (seen h' (m_start mr)) <= length (array h one))%nat -> (length (seen h' (m_end mr)) <= length (array h one))%nat ->
  prefix_of (seen h' (m_start mr)) (seen h' (m_end mr)) \/ prefix_of (seen h' (m_end mr)) (seen h' (m_start mr)).
Proof.
  intros Hs He T D one two A L1 L2. pose proof (C88_range_exactly extra ss pp h ref fp s Hs He) as E. rewrite D in E.
  destruct (DecodeStreamRange3dRelative ss pp (whole h ref fp) s) as [[r s'']| | | |]; try discriminate.
  destruct E as (b1' & t' & mr' & h'' & T' & E & O & k & suf & Lk & Ep & S2 & S1). rewrite T in T'. injection T' as <- <-.
  injection E as E1 E2 E3 E4 E5. subst mr' h''. fold one two in Lk, Ep, S2, S1.
  set (p1 := r_start (path_range r)) in *. set (p2 := r_end (path_range r)) in *.
  assert (Ar : array h two = array h one) by (apply array_arr; auto).
  rewrite Ar in *. rewrite (proj2 (Nat.eqb_eq (p_arr two) (p_arr one))) in S1, S2 by auto. cbn [andb] in S1, S2.
  assert (Len : length (seen h' (m_end mr)) = length p2).
  { rewrite S2, Ep. rewrite !app_length. f_equal.
    destruct (Nat.leb_spec (length p1) (length (array h one))); [|reflexivity].
    rewrite !firstn_length, app_length, skipn_length. lia. }
  rewrite (proj2 (Nat.leb_le (length p2) (length (array h one)))) in S1 by lia. rewrite Bool.andb_true_r in S1.
  assert (Q : (length p1 <= length (array h one))%nat).
  { destruct (Nat.leb_spec (length p1) (length (array h one))) as [Q|Q]; [exact Q|]. rewrite S1 in L1. lia. }
  rewrite (proj2 (Nat.leb_le _ _) Q) in S1.
  destruct (Nat.le_gt_cases (length p1) (length p2)) as [K|K].
  - left. exists (skipn (length p1) (seen h' (m_end mr))). rewrite S1. rewrite firstn_app.
    rewrite Len. replace (length p1 - length p2)%nat with 0%nat by lia. rewrite firstn_O, app_nil_r. symmetry. apply firstn_skipn.
  - right. rewrite S1. rewrite firstn_app. rewrite firstn_all2 by lia. eexists. reflexivity.
Qed.
Print Assumptions C88_range_clash.

(** So a range of paths is not decoded to itself. Relative to a range whose start
    has two components, the paths from 1/2 to 1/3 come out as those from 1/3 to
    1/3, which is no path; with values, they come out right. *)
Definition C88_ref := Range3d (Range [97] [] true) (Range [[1]; [9]] [[1]; [9]; [9]] false) (Range 5 100 false).
Definition C88_range := Range3d (Range [97] [] true) (Range [[1]; [2]] [[1]; [3]] false) (Range 10 20 false).
Definition C88_heap : pheap := [[[1]; [9]]; [[1]; [9]; [9]]].
Definition C88_slices := MRange (Ps 0 2) (Ps 1 3) false.
Theorem C88_range_refuted : exists ss pp r ref h fp b mr sr tr s h',
  in_memory h (m_start fp) /\ in_memory h (m_end fp) /\ mpaths h fp = path_range ref
  /\ p_arr (m_start fp) <> p_arr (m_end fp)
  /\ EncodeRange3dRelative (c_enc ss) OrderBytes pp r ref = Ok b
  /\ (exists r', DecodeStreamRange3dRelative ss pp ref (Stream b [] []) = Ok (r', s) /\ path_range r' = path_range r)
  /\ DecodeStreamRange3dRelative_at (fun _ => O) ss pp h ref fp (Stream b [] []) = Ok (sr, mr, tr, h', s)
  /\ mpaths h' mr = Range [[1]; [3]] [[1]; [3]] false /\ path_range r = Range [[1]; [2]] [[1]; [3]] false
  /\ seen h' (m_start fp) = [[1]; [3]].
Proof.
  exists (fixed_codec 1), rel_pp, C88_range, C88_ref, C88_heap, C88_slices, [74; 204; 1; 1; 1; 2; 1; 1; 1; 3; 5; 15].
  do 5 eexists. split; [split; cbn; lia|]. split; [split; cbn; lia|]. split; [reflexivity|]. split; [discriminate|].
  split; [vm_compute; reflexivity|]. split; [eexists; split; [vm_compute; reflexivity|reflexivity]|].
  split; [vm_compute; reflexivity|]. split; [vm_compute; reflexivity|]. split; reflexivity.
Qed.
Print Assumptions C88_range_refuted.

(** The end may also be made of pieces that were never sent together: 1/9/5 relative
    to 1/9 is 1/2/5 once 1/2 has been decoded before it. *)
Example C88_instance_range : exists mr sr tr s h',
  DecodeStreamRange3dRelative_at (fun _ => O) (fixed_codec 1) rel_pp C88_heap C88_ref C88_slices
    (Stream [75; 192; 1; 1; 1; 2; 2; 1; 1; 5; 5] [] []) = Ok (sr, mr, tr, h', s)
  /\ mpaths h' mr = Range [[1]; [2]] [[1]; [2]; [5]] false
  /\ exists r, DecodeStreamRange3dRelative (fixed_codec 1) rel_pp (whole C88_heap C88_ref C88_slices)
       (Stream [75; 192; 1; 1; 1; 2; 2; 1; 1; 5; 5] [] []) = Ok (r, s)
     /\ path_range r = Range [[1]; [2]] [[1]; [9]; [5]] false.
Proof.
  do 5 eexists. split; [vm_compute; reflexivity|]. split; [vm_compute; reflexivity|].
  eexists. split; [vm_compute; reflexivity|reflexivity].
Qed.

(** Start relative to one array and end to the other: both right. *)
Example C88_instance_right : exists mr sr tr s h',
  DecodeStreamRange3dRelative_at (fun _ => O) (fixed_codec 1) rel_pp C88_heap C88_ref C88_slices
    (Stream [73; 192; 1; 1; 1; 2; 2; 1; 1; 5; 5] [] []) = Ok (sr, mr, tr, h', s)
  /\ mpaths h' mr = Range [[1]; [2]] [[1]; [9]; [5]] false /\ has 73 8 = true /\ has 73 2 = false.
Proof.
  do 5 eexists. split; [vm_compute; reflexivity|]. split; [vm_compute; reflexivity|]. split; reflexivity.
Qed.

(** ** Ranges and areas from bytes *)

Lemma common_count_self (p x : path) m : common_count p (firstn m (p ++ x)) = Nat.min (length p) m.
Proof.
  revert m. induction p as [|c p IH]; intros m; [reflexivity|]. destruct m as [|m]; [reflexivity|].
  cbn [app firstn common_count length Nat.min]. rewrite (proj2 (rel_order_eq c c) eq_refl). cbn [Z.eqb]. rewrite IH. reflexivity.
Qed.

(** The position after a path is found by comparing it with the reference when it
    already lies in the array of the reference. So where it has room there, one
    byte is counted for each component by which it is longer than the reference,
    whatever was taken from the reference; and where the decoder on values ends the
    process because there is no common component, this one does not, unless
    one of the two is empty. *)
Theorem C88_position extra pp enc pos b h ref p :
  in_memory h ref -> slice_from enc pos = Ok b -> DecodeRelativePath pp b (array h ref) = Ok p ->
  ((length p <= length (array h ref))%nat -> p <> [] -> (p_len ref <> 0)%nat ->
   exists q h', placed h ref p q h' /\ dec_path_at_at extra pp enc pos h ref
     = Ok (q, h', pos + (GetWidthMax32Int (max_component_count pp) + N.of_nat (length p - p_len ref))))
  /\ ((length p <= length (array h ref))%nat -> p = [] \/ (p_len ref = 0)%nat -> dec_path_at_at extra pp enc pos h ref = Fatal)
  /\ ((length (array h ref) < length p)%nat ->
      match EncodePathRelativeLength pp p (seen h ref) with
      | Ok l => exists q h', placed h ref p q h' /\ dec_path_at_at extra pp enc pos h ref = Ok (q, h', pos + l)
      | _ => dec_path_at_at extra pp enc pos h ref = Fatal
      end).
Proof.
  intros [H Hl] Hb D. pose proof (bytes_at extra pp b h ref H) as A. rewrite D in A. destruct A as (q & h' & A & P).
  unfold dec_path_at_at. rewrite Hb. cbn [bind]. rewrite A. cbn [bind].
  pose proof P as (S & _ & _ & _ & F & Nn & _). rewrite S.
  assert (C : (length p <= length (array h ref))%nat -> common_count p (seen h' ref) = Nat.min (length p) (p_len ref)).
  { intros L. unfold seen. rewrite (proj2 (F L)). apply common_count_self. }
  unfold EncodePathRelativeLength, CommonPrefix. split; [|split].
  - intros L Hp Hr. exists q, h'. split; [exact P|]. rewrite (C L).
    assert (0 < length p)%nat by (destruct p; [congruence|cbn; lia]).
    destruct (Nat.min (length p) (p_len ref)) as [|i] eqn:Em; [lia|]. cbn [bind]. rewrite <- Em.
    unfold len. rewrite skipn_length, firstn_length.
    replace (length p - Nat.min (Nat.min (length p) (p_len ref)) (length p))%nat with (length p - p_len ref)%nat by lia. reflexivity.
  - intros L Hp. rewrite (C L). destruct (Nat.min (length p) (p_len ref)) as [|i] eqn:Em; [reflexivity|].
    destruct Hp as [-> | Hp]; [discriminate|lia].
  - intros L. assert (U : seen h' ref = seen h ref) by (unfold seen; rewrite (proj2 (Nn L)); reflexivity). rewrite U.
    destruct (common_count p (seen h ref)); [reflexivity|]. exists q, h'. split; [exact P|reflexivity].
Qed.
Print Assumptions C88_position.

Example C88_instance_position :
  dec_path_at_at (fun _ => O) rel_pp [0; 1; 1; 7] 0 [[[1]; [2]]] (Ps 0 2) = Ok (Ps 0 1, [[[7]; [2]]], 1)
  /\ dec_path_at rel_pp [0; 1; 1; 7] 0 [[1]; [2]] = Fatal
  /\ dec_path_at_at (fun _ => O) rel_pp [1; 1; 1; 7] 0 [[[1]; [2]]] (Ps 0 2) = Ok (Ps 0 2, [[[1]; [7]]], 1)
  /\ dec_path_at rel_pp [1; 1; 1; 7] 0 [[1]; [2]] = Ok ([[1]; [7]], 2).
Proof. vm_compute. auto. Qed.


(** Bytes the encoder writes are one range with values and another in memory. *)
Definition C88_open := Range3d (Range [97] [] true) (Range [[1]; [2]] [[1]; [3]] false) (Range 10 0 true).
Theorem C88_bytes_refuted : exists ss pp b r0 ref h fp r sr mr tr h',
  in_memory h (m_start fp) /\ in_memory h (m_end fp) /\ mpaths h fp = path_range ref
  /\ EncodeRange3dRelative (enc ss) OrderBytes pp r0 ref = Ok b
  /\ DecodeRange3dRelative ss pp b ref = Ok r
  /\ DecodeRange3dRelative_at (fun _ => O) ss pp b h ref fp = Ok (sr, mr, tr, h')
  /\ path_range r0 = Range [[1]; [2]] [[1]; [3]] false
  /\ path_range r = Range [[1]; [2]] [[1]; [1]; [3]] false
  /\ mpaths h' mr = Range [[1]; [1; 1]] [[1]; [1; 1]] false.
Proof.
  exists (fixed_scheme 1), rel_pp, [75; 200; 1; 1; 1; 2; 1; 1; 1; 3; 5; 5], C88_open, C88_ref, C88_heap, C88_slices.
  do 5 eexists. split; [split; cbn; lia|]. split; [split; cbn; lia|]. split; [reflexivity|].
  split; [vm_compute; reflexivity|]. split; [vm_compute; reflexivity|]. split; [vm_compute; reflexivity|].
  split; [reflexivity|]. split; vm_compute; reflexivity.
Qed.
Print Assumptions C88_bytes_refuted.

Lemma rel_path_seen pp b h ref p : DecodeRelativePath pp b (seen h ref) = Ok p -> DecodeRelativePath pp b (array h ref) = Ok p.
Proof.
  unfold DecodeRelativePath.
  destruct (slice b 0 _) as [pb| | | |]; cbn [bind]; try discriminate.
  destruct (match DecodeIntMax32 _ _ with Ok n => Ok n | _ => Fatal end) as [n| | | |]; cbn [bind]; try discriminate.
  destruct (slice (seen h ref) 0 n) as [pre| | | |] eqn:Ea; cbn [bind]; try discriminate.
  unfold seen in Ea. apply slice_firstn in Ea. rewrite Ea. cbn [bind]. auto.
Qed.

(** A path that continues the one of the reference, or is the beginning of it,
    leaves what is seen of the reference as it was. *)
Lemma placed_kept h ref p q h' : in_memory h ref -> placed h ref p q h' ->
  prefix_of (seen h ref) p \/ prefix_of p (seen h ref) -> seen h' ref = seen h ref.
Proof.
  intros [_ Hl] (_ & _ & _ & _ & F & Nn & _) Hp. unfold seen at 1.
  destruct (Nat.le_gt_cases (length p) (length (array h ref))) as [L|L]; [|rewrite (proj2 (Nn L)); reflexivity].
  rewrite (proj2 (F L)). destruct Hp as [[x ->]|[x E]].
  - rewrite <- app_assoc, firstn_app. assert (Ls : length (seen h ref) = p_len ref) by (unfold seen; rewrite firstn_length; lia).
    rewrite Ls, Nat.sub_diag, firstn_O, app_nil_r. rewrite firstn_all2 by lia. reflexivity.
  - assert (Ep : p = firstn (length p) (array h ref)).
    { assert (K : firstn (length p) (seen h ref) = p) by (rewrite E, firstn_app, Nat.sub_diag, firstn_all, firstn_O, app_nil_r; reflexivity).
      assert (Lp : (length p <= p_len ref)%nat)
        by (assert (Le : length (seen h ref) = length (p ++ x)) by (rewrite E; reflexivity);
            unfold seen in Le; rewrite firstn_length, app_length in Le; lia).
      rewrite <- K at 1. unfold seen. rewrite firstn_firstn. f_equal. lia. }
    rewrite Ep at 1. rewrite firstn_skipn. reflexivity.
Qed.

(** A range of paths with an open end comes out of bytes as with values when its
    start continues the path it is relative to, is a beginning of it, or is too
    long for its array. *)
Theorem C88_bytes_right extra ss pp enc h ref fp r b1 :
  in_memory h (m_start fp) -> in_memory h (m_end fp) -> path_range ref = mpaths h fp ->
  DecodeRange3dRelative ss pp enc ref = Ok r -> r_open (path_range r) = true -> index enc 0 = Ok b1 ->
  let one := if has b1 8 then m_start fp else m_end fp in
  let p := r_start (path_range r) in
  prefix_of (seen h one) p \/ prefix_of p (seen h one) \/ (length (array h one) < length p)%nat ->
  exists mr h', DecodeRange3dRelative_at extra ss pp enc h ref fp = Ok (subspace_range r, mr, time_range r, h')
    /\ mpaths h' mr = path_range r /\ seen h' one = seen h one.
Proof.
  intros Hs He Hr D Ho I1 one p Hp. unfold DecodeRange3dRelative, DecodeRange3dRelative_at in *. rewrite Hr in D.
  rewrite I1 in *. cbn [bind mpaths r_start r_end r_open] in *.
  destruct (index enc 1) as [b2| | | |]; cbn [bind] in *; try discriminate.
  destruct (match start_code b1 with CNone => Err | _ => Ok tt end) as [[]| | | |]; cbn [bind] in *; try discriminate.
  destruct (match start_code b1 with CYes => _ | CRefEnd => _ | CRefStart => _ | CNone => _ end) as [[sStart pos]| | | |]; cbn [bind] in *; try discriminate.
  destruct (match end_code b1 with CYes => _ | CRefEnd => _ | CRefStart => _ | CNone => _ end) as [[sEnd pos']| | | |]; cbn [bind] in *; try discriminate.
  assert (K : forall p0 pos2, dec_path_at pp enc pos' (seen h one) = Ok (p0, pos2) ->
     prefix_of (seen h one) p0 \/ prefix_of p0 (seen h one) \/ (length (array h one) < length p0)%nat ->
     exists q h', dec_path_at_at extra pp enc pos' h one = Ok (q, h', pos2) /\ seen h' q = p0 /\ seen h' one = seen h one).
  { intros p0 pos2 E Hq. assert (Hm : in_memory h one) by (unfold one; destruct (has b1 8); assumption).
    unfold dec_path_at, dec_path_at_at in *.
    destruct (slice_from enc pos') as [b| | | |]; cbn [bind] in *; try discriminate.
    destruct (DecodeRelativePath pp b (seen h one)) as [p1| | | |] eqn:E1; cbn [bind] in *; try discriminate.
    apply rel_path_seen in E1. pose proof (bytes_at extra pp b h one (proj1 Hm)) as A. rewrite E1 in A.
    destruct A as (q & h' & A & P). rewrite A. cbn [bind].
    assert (p1 = p0) by (destruct (EncodePathRelativeLength pp p1 (seen h one)); cbn [bind] in E; try discriminate; injection E as -> _; reflexivity).
    subst p1. assert (Sq : seen h' q = p0) by apply P.
    assert (So : seen h' one = seen h one).
    { destruct Hq as [Hq|[Hq|Hq]]; [eapply placed_kept; eauto|eapply placed_kept; eauto|].
      destruct P as (_ & _ & _ & _ & _ & Nn & _). unfold seen. rewrite (proj2 (Nn Hq)). reflexivity. }
    rewrite Sq, So. destruct (EncodePathRelativeLength pp p0 (seen h one)) as [l| | | |]; cbn [bind] in *; try discriminate.
    injection E as <-. exists q, h'. auto. }
  assert (E8 : (if has b1 8 then dec_path_at pp enc pos' (seen h (m_start fp))
                else if m_open fp then Err else dec_path_at pp enc pos' (seen h (m_end fp)))
               = if negb (has b1 8) && m_open fp then Err else dec_path_at pp enc pos' (seen h one))
    by (unfold one; destruct (has b1 8), (m_open fp); reflexivity).
  assert (E8' : (if has b1 8 then dec_path_at_at extra pp enc pos' h (m_start fp)
                 else if m_open fp then Err else dec_path_at_at extra pp enc pos' h (m_end fp))
               = if negb (has b1 8) && m_open fp then Err else dec_path_at_at extra pp enc pos' h one)
    by (unfold one; destruct (has b1 8), (m_open fp); reflexivity).
  rewrite E8 in D. rewrite E8'. clear E8 E8'.
  destruct (negb (has b1 8) && m_open fp); [discriminate|].
  destruct (dec_path_at pp enc pos' (seen h one)) as [[p0 pos2]| | | |] eqn:Ed; cbn [bind] in D; try discriminate.
  specialize (K p0 pos2 eq_refl).
  destruct (has b1 4) eqn:E4.
  2:{ exfalso. destruct (if has b1 2 then _ else _) as [[x y]| | | |]; cbn [bind] in D; try discriminate.
      destruct (slice enc y _) as [a| | | |]; cbn [bind] in D; try discriminate.
      destruct (DecodeIntMax64 a) as [sd| | | |]; cbn [bind] in D; try discriminate.
      destruct (if has b2 128 then _ else _) as [t1| | | |]; cbn [bind] in D; try discriminate.
      destruct (if has b1 1 then _ else _) as [t2| | | |]; cbn [bind] in D; try discriminate.
      injection D as <-. discriminate Ho. }
  cbn [bind] in D.
  destruct (slice enc pos2 _) as [a| | | |] eqn:Ea; cbn [bind] in D; try discriminate.
  destruct (DecodeIntMax64 a) as [sd| | | |] eqn:Es; cbn [bind] in D; try discriminate.
  destruct (if has b2 128 then _ else _) as [t1| | | |] eqn:Et; cbn [bind] in D; try discriminate.
  destruct (if has b1 1 then _ else _) as [t2| | | |] eqn:E1; cbn [bind] in D; try discriminate.
  injection D as <-. cbn [path_range r_start] in p. subst p. destruct (K Hp) as (q & h' & A & S1 & S2).
  rewrite A. cbn [bind]. rewrite Ea. cbn [bind]. rewrite Es. cbn [bind]. rewrite Et. cbn [bind]. rewrite E1. cbn [bind].
  cbn [subspace_range path_range time_range]. eexists. exists h'. split; [reflexivity|]. split; [|exact S2].
  unfold mpaths. cbn [m_start m_end m_open]. rewrite S1. reflexivity.
Qed.
Print Assumptions C88_bytes_right.

(** So the ranges that come back as values (C21) also do in memory. *)
Lemma first_header ss order pp r ref b : r_open (path_range r) = true ->
  EncodeRange3dRelative ss order pp r ref = Ok b ->
  exists b1 t, b = b1 :: t
    /\ has b1 8 = (common_len (r_start (path_range r)) (r_end (path_range ref)) <=? common_len (r_start (path_range r)) (r_start (path_range ref))).
Proof.
  intros Ho. unfold EncodeRange3dRelative. rewrite Ho.
  generalize (common_len (r_start (path_range r)) (r_end (path_range ref)) <=? common_len (r_start (path_range r)) (r_start (path_range ref))). intros rs.
  generalize (common_len (r_end (path_range r)) (r_end (path_range ref)) <=? common_len (r_end (path_range r)) (r_start (path_range ref))). intros re.
  destruct (if IsEqualRangeValue order (subspace_range r) true (subspace_range ref) true then _ else _) as [e1 sStart] eqn:E1.
  assert (C1 : In e1 [64; 128; 192]) by (repeat destruct (IsEqualRangeValue _ _ _ _ _); injection E1 as <- _; cbn; auto).
  destruct (if r_open (subspace_range r) then _ else _) as [e2 sEnd] eqn:E2.
  assert (C2 : In e2 [64; 128; 192; 16; 96; 160; 224; 112; 176; 240]).
  { destruct C1 as [<-|[<-|[<-|[]]]]; destruct (r_open (subspace_range r)); repeat destruct (IsEqualRangeValue _ _ _ _ _);
      injection E2 as <- _; vm_compute; auto 20. }
  destruct (EncodeRelativePath pp (r_start (path_range r)) _) as [pS| | | |]; cbn [bind]; try discriminate.
  destruct (EncodeRelativePath pp (r_end (path_range r)) _) as [pE| | | |]; cbn [bind]; try discriminate.
  intros E. injection E as <-. eexists; eexists. split; [reflexivity|].
  clear - C2. cbn [In] in C2. cbn [negb]. rewrite Bool.andb_false_r.
  repeat (destruct C2 as [<-|C2]; [destruct rs, (r_open (time_range r)); vm_compute; reflexivity|]). contradiction.
Qed.

Theorem C88_roundtrip_partial extra order pp ss r ref h fp rest :
  in_memory h (m_start fp) -> in_memory h (m_end fp) -> path_range ref = mpaths h fp ->
  codec_params pp -> (forall a b, order a b = 0%Z <-> a = b) ->
  max_component_count pp < 256 ->
  codec_path pp (r_start (path_range r)) -> r_start (path_range r) <> [] ->
  prefix_of (r_start (path_range r)) (r_start (path_range ref)) ->
  r_open (path_range r) = true -> share_first (r_end (path_range r)) (r_start (path_range ref)) ->
  r_open (time_range r) = true -> r_start (time_range r) = r_start (time_range ref) -> r_start (time_range r) < 2 ^ 64 ->
  scheme_ok ss (r_start (subspace_range r)) -> (r_open (subspace_range r) = false -> scheme_ok ss (r_end (subspace_range r))) ->
  (r_open (subspace_range r) = true -> r_open (subspace_range ref) = true ->
   r_start (subspace_range r) = r_start (subspace_range ref)) ->
  (r_open (subspace_range r) = false -> r_open (subspace_range ref) = false ->
   r_end (subspace_range r) <> r_start (subspace_range ref)) ->
  exists b, EncodeRange3dRelative (enc ss) order pp r ref = Ok b
    /\ exists sr mr tr h', DecodeRange3dRelative_at extra ss pp (b ++ rest) h ref fp = Ok (sr, mr, tr, h')
      /\ same_range sr (subspace_range r) /\ same_range (mpaths h' mr) (path_range r) /\ same_range tr (time_range r)
      /\ seen h' (m_start fp) = seen h (m_start fp).
Proof.
  intros Hs He Hr H1 H2 H3 H4 H5 H6 H7 H8 H9 H10 H11 H12 H13 H14 H15.
  destruct (C21_roundtrip_partial order pp ss r ref rest H1 H2 H3 H4 H5 H6 H7 H8 H9 H10 H11 H12 H13 H14 H15)
    as (b & E & r' & D & Q1 & Q2 & Q3).
  exists b. split; [exact E|]. destruct (first_header _ _ _ _ _ _ H7 E) as (b1 & t & -> & B).
  assert (B8 : has b1 8 = true).
  { rewrite B. apply N.leb_le. eapply N.le_trans; [apply common_len_le|]. unfold common_len, CommonPrefix.
    rewrite common_count_prefix_all by auto. destruct (length (r_start (path_range r))) eqn:L; [destruct (r_start (path_range r)); cbn in L; congruence|].
    rewrite <- L. rewrite firstn_all. lia. }
  pose proof Q2 as (P1 & P2 & P3).
  assert (O' : r_open (path_range r') = true) by congruence.
  assert (St : r_start (path_range r') = r_start (path_range r)) by auto.
  destruct (C88_bytes_right extra ss pp ((b1 :: t) ++ rest) h ref fp r' b1 Hs He Hr D O' eq_refl) as (mr & h' & A & M & S).
  { rewrite B8, St. right; left. rewrite Hr in H6. exact H6. }
  rewrite B8 in S. exists (subspace_range r'), mr, (time_range r'), h'. rewrite M. auto.
Qed.
Print Assumptions C88_roundtrip_partial.

Definition C21_heap : pheap := [r_start (path_range C21_ref) ++ [[77]]; r_end (path_range C21_ref)].
Definition C21_slices := MRange (Ps 0 (length (r_start (path_range C21_ref)))) (Ps 1 (length (r_end (path_range C21_ref)))) (r_open (path_range C21_ref)).
Example C88_instance_roundtrip : exists b sr mr tr h',
  mpaths C21_heap C21_slices = path_range C21_ref
  /\ EncodeRange3dRelative (enc (fixed_scheme 1)) OrderBytes rel_pp C21_range C21_ref = Ok b
  /\ DecodeRange3dRelative_at (fun _ => O) (fixed_scheme 1) rel_pp b C21_heap C21_ref C21_slices = Ok (sr, mr, tr, h')
  /\ sr = Range [98] [99] false /\ mpaths h' mr = Range [[1]] [] true /\ tr = Range 100 0 true /\ h' = C21_heap.
Proof.
  do 5 eexists. split; [reflexivity|]. split; [vm_compute; reflexivity|]. split; [vm_compute; reflexivity|].
  split; [reflexivity|]. split; [vm_compute; reflexivity|]. split; reflexivity.
Qed.

(** An area whose path continues that of the outer area, as that of an area inside
    it does, comes out as with values, and the outer area keeps its path. *)
Theorem C88_area_right extra dec_ss pp enc h outer op a :
  in_memory h op -> area_path outer = seen h op -> DecodeAreaInArea dec_ss pp enc outer = Ok a ->
  prefix_of (area_path outer) (area_path a) ->
  exists q h', DecodeAreaInArea_at extra dec_ss pp enc h outer op = Ok (area_subspace a, q, area_times a, h')
    /\ seen h' q = area_path a /\ seen h' op = area_path outer.
Proof.
  intros Hm Ho D Hp.
  assert (K : forall pos e p u, dec_area_rest dec_ss pp enc pos e outer = Ok (p, u) -> prefix_of (area_path outer) p ->
    exists q h', dec_area_rest_at extra dec_ss pp enc pos e h outer op = Ok (q, h', u) /\ seen h' q = p /\ seen h' op = area_path outer).
  { intros pos e p u. unfold dec_area_rest, dec_area_rest_at.
    destruct (slice_from enc pos) as [b| | | |]; cbn [bind]; try discriminate.
    destruct (DecodeRelativePath pp b (area_path outer)) as [p0| | | |] eqn:E; cbn [bind]; try discriminate.
    rewrite Ho in E. apply rel_path_seen in E. pose proof (bytes_at extra pp b h op (proj1 Hm)) as A. rewrite E in A.
    destruct A as (q & h' & A & P). rewrite A. cbn [bind]. intros R Hq.
    assert (p0 = p). { destruct (EncodePathRelativeLength pp p0 (area_path outer)) as [l| | | |]; cbn [bind] in R; try discriminate.
      destruct e; [|injection R as -> _; reflexivity].
      destruct (slice_from enc (pos + l)) as [c| | | |]; cbn [bind] in R; try discriminate.
      destruct (dec_ss c); try discriminate; injection R as -> _; reflexivity. }
    subst p0. assert (Sq : seen h' q = p) by apply P.
    assert (So : seen h' op = seen h op) by (eapply placed_kept; eauto; left; rewrite <- Ho; exact Hq).
    rewrite Sq, So, <- Ho. destruct (EncodePathRelativeLength pp p (area_path outer)) as [l| | | |]; cbn [bind] in *; try discriminate.
    destruct e.
    - destruct (slice_from enc (pos + l)) as [c| | | |]; cbn [bind] in *; try discriminate.
      destruct (dec_ss c); try discriminate; injection R as <-; exists q, h'; rewrite So; auto.
    - injection R as <-. exists q, h'. rewrite So. auto. }
  unfold DecodeAreaInArea, DecodeAreaInArea_at in *.
  destruct (index enc 0) as [flags| | | |]; cbn [bind] in *; try discriminate.
  destruct (has flags 64).
  - destruct (slice enc 1 _) as [x| | | |]; cbn [bind] in *; try discriminate.
    destruct (DecodeIntMax64 x) as [sd| | | |]; cbn [bind] in *; try discriminate.
    destruct (dec_area_rest dec_ss pp enc _ _ outer) as [[p u]| | | |] eqn:R; cbn [bind] in *; try discriminate.
    injection D as <-. cbn [area_path area_subspace area_times] in *. destruct (K _ _ _ _ R Hp) as (q & h' & A & S1 & S2).
    rewrite A. cbn [bind fst snd]. exists q, h'. auto.
  - destruct (slice enc 1 _) as [x| | | |]; cbn [bind] in *; try discriminate.
    destruct (DecodeIntMax64 x) as [sd| | | |]; cbn [bind] in *; try discriminate.
    destruct (slice enc (1 + _) _) as [y| | | |]; cbn [bind] in *; try discriminate.
    destruct (DecodeIntMax64 y) as [ed| | | |]; cbn [bind] in *; try discriminate.
    destruct (dec_area_rest dec_ss pp enc _ _ outer) as [[p u]| | | |] eqn:R; cbn [bind] in *; try discriminate.
    injection D as <-. cbn [area_path area_subspace area_times] in *. destruct (K _ _ _ _ R Hp) as (q & h' & A & S1 & S2).
    rewrite A. cbn [bind fst snd]. exists q, h'. auto.
Qed.
Print Assumptions C88_area_right.

(** Other areas are read differently: here the subspace is looked for one byte
    earlier, and the outer area has got the path of the inner. *)
Definition C88_outer := Area [97] [[1]; [2]] (Range 0 100 false) false.
Theorem C88_area_refuted : exists inner b a u q tr h',
  EncodeAreaInArea (fun x => x) OrderBytes rel_pp inner C88_outer = Ok b
  /\ DecodeAreaInArea (dec (fixed_scheme 1)) rel_pp b C88_outer = Ok a
  /\ DecodeAreaInArea_at (fun _ => O) (dec (fixed_scheme 1)) rel_pp b [[[1]; [2]]] C88_outer (Ps 0 2) = Ok (u, q, tr, h')
  /\ area_subspace a = [2] /\ u = [1] /\ seen h' (Ps 0 2) = area_path inner /\ area_path inner = [[1]; [3; 3]].
Proof.
  exists (Area [98] [[1]; [3; 3]] (Range 10 100 false) false). do 6 eexists.
  split; [vm_compute; reflexivity|]. split; [vm_compute; reflexivity|]. split; [vm_compute; reflexivity|].
  split; [vm_compute; reflexivity|]. split; [reflexivity|]. split; vm_compute; reflexivity.
Qed.
Print Assumptions C88_area_refuted.

Example C88_instance_area : exists b q h',
  EncodeAreaInArea (fun x => x) OrderBytes rel_pp (Area [97] [[1]; [2]; [4]] (Range 10 50 false) false) C88_outer = Ok b
  /\ DecodeAreaInArea_at (fun _ => O) (dec (fixed_scheme 1)) rel_pp b [[[1]; [2]; [8]]] C88_outer (Ps 0 2)
     = Ok ([97], q, Range 10 50 false, h')
  /\ seen h' q = [[1]; [2]; [4]] /\ seen h' (Ps 0 2) = [[1]; [2]] /\ h' = [[[1]; [2]; [4]]].
Proof.
  do 3 eexists. split; [vm_compute; reflexivity|]. split; [vm_compute; reflexivity|].
  split; [vm_compute; reflexivity|]. split; vm_compute; reflexivity.
Qed.

(** ** Areas and entries from a stream *)

(** One path each: everything is as with values, and the path is put into the
    array of the reference where it has room. *)
Theorem C88_stream_area extra ss pp h outer op s : in_memory h op ->
  match DecodeStreamAreaInArea ss pp (Area (area_subspace outer) (array h op) (area_times outer) (area_any outer)) s with
  | Ok (a, s') => exists q h', DecodeStreamAreaInArea_at extra ss pp h outer op s = Ok (area_subspace a, q, area_times a, h', s')
                    /\ placed h op (area_path a) q h'
  | Err => DecodeStreamAreaInArea_at extra ss pp h outer op s = Err
  | Panic => DecodeStreamAreaInArea_at extra ss pp h outer op s = Panic
  | Fatal => DecodeStreamAreaInArea_at extra ss pp h outer op s = Fatal
  | Hang => DecodeStreamAreaInArea_at extra ss pp h outer op s = Hang
  end.
Proof.
  intros [Hm _]. unfold DecodeStreamAreaInArea, DecodeStreamAreaInArea_at. cbn [area_subspace area_path area_times area_any].
  destruct (NextAbsolute 1 s) as [[b s1]| | | |]; cbn [bind]; try reflexivity.
  destruct (index b 0) as [flags| | | |]; cbn [bind]; try reflexivity.
  destruct (stream_int _ (Prune 1 s1)) as [[sd s2]| | | |]; cbn [bind]; try reflexivity.
  destruct (if has flags 64 then _ else _) as [[ed s3]| | | |]; cbn [bind]; try reflexivity.
  pose proof (stream_at extra pp s3 h op Hm) as A.
  destruct (DecodeRelPathStream pp s3 (array h op)) as [[p s4]| | | |]; cbn [bind]; try (rewrite A; reflexivity).
  destruct A as (q & h' & A & P). rewrite A. cbn [bind fst snd].
  destruct (if has flags 128 then _ else _) as [[u s5]| | | |]; cbn [bind]; try reflexivity.
  exists q, h'. split; [reflexivity|exact P].
Qed.
Print Assumptions C88_stream_area.

Theorem C88_entry extra ns ss ds pp h ref rp s : in_memory h rp ->
  match DecodeStreamEntryRelativeEntry ns ss ds pp
          (Entry (e_namespace ref) (e_subspace ref) (e_digest ref) (array h rp) (e_time ref) (e_length ref)) s with
  | Ok (e, s') => exists m h', DecodeStreamEntryRelativeEntry_at extra ns ss ds pp h (ref, rp) s = Ok (m, h', s')
                    /\ entry_seen h' m = e /\ placed h rp (e_path e) (snd m) h'
  | Err => DecodeStreamEntryRelativeEntry_at extra ns ss ds pp h (ref, rp) s = Err
  | Panic => DecodeStreamEntryRelativeEntry_at extra ns ss ds pp h (ref, rp) s = Panic
  | Fatal => DecodeStreamEntryRelativeEntry_at extra ns ss ds pp h (ref, rp) s = Fatal
  | Hang => DecodeStreamEntryRelativeEntry_at extra ns ss ds pp h (ref, rp) s = Hang
  end.
Proof.
  intros [Hm _]. unfold DecodeStreamEntryRelativeEntry, DecodeStreamEntryRelativeEntry_at.
  cbn [e_namespace e_subspace e_digest e_path e_time e_length].
  destruct (NextAbsolute 1 s) as [[b s1]| | | |]; cbn [bind]; try reflexivity.
  destruct (index b 0) as [header| | | |]; cbn [bind]; try reflexivity.
  destruct (if has header 128 then _ else _) as [[n s3]| | | |]; cbn [bind]; try reflexivity.
  destruct (if has header 64 then _ else _) as [[u s4]| | | |]; cbn [bind]; try reflexivity.
  pose proof (stream_at extra pp s4 h rp Hm) as A.
  destruct (DecodeRelPathStream pp s4 (array h rp)) as [[p s5]| | | |]; cbn [bind]; try (rewrite A; reflexivity).
  destruct A as (q & h' & A & P). rewrite A. cbn [bind fst snd].
  destruct (stream_int _ s5) as [[d s6]| | | |]; cbn [bind]; try reflexivity.
  destruct (stream_int _ s6) as [[l s7]| | | |]; cbn [bind]; try reflexivity.
  destruct (c_dec ds s7) as [[dg s8]| | | |]; cbn [bind]; try reflexivity.
  eexists; eexists. split; [reflexivity|]. cbn [snd]. split; [|exact P].
  unfold entry_seen. cbn [e_namespace e_subspace e_digest e_path e_time e_length]. f_equal. apply P.
Qed.
Print Assumptions C88_entry.

(** ** Entries one after the other *)

(** What the decoder on values returns: the entry decoded last is right, and of
    all of them everything but the paths, and how many components these have. *)
Definition agrees (m : mentry) (e : entry) : Prop :=
  e_namespace (fst m) = e_namespace e /\ e_subspace (fst m) = e_subspace e /\ e_digest (fst m) = e_digest e
  /\ e_time (fst m) = e_time e /\ e_length (fst m) = e_length e /\ p_len (snd m) = length (e_path e).

Lemma entry_step extra ns ss ds pp h prev s e s' : in_memory h (snd prev) ->
  DecodeStreamEntryRelativeEntry ns ss ds pp (entry_seen h prev) s = Ok (e, s') ->
  exists m h', DecodeStreamEntryRelativeEntry_at extra ns ss ds pp h prev s = Ok (m, h', s')
    /\ entry_seen h' m = e /\ placed h (snd prev) (e_path e) (snd m) h'.
Proof.
  intros Hm D. destruct prev as [ref rp]. cbn [snd] in Hm.
  assert (D' : DecodeStreamEntryRelativeEntry ns ss ds pp
     (Entry (e_namespace ref) (e_subspace ref) (e_digest ref) (array h rp) (e_time ref) (e_length ref)) s = Ok (e, s')).
  { unfold DecodeStreamEntryRelativeEntry in *. unfold entry_seen in D. cbn [e_namespace e_subspace e_digest e_path e_time e_length] in *.
    destruct (NextAbsolute 1 s) as [[b s1]| | | |]; cbn [bind] in *; try discriminate.
    destruct (index b 0) as [header| | | |]; cbn [bind] in *; try discriminate.
    destruct (if has header 128 then _ else _) as [[n s3]| | | |]; cbn [bind] in *; try discriminate.
    destruct (if has header 64 then _ else _) as [[u s4]| | | |]; cbn [bind] in *; try discriminate.
    destruct (DecodeRelPathStream pp s4 (seen h rp)) as [[p s5]| | | |] eqn:E; cbn [bind] in *; try discriminate.
    rewrite (rel_stream_seen _ _ _ _ _ _ E). cbn [bind]. exact D. }
  pose proof (C88_entry extra ns ss ds pp h ref rp s Hm) as K. rewrite D' in K. exact K.
Qed.

Lemma agrees_seen h m e : entry_seen h m = e -> p_len (snd m) = length (e_path e) -> agrees m e.
Proof. intros <- L. destruct m as [x p]. unfold agrees. cbn in *. auto 10. Qed.

Theorem C88_entries_last extra ns ss ds pp n h prev s l s' : in_memory h (snd prev) ->
  decode_entries ns ss ds pp n (entry_seen h prev) s = Ok (l, s') ->
  exists ml h', decode_entries_at extra ns ss ds pp n h prev s = Ok (ml, h', s')
    /\ Forall2 agrees ml l /\ entry_seen h' (last ml prev) = last l (entry_seen h prev).
Proof.
  revert h prev s l. induction n as [|n IH]; intros h prev s l Hm D.
  - injection D as <- <-. exists [], h. split; [reflexivity|]. split; [constructor|reflexivity].
  - cbn [decode_entries decode_entries_at] in *.
    destruct (DecodeStreamEntryRelativeEntry ns ss ds pp (entry_seen h prev) s) as [[e s1]| | | |] eqn:E; cbn [bind] in D; try discriminate.
    destruct (entry_step extra _ _ _ _ _ _ _ _ _ Hm E) as (m & h1 & A & S & P). rewrite A. cbn [bind].
    destruct (decode_entries ns ss ds pp n e s1) as [[l1 s2]| | | |] eqn:F; cbn [bind] in D; try discriminate. injection D as <- <-.
    rewrite <- S in F. assert (M : in_memory h1 (snd m)) by apply P.
    destruct (IH h1 m s1 l1 M F) as (ml & h2 & B & G & L). rewrite B. cbn [bind]. exists (m :: ml), h2.
    split; [reflexivity|]. split.
    + constructor; [|exact G]. eapply agrees_seen; [exact S|]. apply P.
    + rewrite S in L. destruct ml as [|m1 ml]; inversion G; subst; cbn [last] in *; [exact L|].
      revert L. clear. generalize (entry_seen h prev) as x. intros x.
      assert (U : forall A (a : list A) b d d', last (b :: a) d = last (b :: a) d').
      { intros A a. induction a as [|c a IHa]; intros b d d'; [reflexivity|]. cbn [last]. apply (IHa c). }
      intros L. etransitivity; [|etransitivity; [exact L|]]; [f_equal; apply (U _ ml m1)|apply (U _ l' y)].
Qed.
Print Assumptions C88_entries_last.

(** The others: as long as every path has room in the array of the first reference,
    they all lie in it, and of any two paths one is a prefix of the other,
    whatever was sent. *)
Theorem C88_entries_clash extra ns ss ds pp n h prev s ml h' s' : in_memory h (snd prev) ->
  decode_entries_at extra ns ss ds pp n h prev s = Ok (ml, h', s') ->
  Forall (fun m => p_len (snd m) <= length (array h (snd prev)))%nat ml ->
  forall m1 m2, In m1 (prev :: ml) -> In m2 (prev :: ml) -> (p_len (snd m1) <= p_len (snd m2))%nat ->
  prefix_of (e_path (entry_seen h' m1)) (e_path (entry_seen h' m2)).
Proof.
  intros Hm D F.
  assert (K : Forall (fun m => p_arr (snd m) = p_arr (snd prev)) ml).
  { revert h prev s ml Hm D F. induction n as [|n IH]; intros h prev s ml Hm D F.
    - injection D as <- <- <-. constructor.
    - cbn [decode_entries_at] in D. destruct prev as [ref rp].
      destruct (DecodeStreamEntryRelativeEntry_at extra ns ss ds pp h (ref, rp) s) as [[[m h1] s1]| | | |] eqn:E; cbn [bind] in D; try discriminate.
      destruct (decode_entries_at extra ns ss ds pp n h1 m s1) as [[[l h2] s2]| | | |] eqn:G; cbn [bind] in D; try discriminate.
      injection D as <- <- <-. cbn [snd] in *. pose proof (C88_entry extra ns ss ds pp h ref rp s Hm) as C.
      destruct (DecodeStreamEntryRelativeEntry ns ss ds pp _ s) as [[e s1']| | | |]; try congruence.
      destruct C as (m' & h1' & C & _ & P). rewrite C in E. injection E as -> -> ->.
      pose proof (Forall_inv F) as F1. pose proof (Forall_inv_tail F) as F2. cbn beta in F1.
      pose proof (placed_length _ _ _ _ _ P) as PL.
      destruct P as (_ & PL2 & M & _ & Pf & _). destruct Pf as [Pa Pb]; [rewrite <- PL2; exact F1|].
      constructor; [exact Pa|]. specialize (IH h1 m s1 l M G). rewrite Pa in IH. apply IH.
      rewrite (array_arr h1 (snd m) rp Pa), PL. exact F2. }
  assert (K' : forall m, In m (prev :: ml) -> p_arr (snd m) = p_arr (snd prev)).
  { intros m [<-|I1]; [reflexivity|]. rewrite Forall_forall in K. apply K, I1. }
  intros [x1 q1] [x2 q2] I1 I2 L. unfold entry_seen. cbn [e_path snd] in *.
  rewrite (seen_same_array h' q1 q2); [|transitivity (p_arr (snd prev)); [exact (K' _ I1)|symmetry; exact (K' _ I2)]|exact L].
  exists (skipn (p_len q1) (seen h' q2)). symmetry. apply firstn_skipn.
Qed.
Print Assumptions C88_entries_clash.

(** So entries sent one after the other come out with the path of the last: here
    1/2, 1/3 and 1/4 after a reference with the path 1/9. *)
Definition C88_prev : mentry := (Entry [110] [117] [1; 2] [] 7 3, Ps 0 2).
Definition C88_sent := [0; 1; 1; 1; 2; 0; 3; 1; 2] ++ [0; 1; 1; 1; 3; 0; 3; 1; 2] ++ [0; 1; 1; 1; 4; 0; 3; 1; 2].
Definition C88_entry_of (p : path) := Entry [110] [117] [1; 2] p 7 3.
Theorem C88_entries_refuted : exists ml h' s,
  EncodeEntryRelativeEntry (fixed_codec 1) (fixed_codec 1) (fixed_codec 2) rel_eq OrderBytes rel_pp
    (C88_entry_of [[1]; [2]]) (C88_entry_of [[1]; [9]]) = Ok (firstn 9 C88_sent)
  /\ decode_entries (fixed_codec 1) (fixed_codec 1) (fixed_codec 2) rel_pp 3 (entry_seen [[[1]; [9]]] C88_prev) (Stream C88_sent [] [])
     = Ok ([C88_entry_of [[1]; [2]]; C88_entry_of [[1]; [3]]; C88_entry_of [[1]; [4]]], s)
  /\ decode_entries_at (fun _ => O) (fixed_codec 1) (fixed_codec 1) (fixed_codec 2) rel_pp 3 [[[1]; [9]]] C88_prev (Stream C88_sent [] [])
     = Ok (ml, h', s)
  /\ map (entry_seen h') ml = [C88_entry_of [[1]; [4]]; C88_entry_of [[1]; [4]]; C88_entry_of [[1]; [4]]]
  /\ entry_seen h' C88_prev = C88_entry_of [[1]; [4]].
Proof.
  do 3 eexists. split; [vm_compute; reflexivity|]. split; [vm_compute; reflexivity|]. split; [vm_compute; reflexivity|].
  split; vm_compute; reflexivity.
Qed.
Print Assumptions C88_entries_refuted.

(** Nothing is decoded relative to the end of a reference that has none: its
    paths are then relative to its start. *)
Theorem C88_bytes_open extra ss pp enc h ref fp x b1 :
  m_open fp = true -> DecodeRange3dRelative_at extra ss pp enc h ref fp = Ok x -> index enc 0 = Ok b1 ->
  has b1 8 = true /\ (has b1 4 = true \/ has b1 2 = true).
Proof.
  intros HO D I1. unfold DecodeRange3dRelative_at in D. rewrite I1, HO in D. cbn [bind] in D.
  destruct (index enc 1) as [b2| | | |]; cbn [bind] in D; try discriminate.
  destruct (match start_code b1 with CNone => Err | _ => Ok tt end) as [[]| | | |]; cbn [bind] in D; try discriminate.
  destruct (match start_code b1 with CYes => _ | CRefEnd => _ | CRefStart => _ | CNone => _ end) as [[sStart pos]| | | |]; cbn [bind] in D; try discriminate.
  destruct (match end_code b1 with CYes => _ | CRefEnd => _ | CRefStart => _ | CNone => _ end) as [[sEnd pos']| | | |]; cbn [bind] in D; try discriminate.
  destruct (has b1 8); [|discriminate]. split; [reflexivity|].
  destruct (has b1 4); [auto|]. destruct (has b1 2); [auto|].
  destruct (dec_path_at_at extra pp enc pos' h (m_start fp)) as [[[q h1] pos2]| | | |]; discriminate.
Qed.
Print Assumptions C88_bytes_open.

(** The reference of [C88_instance_roundtrip] with its end open: its bytes are
    decoded, and with another header, that asks for the end, they are not. *)
Definition C88_open_slices := MRange (m_start C21_slices) (m_end C21_slices) true.
Example C88_instance_open : exists b1 b2 t x,
  EncodeRange3dRelative (enc (fixed_scheme 1)) OrderBytes rel_pp C21_range C21_ref = Ok (b1 :: b2 :: t)
  /\ DecodeRange3dRelative_at (fun _ => O) (fixed_scheme 1) rel_pp (b1 :: b2 :: t) C21_heap C21_ref C88_open_slices = Ok x
  /\ DecodeRange3dRelative_at (fun _ => O) (fixed_scheme 1) rel_pp (b1 - 8 :: b2 :: t) C21_heap C21_ref C88_open_slices = Err
  /\ has b1 8 = true.
Proof. do 4 eexists. repeat split; vm_compute; reflexivity. Qed.
