(** C88: entries decoded relative to a range or an area, with paths as slices in memory. *)
From Verif Require Import Base M_Order M_Encoding M_Paths M_Successor M_Ranges M_Areas M_Entry M_Stream M_Wire M_Rel M_RelMem M_RelMem2
  S_Order S_Wire S_Rel P_Encoding P_Paths P_Wire P_Rel P_Stream P_RangeCodec P_Mem P_RelMem Prop_Rel Prop_RelMem.
Local Open Scope N_scope.

Lemma placed_inside h ref p q h' : placed h ref p q h' -> prefix_of (seen h ref) p -> in_memory h ref -> seen h' ref = seen h ref.
Proof.
  intros (_ & _ & _ & _ & F & G & _) [t ->] [_ L]. unfold seen in *.
  assert (LS : length (firstn (p_len ref) (array h ref)) = p_len ref) by (apply firstn_length_le; exact L).
  destruct (Nat.le_gt_cases (length (firstn (p_len ref) (array h ref) ++ t)) (length (array h ref))) as [X|X].
  - destruct (F X) as [_ ->]. rewrite <- app_assoc. rewrite firstn_app, LS, Nat.sub_diag, firstn_O, app_nil_r.
    rewrite firstn_firstn, Nat.min_id. reflexivity.
  - destruct (G X) as [_ ->]. reflexivity.
Qed.

Lemma header_byte s b s1 b1 : NextAbsolute 1 s = Ok (b, s1) -> index b 0 = Ok b1 -> exists t, total s = b1 :: t.
Proof.
  intros N1 I1. destruct (N.le_gt_cases 1 (len (total s))) as [L|L].
  - destruct (NextAbsolute_spec 1 s L) as (s1' & E & T & G). rewrite E in N1. injection N1 as <- <-.
    rewrite <- T. unfold total. unfold index in I1. destruct (g_array s1') as [|x l]; cbn in I1; [discriminate|].
    injection I1 as ->. eexists. reflexivity.
  - exfalso. unfold NextAbsolute, total in *. unfold len in *. rewrite app_length in L.
    destruct (match g_sched s with [] => (O, O) | x :: _ => x end) as [u v].
    cbn [arrive g_array g_future] in N1.
    destruct (N.leb_spec 1 (N.of_nat (length (g_array s ++ firstn u (g_future s))))) as [K|K].
    + rewrite app_length, firstn_length in K. lia.
    + destruct (N.ltb_spec (N.of_nat (length (g_array s ++ firstn u (g_future s))) + N.of_nat (length (skipn u (g_future s)))) 1) as [Q|Q]; [discriminate|].
      rewrite app_length, firstn_length, skipn_length in Q. lia.
Qed.

(** ** Areas from byte slices *)

(** Where the path of an area begins: behind the header byte, the difference of the starts and, in a closed
    area, that of the ends. *)
Definition path_at (enc : bytes) : bytes :=
  let header := hd 0 enc in
  skipn (N.to_nat (1 + 2 ^ ((header / 4) mod 4) + (if N.testbit header 6 then 0 else 2 ^ (header mod 4)))) enc.

Lemma has64_bit x : has x 64 = N.testbit x 6.
Proof.
  unfold has. change 64 with (2 ^ 6). destruct (N.testbit x 6) eqn:B.
  - apply N.eqb_eq. apply N.bits_inj. intros j. rewrite N.land_spec, N.pow2_bits_eqb. destruct (N.eqb_spec 6 j) as [<-|]; [rewrite B|rewrite andb_false_r]; reflexivity.
  - apply N.eqb_neq. intros E. assert (X : N.testbit (N.land x (2 ^ 6)) 6 = N.testbit (2 ^ 6) 6) by (rewrite E; reflexivity).
    rewrite N.land_spec, B, N.pow2_bits_true in X. discriminate X.
Qed.
Lemma land3 x : N.land 3 x = x mod 4.
Proof. rewrite N.land_comm. change 3 with (N.ones 2). rewrite N.land_ones. reflexivity. Qed.

(** An area whose path continues that of the outer area, which has no room for more: every outcome, not
    only success, is that of the decoder on values. *)
Theorem C88_area_outcomes extra dec_ss pp enc h outer op :
  in_memory h op -> array h op = seen h op -> area_path outer = seen h op ->
  (forall p, DecodeRelativePath pp (path_at enc) (area_path outer) = Ok p -> prefix_of (area_path outer) p) ->
  match DecodeAreaInArea dec_ss pp enc outer with
  | Ok a => exists q h', DecodeAreaInArea_at extra dec_ss pp enc h outer op = Ok (area_subspace a, q, area_times a, h')
              /\ seen h' q = area_path a /\ seen h' op = area_path outer
  | Err => DecodeAreaInArea_at extra dec_ss pp enc h outer op = Err
  | Panic => DecodeAreaInArea_at extra dec_ss pp enc h outer op = Panic
  | Fatal => DecodeAreaInArea_at extra dec_ss pp enc h outer op = Fatal
  | Hang => DecodeAreaInArea_at extra dec_ss pp enc h outer op = Hang
  end.
Proof.
  intros Hm Hf Ho Hp.
  assert (K : forall pos e, skipn (N.to_nat pos) enc = path_at enc ->
    match dec_area_rest dec_ss pp enc pos e outer with
    | Ok (p, u) => exists q h', dec_area_rest_at extra dec_ss pp enc pos e h outer op = Ok (q, h', u) /\ seen h' q = p /\ seen h' op = area_path outer
    | Err => dec_area_rest_at extra dec_ss pp enc pos e h outer op = Err
    | Panic => dec_area_rest_at extra dec_ss pp enc pos e h outer op = Panic
    | Fatal => dec_area_rest_at extra dec_ss pp enc pos e h outer op = Fatal
    | Hang => dec_area_rest_at extra dec_ss pp enc pos e h outer op = Hang
    end).
  { intros pos e EP. unfold dec_area_rest, dec_area_rest_at.
    destruct (slice_from enc pos) as [b| | | |] eqn:ES; cbn [bind]; try reflexivity.
    assert (EB : b = path_at enc). { unfold slice_from in ES. destruct (pos <=? len enc); [|discriminate ES]. injection ES as <-. exact EP. }
    subst b. pose proof (bytes_at extra pp (path_at enc) h op (proj1 Hm)) as A. rewrite Hf, <- Ho in A.
    destruct (DecodeRelativePath pp (path_at enc) (area_path outer)) as [p| | | |] eqn:E; cbn [bind]; try (rewrite A; reflexivity).
    destruct A as (q & h' & A & P). rewrite A. cbn [bind].
    assert (Sq : seen h' q = p) by apply P.
    assert (So : seen h' op = area_path outer) by (rewrite Ho; eapply placed_inside; [exact P|rewrite <- Ho; exact (Hp p eq_refl)|exact Hm]).
    rewrite Sq, So. destruct (EncodePathRelativeLength pp p (area_path outer)) as [l| | | |]; cbn [bind]; try reflexivity.
    destruct e; [|exists q, h'; auto].
    destruct (slice_from enc (pos + l)) as [c| | | |]; cbn [bind]; try reflexivity.
    destruct (dec_ss c); try reflexivity; exists q, h'; auto. }
  unfold DecodeAreaInArea, DecodeAreaInArea_at.
  destruct (index enc 0) as [flags| | | |] eqn:EI; cbn [bind]; try reflexivity.
  assert (EH : hd 0 enc = flags). { unfold index in EI. destruct enc; cbn in EI; [discriminate EI|injection EI as <-; reflexivity]. }
  rewrite has64_bit. unfold path_at in K. rewrite EH in K. rewrite !land3, N.shiftr_div_pow2. change (2 ^ 2) with 4.
  unfold pow2 in *. destruct (N.testbit flags 6).
  - destruct (slice enc 1 _) as [x| | | |]; cbn [bind]; try reflexivity.
    destruct (DecodeIntMax64 x) as [sd| | | |]; cbn [bind]; try reflexivity.
    specialize (K (1 + 2 ^ ((flags / 4) mod 4)) (has flags 128)). rewrite N.add_0_r in K. specialize (K eq_refl).
    destruct (dec_area_rest dec_ss pp enc _ _ outer) as [[p u]| | | |]; cbn [bind]; try (rewrite K; reflexivity).
    destruct K as (q & h' & A & S1 & S2). rewrite A. cbn [bind fst snd area_path area_subspace area_times]. exists q, h'. auto.
  - destruct (slice enc 1 _) as [x| | | |]; cbn [bind]; try reflexivity.
    destruct (DecodeIntMax64 x) as [sd| | | |]; cbn [bind]; try reflexivity.
    destruct (slice enc (1 + _) _) as [y| | | |]; cbn [bind]; try reflexivity.
    destruct (DecodeIntMax64 y) as [ed| | | |]; cbn [bind]; try reflexivity.
    specialize (K (1 + 2 ^ ((flags / 4) mod 4) + 2 ^ (flags mod 4)) (has flags 128) eq_refl).
    destruct (dec_area_rest dec_ss pp enc _ _ outer) as [[p u]| | | |]; cbn [bind]; try (rewrite K; reflexivity).
    destruct K as (q & h' & A & S1 & S2). rewrite A. cbn [bind fst snd area_path area_subspace area_times]. exists q, h'. auto.
Qed.
Print Assumptions C88_area_outcomes.

(** The subspace is cut off: a decoder of subspaces of eight bytes panics on what is left. *)
Example C88_instance_outcomes :
  let enc := [192; 5; 1; 1; 1; 7] in let h := [[[1]]] in let op := Ps 0 1 in let outer := Area [97] [[1]] (Range 0 100 false) true in
  in_memory h op /\ array h op = seen h op /\ area_path outer = seen h op /\ path_at enc = [1; 1; 1; 7]
  /\ DecodeRelativePath rel_pp (path_at enc) (area_path outer) = Ok [[1]; [7]]
  /\ DecodeAreaInArea (fun b => if len b <? 8 then Panic else Ok (firstn 8 b)) rel_pp enc outer = Panic
  /\ DecodeAreaInArea_at (fun _ => O) (fun b => if len b <? 8 then Panic else Ok (firstn 8 b)) rel_pp enc h outer op = Panic.
Proof. cbv zeta. split; [split; cbn; lia|]. repeat split; vm_compute; reflexivity. Qed.

(** ** One entry *)

(** Everything is as with values when the whole array of the reference is taken for
    the reference; the path lies in that array where it has room. An entry whose path
    begins with that of the area leaves the area as it was. *)
Theorem C88_area_entry extra ss ds pp h outer op ns s : in_memory h op ->
  match DecodeStreamEntryInNamespaceArea ss ds pp (Area (area_subspace outer) (array h op) (area_times outer) (area_any outer)) ns s with
  | Ok (e, s') => exists m h', DecodeStreamEntryInNamespaceArea_at extra ss ds pp h outer op ns s = Ok (m, h', s')
                    /\ entry_seen h' m = e /\ placed h op (e_path e) (snd m) h'
                    /\ (prefix_of (seen h op) (e_path e) -> seen h' op = seen h op)
  | Err => DecodeStreamEntryInNamespaceArea_at extra ss ds pp h outer op ns s = Err
  | Panic => DecodeStreamEntryInNamespaceArea_at extra ss ds pp h outer op ns s = Panic
  | Fatal => DecodeStreamEntryInNamespaceArea_at extra ss ds pp h outer op ns s = Fatal
  | Hang => DecodeStreamEntryInNamespaceArea_at extra ss ds pp h outer op ns s = Hang
  end.
Proof.
  intros HM. destruct HM as [Hm HL] eqn:EM. clear EM. unfold DecodeStreamEntryInNamespaceArea, DecodeStreamEntryInNamespaceArea_at.
  cbn [area_subspace area_path area_times area_any].
  destruct (NextAbsolute 1 s) as [[b s1]| | | |]; cbn [bind]; try reflexivity.
  destruct (index b 0) as [header| | | |]; cbn [bind]; try reflexivity.
  destruct (if has header 128 then _ else _) as [[u s3]| | | |]; cbn [bind]; try reflexivity.
  pose proof (stream_at extra pp s3 h op Hm) as A.
  destruct (DecodeRelPathStream pp s3 (array h op)) as [[p s4]| | | |]; cbn [bind]; try (rewrite A; reflexivity).
  destruct A as (q & h' & A & P). rewrite A. cbn [bind fst snd].
  destruct (NextAbsolute _ s4) as [[b1 s5]| | | |]; cbn [bind]; try reflexivity.
  destruct (slice b1 0 _) as [a| | | |]; cbn [bind]; try reflexivity.
  destruct (DecodeIntMax64 a) as [d| | | |]; cbn [bind]; try reflexivity.
  destruct (NextAbsolute _ s5) as [[b2 s6]| | | |]; cbn [bind]; try reflexivity.
  destruct (slice b2 _ _) as [c| | | |]; cbn [bind]; try reflexivity.
  destruct (DecodeIntMax64 c) as [l| | | |]; cbn [bind]; try reflexivity.
  destruct (c_dec ds _) as [[dg s8]| | | |]; cbn [bind]; try reflexivity.
  destruct (if has header 64 then _ else _) as [t| | | |]; cbn [bind]; try reflexivity.
  eexists; eexists. split; [reflexivity|]. cbn [snd e_path]. split; [|split; [exact P|]].
  - unfold entry_seen. cbn [e_namespace e_subspace e_digest e_path e_time e_length]. f_equal. apply P.
  - intros I. exact (placed_inside _ _ _ _ _ P I HM).
Qed.
Print Assumptions C88_area_entry.

(** Relative to a range: the path lies in the array of the bound that the header names. *)
Theorem C88_range_entry extra ss ds pp h outer fp ns s : in_memory h (m_start fp) -> in_memory h (m_end fp) ->
  match DecodeStreamEntryRelativeRange3d ss ds pp (whole h outer fp) ns s with
  | Ok (e, s') => exists header t m h', total s = header :: t
                    /\ DecodeStreamEntryRelativeRange3d_at extra ss ds pp h outer fp ns s = Ok (m, h', s')
                    /\ entry_seen h' m = e
                    /\ placed h (if has header 64 then m_start fp else m_end fp) (e_path e) (snd m) h'
  | Err => DecodeStreamEntryRelativeRange3d_at extra ss ds pp h outer fp ns s = Err
  | Panic => DecodeStreamEntryRelativeRange3d_at extra ss ds pp h outer fp ns s = Panic
  | Fatal => DecodeStreamEntryRelativeRange3d_at extra ss ds pp h outer fp ns s = Fatal
  | Hang => DecodeStreamEntryRelativeRange3d_at extra ss ds pp h outer fp ns s = Hang
  end.
Proof.
  intros [Hs _] [He _]. unfold DecodeStreamEntryRelativeRange3d, DecodeStreamEntryRelativeRange3d_at, whole.
  cbn [subspace_range path_range time_range r_start r_end r_open].
  destruct (NextAbsolute 1 s) as [[b s1]| | | |] eqn:EN; cbn [bind]; try reflexivity.
  destruct (index b 0) as [header| | | |] eqn:EI; cbn [bind]; try reflexivity.
  destruct (if has header 128 then _ else _) as [[u s3]| | | |]; cbn [bind]; try reflexivity.
  assert (A : match (if has header 64 then DecodeRelPathStream pp s3 (array h (m_start fp))
                     else if m_open fp then Panic else DecodeRelPathStream pp s3 (array h (m_end fp))) with
     | Ok (p, s') => exists q h', (if has header 64 then DecodeRelPathStream_at extra pp s3 h (m_start fp)
                  else if m_open fp then Panic else DecodeRelPathStream_at extra pp s3 h (m_end fp)) = Ok (q, h', s')
                  /\ placed h (if has header 64 then m_start fp else m_end fp) p q h'
     | Err => (if has header 64 then DecodeRelPathStream_at extra pp s3 h (m_start fp)
                  else if m_open fp then Panic else DecodeRelPathStream_at extra pp s3 h (m_end fp)) = Err
     | Panic => (if has header 64 then DecodeRelPathStream_at extra pp s3 h (m_start fp)
                  else if m_open fp then Panic else DecodeRelPathStream_at extra pp s3 h (m_end fp)) = Panic
     | Fatal => (if has header 64 then DecodeRelPathStream_at extra pp s3 h (m_start fp)
                  else if m_open fp then Panic else DecodeRelPathStream_at extra pp s3 h (m_end fp)) = Fatal
     | Hang => (if has header 64 then DecodeRelPathStream_at extra pp s3 h (m_start fp)
                  else if m_open fp then Panic else DecodeRelPathStream_at extra pp s3 h (m_end fp)) = Hang
     end).
  { destruct (has header 64); [apply stream_at; exact Hs|]. destruct (m_open fp); [reflexivity|]. apply stream_at; exact He. }
  destruct (if has header 64 then DecodeRelPathStream pp s3 (array h (m_start fp)) else _) as [[p s4]| | | |]; cbn [bind]; try (rewrite A; reflexivity).
  destruct A as (q & h' & A & P). rewrite A. cbn [bind fst snd].
  destruct (stream_int _ s4) as [[d s5]| | | |]; cbn [bind]; try reflexivity.
  destruct (if has header 32 then _ else _) as [t| | | |]; cbn [bind]; try reflexivity.
  destruct (stream_int _ s5) as [[l s6]| | | |]; cbn [bind]; try reflexivity.
  destruct (c_dec ds s6) as [[dg s7]| | | |]; cbn [bind]; try reflexivity.
  destruct (header_byte _ _ _ _ EN EI) as [t' T]. exists header, t'. eexists; eexists. split; [exact T|]. split; [reflexivity|]. cbn [snd e_path].
  split; [|exact P]. unfold entry_seen. cbn [e_namespace e_subspace e_digest e_path e_time e_length]. f_equal. apply P.
Qed.
Print Assumptions C88_range_entry.

(** ** Entries one after the other in one area *)

Lemma area_step extra ss ds pp h outer op ns s e s' : in_memory h op ->
  DecodeStreamEntryInNamespaceArea ss ds pp (Area (area_subspace outer) (seen h op) (area_times outer) (area_any outer)) ns s = Ok (e, s') ->
  exists m h', DecodeStreamEntryInNamespaceArea_at extra ss ds pp h outer op ns s = Ok (m, h', s')
    /\ entry_seen h' m = e /\ placed h op (e_path e) (snd m) h'
    /\ (prefix_of (seen h op) (e_path e) -> seen h' op = seen h op).
Proof.
  intros Hm D.
  assert (D' : DecodeStreamEntryInNamespaceArea ss ds pp (Area (area_subspace outer) (array h op) (area_times outer) (area_any outer)) ns s = Ok (e, s')).
  { unfold DecodeStreamEntryInNamespaceArea in *. cbn [area_subspace area_path area_times area_any] in *.
    destruct (NextAbsolute 1 s) as [[b s1]| | | |]; cbn [bind] in *; try discriminate.
    destruct (index b 0) as [header| | | |]; cbn [bind] in *; try discriminate.
    destruct (if has header 128 then _ else _) as [[u s3]| | | |]; cbn [bind] in *; try discriminate.
    destruct (DecodeRelPathStream pp s3 (seen h op)) as [[p s4]| | | |] eqn:E; cbn [bind] in *; try discriminate.
    rewrite (rel_stream_seen _ _ _ _ _ _ E). cbn [bind]. exact D. }
  pose proof (C88_area_entry extra ss ds pp h outer op ns s Hm) as K. rewrite D' in K. exact K.
Qed.

(** When every path begins with that of the area, the area stays as it was, nothing
    but the paths of the entries can be wrong, and of these only such as have room
    in the array of the area: the last entry, and those whose paths are too long
    for it, are right. *)
Theorem C88_area_entries extra ss ds pp outer op ns n : forall h s l s',
  in_memory h op ->
  decode_in_area ss ds pp (Area (area_subspace outer) (seen h op) (area_times outer) (area_any outer)) ns n s = Ok (l, s') ->
  Forall (fun e => prefix_of (seen h op) (e_path e)) l ->
  exists ml h', decode_in_area_at extra ss ds pp outer op ns n h s = Ok (ml, h', s')
    /\ Forall2 agrees ml l /\ seen h' op = seen h op
    /\ (forall i m e, nth_error ml i = Some m -> nth_error l i = Some e ->
         S i = length l \/ (length (array h op) < length (e_path e))%nat -> entry_seen h' m = e).
Proof.
  enough (X : forall h s l s', in_memory h op ->
    decode_in_area ss ds pp (Area (area_subspace outer) (seen h op) (area_times outer) (area_any outer)) ns n s = Ok (l, s') ->
    Forall (fun e => prefix_of (seen h op) (e_path e)) l ->
    exists ml h', decode_in_area_at extra ss ds pp outer op ns n h s = Ok (ml, h', s')
      /\ Forall2 agrees ml l /\ seen h' op = seen h op /\ (length h <= length h')%nat
      /\ (forall t, (p_arr t < length h)%nat -> p_arr t <> p_arr op -> array h' t = array h t)
      /\ (forall i m e, nth_error ml i = Some m -> nth_error l i = Some e ->
           S i = length l \/ (length (array h op) < length (e_path e))%nat -> entry_seen h' m = e)).
  { intros h s l s' Hm D F. destruct (X h s l s' Hm D F) as (ml & h' & A1 & A2 & A3 & _ & _ & A4). eauto 10. }
  induction n as [|n IH]; intros h s l s' Hm D F.
  - injection D as <- <-. exists [], h. repeat split; auto. intros i m e X. destruct i; discriminate X.
  - cbn [decode_in_area decode_in_area_at] in *.
    destruct (DecodeStreamEntryInNamespaceArea ss ds pp _ ns s) as [[e s1]| | | |] eqn:E; cbn [bind] in D; try discriminate.
    destruct (area_step extra _ _ _ _ _ _ _ _ _ _ Hm E) as (m & h1 & A & S & P & K). rewrite A. cbn [bind].
    destruct (decode_in_area ss ds pp _ ns n s1) as [[l1 s2]| | | |] eqn:G; cbn [bind] in D; try discriminate. injection D as <- <-.
    pose proof (K (Forall_inv F)) as K1. pose proof (placed_length _ _ _ _ _ P) as PL.
    assert (Hm1 : in_memory h1 op). { destruct Hm as [M1 M2]. destruct P as (_ & _ & _ & P4 & _). split; [lia|]. rewrite PL. exact M2. }
    rewrite <- K1 in G. assert (F1 : Forall (fun e => prefix_of (seen h1 op) (e_path e)) l1) by (rewrite K1; exact (Forall_inv_tail F)).
    destruct (IH h1 s1 l1 s2 Hm1 G F1) as (ml & h2 & B & C & L & M & O & R). rewrite B. cbn [bind]. exists (m :: ml), h2.
    destruct P as (P1 & P2 & P3 & P4 & P5 & P6 & P7).
    split; [reflexivity|]. split; [constructor; [eapply agrees_seen; eauto|exact C]|]. split; [congruence|]. split; [lia|].
    split. { intros t Ht Hd. rewrite O by (auto; lia). apply P7; auto. }
    intros i m' e' X Y Z. destruct i as [|i]; cbn [nth_error] in X, Y.
    + injection X as <-. injection Y as <-. cbn [length] in Z.
      assert (Q : seen h2 (snd m) = seen h1 (snd m)).
      { destruct Z as [Z|Z].
        - destruct l1; [|discriminate Z]. inversion C; subst. destruct n.
          + cbn in B. injection B as <- _. reflexivity.
          + cbn [decode_in_area_at bind] in B.
            destruct (DecodeStreamEntryInNamespaceArea_at extra ss ds pp h1 outer op ns s1) as [[[m1 h1'] s1']| | | |]; cbn [bind] in B; try discriminate.
            destruct (decode_in_area_at extra ss ds pp outer op ns n h1' s1') as [[[ml1 h2'] s2']| | | |]; cbn [bind] in B; discriminate.
        - destruct (P6 Z) as [Q _]. unfold seen. f_equal. apply O; [|rewrite Q; destruct Hm; lia]. apply P3. }
      rewrite <- S. destruct m as [x q]. unfold entry_seen. cbn [snd] in Q. rewrite Q. reflexivity.
    + apply (R i m' e' X Y). cbn [length] in Z. destruct Z as [Z|Z]; [left; lia|right; rewrite PL; exact Z].
Qed.
Print Assumptions C88_area_entries.

(** The other paths, and that of the area: of any two that have room in the array of the
    area one is a prefix of the other, whatever was sent. *)
Theorem C88_area_clash extra ss ds pp outer op ns n : forall h s ml h' s', in_memory h op ->
  decode_in_area_at extra ss ds pp outer op ns n h s = Ok (ml, h', s') ->
  forall q1 q2, In q1 (op :: map snd ml) -> In q2 (op :: map snd ml) ->
  (p_len q1 <= p_len q2)%nat -> (p_len q2 <= length (array h op))%nat -> prefix_of (seen h' q1) (seen h' q2).
Proof.
  intros h s ml h' s' Hm D.
  assert (K : Forall (fun q => (p_len q <= length (array h op))%nat -> p_arr q = p_arr op) (map snd ml)).
  { revert h s ml Hm D. induction n as [|n IH]; intros h s ml Hm D.
    - injection D as <- <- <-. constructor.
    - cbn [decode_in_area_at] in D.
      destruct (DecodeStreamEntryInNamespaceArea_at extra ss ds pp h outer op ns s) as [[[m h1] s1]| | | |] eqn:E; cbn [bind] in D; try discriminate.
      destruct (decode_in_area_at extra ss ds pp outer op ns n h1 s1) as [[[l h2] s2]| | | |] eqn:G; cbn [bind] in D; try discriminate.
      injection D as <- <- <-. pose proof (C88_area_entry extra ss ds pp h outer op ns s Hm) as C.
      destruct (DecodeStreamEntryInNamespaceArea ss ds pp _ ns s) as [[e s1']| | | |]; try congruence.
      destruct C as (m' & h1' & C & _ & P & _). rewrite C in E. injection E as -> -> ->.
      pose proof (placed_length _ _ _ _ _ P) as PL. destruct P as (_ & P2 & _ & P4 & P5 & _).
      cbn [map]. constructor; [intros X; apply P5; lia|]. rewrite <- PL. apply (IH h1 s1 l); [|exact G].
      destruct Hm as [M1 M2]. split; [lia|]. rewrite PL. exact M2. }
  assert (K' : forall q, In q (op :: map snd ml) -> (p_len q <= length (array h op))%nat -> p_arr q = p_arr op).
  { intros q [<-|I1] X; [reflexivity|]. rewrite Forall_forall in K. apply K; assumption. }
  intros q1 q2 I1 I2 L1 L2. assert (X1 : p_arr q1 = p_arr q2) by (rewrite (K' q1 I1), (K' q2 I2) by lia; reflexivity).
  rewrite (seen_same_array h' q1 q2 X1 L1). exists (skipn (p_len q1) (seen h' q2)). symmetry. apply firstn_skipn.
Qed.
Print Assumptions C88_area_clash.

(** Two entries, 1/2 and 1/3, in the area 1, whose path has room for one more component, as
    the specification writes them: both come out as 1/3. *)
Definition C88_area := Area [98] [] (Range 100 1000 false) false.
Definition C88_area_value := Area [98] [[1]] (Range 100 1000 false) false.
Definition C88_in_area (p : path) := Entry [110] [98] [102; 103] p 900 70000.
Theorem C88_area_entries_refuted : exists b2 b3 ml h' s,
  let h := [[[1]; []]] in let op := Ps 0 1 in
  EncodeRelativePath rel_pp [[1]; [2]] [[1]] = Ok b2 /\ EncodeRelativePath rel_pp [[1]; [3]] [[1]] = Ok b3
  /\ (let sent := spec_entry_in_area (fun x => x) (fun x => x) rel_pp (C88_in_area [[1]; [2]]) C88_area_value b2
                 ++ spec_entry_in_area (fun x => x) (fun x => x) rel_pp (C88_in_area [[1]; [3]]) C88_area_value b3 in
      decode_in_area (fixed_codec 1) (fixed_codec 2) rel_pp C88_area_value [110] 2 (Stream sent [] [])
        = Ok ([C88_in_area [[1]; [2]]; C88_in_area [[1]; [3]]], s)
      /\ decode_in_area_at (fun _ => O) (fixed_codec 1) (fixed_codec 2) rel_pp C88_area op [110] 2 h (Stream sent [] []) = Ok (ml, h', s))
  /\ in_memory h op /\ seen h op = [[1]]
  /\ Forall (fun e => prefix_of (seen h op) (e_path e)) [C88_in_area [[1]; [2]]; C88_in_area [[1]; [3]]]
  /\ map (entry_seen h') ml = [C88_in_area [[1]; [3]]; C88_in_area [[1]; [3]]] /\ seen h' op = [[1]].
Proof.
  do 5 eexists. cbv zeta. split; [vm_compute; reflexivity|]. split; [vm_compute; reflexivity|].
  split; [split; vm_compute; reflexivity|]. split; [split; cbn; lia|]. split; [reflexivity|].
  split; [repeat constructor; eexists; reflexivity|]. split; vm_compute; reflexivity.
Qed.
Print Assumptions C88_area_entries_refuted.

(** The path of an area is what the area of interest was bound with. An entry of the peer that is
    not in the area, here with the path 7, gives the area another path: before it the area 1
    has the entry 1/2 in it, afterwards the entry 7/2. *)
Theorem C88_area_moves_refuted : exists sent m h' s,
  let h := [[[1]]] in let op := Ps 0 1 in
  in_memory h op
  /\ DecodeStreamEntryInNamespaceArea_at (fun _ => O) (fixed_codec 1) (fixed_codec 2) rel_pp h C88_area op [110] (Stream sent [] []) = Ok (m, h', s)
  /\ e_path (entry_seen h' m) = [[7]]
  /\ (let area_at h := Area [98] (seen h op) (Range 100 1000 false) false in
      in_area (area_at h) (Position [98] [[1]; [2]] 900) /\ ~ in_area (area_at h) (Position [98] [[7]; [2]] 900)
      /\ ~ in_area (area_at h') (Position [98] [[1]; [2]] 900) /\ in_area (area_at h') (Position [98] [[7]; [2]] 900)).
Proof.
  exists ([64] ++ [0; 1; 1; 7] ++ [5] ++ [9] ++ [102; 103]). do 3 eexists. cbv zeta. split; [split; cbn; lia|]. split; [vm_compute; reflexivity|].
  split; [vm_compute; reflexivity|].
  assert (I1 : forall x, in_area (Area [98] [[x]] (Range 100 1000 false) false) (Position [98] [[x]; [2]] 900)).
  { intros x. repeat split; cbn; auto; try lia. exists [[2]]. reflexivity. }
  assert (I2 : forall x y, x <> y -> ~ in_area (Area [98] [[x]] (Range 100 1000 false) false) (Position [98] [[y]; [2]] 900)).
  { intros x y N H. destruct H as (_ & _ & [t H]). cbn in H. injection H as H. congruence. }
  split; [apply I1|]. split; [apply I2; discriminate|]. vm_compute seen. split; [apply I2; discriminate|apply I1].
Qed.
Print Assumptions C88_area_moves_refuted.

(** Relative to a range the bound is overwritten also by an entry that is in the range: here the
    range from 1/2 to 1/9 and the entry 1/5. The range afterwards begins there. *)
Theorem C88_range_moves_refuted : exists e b m h' s,
  let h := [[[1]; [2]]; [[1]; [9]]] in let fp := MRange (Ps 0 2) (Ps 1 2) false in
  let outer h := Range3d (Range [97] [99] false) (mpaths h fp) (Range 100 1000 false) in
  in_memory h (m_start fp) /\ in_memory h (m_end fp) /\ e_path e = [[1]; [5]]
  /\ EncodeEntryRelativeRange3d (fixed_codec 1) (fixed_codec 2) OrderBytes rel_pp e (outer h) = Ok b
  /\ DecodeStreamEntryRelativeRange3d_at (fun _ => O) (fixed_codec 1) (fixed_codec 2) rel_pp h (outer h) fp [110] (Stream b [] []) = Ok (m, h', s)
  /\ entry_seen h' m = e
  /\ path_range (outer h) = Range [[1]; [2]] [[1]; [9]] false /\ path_range (outer h') = Range [[1]; [5]] [[1]; [9]] false.
Proof.
  exists (Entry [110] [98] [102; 103] [[1]; [5]] 900 70000). do 4 eexists. cbv zeta. split; [split; cbn; lia|]. split; [split; cbn; lia|]. split; [reflexivity|].
  split; [vm_compute; reflexivity|]. split; [vm_compute; reflexivity|]. repeat split; vm_compute; reflexivity.
Qed.
Print Assumptions C88_range_moves_refuted.
