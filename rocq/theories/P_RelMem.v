(** Proofs about M_RelMem. *)
From Verif Require Import Base M_Order M_Encoding M_Paths M_Successor M_Ranges M_Areas M_Entry M_Stream M_Wire M_Rel M_RelMem
  P_Encoding P_Paths P_Mem.
Local Open Scope N_scope.

(** A path is in memory: its array exists and has room for it. *)
Definition in_memory (h : pheap) (s : pslice) : Prop := (p_arr s < length h)%nat /\ (p_len s <= length (array h s))%nat.

(** [p] was put into memory behind [n] components of the reference: it is what is
    seen through [q]; when the array of the reference has room it now begins with
    [p], otherwise it is as before and [p] is in an array of its own; no other
    array has changed. *)
Definition placed (h : pheap) (ref : pslice) (p : path) (q : pslice) (h' : pheap) : Prop :=
  seen h' q = p /\ p_len q = length p /\ in_memory h' q /\ (length h <= length h')%nat
  /\ ((length p <= length (array h ref))%nat ->
      p_arr q = p_arr ref /\ array h' ref = p ++ skipn (length p) (array h ref))
  /\ ((length (array h ref) < length p)%nat -> p_arr q = length h /\ array h' ref = array h ref)
  /\ (forall t, (p_arr t < length h)%nat -> p_arr t <> p_arr ref -> array h' t = array h t).

Lemma array_arr h s t : p_arr s = p_arr t -> array h s = array h t.
Proof. unfold array. intros ->. reflexivity. Qed.

Lemma append_at_spec extra h s k suf q h' :
  (p_arr s < length h)%nat -> (k <= length (array h s))%nat ->
  append_at extra h s k suf = (q, h') -> placed h s (firstn k (array h s) ++ suf) q h'.
Proof.
  intros Hs Hk E. unfold append_at in E.
  set (a := array h s) in *. set (p := firstn k a ++ suf).
  assert (Lp : length p = (k + length suf)%nat) by (unfold p; rewrite app_length, firstn_length_le by exact Hk; reflexivity).
  destruct (Nat.leb_spec (k + length suf) (length a)) as [L|L]; injection E as <- <-; unfold placed; fold a; rewrite Lp.
  - assert (A : array (update_nth (p_arr s) (firstn k a ++ suf ++ skipn (k + length suf) a) h) s = p ++ skipn (k + length suf) a).
    { unfold array. rewrite nth_update_nth by exact Hs. rewrite Nat.eqb_refl. unfold p. rewrite app_assoc. reflexivity. }
    assert (A' := A). rewrite (array_arr _ s (Ps (p_arr s) (k + length suf))) in A' by reflexivity.
    repeat split; cbn [p_len p_arr].
    + unfold seen. rewrite A'. cbn [p_len]. rewrite <- Lp. rewrite firstn_app, Nat.sub_diag, firstn_all, firstn_O, app_nil_r. reflexivity.
    + rewrite update_nth_length by exact Hs. exact Hs.
    + rewrite A'. rewrite app_length, Lp. lia.
    + rewrite update_nth_length by exact Hs. lia.
    + exact A.
    + lia.
    + lia.
    + intros t Ht Hd. unfold array. rewrite nth_update_nth by exact Hs.
      destruct (Nat.eqb_spec (p_arr t) (p_arr s)); [contradiction|reflexivity].
  - assert (A : array (h ++ [firstn k a ++ suf ++ repeat [] (extra (k + length suf)%nat)]) (Ps (length h) (k + length suf))
                = p ++ repeat [] (extra (k + length suf)%nat)).
    { unfold array. cbn [p_arr]. rewrite app_nth2, Nat.sub_diag by lia. cbn [nth]. unfold p. rewrite app_assoc. reflexivity. }
    repeat split; cbn [p_len p_arr].
    + unfold seen. rewrite A. cbn [p_len]. rewrite <- Lp. rewrite firstn_app, Nat.sub_diag, firstn_all, firstn_O, app_nil_r. reflexivity.
    + rewrite app_length. cbn [length]. lia.
    + rewrite A, app_length, Lp. lia.
    + rewrite app_length. lia.
    + lia.
    + lia.
    + unfold array. rewrite app_nth1 by exact Hs. reflexivity.
    + intros t Ht Hd. unfold array. rewrite app_nth1 by exact Ht. reflexivity.
Qed.

Lemma slice_0 {A} (l : list A) n x : slice l 0 n = Ok x -> (N.to_nat n <= length l)%nat /\ x = firstn (N.to_nat n) l.
Proof.
  unfold slice. rewrite N.sub_0_r. destruct (N.leb_spec 0 n), (N.leb_spec n (len l)); cbn [andb]; try discriminate.
  intros E. injection E as <-. unfold len in *. split; [lia|reflexivity].
Qed.

(** What a relative path of a stream is made of. *)
Lemma rel_stream_split pp s a p s' :
  DecodeRelPathStream pp s a = Ok (p, s') ->
  exists k suf, (k <= length a)%nat /\ p = firstn k a ++ suf
    /\ forall a', length a' = length a -> DecodeRelPathStream pp s a' = Ok (firstn k a' ++ suf, s').
Proof.
  unfold DecodeRelPathStream.
  destruct (NextAbsolute _ s) as [[acc s1]| | | |]; cbn [bind]; try discriminate.
  destruct (slice acc 0 _) as [pb| | | |]; cbn [bind]; try discriminate.
  destruct (decode_or_zero pb _) as [n| | | |]; cbn [bind]; try discriminate.
  destruct (slice a 0 n) as [pre| | | |] eqn:Ea; cbn [bind]; try discriminate.
  destruct (DecodePathStream pp _) as [[suf s2]| | | |]; cbn [bind]; try discriminate.
  intros E. injection E as <- <-. pose proof (slice_0 _ _ _ Ea) as [L ->].
  exists (N.to_nat n), suf. split; [exact L|]. split; [reflexivity|].
  intros a' La. unfold slice in *. unfold len in *. rewrite La. rewrite N.sub_0_r in *.
  destruct ((0 <=? n) && (n <=? N.of_nat (length a))) eqn:B; [|discriminate]. cbn [bind skipn N.to_nat]. reflexivity.
Qed.

Lemma rel_stream_length pp s a a' : length a' = length a ->
  match DecodeRelPathStream pp s a with Ok _ => True | r => DecodeRelPathStream pp s a' = r end.
Proof.
  intros La. unfold DecodeRelPathStream.
  destruct (NextAbsolute _ s) as [[acc s1]| | | |]; cbn [bind]; try reflexivity.
  destruct (slice acc 0 _) as [pb| | | |]; cbn [bind]; try reflexivity.
  destruct (decode_or_zero pb _) as [n| | | |]; cbn [bind]; try reflexivity.
  unfold slice, len. rewrite La. destruct ((0 <=? n) && _); cbn [bind]; [|reflexivity].
  destruct (DecodePathStream pp _) as [[suf s2]| | | |]; cbn [bind]; try reflexivity; exact I.
Qed.

(** [DecodeRelPathStream] in memory: everything as with the whole array for the
    reference, and the path is placed. *)
Lemma stream_at extra pp s h ref : (p_arr ref < length h)%nat ->
  match DecodeRelPathStream pp s (array h ref) with
  | Ok (p, s') => exists q h', DecodeRelPathStream_at extra pp s h ref = Ok (q, h', s') /\ placed h ref p q h'
  | Err => DecodeRelPathStream_at extra pp s h ref = Err
  | Panic => DecodeRelPathStream_at extra pp s h ref = Panic
  | Fatal => DecodeRelPathStream_at extra pp s h ref = Fatal
  | Hang => DecodeRelPathStream_at extra pp s h ref = Hang
  end.
Proof.
  intros Hr. unfold DecodeRelPathStream, DecodeRelPathStream_at.
  destruct (NextAbsolute _ s) as [[acc s1]| | | |]; cbn [bind]; try reflexivity.
  destruct (slice acc 0 _) as [pb| | | |]; cbn [bind]; try reflexivity.
  destruct (decode_or_zero pb _) as [n| | | |]; cbn [bind]; try reflexivity.
  destruct (slice (array h ref) 0 n) as [pre| | | |] eqn:Ea; cbn [bind]; try reflexivity.
  destruct (DecodePathStream pp _) as [[suf s2]| | | |]; cbn [bind]; try reflexivity.
  apply slice_0 in Ea as [L ->].
  destruct (append_at extra h ref (N.to_nat n) suf) as [q h'] eqn:E. exists q, h'. split; [reflexivity|].
  eapply append_at_spec; eauto.
Qed.

Lemma bytes_at extra pp enc h ref : (p_arr ref < length h)%nat ->
  match DecodeRelativePath pp enc (array h ref) with
  | Ok p => exists q h', DecodeRelativePath_at extra pp enc h ref = Ok (q, h') /\ placed h ref p q h'
  | Err => DecodeRelativePath_at extra pp enc h ref = Err
  | Panic => DecodeRelativePath_at extra pp enc h ref = Panic
  | Fatal => DecodeRelativePath_at extra pp enc h ref = Fatal
  | Hang => DecodeRelativePath_at extra pp enc h ref = Hang
  end.
Proof.
  intros Hr. unfold DecodeRelativePath, DecodeRelativePath_at.
  destruct (slice enc 0 _) as [pb| | | |]; cbn [bind]; try reflexivity.
  destruct (match DecodeIntMax32 _ _ with Ok n => Ok n | _ => Fatal end) as [n| | | |]; cbn [bind]; try reflexivity.
  destruct (slice (array h ref) 0 n) as [pre| | | |] eqn:Ea; cbn [bind]; try reflexivity.
  destruct (slice_from enc _) as [rest| | | |]; cbn [bind]; try reflexivity.
  destruct (DecodePath pp rest) as [[m suf]| | | |]; try reflexivity.
  apply slice_0 in Ea as [L ->].
  destruct (append_at extra h ref (N.to_nat n) suf) as [q h'] eqn:E. exists q, h'. split; [reflexivity|].
  eapply append_at_spec; eauto.
Qed.

(** A path of a stream that needs no more of the reference than is seen. *)
Lemma slice_firstn {A} (a : list A) m n x : slice (firstn m a) 0 n = Ok x -> slice a 0 n = Ok x.
Proof.
  intros E. apply slice_0 in E as [L ->]. rewrite firstn_length in L. unfold slice, len. rewrite N.sub_0_r.
  rewrite (proj2 (N.leb_le _ _)) by lia. rewrite (proj2 (N.leb_le _ _)) by lia. cbn [andb skipn N.to_nat].
  rewrite firstn_firstn. f_equal. f_equal. lia.
Qed.
Lemma rel_stream_seen pp s h ref p s' : DecodeRelPathStream pp s (seen h ref) = Ok (p, s') ->
  DecodeRelPathStream pp s (array h ref) = Ok (p, s').
Proof.
  unfold DecodeRelPathStream.
  destruct (NextAbsolute _ s) as [[acc s1]| | | |]; cbn [bind]; try discriminate.
  destruct (slice acc 0 _) as [pb| | | |]; cbn [bind]; try discriminate.
  destruct (decode_or_zero pb _) as [n| | | |]; cbn [bind]; try discriminate.
  destruct (slice (seen h ref) 0 n) as [pre| | | |] eqn:Ea; cbn [bind]; try discriminate.
  unfold seen in Ea. apply slice_firstn in Ea. rewrite Ea. cbn [bind]. auto.
Qed.

(** Two paths of one array. *)
Lemma seen_same_array h s t : p_arr s = p_arr t -> (p_len s <= p_len t)%nat ->
  seen h s = firstn (p_len s) (seen h t).
Proof.
  intros E L. unfold seen. rewrite (array_arr h s t E). rewrite firstn_firstn. f_equal. lia.
Qed.

Lemma placed_length h ref p q h' : placed h ref p q h' -> length (array h' ref) = length (array h ref).
Proof.
  intros (_ & _ & _ & _ & Hf & Hn & _). destruct (Nat.le_gt_cases (length p) (length (array h ref))) as [L|L].
  - destruct (Hf L) as [_ ->]. rewrite app_length, skipn_length. lia.
  - destruct (Hn L) as [_ ->]. reflexivity.
Qed.
Lemma placed_others h ref p q h' t : placed h ref p q h' -> (p_arr t < length h)%nat -> length (array h' t) = length (array h t).
Proof.
  intros P Ht. destruct (Nat.eq_dec (p_arr t) (p_arr ref)) as [E|E].
  - rewrite (array_arr h' t ref E), (array_arr h t ref E). eapply placed_length; eauto.
  - destruct P as (_ & _ & _ & _ & _ & _ & Ho). rewrite Ho; auto.
Qed.

(** A second path is placed: what is seen of the first. *)
Lemma placed_twice h ref p q h1 ref2 p2 q2 h2 :
  (p_arr ref < length h)%nat -> (p_arr ref2 < length h)%nat ->
  placed h ref p q h1 -> placed h1 ref2 p2 q2 h2 ->
  seen h2 q = (if Nat.eqb (p_arr ref2) (p_arr ref) && Nat.leb (length p) (length (array h ref)) && Nat.leb (length p2) (length (array h ref2))
               then firstn (length p) (p2 ++ skipn (length p2) p) else p).
Proof.
  intros Hr Hr2 P1 P2. pose proof (placed_others _ _ _ _ _ ref2 P1 Hr2) as Lr2.
  destruct P1 as (S1 & L1 & M1 & G1 & F1 & N1 & O1). destruct P2 as (S2 & L2 & M2 & G2 & F2 & N2 & O2).
  destruct (Nat.eqb_spec (p_arr ref2) (p_arr ref)) as [E|E]; cbn [andb].
  - destruct (Nat.leb_spec (length p) (length (array h ref))) as [L|L]; cbn [andb].
    + destruct (F1 L) as [Eq A1]. destruct (Nat.leb_spec (length p2) (length (array h ref2))) as [K|K].
      * destruct F2 as [E2 A2]; [lia|]. unfold seen. rewrite (array_arr h2 q ref2) by congruence. rewrite A2, L1.
        rewrite (array_arr h1 ref2 ref E), A1.
        rewrite !firstn_app. f_equal. rewrite skipn_app, firstn_app.
        rewrite skipn_length.
        replace (length p - length p2 - (length p - length p2))%nat with O by lia.
        rewrite firstn_O, app_nil_r. reflexivity.
      * destruct N2 as [E2 A2]; [lia|]. unfold seen. rewrite (array_arr h2 q ref2) by congruence. rewrite A2.
        rewrite <- (array_arr h1 q ref2) by congruence. fold (seen h1 q). exact S1.
    + destruct (N1 L) as [Eq A1]. unfold seen. rewrite O2; [fold (seen h1 q); exact S1| apply M1|]. rewrite Eq. lia.
  - destruct (Nat.leb_spec (length p) (length (array h ref))) as [L|L].
    + destruct (F1 L) as [Eq A1]. unfold seen. rewrite O2; [fold (seen h1 q); exact S1|apply M1|]. rewrite Eq. congruence.
    + destruct (N1 L) as [Eq A1]. unfold seen. rewrite O2; [fold (seen h1 q); exact S1| apply M1|]. rewrite Eq. lia.
Qed.
