(** Proofs about M_Mem: what a write changes, and the agreement of the functions on
    memory with those on byte strings. *)
From Verif Require Import Base M_Order M_Encoding M_Paths M_Successor M_Ranges M_Areas M_Entry M_Map M_Store M_Cap M_Pebble M_Mem P_Successor P_Mono.
Local Open Scope N_scope.

(** The slice lies in its array. *)
Definition fits (h : heap) (s : sl) : Prop :=
  (s_buf s < length h /\ s_len s <= s_cap s /\ s_off s + s_cap s <= length (nth (s_buf s) h []))%nat.
(** Byte [i] of array [b] is one of the bytes of [s]. *)
Definition has_byte (s : sl) (b i : nat) : Prop := s_buf s = b /\ (s_off s <= i < s_off s + s_len s)%nat.
(** [c] has spare capacity, and the byte right behind [c] is a byte of [s]. *)
Definition behind (c s : sl) : Prop := (s_len c < s_cap c)%nat /\ has_byte s (s_buf c) (s_off c + s_len c).
Definition share (c s : sl) : Prop := exists b i, has_byte c b i /\ has_byte s b i.

Lemma update_nth_length {A} i (a : A) l : (i < length l)%nat -> length (update_nth i a l) = length l.
Proof. intros H. unfold update_nth. rewrite app_length. cbn [length]. rewrite firstn_length, skipn_length. lia. Qed.

Lemma nth_update_nth {A} i j (a d : A) l : (i < length l)%nat ->
  nth j (update_nth i a l) d = if Nat.eqb j i then a else nth j l d.
Proof.
  intros H. unfold update_nth. destruct (Nat.eqb j i) eqn:E.
  - apply Nat.eqb_eq in E. subst j. rewrite app_nth2; rewrite firstn_length; [|lia].
    replace (i - min i (length l))%nat with O by lia. reflexivity.
  - apply Nat.eqb_neq in E. destruct (Nat.lt_ge_cases j i).
    + rewrite app_nth1 by (rewrite firstn_length; lia). revert j i H H0 E. induction l as [|x l IH]; intros j i H H0 E; cbn [length] in H; [lia|].
      destruct i; [lia|]. destruct j; cbn [firstn nth]; [reflexivity|]. apply IH; lia.
    + rewrite app_nth2 by (rewrite firstn_length; lia). rewrite firstn_length.
      replace (j - min i (length l))%nat with (S (j - S i)) by lia. cbn [nth].
      revert j i H H0 E. induction l as [|x l IH]; intros j i H H0 E; cbn [length] in H; [lia|].
      destruct j as [|j]; [lia|]. destruct i as [|i].
      * cbn [skipn nth]. f_equal. lia.
      * cbn [nth]. rewrite <- (IH j i) by lia. change (skipn (S (S i)) (x :: l)) with (skipn (S i) l). f_equal.
Qed.

Lemma nth_firstn {A} j n (l : list A) d : nth j (firstn n l) d = if Nat.ltb j n then nth j l d else d.
Proof.
  revert n l. induction j; intros [|n] [|x l]; cbn [firstn nth]; try reflexivity.
  - destruct (Nat.ltb (S j) (S n)); reflexivity.
  - rewrite IHj. reflexivity.
Qed.
Lemma nth_skipn {A} j n (l : list A) d : nth j (skipn n l) d = nth (n + j) l d.
Proof. revert l. induction n; intros [|x l]; cbn [skipn plus nth]; auto. destruct j; reflexivity. Qed.

(** Two lists are equal when they have the same length and elements. *)
Lemma nth_eq {A} (d : A) l m : length l = length m -> (forall j, (j < length l)%nat -> nth j l d = nth j m d) -> l = m.
Proof. intros L H. apply (nth_ext _ _ d d L H). Qed.

Lemma rd_length h s : fits h s -> length (rd h s) = s_len s.
Proof. intros (B & L & C). unfold rd. rewrite firstn_length, skipn_length. unfold bytes in *. lia. Qed.
Lemma rd_nth h s j : (j < s_len s)%nat -> nth j (rd h s) 0 = nth (s_off s + j) (nth (s_buf s) h []) 0.
Proof. intros H. unfold rd. rewrite nth_firstn, nth_skipn. destruct (Nat.ltb_spec j (s_len s)); [reflexivity|lia]. Qed.

Lemma write_length h b i x : (b < length h)%nat -> length (write h b i x) = length h.
Proof. intros. apply update_nth_length. exact H. Qed.
Lemma write_array h b i x b' : (b < length h)%nat -> (i < length (nth b h []))%nat ->
  length (nth b' (write h b i x) []) = length (nth b' h []).
Proof.
  intros B I. unfold write. unfold bytes in *. rewrite nth_update_nth by exact B. destruct (Nat.eqb_spec b' b); [|reflexivity].
  subst. apply update_nth_length. exact I.
Qed.
Lemma write_nth h b i x b' j : (b < length h)%nat -> (i < length (nth b h []))%nat ->
  nth j (nth b' (write h b i x) []) 0 = if (Nat.eqb b' b && Nat.eqb j i)%bool then x else nth j (nth b' h []) 0.
Proof.
  intros B I. unfold write. unfold bytes in *. rewrite nth_update_nth by exact B. destruct (Nat.eqb_spec b' b); cbn [andb]; [|reflexivity].
  subst. apply nth_update_nth. exact I.
Qed.

Lemma write_fits h b i x s : (b < length h)%nat -> (i < length (nth b h []))%nat -> fits h s -> fits (write h b i x) s.
Proof. intros B I (A & C & D). unfold fits. rewrite write_length by exact B. rewrite write_array by auto. auto. Qed.

(** What a slice reads after a write. *)
Lemma rd_write_off h b i x s : (b < length h)%nat -> (i < length (nth b h []))%nat -> fits h s -> ~ has_byte s b i ->
  rd (write h b i x) s = rd h s.
Proof.
  intros B I F N0. pose proof (write_fits h b i x s B I F) as F'. apply (nth_eq 0).
  - rewrite !rd_length; auto.
  - intros j Hj. rewrite rd_length in Hj by auto. rewrite !rd_nth by auto. rewrite write_nth by auto.
    destruct (Nat.eqb_spec (s_buf s) b); cbn [andb]; [|reflexivity]. destruct (Nat.eqb_spec (s_off s + j) i); [|reflexivity].
    exfalso. apply N0. split; [auto|lia].
Qed.
Lemma rd_write_on h b i x s : (b < length h)%nat -> (i < length (nth b h []))%nat -> fits h s -> has_byte s b i ->
  rd (write h b i x) s = update_nth (i - s_off s) x (rd h s).
Proof.
  intros B I F [E R]. pose proof (write_fits h b i x s B I F) as F'. 
  assert (L : (i - s_off s < length (rd h s))%nat) by (rewrite rd_length by auto; lia).
  apply (nth_eq 0).
  - rewrite update_nth_length by exact L. rewrite !rd_length; auto.
  - intros j Hj. rewrite rd_length in Hj by auto. rewrite rd_nth by auto. rewrite write_nth by auto.
    rewrite nth_update_nth by exact L. rewrite rd_nth by auto. subst b. rewrite Nat.eqb_refl. cbn [andb].
    destruct (Nat.eqb_spec (s_off s + j) i); destruct (Nat.eqb_spec j (i - s_off s)); try reflexivity; lia.
Qed.

(** An allocation leaves the arrays there were. *)
Lemma new_old extra h b s : fits h s -> fits (snd (new extra h b)) s /\ rd (snd (new extra h b)) s = rd h s.
Proof.
  intros (A & C & D). cbn [new snd]. unfold fits, rd. rewrite app_nth1 by exact A. rewrite app_length. cbn [length].
  repeat split; auto. lia.
Qed.
Lemma new_new extra h b : fits (snd (new extra h b)) (fst (new extra h b)) /\ rd (snd (new extra h b)) (fst (new extra h b)) = b.
Proof.
  cbn [new fst snd]. unfold fits, rd. cbn [s_buf s_off s_len s_cap]. rewrite app_nth2 by lia.
  rewrite Nat.sub_diag. cbn [nth skipn]. rewrite !app_length. cbn [length]. rewrite repeat_length. split; [lia|].
  rewrite firstn_app, Nat.sub_diag. cbn [firstn]. rewrite firstn_all, app_nil_r. reflexivity.
Qed.

(** ** append of one byte *)
Definition inplace (c : sl) : bool := Nat.ltb (s_len c) (s_cap c).

Lemma app1_eq extra h c x : append extra h c [x] =
  if inplace c then (Sl (s_buf c) (s_off c) (S (s_len c)) (s_cap c), write h (s_buf c) (s_off c + s_len c) x)
  else new extra h (rd h c ++ [x]).
Proof.
  unfold append, inplace. cbn [length write_all]. replace (s_len c + 1)%nat with (S (s_len c)) by lia. reflexivity.
Qed.

Lemma app1_spec extra h c x : fits h c ->
  let d := fst (append extra h c [x]) in let h' := snd (append extra h c [x]) in
  fits h' d /\ rd h' d = rd h c ++ [x] /\ s_len d = S (s_len c)
  /\ (forall s, fits h s -> fits h' s /\ (~ behind c s -> rd h' s = rd h s)
       /\ (behind c s -> rd h' s = update_nth (s_off c + s_len c - s_off s) x (rd h s))).
Proof.
  intros F. cbn zeta. rewrite app1_eq. destruct (inplace c) eqn:I; unfold inplace in I.
  - apply Nat.ltb_lt in I. destruct F as (A & L & C). cbn [fst snd].
    assert (W : (s_off c + s_len c < length (nth (s_buf c) h []))%nat) by lia.
    assert (Fc : fits (write h (s_buf c) (s_off c + s_len c) x) (Sl (s_buf c) (s_off c) (S (s_len c)) (s_cap c))).
    { apply write_fits; auto. repeat split; cbn; auto. }
    split; [exact Fc|]. split; [|split; [reflexivity|]].
    + rewrite rd_write_on; auto.
      * cbn [s_off]. replace (s_off c + s_len c - s_off c)%nat with (s_len c) by lia.
        apply (nth_eq 0).
        -- rewrite update_nth_length; [rewrite rd_length; [|repeat split; cbn; auto]|rewrite rd_length; [cbn; lia|repeat split; cbn; auto]].
           rewrite app_length, rd_length by (repeat split; auto). cbn. lia.
        -- intros j Hj. rewrite nth_update_nth by (rewrite rd_length; [cbn; lia|repeat split; cbn; auto]).
           rewrite update_nth_length in Hj by (rewrite rd_length; [cbn; lia|repeat split; cbn; auto]).
           rewrite rd_length in Hj by (repeat split; cbn; auto). cbn [s_len] in Hj.
           destruct (Nat.eqb_spec j (s_len c)).
           ++ rewrite app_nth2; rewrite rd_length by (repeat split; auto); [|lia]. subst. rewrite Nat.sub_diag. reflexivity.
           ++ rewrite app_nth1; [|rewrite rd_length by (repeat split; auto); lia].
              rewrite !rd_nth by (cbn; lia). reflexivity.
      * repeat split; cbn; auto.
      * split; cbn; lia.
    + intros s Fs. split; [apply write_fits; auto|]. split.
      * intros NB. apply rd_write_off; auto. intros HB. apply NB. split; auto.
      * intros [_ HB]. apply rd_write_on; auto.
  - apply Nat.ltb_ge in I. destruct (new_new extra h (rd h c ++ [x])) as [N1 N2].
    split; [exact N1|]. split; [exact N2|]. split.
    + cbn [new fst s_len]. rewrite app_length, rd_length by exact F. cbn [length]. lia.
    + intros s Fs. destruct (new_old extra h (rd h c ++ [x]) s Fs) as [O1 O2]. split; [exact O1|]. split; [intros _; exact O2|].
      intros [LT _]. lia.
Qed.

(** ** Paths *)
Definition fitsp (h : heap) (p : list sl) : Prop := Forall (fits h) p.

Lemma rdp_same h h' p : (forall s, In s p -> rd h' s = rd h s) -> rdp h' p = rdp h p.
Proof. intros H. apply map_ext_in. exact H. Qed.
Lemma fitsp_in h p s : fitsp h p -> In s p -> fits h s.
Proof. intros F. apply (proj1 (Forall_forall _ _) F). Qed.
Lemma rdp_len h p : length (rdp h p) = length p.
Proof. apply map_length. Qed.
Lemma rdp_len_N h p : len (rdp h p) = len p.
Proof. unfold len. rewrite rdp_len. reflexivity. Qed.
Lemma rdp_firstn h i p : rdp h (firstn i p) = firstn i (rdp h p).
Proof. symmetry. apply firstn_map. Qed.
Lemma rdp_nth h i p : (i < length p)%nat -> nth i (rdp h p) [] = rd h (nth i p none).
Proof.
  intros H. unfold rdp. rewrite (nth_indep _ [] (rd h none)) by (rewrite map_length; exact H). apply map_nth.
Qed.
Lemma total_mem h p : fitsp h p -> total_length (rdp h p) = fold_right (fun c n => N.of_nat (s_len c) + n) 0 p.
Proof.
  induction 1 as [|c p F FP IH]; [reflexivity|]. cbn [rdp map total_length fold_right]. unfold rdp in IH. rewrite IH.
  unfold len. rewrite rd_length by exact F. reflexivity.
Qed.

Lemma rdp_app h p q : rdp h (p ++ q) = rdp h p ++ rdp h q.
Proof. apply map_app. Qed.

Definition resmap {A B} (f : A -> B) (r : res A) : res B := do a <- r; Ok (f a).

Lemma PathAppend_rd pp h p c : fitsp h p -> fits h c ->
  resmap (rdp h) (PathAppend_mem pp p c) = PathAppend (rdp h p) (rd h c) pp.
Proof.
  intros F G. unfold PathAppend_mem, PathAppend. rewrite rdp_len_N, (total_mem h p F).
  assert (L : len (rd h c) = N.of_nat (s_len c)) by (unfold len; rewrite rd_length by exact G; reflexivity). rewrite L.
  destruct (_ <? _); [reflexivity|]. destruct (_ <? _); [reflexivity|].
  cbn [resmap bind]. unfold rdp. rewrite map_app. reflexivity.
Qed.
Lemma PathAppend_list pp p c q : PathAppend_mem pp p c = Ok q -> q = p ++ [c].
Proof. unfold PathAppend_mem. destruct (_ <? _); [discriminate|]. destruct (_ <? _); [discriminate|]. congruence. Qed.

(** The reading of a result. *)
Definition rdr (h : heap) (r : res (option (list sl))) : res (option path) := resmap (option_map (rdp h)) r.
Lemma rdr_append pp h p c : fitsp h p -> fits h c ->
  rdr h (do q <- PathAppend_mem pp p c; Ok (Some q)) = (do q <- PathAppend (rdp h p) (rd h c) pp; Ok (Some q)).
Proof.
  intros F G. rewrite <- PathAppend_rd by auto. unfold rdr, resmap. destruct (PathAppend_mem pp p c); reflexivity.
Qed.

(** TryAppendZeroByte *)
Lemma try_rd extra pp h c : fits h c ->
  match TryAppendZeroByte_mem extra pp h c with
  | (None, h') => h' = h /\ TryAppendZeroByte (rd h c) pp = None
  | (Some d, h') =>
      append extra h c [0] = (d, h') /\ TryAppendZeroByte (rd h c) pp = Some (rd h c ++ [0])
  end.
Proof.
  intros F. unfold TryAppendZeroByte_mem, TryAppendZeroByte, len. rewrite rd_length by exact F.
  destruct (_ =? _); [auto|]. destruct (append extra h c [0]) as [d h'] eqn:E. auto.
Qed.

Lemma behind_in p c s : In c p -> In s p -> (forall c d, In c p -> In d p -> ~ behind c d) -> ~ behind c s.
Proof. auto. Qed.

(** ** SuccessorPath *)
(** What a call may have done to the memory: every slice that was there is there, and reads the same, unless the byte
    behind a component of [p] is one of its bytes; then that byte became zero. *)
Definition one_zero (p : list sl) (h h' : heap) : Prop :=
  (forall s, fits h s -> fits h' s)
  /\ ((forall s, fits h s -> rd h' s = rd h s)
      \/ exists c, In c p /\ forall s, fits h s ->
           (~ behind c s -> rd h' s = rd h s)
           /\ (behind c s -> rd h' s = update_nth (s_off c + s_len c - s_off s) 0 (rd h s))).

Lemma one_zero_refl p h : one_zero p h h.
Proof. split; auto. Qed.

Lemma one_zero_path p h h' q : one_zero p h h' -> fitsp h q -> (forall c d, In c p -> In d q -> ~ behind c d) ->
  fitsp h' q /\ rdp h' q = rdp h q.
Proof.
  intros [K W] F A. split; [apply Forall_forall; intros s Hs; apply K; eapply fitsp_in; eauto|].
  apply rdp_same. intros s Hs. pose proof (fitsp_in _ _ _ F Hs) as Fs. destruct W as [W|(c & Hc & W)]; [auto|].
  apply (proj1 (W s Fs)). auto.
Qed.

Lemma new_one_zero extra p h b : one_zero p h (snd (new extra h b)).
Proof. split; [intros s F; apply new_old; exact F|]. left. intros s F. apply new_old. exact F. Qed.
Lemma app_one_zero extra p h c : fits h c -> In c p -> one_zero p h (snd (append extra h c [0])).
Proof.
  intros F I. destruct (app1_spec extra h c 0 F) as (_ & _ & _ & H). split; [intros s Fs; apply H; exact Fs|].
  right. exists c. split; [exact I|]. intros s Fs. destruct (H s Fs) as (_ & A & B). auto.
Qed.

Lemma firstn_incl {A} n (l : list A) x : In x (firstn n l) -> In x l.
Proof. rewrite <- (firstn_skipn n l) at 2. intros. apply in_or_app. auto. Qed.
Lemma firstn_fits h n p : fitsp h p -> fitsp h (firstn n p).
Proof. intros F. apply Forall_forall. intros s Hs. eapply fitsp_in; [exact F|eapply firstn_incl; eauto]. Qed.

Definition apart (p : list sl) : Prop := forall c d, In c p -> In d p -> ~ behind c d.

Lemma path_loop_rd extra pp h p n : fitsp h p -> apart p -> (n <= length p)%nat ->
  rdr (snd (path_loop_mem extra pp h p n)) (fst (path_loop_mem extra pp h p n)) = successor_path_loop pp (rdp h p) n
  /\ one_zero p h (snd (path_loop_mem extra pp h p n))
  /\ match fst (path_loop_mem extra pp h p n) with Ok (Some q) => fitsp (snd (path_loop_mem extra pp h p n)) q | _ => True end.
Proof.
  intros F A. induction n as [|i IH]; intros Hn.
  { cbn. split; [reflexivity|]. split; [apply one_zero_refl|exact I]. }
  cbn [path_loop_mem successor_path_loop]. rewrite rdp_nth by lia.
  set (c := nth i p none). assert (Ic : In c p) by (apply nth_In; lia).
  assert (Fc : fits h c) by (eapply fitsp_in; eauto).
  pose proof (try_rd extra pp h c Fc) as T. destruct (TryAppendZeroByte_mem extra pp h c) as [[d|] h'].
  - destruct T as [E ->]. cbn [fst snd].
    pose proof (app_one_zero extra p h c Fc Ic) as Z. rewrite E in Z. cbn [snd] in Z.
    destruct (app1_spec extra h c 0 Fc) as (Fd & Rd & _ & _). rewrite E in Fd, Rd. cbn [fst snd] in Fd, Rd.
    destruct (one_zero_path p h h' (firstn i p) Z (firstn_fits h i p F)) as [Fp Rp].
    { intros x y Hx Hy. apply A; auto. eapply firstn_incl; eauto. }
    split; [|split; [exact Z|]].
    + rewrite rdr_append by auto. rewrite Rp, Rd, rdp_firstn. reflexivity.
    + destruct (PathAppend_mem pp (firstn i p) d) as [q| | | |] eqn:EP; cbn [bind]; auto.
      apply PathAppend_list in EP. subst q. apply Forall_app. split; [exact Fp|constructor; auto].
  - destruct T as [_ ->].
    destruct (SuccessorBytesFixedWidth (rd h c)) as [b|] eqn:E; [|apply IH; lia].
    pose proof (new_one_zero extra p h b) as Z. destruct (new_new extra h b) as [Fd Rd].
    destruct (one_zero_path p h (snd (new extra h b)) p Z F A) as [Fp Rp].
    destruct (new extra h b) as [d h'']. cbn [fst snd] in *.
    split; [|split; [exact Z|]].
    + rewrite rdr_append by auto. rewrite Rp, Rd. reflexivity.
    + destruct (PathAppend_mem pp p d) as [q| | | |] eqn:EP; cbn [bind]; auto.
      apply PathAppend_list in EP. subst q. apply Forall_app. split; [exact Fp|constructor; auto].
Qed.

Lemma SuccessorPath_rd extra pp h p : fitsp h p -> apart p ->
  rdr (snd (SuccessorPath_mem extra pp h p)) (fst (SuccessorPath_mem extra pp h p)) = SuccessorPath (rdp h p) pp
  /\ one_zero p h (snd (SuccessorPath_mem extra pp h p))
  /\ match fst (SuccessorPath_mem extra pp h p) with Ok (Some q) => fitsp (snd (SuccessorPath_mem extra pp h p)) q | _ => True end.
Proof.
  intros F A. pose proof (new_one_zero extra p h []) as Z. destruct (new_new extra h []) as [Fd Rd].
  destruct (one_zero_path p h _ p Z F A) as [Fp Rp].
  destruct p as [|c p'] eqn:EP.
  - unfold SuccessorPath_mem, SuccessorPath. destruct (new extra h []) as [d h']. cbn [fst snd rdr resmap bind option_map rdp map] in *. rewrite Rd.
    split; [reflexivity|]. split; [exact Z|constructor; auto].
  - rewrite <- EP in *.
    assert (S1 : SuccessorPath (rdp h p) pp = if toT pp (len (rdp h p)) <? max_component_count pp
              then do q <- PathAppend (rdp h p) [] pp; Ok (Some q) else successor_path_loop pp (rdp h p) (length (rdp h p)))
      by (rewrite EP; reflexivity).
    assert (S2 : SuccessorPath_mem extra pp h p = if toT pp (len p) <? max_component_count pp
              then let '(c, h') := new extra h [] in (do q <- PathAppend_mem pp p c; Ok (Some q), h') else path_loop_mem extra pp h p (length p))
      by (rewrite EP; reflexivity).
    rewrite S1, S2. clear S1 S2.
    rewrite rdp_len_N, rdp_len. destruct (_ <? _); [|apply path_loop_rd; auto].
    destruct (new extra h []) as [d h']. cbn [fst snd] in *.
    split; [|split; [exact Z|]].
    + rewrite rdr_append by auto. rewrite Rp, Rd. reflexivity.
    + destruct (PathAppend_mem pp p d) as [q| | | |] eqn:EQ; cbn [bind]; auto.
      apply PathAppend_list in EQ. subst q. apply Forall_app. split; [exact Fp|constructor; auto].
Qed.

(** ** PrefixSuccessor *)
Lemma PrefixSuccessor_snoc b x : PrefixSuccessor (b ++ [x]) =
  if x =? 255 then (fst (PrefixSuccessor b), snd (PrefixSuccessor b) ++ [x]) else (Some (b ++ [x + 1]), b ++ [x + 1]).
Proof.
  induction b as [|y b IH]; cbn [app PrefixSuccessor fst snd].
  - destruct (x =? 255); reflexivity.
  - rewrite IH. destruct (x =? 255); [|reflexivity].
    destruct (PrefixSuccessor b) as [[r|] m]; cbn [fst snd app]; [reflexivity|].
    destruct (y =? 255); reflexivity.
Qed.

Lemma firstn_S_nth {A} i (l : list A) d : (i < length l)%nat -> firstn (S i) l = firstn i l ++ [nth i l d].
Proof.
  revert l. induction i; intros [|x l] H; cbn [length] in H; try lia; [reflexivity|].
  cbn [firstn nth app]. f_equal. apply IHi. lia.
Qed.
Lemma update_nth_app1 {A} i (a : A) l r : (i < length l)%nat -> update_nth i a (l ++ r) = update_nth i a l ++ r.
Proof.
  intros H. unfold update_nth. rewrite firstn_app, skipn_app.
  replace (i - length l)%nat with O by lia. replace (S i - length l)%nat with O by lia. cbn [firstn skipn].
  rewrite app_nil_r, <- app_assoc. reflexivity.
Qed.
Lemma update_nth_last {A} (a x : A) l : update_nth (length l) a (l ++ [x]) = l ++ [a].
Proof.
  unfold update_nth. rewrite firstn_app, Nat.sub_diag, firstn_all. cbn [firstn]. rewrite app_nil_r.
  rewrite (skipn_all2 (l ++ [x])); [reflexivity|]. rewrite app_length. cbn. lia.
Qed.

Lemma prefix_successor_rd extra h c n : fits h c -> (n <= s_len c)%nat ->
  match prefix_successor_loop extra h c n with
  | (None, h') => h' = h /\ PrefixSuccessor (firstn n (rd h c)) = (None, firstn n (rd h c))
  | (Some d, h') =>
      exists i, (i < n)%nat /\ nth i (rd h c) 0 <> 255 /\ d = Sl (s_buf c) (s_off c) (S i) (s_cap c)
        /\ h' = write h (s_buf c) (s_off c + i) (nth i (rd h c) 0 + 1)
        /\ PrefixSuccessor (firstn n (rd h c)) =
             (Some (firstn i (rd h c) ++ [nth i (rd h c) 0 + 1]), update_nth i (nth i (rd h c) 0 + 1) (firstn n (rd h c)))
  end.
Proof.
  intros F. induction n as [|i IH]; intros Hn; [cbn; auto|].
  cbn [prefix_successor_loop]. pose proof (rd_length h c F) as L.
  rewrite (firstn_S_nth i (rd h c) 0) by lia. rewrite PrefixSuccessor_snoc.
  destruct (N.eqb_spec (nth i (rd h c) 0) 255) as [E|NE].
  - specialize (IH ltac:(lia)). destruct (prefix_successor_loop extra h c i) as [[d|] h'].
    + destruct IH as (j & Hj & Nj & Ed & Eh & EP). exists j. rewrite EP. cbn [fst snd].
      rewrite update_nth_app1 by (rewrite firstn_length; lia). repeat split; auto.
    + destruct IH as [-> EP]. rewrite EP. auto.
  - rewrite app1_eq. unfold inplace. cbn [s_len s_cap].
    destruct F as (B & LC & C). destruct (Nat.ltb_spec i (s_cap c)); [|lia]. cbn [s_buf s_off].
    exists i. replace (length (firstn i (rd h c))) with i in * by (rewrite firstn_length; lia).
    assert (U : update_nth i (nth i (rd h c) 0 + 1) (firstn i (rd h c) ++ [nth i (rd h c) 0]) = firstn i (rd h c) ++ [nth i (rd h c) 0 + 1]).
    { rewrite <- (update_nth_last (nth i (rd h c) 0 + 1) (nth i (rd h c) 0) (firstn i (rd h c))).
      f_equal. rewrite firstn_length. lia. }
    rewrite U. repeat split; auto.
Qed.

(** ** SuccessorPrefix *)
(** Or one byte of a component of [p] was raised by one. *)
Definition one_byte (p : list sl) (h h' : heap) : Prop :=
  one_zero p h h'
  \/ (forall s, fits h s -> fits h' s)
     /\ exists c i, In c p /\ (i < s_len c)%nat /\ nth i (rd h c) 0 <> 255
        /\ forall s, fits h s ->
             (~ has_byte s (s_buf c) (s_off c + i) -> rd h' s = rd h s)
             /\ (has_byte s (s_buf c) (s_off c + i) -> rd h' s = update_nth (s_off c + i - s_off s) (nth i (rd h c) 0 + 1) (rd h s)).

(** No byte belongs to two of the slices. *)
Definition disjoint (p : list sl) : Prop :=
  forall i j, (i < j < length p)%nat -> ~ share (nth i p none) (nth j p none).

Lemma disjoint_ne p i j b k : disjoint p -> (i < length p)%nat -> (j < length p)%nat -> i <> j ->
  has_byte (nth i p none) b k -> ~ has_byte (nth j p none) b k.
Proof.
  intros D Hi Hj N0 H1 H2. destruct (Nat.lt_gt_cases i j) as [X _]. destruct (X N0).
  - apply (D i j); [lia|]. exists b, k. auto.
  - apply (D j i); [lia|]. exists b, k. auto.
Qed.

Lemma rd_sub h c i : fits h c -> (i <= s_len c)%nat -> rd h (Sl (s_buf c) (s_off c) i (s_cap c)) = firstn i (rd h c).
Proof.
  intros F Hi. unfold rd. cbn [s_buf s_off s_len]. rewrite firstn_firstn. f_equal. lia.
Qed.

Lemma fits_sub h c i : fits h c -> (i <= s_len c)%nat -> fits h (Sl (s_buf c) (s_off c) i (s_cap c)).
Proof. intros (B & L & C) H. repeat split; cbn; auto. lia. Qed.

Lemma prefix_loop_rd extra pp h p n : fitsp h p -> apart p -> disjoint p -> (n <= length p)%nat ->
  let '(r, h') := prefix_loop_mem extra pp h p n in
  rdr h' r = fst (successor_prefix_loop pp (rdp h p) n)
  /\ rdp h' p = snd (successor_prefix_loop pp (rdp h p) n)
  /\ one_byte p h h'
  /\ match r with Ok (Some q) => fitsp h' q | _ => True end.
Proof.
  intros F A D. induction n as [|i IH]; intros Hn.
  { cbn. repeat split; auto. left. apply one_zero_refl. }
  cbn [prefix_loop_mem successor_prefix_loop]. rewrite rdp_nth by lia.
  set (c := nth i p none). assert (Ic : In c p) by (apply nth_In; lia).
  assert (Fc : fits h c) by (eapply fitsp_in; eauto).
  pose proof (try_rd extra pp h c Fc) as T. destruct (TryAppendZeroByte_mem extra pp h c) as [[d|] h'].
  - destruct T as [E ->]. cbn [fst snd].
    pose proof (app_one_zero extra p h c Fc Ic) as Z. rewrite E in Z. cbn [snd] in Z.
    destruct (app1_spec extra h c 0 Fc) as (Fd & Rd & _ & _). rewrite E in Fd, Rd. cbn [fst snd] in Fd, Rd.
    destruct (one_zero_path p h h' p Z F A) as [Fp Rp].
    split; [|split; [exact Rp|split; [left; exact Z|]]].
    + rewrite rdr_append by (auto; apply firstn_fits; auto). rewrite rdp_firstn, Rp, Rd. reflexivity.
    + destruct (PathAppend_mem pp (firstn i p) d) as [q| | | |] eqn:EP; cbn [bind]; auto.
      apply PathAppend_list in EP. subst q. apply Forall_app. split; [apply firstn_fits; exact Fp|constructor; auto].
  - destruct T as [_ ->]. unfold PrefixSuccessor_mem.
    pose proof (prefix_successor_rd extra h c (s_len c) Fc (le_n _)) as P.
    pose proof (rd_length h c Fc) as L.
    rewrite (firstn_all2 (n := s_len c) (rd h c)) in P by lia.
    destruct (prefix_successor_loop extra h c (s_len c)) as [[d|] h''].
    + destruct P as (j & Hj & Nj & Ed & Eh & EP). rewrite EP. cbn [fst snd].
      set (x := nth j (rd h c) 0 + 1) in *.
      destruct Fc as (B & LC & C). assert (W : (s_off c + j < length (nth (s_buf c) h []))%nat) by lia.
      assert (Fc : fits h c) by (repeat split; auto).
      assert (K : forall s, fits h s -> fits h'' s) by (intros s Fs; subst h''; apply write_fits; auto).
      assert (Rc : rd h'' c = update_nth j x (rd h c)).
      { subst h''. rewrite rd_write_on; auto; [|split; [reflexivity|lia]]. f_equal. lia. }
      assert (Ro : forall k, (k < length p)%nat -> k <> i -> rd h'' (nth k p none) = rd h (nth k p none)).
      { intros k Hk Nk. subst h''. apply rd_write_off; auto.
        - eapply fitsp_in; [exact F|]. apply nth_In. exact Hk.
        - apply (disjoint_ne p i k); auto; try lia. split; [reflexivity|]. fold c. lia. }
      assert (Fp : fitsp h'' p) by (apply Forall_forall; intros s Hs; apply K; eapply fitsp_in; eauto).
      assert (Rp : rdp h'' p = update_nth i (update_nth j x (rd h c)) (rdp h p)).
      { apply (nth_eq []).
        - rewrite update_nth_length by (rewrite rdp_len; lia). rewrite !rdp_len. reflexivity.
        - intros k Hk. rewrite rdp_len in Hk. rewrite nth_update_nth by (rewrite rdp_len; lia).
          rewrite rdp_nth by exact Hk. destruct (Nat.eqb_spec k i) as [->|Nk]; [exact Rc|]. rewrite Ro by auto.
          rewrite rdp_nth by exact Hk. reflexivity. }
      assert (Fd : fits h'' d) by (subst d; apply K; repeat split; cbn; auto; lia).
      assert (Rd : rd h'' d = firstn j (rd h c) ++ [x]).
      { subst d. rewrite rd_sub by (auto; lia). rewrite Rc. rewrite (firstn_S_nth j _ 0) by (rewrite update_nth_length; lia).
        rewrite nth_update_nth by lia. rewrite Nat.eqb_refl. f_equal.
        unfold update_nth. rewrite firstn_app, firstn_firstn, firstn_length.
        replace (j - min j (length (rd h c)))%nat with O by lia. cbn [firstn]. rewrite app_nil_r. f_equal. lia. }
      split; [|split; [exact Rp|split]].
      * rewrite rdr_append by (auto; apply firstn_fits; auto). rewrite Rd, rdp_firstn. 
        replace (firstn i (rdp h'' p)) with (firstn i (rdp h p)); [reflexivity|].
        rewrite Rp. unfold update_nth. rewrite firstn_app, firstn_firstn, firstn_length, rdp_len.
        replace (i - min i (length p))%nat with O by lia. cbn [firstn]. rewrite app_nil_r. f_equal. lia.
      * right. split; [exact K|]. exists c, j. repeat split; auto.
        -- intros HB. subst h''. apply rd_write_off; auto.
        -- intros HB. subst h''. apply rd_write_on; auto.
      * destruct (PathAppend_mem pp (firstn i p) d) as [q| | | |] eqn:EQ; cbn [bind]; auto.
        apply PathAppend_list in EQ. subst q. apply Forall_app. split; [apply firstn_fits; exact Fp|constructor; auto].
    + destruct P as [_ EP]. rewrite EP.
      replace (update_nth i (rd h c) (rdp h p)) with (rdp h p); [apply IH; lia|].
      apply (nth_eq []); [rewrite update_nth_length; [reflexivity|rewrite rdp_len; lia]|].
      intros k Hk. rewrite rdp_len in Hk. rewrite nth_update_nth by (rewrite rdp_len; lia).
      destruct (Nat.eqb_spec k i) as [->|]; [|reflexivity]. apply rdp_nth. lia.
Qed.

Lemma SuccessorPrefix_rd extra pp h p : fitsp h p -> apart p -> disjoint p ->
  let '(r, h') := SuccessorPrefix_mem extra pp h p in
  rdr h' r = SuccessorPrefix (rdp h p) pp
  /\ rdp h' p = SuccessorPrefix_caller (rdp h p) pp
  /\ one_byte p h h'
  /\ match r with Ok (Some q) => fitsp h' q | _ => True end.
Proof.
  intros F A D. pose proof (prefix_loop_rd extra pp h p (length p) F A D (le_n _)) as H.
  unfold SuccessorPrefix_mem, SuccessorPrefix, SuccessorPrefix_caller, SuccessorPrefix_full. rewrite rdp_len. exact H.
Qed.

(** ** The range of PrefixedBy *)
Lemma fresh_byte h d b i c : fits h c -> s_buf d = length h -> has_byte c b i -> ~ has_byte d b i.
Proof. intros (B & _) E [E1 _] [E2 _]. lia. Qed.

Lemma try_len extra pp h1 h2 c :
  match fst (TryAppendZeroByte_mem extra pp h1 c) with None => True | Some _ => False end ->
  fst (TryAppendZeroByte_mem extra pp h2 c) = None.
Proof.
  unfold TryAppendZeroByte_mem. destruct (_ =? _); [auto|].
  destruct (append extra h1 c [0]), (append extra h2 c [0]). intros [].
Qed.

Lemma loops_agree extra pp h p n q h1 : fitsp h p -> apart p -> disjoint p -> wf_path (rdp h p) -> (n <= length p)%nat ->
  path_loop_mem extra pp h p n = (Ok (Some q), h1) ->
  let '(r, h2) := prefix_loop_mem extra pp h1 p n in
  rdp h2 q = firstn (pred (length q)) (rdp h2 p) ++ skipn (pred (length q)) (rdp h1 q).
Proof.
  intros F A D WF. revert q h1. induction n as [|i IH]; intros q h1 Hn H; [cbn in H; discriminate|].
  pose proof (path_loop_rd extra pp h p (S i) F A Hn) as (_ & Z & Fq). rewrite H in Z, Fq. cbn [fst snd] in Z, Fq.
  destruct (one_zero_path p h h1 p Z F A) as [Fp1 Rp1].
  cbn [path_loop_mem] in H. cbn [prefix_loop_mem].
  set (c := nth i p none) in *. assert (Ic : In c p) by (apply nth_In; lia).
  assert (Fc : fits h c) by (eapply fitsp_in; eauto). assert (Fc1 : fits h1 c) by (eapply fitsp_in; eauto).
  assert (Rc1 : rd h1 c = rd h c).
  { unfold c. rewrite <- !(rdp_nth _ i p) by lia. rewrite Rp1. reflexivity. }
  unfold TryAppendZeroByte_mem in *.
  destruct (toT pp (N.of_nat (s_len c)) =? max_component_length pp) eqn:ET.
  - destruct (SuccessorBytesFixedWidth (rd h c)) as [b|] eqn:EB.
    + (* a new component behind the whole path *)
      destruct (new_new extra h b) as [Fd Rd]. destruct (new extra h b) as [d h'] eqn:EN. cbn [fst snd] in Fd, Rd.
      assert (Bd : s_buf d = length h) by (unfold new in EN; inversion EN; reflexivity).
      destruct (PathAppend_mem pp p d) as [q'| | | |] eqn:EP; cbn [bind] in H; try discriminate. inversion H; subst q' h1. clear H.
      apply PathAppend_list in EP. subst q.
      pose proof (prefix_loop_rd extra pp h' p (S i) Fp1 A D Hn) as K. cbn [prefix_loop_mem] in K. fold c in K.
      unfold TryAppendZeroByte_mem in K. rewrite ET in K.
      match goal with |- let '(r, h2) := ?X in _ => destruct X as [r h2] end.
      destruct K as (_ & _ & K & _).
      assert (Rd2 : rd h2 d = rd h' d).
      { destruct K as [[_ [K|(x & Ix & K)]]|[_ (x & j & Ix & Hj & _ & K)]].
        - apply K. exact Fd.
        - apply K; [exact Fd|]. intros [LT HB]. pose proof (fitsp_in _ _ _ F Ix) as (B & _). destruct HB as [HB _]. lia.
        - apply K; [exact Fd|]. intros HB. pose proof (fitsp_in _ _ _ F Ix) as (B & _). destruct HB as [HB _]. lia. }
      rewrite app_length. cbn [length]. replace (pred (length p + 1)) with (length p) by lia.
      rewrite !rdp_app. rewrite firstn_all2 by (rewrite rdp_len; lia).
      rewrite skipn_app, skipn_all2 by (rewrite rdp_len; lia). rewrite rdp_len, Nat.sub_diag. cbn [skipn rdp map List.app]. rewrite Rd2. reflexivity.
    + (* all bytes are 255 *)
      assert (HF : Forall (fun x => x = 255) (rd h c)).
      { apply SuccessorBytesFixedWidth_none; [|exact EB]. apply (proj1 (Forall_forall _ _) WF). apply in_map. exact Ic. }
      unfold PrefixSuccessor_mem. pose proof (prefix_successor_rd extra h1 c (s_len c) Fc1 (le_n _)) as P.
      rewrite Rc1 in P. pose proof (rd_length h c Fc) as L. rewrite (firstn_all2 (n := s_len c) (rd h c)) in P by lia.
      rewrite (PrefixSuccessor_255 _ HF) in P.
      destruct (prefix_successor_loop extra h1 c (s_len c)) as [[d|] h''].
      * destruct P as (j & _ & _ & _ & _ & P). discriminate.
      * destruct P as [-> _]. apply (IH q h1); [lia|exact H].
  - destruct (append extra h c [0]) as [d h'] eqn:EA. 
    destruct (PathAppend_mem pp (firstn i p) d) as [q'| | | |] eqn:EP; cbn [bind] in H; try discriminate. inversion H; subst q' h1. clear H.
    apply PathAppend_list in EP. subst q.
    destruct (append extra h' c [0]) as [d' h2] eqn:EA2.
    destruct (app1_spec extra h c 0 Fc) as (Fd & Rd & _ & _). rewrite EA in Fd, Rd. cbn [fst snd] in Fd, Rd.
    assert (Rd2 : rd h2 d = rd h' d).
    { rewrite app1_eq in EA, EA2. destruct (inplace c) eqn:I.
      - inversion EA. inversion EA2. subst d d' h' h2. unfold inplace in I. apply Nat.ltb_lt in I.
        destruct Fc1 as (B1 & L1 & C1). rewrite rd_write_on; [|exact B1|eapply Nat.lt_le_trans; [|exact C1]; lia|exact Fd|split; [reflexivity|cbn [s_off s_len]; lia]].
        rewrite Rd. cbn [s_off]. replace (s_off c + s_len c - s_off c)%nat with (length (rd h c)) by (rewrite rd_length by auto; lia).
        apply update_nth_last.
      - pose proof (new_old extra h' (rd h' c ++ [0]) d Fd) as [_ K]. rewrite EA2 in K. exact K. }
    assert (Li : length (firstn i p) = i) by (rewrite firstn_length; lia).
    rewrite app_length, Li. cbn [length]. replace (pred (i + 1)) with i by lia.
    rewrite !rdp_app. rewrite rdp_firstn. f_equal.
    rewrite skipn_app, skipn_all2 by (rewrite rdp_len; lia). rewrite rdp_len, Li, Nat.sub_diag. cbn [skipn rdp map List.app]. rewrite Rd2. reflexivity.
Qed.

Lemma prefixed_range_rd extra C h p a e h2 : fitsp h p -> apart p -> disjoint p -> wf_path (rdp h p) ->
  prefixed_range_mem extra (c_pp C) h p = (Ok (a, e), h2) ->
  Ok (option_map (rdp h2) e) = SuccessorPrefix (rdp h p) (c_pp C)
  /\ rdp h2 p = SuccessorPrefix_caller (rdp h p) (c_pp C)
  /\ exists q, SuccessorPath (rdp h p) (c_pp C) = Ok q
     /\ option_map (rdp h2) a = option_map (reshare C (rdp h p) (SuccessorPrefix_caller (rdp h p) (c_pp C))) q.
Proof.
  intros F A D WF H. unfold prefixed_range_mem in H.
  destruct (SuccessorPath_rd extra (c_pp C) h p F A) as (R & Z & Fq).
  destruct (SuccessorPath_mem extra (c_pp C) h p) as [r h1] eqn:E1. cbn [fst snd] in R, Z, Fq.
  destruct r as [a'| | | |]; try discriminate.
  destruct (one_zero_path p h h1 p Z F A) as [Fp1 Rp1].
  pose proof (SuccessorPrefix_rd extra (c_pp C) h1 p Fp1 A D) as K.
  destruct (SuccessorPrefix_mem extra (c_pp C) h1 p) as [r2 h2'] eqn:E2.
  destruct r2 as [e'| | | |]; cbn [bind] in H; try discriminate. inversion H; subst a' e' h2'. clear H.
  destruct K as (K1 & K2 & K3 & _). rewrite Rp1 in K1, K2. unfold rdr, resmap in K1, R. cbn [bind] in K1, R.
  split; [exact K1|]. split; [exact K2|]. exists (option_map (rdp h1) a). split; [symmetry; exact R|].
  destruct a as [q|]; [|reflexivity]. cbn [option_map]. f_equal. cbn [option_map] in R.
  unfold reshare. rewrite <- K2, rdp_len_N. rewrite (rdp_len h p), (rdp_len h1 q).
  unfold SuccessorPath_mem in E1. destruct p as [|c p'] eqn:EP.
  - unfold new in E1. inversion E1; subst q. cbn [length]. destruct (_ <? _); cbn [pred firstn skipn List.app rdp map]; reflexivity.
  - rewrite <- EP in *. assert (E1' : (if toT (c_pp C) (len p) <? max_component_count (c_pp C)
              then let '(c, h') := new extra h [] in (do q <- PathAppend_mem (c_pp C) p c; Ok (Some q), h') else path_loop_mem extra (c_pp C) h p (length p)) = (Ok (Some q), h1)) by (rewrite EP in *; exact E1).
    clear E1. destruct (_ <? _).
    + cbn [new] in E1'. destruct (PathAppend_mem (c_pp C) p _) as [q'| | | |] eqn:EQ; cbn [bind] in E1'; try discriminate.
      inversion E1'; subst q'. apply PathAppend_list in EQ. subst q.
      rewrite !rdp_app. rewrite firstn_all2 by (rewrite rdp_len; lia).
      rewrite skipn_app, skipn_all2 by (rewrite rdp_len; lia). rewrite rdp_len, Nat.sub_diag. cbn [skipn rdp map List.app]. reflexivity.
    + pose proof (loops_agree extra (c_pp C) h p (length p) q h1 F A D WF (le_n _) E1') as L.
      unfold SuccessorPrefix_mem in E2. rewrite E2 in L. exact L.
Qed.

(** ** append of several bytes *)
Lemma append_cons extra h s x xs : (s_len s + length (x :: xs) <= s_cap s)%nat ->
  append extra h s (x :: xs) = append extra (snd (append extra h s [x])) (fst (append extra h s [x])) xs.
Proof.
  intros H. cbn [length] in H. unfold append at 1. cbn [length].
  destruct (Nat.leb_spec (s_len s + S (length xs)) (s_cap s)); [|lia].
  rewrite app1_eq. unfold inplace. destruct (Nat.ltb_spec (s_len s) (s_cap s)); [|lia]. cbn [fst snd].
  unfold append. cbn [s_buf s_off s_len s_cap]. destruct (Nat.leb_spec (S (s_len s) + length xs) (s_cap s)); [|lia].
  cbn [write_all]. f_equal; f_equal; lia.
Qed.

(** The slices of [h0] are there in [h] and read the same. *)
Definition kept (h0 h : heap) : Prop := forall s, fits h0 s -> fits h s /\ rd h s = rd h0 s.

Lemma append_new extra h0 h a xs : (length h0 <= length h)%nat -> kept h0 h -> fits h a ->
  (length h0 <= s_buf a)%nat \/ (s_cap a <= s_len a)%nat ->
  let d := fst (append extra h a xs) in let h' := snd (append extra h a xs) in
  (length h0 <= length h')%nat /\ kept h0 h' /\ fits h' d /\ rd h' d = rd h a ++ xs
  /\ ((length h0 <= s_buf d)%nat \/ (s_cap d <= s_len d)%nat)
  /\ ((length h0 <= s_buf a)%nat \/ xs <> [] -> (length h0 <= s_buf d)%nat).
Proof.
  revert h a. induction xs as [|x xs IH]; intros h a L K F B; cbn zeta.
  - unfold append. cbn [length]. destruct F as (F1 & F2 & F3). destruct (Nat.leb_spec (s_len a + 0) (s_cap a)); [|lia].
    cbn [fst snd write_all s_buf s_cap s_len]. replace (s_len a + 0)%nat with (s_len a) by lia. 
    replace (Sl (s_buf a) (s_off a) (s_len a) (s_cap a)) with a by (destruct a; reflexivity).
    rewrite app_nil_r. split; [exact L|]. split; [exact K|]. split; [repeat split; assumption|]. split; [reflexivity|].
    split; [exact B|]. intros [HB|HB]; [exact HB|congruence].
  - destruct (Nat.leb_spec (s_len a + length (x :: xs)) (s_cap a)) as [IN|OUT].
    + destruct B as [B|B]; [|cbn [length] in IN; lia].
      rewrite append_cons by exact IN.
      destruct (app1_spec extra h a x F) as (Fd & Rd & _ & W).
      destruct (append extra h a [x]) as [d h1] eqn:E. cbn [fst snd] in *.
      assert (E' := E). rewrite app1_eq in E'. unfold inplace in E'. cbn [length] in IN.
      destruct (Nat.ltb_spec (s_len a) (s_cap a)); [|lia]. inversion E'; subst d h1.
      destruct F as (F1 & F2 & F3).
      specialize (IH (write h (s_buf a) (s_off a + s_len a) x) (Sl (s_buf a) (s_off a) (S (s_len a)) (s_cap a))).
      cbn [s_buf] in IH. destruct IH as (I1 & I2 & I3 & I4 & I5 & I6).
      * rewrite write_length by exact F1. exact L.
      * intros s Fs. destruct (K s Fs) as [K1 K2]. destruct (W s K1) as (W1 & W2 & _). split; [exact W1|].
        rewrite W2; [exact K2|]. intros [_ [HB _]]. destruct Fs as (Fs & _). lia.
      * exact Fd.
      * left. exact B.
      * split; [exact I1|]. split; [exact I2|]. split; [exact I3|]. split; [|split; [exact I5|intros _; apply I6; left; exact B]].
        rewrite I4, Rd, <- app_assoc. reflexivity.
    + unfold append. destruct (Nat.leb_spec (s_len a + length (x :: xs)) (s_cap a)); [lia|].
      destruct (new_new extra h (rd h a ++ x :: xs)) as [N1 N2].
      split; [cbn [new snd]; rewrite app_length; lia|]. split.
      * intros s Fs. destruct (K s Fs) as [K1 K2]. destruct (new_old extra h (rd h a ++ x :: xs) s K1) as [O1 O2].
        split; [exact O1|rewrite O2; exact K2].
      * split; [exact N1|]. split; [exact N2|]. cbn [new fst s_buf]. split; [left; exact L|intros _; exact L].
Qed.

(** ** EncodeEntry *)
Lemma EncodeEntry_rd extra pp ds h e : fits h (em_ns e) -> fits h (em_sub e) -> fitsp h (em_path e) ->
  s_cap (em_ns e) = s_len (em_ns e) ->
  let d := fst (EncodeEntry_mem extra pp (enc ds) h e) in let h' := snd (EncodeEntry_mem extra pp (enc ds) h e) in
  rd h' d = EncodeEntry shipped_id_scheme shipped_id_scheme ds pp (seen_entry h e)
  /\ kept h h' /\ fits h' d /\ (length h <= s_buf d)%nat.
Proof.
  intros Fn Fs Fp Cap. unfold EncodeEntry_mem.
  assert (K0 : kept h h) by (intros s Hs; auto).
  destruct (append_new extra h h (em_ns e) (rd h (em_sub e)) (le_n _) K0 Fn ltac:(right; lia)) as (L1 & K1 & F1 & R1 & B1 & _).
  destruct (append extra h (em_ns e) (rd h (em_sub e))) as [a1 h1]. cbn [fst snd] in *.
  destruct (append_new extra h h1 a1 (EncodePath pp (rdp h1 (em_path e))) L1 K1 F1 B1) as (L2 & K2 & F2 & R2 & B2 & _).
  destruct (append extra h1 a1 (EncodePath pp (rdp h1 (em_path e)))) as [a2 h2]. cbn [fst snd] in *.
  destruct (append_new extra h h2 a2 (BigIntToBytes (em_time e)) L2 K2 F2 B2) as (L3 & K3 & F3 & R3 & _ & B3).
  assert (NZ : BigIntToBytes (em_time e) <> []).
  { unfold BigIntToBytes. cbn [be_encode]. intros X. apply (f_equal (@length _)) in X. rewrite !app_length in X. cbn [length] in X. lia. }
  specialize (B3 (or_intror NZ)).
  destruct (append extra h2 a2 (BigIntToBytes (em_time e))) as [a3 h3]. cbn [fst snd] in *.
  destruct (append_new extra h h3 a3 (BigIntToBytes (em_length e)) L3 K3 F3 (or_introl B3)) as (L4 & K4 & F4 & R4 & _ & B4).
  specialize (B4 (or_introl B3)).
  destruct (append extra h3 a3 (BigIntToBytes (em_length e))) as [a4 h4]. cbn [fst snd] in *.
  destruct (append_new extra h h4 a4 (enc ds (em_digest e)) L4 K4 F4 (or_introl B4)) as (L5 & K5 & F5 & R5 & _ & B5).
  specialize (B5 (or_introl B4)). cbn zeta.
  split; [|auto]. rewrite R5, R4, R3, R2, R1.
  assert (RP : rdp h1 (em_path e) = rdp h (em_path e)).
  { apply rdp_same. intros s Hs. apply K1. eapply fitsp_in; eauto. }
  rewrite RP. unfold EncodeEntry, seen_entry, shipped_id_scheme. cbn [enc e_namespace e_subspace e_path e_time e_length e_digest].
  rewrite <- !app_assoc. reflexivity.
Qed.

(** ** AreaTo3dRange *)
Lemma AreaTo3dRange_rd extra pp minimal h a : fits h (am_sub a) -> fitsp h (am_path a) -> apart (am_path a) -> disjoint (am_path a) ->
  (forall c, In c (am_path a) -> ~ behind c (am_sub a) /\ ~ share c (am_sub a)) ->
  let '(r, h') := AreaTo3dRange_mem extra pp h a in
  resmap (seen_range h') r = AreaTo3dRange minimal SuccessorSubspaceId pp (seen_area h a).
Proof.
  intros Fs Fp A D S. unfold AreaTo3dRange_mem.
  destruct (new_new extra h (SuccessorSubspaceId (rd h (am_sub a)))) as [Fn Rn].
  assert (Old : forall s, fits h s -> fits (snd (new extra h (SuccessorSubspaceId (rd h (am_sub a))))) s
                 /\ rd (snd (new extra h (SuccessorSubspaceId (rd h (am_sub a))))) s = rd h s) by (intros; apply new_old; auto).
  destruct (new extra h (SuccessorSubspaceId (rd h (am_sub a)))) as [se h1] eqn:EN. cbn [fst snd] in *.
  assert (Bn : s_buf se = length h) by (unfold new in EN; inversion EN; reflexivity).
  assert (Fp1 : fitsp h1 (am_path a)) by (apply Forall_forall; intros s Hs; apply Old; eapply fitsp_in; eauto).
  assert (Rp1 : rdp h1 (am_path a) = rdp h (am_path a)) by (apply rdp_same; intros s Hs; apply Old; eapply fitsp_in; eauto).
  pose proof (SuccessorPrefix_rd extra pp h1 (am_path a) Fp1 A D) as K.
  destruct (SuccessorPrefix_mem extra pp h1 (am_path a)) as [e h2]. destruct K as (K1 & K2 & K3 & _). rewrite Rp1 in K1, K2.
  assert (Off : forall s, fits h1 s -> (forall c, In c (am_path a) -> ~ behind c s /\ ~ share c s) -> rd h2 s = rd h1 s).
  { intros s Fs1 N0. destruct K3 as [[_ [K|(x & Ix & K)]]|[_ (x & j & Ix & Hj & _ & K)]].
    - apply K. exact Fs1.
    - apply K; [exact Fs1|]. apply N0. exact Ix.
    - apply K; [exact Fs1|]. intros HB. apply (proj2 (N0 x Ix)). exists (s_buf x), (s_off x + j)%nat. split; [|exact HB].
      split; [reflexivity|lia]. }
  assert (Rs : rd h2 (am_sub a) = rd h (am_sub a)) by (rewrite Off; [apply Old|apply Old|]; auto).
  assert (Re : rd h2 se = SuccessorSubspaceId (rd h (am_sub a))).
  { rewrite Off; [exact Rn|exact Fn|]. intros c Ic. pose proof (fitsp_in _ _ _ Fp Ic) as (B & _). split.
    - intros [_ [HB _]]. lia.
    - intros (b & i & [H1 _] & [H2 _]). lia. }
  unfold AreaTo3dRange, seen_area. cbn [area_any negb area_subspace area_path area_times].
  unfold SuccessorPrefix, SuccessorPrefix_caller in K1, K2.
  destruct (SuccessorPrefix_full (rdp h (am_path a)) pp) as [er sr]. cbn [fst snd] in K1, K2. subst er sr.
  unfold rdr, resmap. destruct e as [[q|]| | | |]; cbn [bind option_map]; try reflexivity.
  - destruct q as [|c q]; cbn [rdp map]; unfold seen_range; cbn [rm_sub rm_sub_end rm_start rm_end rm_open rm_times]; rewrite Rs, Re; reflexivity.
  - unfold seen_range; cbn [rm_sub rm_sub_end rm_start rm_end rm_open rm_times]; rewrite Rs, Re; reflexivity.
Qed.

(** ** Keys *)
(** The slices DecodeKey cuts out of the array number [b], which has [total] bytes. *)
Definition cut_of (b total : nat) (s : N * N) : sl := Sl b (N.to_nat (fst s)) (N.to_nat (snd s)) (total - N.to_nat (fst s)).

(** The components come one after the other, with the width [w] of a length before each. *)
Fixpoint laid (w pos : N) (cs : list (N * N)) (n : N) : Prop :=
  match cs with [] => n = pos | (o, l) :: r => o = pos + w /\ laid w (o + l) r n end.

Lemma component_laid pp b spare : forall count pos n cs, component_slices pp b spare pos count = Ok (n, cs) ->
  laid (GetWidthMax32Int (max_component_length pp)) pos cs n.
Proof.
  induction count as [|count IH]; intros pos n cs H; cbn [component_slices] in H.
  - inversion H; subst. reflexivity.
  - destruct (cslice b spare pos _) as [lb| | | |]; cbn [bind] in H; try discriminate.
    destruct (match DecodeIntMax32 lb (max_component_length pp) with Ok l => Ok l | _ => Fatal end) as [l| | | |]; cbn [bind] in H; try discriminate.
    destruct (cslice b spare _ _) as [x| | | |]; cbn [bind] in H; try discriminate.
    destruct (component_slices pp b spare _ count) as [[n' cs']| | | |] eqn:E; cbn [bind] in H; try discriminate.
    inversion H; subst. cbn [laid]. split; [reflexivity|]. apply IH in E. rewrite <- N.add_assoc in E. 
    replace (pos + GetWidthMax32Int (max_component_length pp) + l) with (pos + (GetWidthMax32Int (max_component_length pp) + l)) by lia.
    exact E.
Qed.

Lemma laid_bounds w : forall cs pos n, laid w pos cs n -> pos <= n /\ forall c, In c cs -> pos + w <= fst c /\ fst c + snd c <= n.
Proof.
  induction cs as [|[o l] cs IH]; intros pos n H; cbn [laid] in H.
  - subst. split; [lia|intros c []].
  - destruct H as [-> H]. destruct (IH _ _ H) as [B1 B2]. split; [lia|]. intros c [<-|Hc]; [cbn; lia|].
    destruct (B2 c Hc). lia.
Qed.

Lemma laid_order w : forall cs pos n, laid w pos cs n -> forall i j d, (i < j < length cs)%nat ->
  fst (nth i cs d) + snd (nth i cs d) + w <= fst (nth j cs d).
Proof.
  induction cs as [|[o l] cs IH]; intros pos n H i j d Hij; cbn [length] in Hij; [lia|]. cbn [laid] in H. destruct H as [-> H].
  destruct j as [|j]; [lia|]. destruct i as [|i]; cbn [nth fst snd].
  - destruct (laid_bounds w cs _ _ H) as [_ B]. apply (B (nth j cs d)). apply nth_In. lia.
  - apply (IH _ _ H). lia.
Qed.

Lemma laid_last w : forall cs pos n d, laid w pos cs n -> cs <> [] -> fst (last cs d) + snd (last cs d) = n.
Proof.
  induction cs as [|[o l] cs IH]; intros pos n d H NE; [congruence|]. cbn [laid] in H. destruct H as [-> H].
  destruct cs as [|c cs]; [cbn in *; subst; reflexivity|]. cbn [last]. apply (IH _ _ d H). discriminate.
Qed.

Lemma width_pos n : 0 < GetWidthMax32Int n.
Proof. unfold GetWidthMax32Int. repeat destruct (_ <? _); lia. Qed.

Lemma one_zero_incl p q h h' : (forall c, In c p -> In c q) -> one_zero p h h' -> one_zero q h h'.
Proof. intros I [K W]. split; [exact K|]. destruct W as [W|(c & Ic & W)]; [left; exact W|right; exists c; auto]. Qed.

(** Only a component among the first [n] is written behind. *)
Lemma path_loop_frame extra pp h p n : fitsp h p -> (n <= length p)%nat -> one_zero (firstn n p) h (snd (path_loop_mem extra pp h p n)).
Proof.
  intros F. induction n as [|i IH]; intros Hn; [apply one_zero_refl|].
  cbn [path_loop_mem]. set (c := nth i p none).
  assert (Ic : In c p) by (apply nth_In; lia). assert (Fc : fits h c) by (eapply fitsp_in; eauto).
  assert (Is : In c (firstn (S i) p)) by (rewrite (firstn_S_nth i p none) by lia; apply in_or_app; right; left; reflexivity).
  pose proof (try_rd extra pp h c Fc) as T. destruct (TryAppendZeroByte_mem extra pp h c) as [[d|] h'].
  - destruct T as [E _]. cbn [snd]. pose proof (app_one_zero extra (firstn (S i) p) h c Fc Is) as Z. rewrite E in Z. exact Z.
  - destruct (SuccessorBytesFixedWidth (rd h c)) as [b|].
    + pose proof (new_one_zero extra (firstn (S i) p) h b) as Z. destruct (new extra h b). exact Z.
    + apply (one_zero_incl (firstn i p)); [|apply IH; lia].
      intros x Hx. rewrite (firstn_S_nth i p none) by lia. apply in_or_app. auto.
Qed.

Lemma last_nth_none (p : list sl) : last p none = nth (length p - 1) p none.
Proof.
  induction p as [|c p IH]; [reflexivity|]. destruct p as [|d p]; [reflexivity|].
  change (last (c :: d :: p) none) with (last (d :: p) none). rewrite IH. cbn [length].
  replace (S (S (length p)) - 1)%nat with (S (length p)) by lia. replace (S (length p) - 1)%nat with (length p) by lia. reflexivity.
Qed.
Lemma last_rdp h p : p <> [] -> last (rdp h p) [] = rd h (last p none).
Proof.
  induction p as [|c p IH]; [congruence|]. intros _. destruct p as [|d p]; [reflexivity|].
  change (last (c :: d :: p) none) with (last (d :: p) none).
  change (last (rdp h (c :: d :: p)) []) with (last (rdp h (d :: p)) []). apply IH. discriminate.
Qed.

(** Only the last component of a path of maximal length is written behind when a zero byte can be appended to it. *)
Lemma SuccessorPath_sub extra pp h p s :
  fitsp h p -> fits h s -> p <> [] ->
  (forall i, (S i < length p)%nat -> ~ behind (nth i p none) s) ->
  let h' := snd (SuccessorPath_mem extra pp h p) in
  rd h' s = if negb (toT pp (len p) <? max_component_count pp)
               && (match TryAppendZeroByte (rd h (last p none)) pp with Some _ => true | None => false end)
            then rd (snd (append extra h (last p none) [0])) s else rd h s.
Proof.
  intros F Fs NE NB. cbn zeta.
  assert (S2 : SuccessorPath_mem extra pp h p = if toT pp (len p) <? max_component_count pp
            then let '(c, h') := new extra h [] in (do q <- PathAppend_mem pp p c; Ok (Some q), h') else path_loop_mem extra pp h p (length p))
    by (destruct p; [congruence|reflexivity]).
  rewrite S2. clear S2. destruct (_ <? _); cbn [negb andb].
  { pose proof (new_old extra h [] s Fs) as [_ O]. destruct (new extra h []). exact O. }
  assert (Hl : length p = S (length p - 1)) by (destruct p; [congruence|cbn; lia]).
  rewrite last_nth_none. set (i := (length p - 1)%nat) in *. rewrite Hl. cbn [path_loop_mem].
  set (c := nth i p none). assert (Ic : In c p) by (apply nth_In; lia). assert (Fc : fits h c) by (eapply fitsp_in; eauto).
  pose proof (try_rd extra pp h c Fc) as T. destruct (TryAppendZeroByte_mem extra pp h c) as [[d|] h'] eqn:ET.
  - destruct T as [E ->]. rewrite E. reflexivity.
  - destruct T as [_ ->].
    destruct (SuccessorBytesFixedWidth (rd h c)) as [b|].
    + pose proof (new_old extra h b s Fs) as [_ O]. destruct (new extra h b). exact O.
    + destruct (path_loop_frame extra pp h p i F ltac:(lia)) as [_ [W|(x & Ix & W)]]; [apply W; exact Fs|].
      apply W; [exact Fs|]. destruct (In_nth _ _ none Ix) as (j & Lj & <-). rewrite firstn_length in Lj.
      rewrite nth_firstn. destruct (Nat.ltb_spec j i); [|lia]. apply NB. lia.
Qed.

Lemma cut_nth b total cs j : (j < length cs)%nat -> nth j (map (cut_of b total) cs) none = cut_of b total (nth j cs (0, 0)).
Proof. intros Hj. rewrite (nth_indep _ none (cut_of b total (0, 0))) by (rewrite map_length; exact Hj). apply map_nth. Qed.

(** The layout of a key. *)
Lemma key_layout k spare pp t cs sub : DecodeKey_slices k spare pp = Ok (t, cs, sub) ->
  exists pos, laid (GetWidthMax32Int (max_component_length pp)) pos cs (fst sub) /\ fst sub + snd sub = len k.
Proof.
  unfold DecodeKey_slices. intros H.
  destruct (cslice k spare 0 8) as [tb| | | |]; cbn [bind] in H; try discriminate.
  destruct (be_uint64 tb) as [t0| | | |]; cbn [bind] in H; try discriminate.
  destruct (slice_from k 8) as [rest| | | |]; cbn [bind] in H; try discriminate.
  destruct (cslice rest spare 0 _) as [cb| | | |]; cbn [bind] in H; try discriminate.
  destruct (DecodeIntMax32 cb _) as [count| | | |]; cbn [bind] in H; try discriminate.
  destruct (component_slices pp rest spare _ _) as [[n cs']| | | |] eqn:E; cbn [bind] in H; try discriminate.
  destruct (slice_from k (8 + n)) as [r| | | |] eqn:ES; cbn [bind] in H; try discriminate.
  assert (E1 : cs = map (fun c => (8 + fst c, snd c)) cs') by congruence.
  assert (E2 : sub = (8 + n, len k - (8 + n))) by congruence. subst cs sub. clear H.
  cbn [fst snd]. apply component_laid in E.
  unfold slice_from in ES. destruct (N.leb_spec (8 + n) (len k)); [|discriminate].
  exists (8 + GetWidthMax32Int (max_component_count pp)). split; [|lia].
  revert E. generalize (GetWidthMax32Int (max_component_count pp)) as pos. clear.
  induction cs' as [|[o l] cs IH]; intros pos E; cbn [laid map fst snd] in *; [lia|].
  destruct E as [-> E]. split; [lia|]. replace (8 + (pos + GetWidthMax32Int (max_component_length pp)) + l) with (8 + (pos + GetWidthMax32Int (max_component_length pp) + l)) by lia.
  apply IH. exact E.
Qed.

Section Key.
Context (h : heap) (b : nat) (k spare : bytes) (pp : path_params) (t : N) (cs : list (N * N)) (sub : N * N).
Hypothesis Hb : (b < length h)%nat.
Hypothesis Ha : nth b h [] = k ++ spare.
Hypothesis Hd : DecodeKey_slices k spare pp = Ok (t, cs, sub).
Let total := length (k ++ spare).
Let p := map (cut_of b total) cs.
Let s := cut_of b total sub.

Lemma key_len : (length p = length cs /\ N.to_nat (fst sub) + N.to_nat (snd sub) <= total)%nat.
Proof.
  unfold p. rewrite map_length. split; [reflexivity|]. destruct (key_layout _ _ _ _ _ _ Hd) as (pos & _ & E).
  unfold total. rewrite app_length. unfold len in E. lia.
Qed.
Lemma key_fits : fitsp h p /\ fits h s.
Proof.
  destruct (key_layout _ _ _ _ _ _ Hd) as (pos & L & E). destruct key_len as [_ T]. destruct (laid_bounds _ _ _ _ L) as [_ B].
  split.
  - apply Forall_forall. intros x Hx. unfold p in Hx. apply in_map_iff in Hx. destruct Hx as ([o l] & <- & Hx). destruct (B _ Hx) as [_ B2].
    cbn [fst snd] in B2. unfold fits, cut_of. cbn [s_buf s_off s_len s_cap fst snd]. rewrite Ha. unfold total. rewrite app_length. unfold len in E. split; [exact Hb|]. split; lia.
  - unfold fits, s, cut_of. cbn [s_buf s_off s_len s_cap]. rewrite Ha. unfold total. rewrite app_length. unfold len in E. split; [exact Hb|]. split; lia.
Qed.
Lemma key_order i j : (i < j < length cs)%nat -> (s_off (nth i p none) + s_len (nth i p none) < s_off (nth j p none))%nat.
Proof.
  intros H. destruct (key_layout _ _ _ _ _ _ Hd) as (pos & L & E). pose proof (laid_order _ _ _ _ L i j (0, 0) H) as O.
  pose proof (width_pos (max_component_length pp)). unfold p. rewrite !cut_nth by lia. unfold cut_of. cbn [s_off s_len]. lia.
Qed.
Lemma key_buf i : (i < length cs)%nat -> s_buf (nth i p none) = b.
Proof. intros H. unfold p. rewrite cut_nth by lia. reflexivity. Qed.
Lemma key_apart : apart p.
Proof.
  intros c d Hc Hd' [_ [_ HB]]. destruct key_len as [PL _].
  destruct (In_nth _ _ none Hc) as (i & Li & <-). destruct (In_nth _ _ none Hd') as (j & Lj & <-). rewrite PL in Li, Lj.
  destruct (Nat.lt_trichotomy i j) as [O|[O|O]].
  - pose proof (key_order i j (conj O Lj)). lia.
  - subst j. lia.
  - pose proof (key_order j i (conj O Li)). lia.
Qed.
Lemma key_disjoint : disjoint p.
Proof.
  destruct key_len as [PL _]. intros i j Hij (b' & x & [_ H1] & [_ H2]). rewrite PL in Hij. pose proof (key_order i j Hij). lia.
Qed.
Lemma key_sub_off i : (S i < length cs)%nat -> (s_off (nth i p none) + s_len (nth i p none) < s_off s)%nat.
Proof.
  intros H. pose proof (key_order i (S i) ltac:(lia)) as O.
  destruct (key_layout _ _ _ _ _ _ Hd) as (pos & L & E). destruct (laid_bounds _ _ _ _ L) as [_ B].
  assert (Hin : In (nth (S i) cs (0, 0)) cs) by (apply nth_In; lia). destruct (B _ Hin) as [_ B2].
  unfold p in O at 3. rewrite cut_nth in O by lia. unfold cut_of in O at 1. cbn [s_off] in O. unfold s, cut_of at 1. cbn [s_off]. lia.
Qed.
Lemma key_last : cs <> [] -> let c := last p none in s_buf c = b /\ (s_off c + s_len c)%nat = s_off s /\ (s_cap c = total - s_off c)%nat.
Proof.
  intros NE. destruct key_len as [PL _]. destruct (key_layout _ _ _ _ _ _ Hd) as (pos & L & E).
  pose proof (laid_last _ _ _ _ (0, 0) L NE) as LL.
  assert (EL : last p none = cut_of b total (last cs (0, 0))).
  { unfold p. clear -NE. induction cs as [|c r IH]; [congruence|]. destruct r as [|d r]; [reflexivity|].
    cbn [map last] in *. apply IH. discriminate. }
  rewrite EL. unfold s, cut_of. cbn. repeat split; lia.
Qed.

Lemma key_clobber extra C fp : c_pp C = pp -> cs <> [] ->
  let h' := snd (SuccessorPath_mem extra pp h p) in
  rdp h' p = rdp h p /\ rd h' s = clobber C (Node (rd h s) (rdp h p) t fp true).
Proof.
  intros HC NE. destruct key_fits as [Fp Fs]. destruct key_len as [PL TL]. cbn zeta. split.
  { destruct (SuccessorPath_rd extra pp h p Fp key_apart) as (_ & Z & _).
    apply (one_zero_path p h _ p Z Fp key_apart). }
  assert (NP : p <> []) by (unfold p; destruct cs; [congruence|discriminate]).
  rewrite (SuccessorPath_sub extra pp h p s Fp Fs NP).
  2:{ intros i Hi [_ [_ HB]]. rewrite PL in Hi. pose proof (key_sub_off i Hi). lia. }
  unfold clobber. cbn [n_shared n_path n_sub andb]. rewrite HC, rdp_len_N, last_rdp by exact NP.
  destruct (_ && _); [|reflexivity].
  destruct (key_last NE) as (K1 & K2 & K3). set (c := last p none) in *.
  assert (Ic : In c p) by (unfold c; rewrite last_nth_none; apply nth_In; destruct p; [congruence|cbn; lia]).
  assert (Fc : fits h c) by (eapply fitsp_in; eauto).
  destruct (app1_spec extra h c 0 Fc) as (_ & _ & _ & W). destruct (W s Fs) as (_ & W1 & W2). clear W.
  pose proof (rd_length h s Fs) as RL. destruct (rd h s) as [|x r] eqn:ER; cbn [length] in RL.
  - rewrite W1; [reflexivity|]. intros [_ [_ HB]]. lia.
  - rewrite W2.
    + replace (s_off c + s_len c - s_off s)%nat with 0%nat by lia. reflexivity.
    + unfold behind, has_byte. change (s_buf s) with b. rewrite K1.
      change (s_len s) with (N.to_nat (snd sub)) in *. change (s_off s) with (N.to_nat (fst sub)) in *.
      split; [|split; [reflexivity|]]; lia.
Qed.
End Key.
