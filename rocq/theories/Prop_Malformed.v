(** C70: decoding bytes that nobody encoded. *)
From Verif Require Import Base M_Order M_Encoding M_Paths M_Keys M_Stream M_Entry M_Store M_Rel M_Cap
  S_Order P_Order P_Encoding P_Paths P_Keys P_Stream.
Local Open Scope N_scope.

(** The parameter type is one of Go's unsigned types, and the parameters fit it. *)
Definition go_params (pp : path_params) : Prop :=
  (pp_bits pp = 8 \/ pp_bits pp = 16 \/ pp_bits pp = 32 \/ pp_bits pp = 64)
  /\ max_component_count pp < 2 ^ pp_bits pp /\ max_component_length pp < 2 ^ pp_bits pp.

Lemma width_fits pp m : go_params pp -> m < 2 ^ pp_bits pp -> 256 ^ GetWidthMax32Int m <= 2 ^ pp_bits pp.
Proof.
  intros (B & _) H. unfold GetWidthMax32Int.
  destruct (N.ltb_spec m (2 ^ 8)) as [L1|L1]; [|destruct (N.ltb_spec m (2 ^ 16)) as [L2|L2]; [|destruct (N.ltb_spec m (2 ^ 24)) as [L3|L3]]];
    destruct B as [E|[E|[E|E]]]; rewrite E in *;
    repeat match goal with |- context [?a ^ ?b] => let v := eval vm_compute in (a ^ b) in change (a ^ b) with v end;
    repeat match type of H with context [?a ^ ?b] => let v := eval vm_compute in (a ^ b) in change (a ^ b) with v in H end;
    change (2 ^ 8) with 256 in *; try change (2 ^ 16) with 65536 in *; try change (2 ^ 24) with 16777216 in *; lia.
Qed.

Lemma skipn_skipn {A} (l : list A) : forall a b, skipn a (skipn b l) = skipn (a + b) l.
Proof.
  induction l as [|x l IH]; intros a b; [rewrite !skipn_nil; reflexivity|].
  destruct b; [rewrite Nat.add_0_r; reflexivity|]. rewrite Nat.add_succ_r. cbn [skipn]. apply IH.
Qed.
Lemma len_firstn {A} (l : list A) n : n <= len l -> len (firstn (N.to_nat n) l) = n.
Proof. unfold len. rewrite firstn_length. lia. Qed.
Lemma slice_ok {A} (l : list A) a b x : slice l a b = Ok x ->
  a <= b /\ b <= len l /\ l = firstn (N.to_nat a) l ++ x ++ skipn (N.to_nat b) l /\ len x = b - a.
Proof.
  unfold slice. destruct (N.leb_spec a b) as [L1|L1], (N.leb_spec b (len l)) as [L2|L2]; cbn [andb]; intros E; try discriminate E.
  injection E as <-. split; auto. split; auto. split.
  - rewrite <- (firstn_skipn (N.to_nat a) l) at 1. f_equal.
    rewrite <- (firstn_skipn (N.to_nat (b - a)) (skipn (N.to_nat a) l)) at 1. f_equal.
    rewrite skipn_skipn. f_equal. lia.
  - rewrite len_firstn; auto. unfold len in *. rewrite skipn_length. lia.
Qed.
Lemma slice_not {A} (l : list A) a b : slice l a b = Panic \/ exists x, slice l a b = Ok x.
Proof. unfold slice. destruct (_ && _); eauto. Qed.
Lemma slice_from_ok {A} (l : list A) a x : slice_from l a = Ok x -> a <= len l /\ l = firstn (N.to_nat a) l ++ x.
Proof.
  unfold slice_from. destruct (N.leb_spec a (len l)) as [L|L]; intros E; [|discriminate E]. injection E as <-. split; auto.
  symmetry. apply firstn_skipn.
Qed.
Lemma slice_from_not {A} (l : list A) a : slice_from l a = Panic \/ exists x, slice_from l a = Ok x.
Proof. unfold slice_from. destruct (_ <=? _); eauto. Qed.

Lemma wf_split l a x b : wf_bytes l -> l = a ++ x ++ b -> wf_bytes x /\ wf_bytes b.
Proof. intros H ->. apply Forall_app in H as [_ H]. apply Forall_app in H. exact H. Qed.

(** Numbers: only the width is checked. *)
Lemma int32_canonical b m : wf_bytes b -> len b = GetWidthMax32Int m ->
  EncodeIntMax32 (be_decode b) m = b /\ be_decode b < 256 ^ GetWidthMax32Int m.
Proof.
  intros W L. rewrite EncodeIntMax32_be. rewrite <- L at 1. unfold len at 1. rewrite Nat2N.id. split; [apply be_encode_decode; auto|].
  rewrite <- L. apply be_decode_bound; auto.
Qed.

(** A path the codec can write: counts and lengths in their bytes. *)
Definition writable (pp : path_params) (p : path) : Prop :=
  wf_path p /\ len p < 256 ^ GetWidthMax32Int (max_component_count pp)
  /\ Forall (fun c => len c < 256 ^ GetWidthMax32Int (max_component_length pp)) p.

Lemma components_exact pp enc : go_params pp -> wf_bytes enc -> forall count pos, pos <= len enc ->
  decode_components pp enc pos count = Panic
  \/ exists p rest, length p = count /\ wf_path p /\ Forall (fun c => len c < 256 ^ GetWidthMax32Int (max_component_length pp)) p
       /\ skipn (N.to_nat pos) enc = encode_components pp p ++ rest
       /\ decode_components pp enc pos count = Ok (pos + len (encode_components pp p), p).
Proof.
  intros GP W. set (w := GetWidthMax32Int (max_component_length pp)).
  induction count as [|count IH]; intros pos HP; cbn [decode_components].
  - right. exists [], (skipn (N.to_nat pos) enc). repeat split; auto; try constructor. cbn. f_equal. f_equal. lia.
  - fold w. destruct (slice_not enc pos (pos + w)) as [E|(lb & E)]; rewrite E; cbn [bind]; [left; reflexivity|].
    destruct (slice_ok _ _ _ _ E) as (_ & L1 & S1 & L2).
    assert (L3 : len lb = w) by lia.
    destruct (wf_split _ _ _ _ W S1) as [Wl _].
    rewrite DecodeIntMax32_be by exact L3. cbn [bind].
    destruct (int32_canonical lb (max_component_length pp) Wl L3) as (C1 & C2). set (l := be_decode lb) in *.
    destruct (slice_not enc (pos + w) (pos + w + l)) as [E2|(c & E2)]; rewrite E2; cbn [bind]; [left; reflexivity|].
    destruct (slice_ok _ _ _ _ E2) as (_ & L4 & S2 & L5). assert (LC : len c = l) by lia.
    destruct (wf_split _ _ _ _ W S2) as [Wc _].
    destruct (IH (pos + w + l) L4) as [E3|(p & rest & P1 & P2 & P3 & P4 & P5)]; [rewrite E3; left; reflexivity|].
    right. exists (c :: p), rest. rewrite P5. cbn [bind].
    assert (TT : EncodeIntMax32 (toT pp (len c)) (max_component_length pp) = lb).
    { rewrite toT_small; [rewrite LC; exact C1|]. eapply N.lt_le_trans; [rewrite LC; exact C2|].
      apply width_fits; auto. apply GP. }
    split; [cbn [length]; congruence|]. split; [constructor; auto|]. split; [constructor; [rewrite LC; exact C2|auto]|].
    cbn [encode_components flat_map]. fold (encode_components pp p). rewrite TT. split.
    + rewrite <- !app_assoc. rewrite <- P4.
      assert (Q : skipn (N.to_nat pos) enc = lb ++ skipn (N.to_nat (pos + w)) enc).
      { rewrite S1 at 1. rewrite skipn_app. rewrite skipn_firstn_comm, Nat.sub_diag, firstn_O. cbn [app].
        rewrite firstn_length. replace (N.to_nat pos - _)%nat with 0%nat; [reflexivity|]. unfold len in *. lia. }
      assert (Q2 : skipn (N.to_nat (pos + w)) enc = c ++ skipn (N.to_nat (pos + w + l)) enc).
      { rewrite S2 at 1. rewrite skipn_app. rewrite skipn_firstn_comm, Nat.sub_diag, firstn_O. cbn [app].
        rewrite firstn_length. replace (N.to_nat (pos + w) - _)%nat with 0%nat; [reflexivity|]. unfold len in *. lia. }
      rewrite Q, Q2. reflexivity.
    + f_equal. f_equal. rewrite !len_app. lia.
Qed.

Lemma path_exact pp enc : go_params pp -> wf_bytes enc ->
  DecodePath pp enc = Panic
  \/ exists p rest, writable pp p /\ enc = EncodePath pp p ++ rest /\ DecodePath pp enc = Ok (len (EncodePath pp p), p).
Proof.
  intros GP W. unfold DecodePath. set (w := GetWidthMax32Int (max_component_count pp)).
  destruct (slice_not enc 0 w) as [E|(cb & E)]; rewrite E; cbn [bind]; [left; reflexivity|].
  destruct (slice_ok _ _ _ _ E) as (_ & L1 & S1 & L2). rewrite N.sub_0_r in L2.
  change (firstn (N.to_nat 0) enc) with (@nil N) in S1. cbn [app] in S1.
  destruct (wf_split _ [] _ _ W S1) as [Wl _].
  rewrite DecodeIntMax32_be by exact L2. cbn [bind].
  destruct (int32_canonical cb (max_component_count pp) Wl L2) as (C1 & C2).
  destruct (components_exact pp enc GP W (N.to_nat (be_decode cb)) w L1) as [E3|(p & rest & P1 & P2 & P3 & P4 & P5)]; [left; exact E3|].
  right. exists p, rest. assert (LP : len p = be_decode cb) by (unfold len; lia).
  assert (TT : EncodeIntMax32 (toT pp (len p)) (max_component_count pp) = cb).
  { rewrite toT_small; [rewrite LP; exact C1|]. eapply N.lt_le_trans; [rewrite LP; exact C2|].
    apply width_fits; auto. apply GP. }
  split; [split; auto; split; auto; rewrite LP; exact C2|]. unfold EncodePath. fold (encode_components pp p). rewrite TT. split.
  - rewrite S1, P4, app_assoc. reflexivity.
  - rewrite P5, len_app, L2. reflexivity.
Qed.

Lemma writable_decodes pp p rest : go_params pp -> writable pp p ->
  DecodePath pp (EncodePath pp p ++ rest) = Ok (len (EncodePath pp p), p).
Proof.
  intros GP (W & HC & HL). unfold DecodePath, EncodePath. fold (encode_components pp p).
  pose proof GP as (_ & PC & PL).
  rewrite toT_small by (eapply N.lt_le_trans; [exact HC|apply width_fits; auto]).
  set (cb := EncodeIntMax32 (len p) (max_component_count pp)).
  assert (Hcb : len cb = GetWidthMax32Int (max_component_count pp)) by apply EncodeIntMax32_len.
  rewrite <- app_assoc, slice_0_app by lia. cbn [bind].
  rewrite DecodeIntMax32_be by exact Hcb. cbn [bind]. 
  assert (BC : be_decode cb = len p) by (unfold cb; rewrite EncodeIntMax32_be, be_decode_encode by (rewrite N2Nat.id; exact HC); reflexivity).
  rewrite BC.
  replace (N.to_nat (len p)) with (length p) by (unfold len; lia).
  rewrite len_app, <- Hcb. clear BC HC Hcb. generalize cb. clear cb.
  assert (G : forall pre, decode_components pp (pre ++ encode_components pp p ++ rest) (len pre) (length p) = Ok (len pre + len (encode_components pp p), p)).
  { clear W. induction p as [|c p IH]; intros pre; [cbn; f_equal; f_equal; lia|]. inversion HL as [|? ? Hc HL']; subst.
    cbn [length decode_components encode_components flat_map]. fold (encode_components pp p).
    rewrite toT_small by (eapply N.lt_le_trans; [exact Hc|apply width_fits; auto]).
    set (lb := EncodeIntMax32 (len c) (max_component_length pp)).
    assert (Hlb : len lb = GetWidthMax32Int (max_component_length pp)) by apply EncodeIntMax32_len.
    replace (pre ++ ((lb ++ c) ++ encode_components pp p) ++ rest)
      with (pre ++ lb ++ (c ++ encode_components pp p ++ rest)) by (rewrite !app_assoc; reflexivity).
    rewrite slice_app by (auto; lia). cbn [bind].
    assert (BD : be_decode lb = len c) by (unfold lb; rewrite EncodeIntMax32_be, be_decode_encode by (rewrite N2Nat.id; exact Hc); reflexivity).
    rewrite DecodeIntMax32_be by exact Hlb. cbn [bind]. rewrite BD. clearbody lb.
    replace (pre ++ lb ++ c ++ encode_components pp p ++ rest)
      with ((pre ++ lb) ++ c ++ (encode_components pp p ++ rest)) by (rewrite !app_assoc; reflexivity).
    rewrite slice_app by (rewrite ?len_app; lia). cbn [bind].
    replace ((pre ++ lb) ++ c ++ (encode_components pp p ++ rest))
      with (((pre ++ lb) ++ c) ++ encode_components pp p ++ rest) by (rewrite !app_assoc; reflexivity).
    replace (len pre + GetWidthMax32Int (max_component_length pp) + len c) with (len ((pre ++ lb) ++ c)) by (rewrite !len_app; lia).
    rewrite IH by auto. cbn [bind]. f_equal. f_equal. rewrite !len_app. lia. }
  exact G.
Qed.

(** * C70 *)

(** The number decoders return a value or an error, and look only at the width. *)
Theorem C70_numbers b m : wf_bytes b ->
  (DecodeIntMax32 b m = Err \/ exists x, DecodeIntMax32 b m = Ok x /\ b = EncodeIntMax32 x m)
  /\ (DecodeIntMax64 b = Err \/ exists x, DecodeIntMax64 b = Ok x /\ x < 2 ^ 64 /\ len (EncodeIntMax64 x) <= len b).
Proof.
  intros W. split.
  - destruct (N.eqb_spec (len b) (GetWidthMax32Int m)) as [L|L].
    + right. exists (be_decode b). split; [apply DecodeIntMax32_be; auto|]. symmetry. apply int32_canonical; auto.
    + left. unfold DecodeIntMax32. destruct (N.eqb_spec (len b) (GetWidthMax32Int m)); [contradiction|reflexivity].
  - unfold DecodeIntMax64. destruct ((len b =? 1) || (len b =? 2) || (len b =? 4) || (len b =? 8)) eqn:E; [right|left; reflexivity].
    exists (be_decode b). split; auto. pose proof (be_decode_bound b W) as B. rewrite EncodeIntMax64_len. unfold GetWidthMax64Int.
    set (x := be_decode b) in *. clearbody x.
    rewrite !orb_true_iff, !N.eqb_eq in E.
    change (2 ^ 64) with 18446744073709551616. change (2 ^ 32) with 4294967296. change (2 ^ 16) with 65536. change (2 ^ 8) with 256.
    destruct E as [[[E|E]|E]|E]; rewrite E in *;
      [change (256 ^ 1) with 256 in B|change (256 ^ 2) with 65536 in B|change (256 ^ 4) with 4294967296 in B|change (256 ^ 8) with 18446744073709551616 in B];
      (split; [lia|]); destruct (N.ltb_spec x 256); try lia; destruct (N.ltb_spec x 65536); try lia; destruct (N.ltb_spec x 4294967296); lia.
Qed.

(** DecodePath returns a path exactly for bytes that begin with the encoding of a
    path, and then that path; on anything else it panics. *)
Theorem C70_path pp enc : go_params pp -> wf_bytes enc ->
  (forall n p, DecodePath pp enc = Ok (n, p) <-> writable pp p /\ n = len (EncodePath pp p) /\ prefix_of (EncodePath pp p) enc)
  /\ (DecodePath pp enc = Panic \/ exists n p, DecodePath pp enc = Ok (n, p)).
Proof.
  intros GP W. split.
  - intros n p. split.
    + intros E. destruct (path_exact pp enc GP W) as [Q|(p' & rest & H1 & H2 & H3)]; [congruence|].
      rewrite E in H3. injection H3 as -> ->. split; auto. split; auto. exists rest. auto.
    + intros (HW & -> & rest & ->). apply writable_decodes; auto.
  - destruct (path_exact pp enc GP W) as [Q|(p' & rest & H1 & H2 & H3)]; eauto.
Qed.

Lemma uint64_slice (b h : bytes) : wf_bytes b -> slice b 0 8 = Ok h ->
  be_uint64 h = Ok (be_decode h) /\ BigIntToBytes (be_decode h) = h /\ be_decode h < 2 ^ 64 /\ b = h ++ skipn 8 b /\ wf_bytes (skipn 8 b).
Proof.
  intros W E. destruct (slice_ok _ _ _ _ E) as (_ & L1 & S1 & L2). change (8 - 0) with 8 in L2.
  change (firstn (N.to_nat 0) b) with (@nil N) in S1. cbn [app] in S1. change (N.to_nat 8) with 8%nat in S1.
  destruct (wf_split _ [] _ _ W S1) as [Wh Wr]. unfold be_uint64. rewrite slice_all by auto. split; [reflexivity|].
  split. { unfold BigIntToBytes. replace 8%nat with (length h) by (unfold len in L2; lia). apply be_encode_decode; auto. }
  split; [|auto]. change (2 ^ 64) with (256 ^ 8). rewrite <- L2. apply be_decode_bound; auto.
Qed.

(** Database keys and values: the same. *)
Theorem C70_key pp k : go_params pp -> wf_bytes k ->
  (forall q, DecodeKey k pp = Ok q <-> pos_time q < 2 ^ 64 /\ writable pp (pos_path q) /\ k = EncodeKey q pp)
  /\ (DecodeKey k pp = Panic \/ exists q, DecodeKey k pp = Ok q).
Proof.
  intros GP W.
  assert (X : DecodeKey k pp = Panic \/ exists q, DecodeKey k pp = Ok q /\ pos_time q < 2 ^ 64 /\ writable pp (pos_path q) /\ k = EncodeKey q pp).
  { unfold DecodeKey. destruct (slice_not k 0 8) as [E|(h & E)]; rewrite E; cbn [bind]; [left; reflexivity|].
    destruct (uint64_slice k h W E) as (U1 & U2 & U3 & U4 & U5). rewrite U1. cbn [bind].
    destruct (slice_ok _ _ _ _ E) as (_ & L1 & _ & L2).
    assert (E2 : slice_from k 8 = Ok (skipn 8 k)) by (unfold slice_from; destruct (N.leb_spec 8 (len k)); [reflexivity|lia]).
    rewrite E2. cbn [bind]. destruct (path_exact pp (skipn 8 k) GP U5) as [Q|(p & rest & H1 & H2 & H3)].
    { rewrite Q. left. reflexivity. }
    rewrite H3. cbn [bind]. right.
    assert (E3 : slice_from k (8 + len (EncodePath pp p)) = Ok rest).
    { rewrite U4, H2, app_assoc. apply slice_from_app. rewrite len_app. lia. }
    rewrite E3. cbn [bind]. eexists. split; [reflexivity|]. cbn [pos_time pos_path]. split; auto. split; auto.
    unfold EncodeKey. cbn [pos_time pos_path pos_subspace]. rewrite U2, <- H2. exact U4. }
  split.
  - intros q. split.
    + intros E. destruct X as [Q|(q' & Q & R)]; [congruence|]. rewrite E in Q. injection Q as ->. exact R.
    + intros (T & P & ->). unfold DecodeKey, EncodeKey. rewrite slice_0_app by (rewrite BigIntToBytes_len; reflexivity). cbn [bind].
      rewrite be_uint64_bigint by auto. cbn [bind].
      rewrite slice_from_app by (rewrite BigIntToBytes_len; reflexivity). cbn [bind].
      rewrite writable_decodes by auto. cbn [bind].
      rewrite app_assoc, slice_from_app by (rewrite len_app, BigIntToBytes_len; reflexivity). destruct q; reflexivity.
  - destruct X as [Q|(q' & Q & R)]; eauto.
Qed.

Lemma string_exact b : wf_bytes b -> len b < 2 ^ 64 ->
  bytesToString b = Panic \/ exists s rest, wf_bytes s /\ wf_bytes rest /\ len s + 8 < 2 ^ 64 /\ b = stringToBytes s ++ rest /\ bytesToString b = Ok (s, rest).
Proof.
  intros W LB. unfold bytesToString. destruct (slice_not b 0 8) as [E|(h & E)]; rewrite E; cbn [bind]; [left; reflexivity|].
  destruct (uint64_slice b h W E) as (U1 & U2 & U3 & U4 & U5). rewrite U1. cbn [bind]. set (l := be_decode h) in *. clearbody l.
  destruct (N.lt_ge_cases (8 + l) (2 ^ 64)) as [L|L].
  - rewrite add64_small by auto. destruct (slice_not b 8 (8 + l)) as [E2|(x & E2)]; rewrite E2; cbn [bind]; [left; reflexivity|].
    destruct (slice_ok _ _ _ _ E2) as (_ & L1 & S1 & L2).
    destruct (wf_split _ _ _ _ W S1) as [Wx Wr].
    assert (E3 : slice_from b (8 + l) = Ok (skipn (N.to_nat (8 + l)) b)) by (unfold slice_from; destruct (N.leb_spec (8 + l) (len b)); [reflexivity|lia]).
    rewrite E3. cbn [bind]. right. exists x, (skipn (N.to_nat (8 + l)) b). split; auto. split; auto. split; [lia|]. split; auto.
    unfold stringToBytes. replace (len x) with l by lia. rewrite U2, <- app_assoc.
    rewrite S1 at 1. f_equal. rewrite U4. change (N.to_nat 8) with 8%nat.
    assert (LH : length h = 8%nat). { apply (f_equal len) in U2. rewrite BigIntToBytes_len in U2. unfold len in U2. lia. }
    rewrite firstn_app, LH, Nat.sub_diag, firstn_O, app_nil_r. rewrite <- LH. apply firstn_all.
  - left. unfold slice. assert (A : add64 8 l < 8).
    { unfold add64. rewrite two64_pow. replace (8 + l) with ((8 + l - 2 ^ 64) + 1 * 2 ^ 64) by lia. rewrite N.mod_add by discriminate.
      rewrite N.mod_small; change (2 ^ 64) with 18446744073709551616 in *; lia. }
    destruct (N.leb_spec 8 (add64 8 l)); [lia|]. reflexivity.
Qed.

Theorem C70_values b : wf_bytes b -> len b < 2 ^ 64 ->
  (forall v, DecodeValues b = Ok v <->
     v_length v < 2 ^ 64 /\ len (v_digest v) + 8 < 2 ^ 64 /\ len (v_auth v) + 8 < 2 ^ 64 /\ prefix_of (EncodeValues v) b)
  /\ (DecodeValues b = Panic \/ exists v, DecodeValues b = Ok v).
Proof.
  intros W LB.
  assert (X : DecodeValues b = Panic \/ exists v, DecodeValues b = Ok v /\ values_ok v /\ prefix_of (EncodeValues v) b).
  { unfold DecodeValues. destruct (slice_not b 0 8) as [E|(h & E)]; rewrite E; cbn [bind]; [left; reflexivity|].
    destruct (uint64_slice b h W E) as (U1 & U2 & U3 & U4 & U5). rewrite U1. cbn [bind].
    destruct (slice_ok _ _ _ _ E) as (_ & L1 & _ & L2).
    assert (E2 : slice_from b 8 = Ok (skipn 8 b)) by (unfold slice_from; destruct (N.leb_spec 8 (len b)); [reflexivity|lia]).
    rewrite E2. cbn [bind].
    assert (LS : len (skipn 8 b) < 2 ^ 64) by (unfold len in *; rewrite skipn_length; lia).
    destruct (string_exact _ U5 LS) as [Q|(d & r & D1 & D2 & D3 & D4 & D5)]; [rewrite Q; left; reflexivity|].
    rewrite D5. cbn [bind].
    assert (LR : len r < 2 ^ 64) by (rewrite D4, len_app in LS; lia).
    destruct (string_exact _ D2 LR) as [Q|(a & r' & A1 & A2 & A3 & A4 & A5)]; [rewrite Q; left; reflexivity|].
    rewrite A5. cbn [bind]. right. eexists. split; [reflexivity|]. split; [split; [exact U3|split; auto]|].
    exists r'. unfold EncodeValues. cbn [v_length v_digest v_auth]. rewrite U2, <- !app_assoc, <- A4, <- D4. exact U4. }
  split.
  - intros v. split.
    + intros E. destruct X as [Q|(v' & Q & (V1 & V2 & V3) & R)]; [congruence|]. rewrite E in Q. injection Q as ->. auto.
    + intros (V1 & V2 & V3 & rest & ->). apply DecodeValues_EncodeValues. split; auto.
  - destruct X as [Q|(v' & Q & R)]; eauto.
Qed.

(** A store is opened exactly when every key and every value of its database decodes, and then
    indexes exactly the keys it found; on any other database the program panics. *)
Theorem C70_database C st : go_params (c_pp C) ->
  Forall (fun kv => wf_bytes (fst kv) /\ wf_bytes (snd kv) /\ len (snd kv) < 2 ^ 64) (kv st) ->
  let readable x := exists q v, DecodeKey (fst x) (c_pp C) = Ok q /\ DecodeValues (snd x) = Ok v in
  (forall st', reopen C st = Ok st' <-> Forall readable (kv st)
     /\ Forall2 (fun x n => exists q v, DecodeKey (fst x) (c_pp C) = Ok q /\ DecodeValues (snd x) = Ok v
                              /\ n = Node (pos_subspace q) (pos_path q) (pos_time q) (v_auth v) true) (kv st) (tree st')
     /\ st' = State (kv st) (tree st') (refs st) (files st) false None)
  /\ ((exists x, In x (kv st) /\ ~ readable x) -> reopen C st = Panic).
Proof.
  intros GP F readable. unfold reopen.
  set (made := fun (x : bytes * bytes) n => exists q v, DecodeKey (fst x) (c_pp C) = Ok q /\ DecodeValues (snd x) = Ok v
                 /\ n = Node (pos_subspace q) (pos_path q) (pos_time q) (v_auth v) true).
  assert (ONE : forall x, wf_bytes (fst x) /\ wf_bytes (snd x) /\ len (snd x) < 2 ^ 64 ->
            (load_node C x = Panic /\ ~ readable x) \/ exists n, load_node C x = Ok n /\ made x n /\ forall n', made x n' -> n' = n).
  { intros x (W1 & W2 & W3). unfold load_node. destruct (proj2 (C70_key (c_pp C) (fst x) GP W1)) as [E|(q & E)]; rewrite E.
    - left. split; [reflexivity|]. intros (q & v & Q & _). congruence.
    - destruct (proj2 (C70_values (snd x) W2 W3)) as [V|(v & V)]; rewrite V; cbn [bind].
      + left. split; [reflexivity|]. intros (q' & v & _ & Q). congruence.
      + right. eexists. split; [reflexivity|]. split; [exists q, v; auto|]. intros n' (q' & v' & Q & V' & ->). rewrite E in Q. rewrite V in V'. injection Q as <-. injection V' as <-. reflexivity. }
  assert (ALL : forall m, Forall (fun x => wf_bytes (fst x) /\ wf_bytes (snd x) /\ len (snd x) < 2 ^ 64) m ->
            (load_nodes C m = Panic /\ exists x, In x m /\ ~ readable x)
            \/ exists t, load_nodes C m = Ok t /\ Forall2 made m t /\ (forall t', Forall2 made m t' -> t' = t) /\ Forall readable m).
  { induction 1 as [|x m W _ IH].
    - right. exists []. repeat split; try constructor. intros t' H. inversion H. reflexivity.
    - cbn [load_nodes]. destruct (ONE x W) as [(E & NR)|(n & E & M & U)]; rewrite E; cbn [bind].
      + left. split; [reflexivity|]. exists x. split; [left; reflexivity|exact NR].
      + destruct IH as [(E2 & y & IY & NR)|(t & E2 & M2 & U2 & R2)]; rewrite E2; cbn [bind].
        * left. split; [reflexivity|]. exists y. split; [right; exact IY|exact NR].
        * right. exists (n :: t). split; [reflexivity|]. split; [constructor; auto|]. split.
          { intros t' H. inversion H as [|? n' ? t2 H1 H2]; subst. f_equal; auto. }
          constructor; [|exact R2]. destruct M as (q & v & Q & V & _). exists q, v. auto. }
  destruct (ALL (kv st) F) as [(E & x & IX & NR)|(t & E & M & U & R)]; rewrite E; cbn [bind]; split.
  - intros st'. split; [discriminate|]. intros (FR & _). exfalso. apply NR. rewrite Forall_forall in FR. apply FR. exact IX.
  - reflexivity.
  - intros st'. split.
    + intros H. injection H as <-. cbn [tree]. auto.
    + intros (_ & M' & ->). f_equal. rewrite (U _ M'). reflexivity.
  - intros (x & IX & NR). exfalso. apply NR. rewrite Forall_forall in R. apply R. exact IX.
Qed.
Print Assumptions C70_database.

(** ** Streams *)
Definition content (s : stream) : bytes := g_array s ++ g_future s.
Lemma arrive_content n s : content (arrive n s) = content s.
Proof. unfold content, arrive. cbn [g_array g_future]. rewrite <- app_assoc, firstn_skipn. reflexivity. Qed.
Lemma NextAbsolute_cases n s : NextAbsolute n s = Hang
  \/ exists s', NextAbsolute n s = Ok (g_array s', s') /\ content s' = content s /\ n <= len (g_array s').
Proof.
  unfold NextAbsolute. destruct (match g_sched s with [] => (O, O) | x :: _ => x end) as [before after].
  set (s1 := arrive before _). assert (C1 : content s1 = content s) by (unfold s1; rewrite arrive_content; reflexivity).
  clearbody s1. destruct (N.leb_spec n (len (g_array s1))) as [L|L]; [right; exists s1; auto|].
  destruct (N.ltb_spec (len (g_array s1) + len (g_future s1)) n) as [L2|L2]; [left; reflexivity|right].
  eexists. split; [reflexivity|]. split; [rewrite arrive_content; exact C1|].
  unfold arrive. cbn [g_array]. unfold len in *. rewrite app_length, firstn_length. lia.
Qed.
Lemma Prune_content n s : n <= len (g_array s) -> content s = firstn (N.to_nat n) (g_array s) ++ content (Prune n s).
Proof. intros _. unfold content, Prune. cbn [g_array g_future]. rewrite app_assoc, firstn_skipn. reflexivity. Qed.

Lemma slice_0_firstn {A} (l x : list A) n : slice l 0 n = Ok x -> x = firstn (N.to_nat n) l.
Proof. unfold slice. destruct (_ && _); intros E; [|discriminate E]. injection E as <-. rewrite N.sub_0_r. reflexivity. Qed.

Lemma path_loop_sound pp : go_params pp -> forall count s, wf_bytes (content s) ->
  path_stream_loop pp count s = Panic \/ path_stream_loop pp count s = Hang
  \/ exists p s', path_stream_loop pp count s = Ok (p, s') /\ length p = count /\ wf_path p
       /\ Forall (fun c => len c < 256 ^ GetWidthMax32Int (max_component_length pp)) p
       /\ content s = encode_components pp p ++ content s'.
Proof.
  intros GP. set (w := GetWidthMax32Int (max_component_length pp)).
  induction count as [|count IH]; intros s W; cbn [path_stream_loop].
  - right. right. exists [], s. repeat split; auto; constructor.
  - fold w. destruct (NextAbsolute_cases w s) as [E|(s1 & E & C1 & L1)]; rewrite E; cbn [bind]; [auto|].
    destruct (slice_not (g_array s1) 0 w) as [E2|(lb & E2)]; rewrite E2; cbn [bind]; [auto|].
    destruct (slice_ok _ _ _ _ E2) as (_ & _ & S1 & L2). rewrite N.sub_0_r in L2.
    change (firstn (N.to_nat 0) (g_array s1)) with (@nil N) in S1. cbn [app] in S1.
    unfold decode_or_zero. rewrite DecodeIntMax32_be by exact L2. cbn [bind].
    destruct (NextAbsolute_cases (w + w) s1) as [E3|(s2 & E3 & C2 & L3)]; rewrite E3; cbn [bind]; [auto|].
    destruct (slice_not (g_array s2) w (w + be_decode lb)) as [E4|(c & E4)]; rewrite E4; cbn [bind]; [auto|].
    destruct (slice_ok _ _ _ _ E4) as (_ & L4 & S2 & L5).
    assert (LC : len c = be_decode lb) by lia.
    assert (HEAD : content s = lb ++ c ++ content (Prune (w + be_decode lb) s2)).
    { rewrite <- C1, <- C2. rewrite (Prune_content (w + be_decode lb) s2) by auto. rewrite app_assoc. f_equal.
      assert (F1 : firstn (N.to_nat w) (g_array s2) = lb).
      { assert (Q : firstn (N.to_nat w) (content s2) = firstn (N.to_nat w) (content s1)) by congruence.
        unfold content in Q. rewrite !firstn_app in Q.
        replace (N.to_nat w - length (g_array s2))%nat with 0%nat in Q by (unfold len in *; lia).
        replace (N.to_nat w - length (g_array s1))%nat with 0%nat in Q by (unfold len in *; lia).
        rewrite !firstn_O, !app_nil_r in Q. rewrite Q. symmetry. apply slice_0_firstn. exact E2. }
      rewrite S2 at 1. rewrite F1. rewrite app_assoc, firstn_app.
      assert (LL : length (lb ++ c) = N.to_nat (w + be_decode lb)) by (rewrite app_length; unfold len in *; lia).
      rewrite LL, Nat.sub_diag, firstn_O, app_nil_r, <- LL. apply firstn_all. }
    pose proof W as W0. rewrite HEAD in W0. apply Forall_app in W0 as [Wl W0]. apply Forall_app in W0 as [Wc Wr].
    destruct (int32_canonical lb (max_component_length pp) Wl L2) as (D1 & D2).
    destruct (IH (Prune (w + be_decode lb) s2) Wr) as [E5|[E5|(p & s' & E5 & P1 & P2 & P3 & P4)]]; rewrite E5; cbn [bind]; auto.
    right. right. exists (c :: p), s'. split; auto. split; [cbn [length]; congruence|]. split; [constructor; auto|].
    split; [constructor; [rewrite LC; exact D2|auto]|].
    cbn [encode_components flat_map]. fold (encode_components pp p).
    rewrite toT_small by (eapply N.lt_le_trans; [rewrite LC; exact D2|apply width_fits; auto; apply GP]).
    rewrite LC, D1, <- !app_assoc, <- P4. exact HEAD.
Qed.

(** Whatever arrives and in whatever pieces: the path read from a stream is the one
    encoded at its front, and its encoding is what is taken away; otherwise the
    reader panics or waits for ever. *)
Theorem C70_path_stream pp s : go_params pp -> wf_bytes (content s) ->
  DecodePathStream pp s = Panic \/ DecodePathStream pp s = Hang
  \/ exists p s', DecodePathStream pp s = Ok (p, s') /\ writable pp p /\ content s = EncodePath pp p ++ content s'.
Proof.
  intros GP W. unfold DecodePathStream. set (w := GetWidthMax32Int (max_component_count pp)).
  destruct (NextAbsolute_cases w s) as [E|(s1 & E & C1 & L1)]; rewrite E; cbn [bind]; [auto|].
  destruct (slice_not (g_array s1) 0 w) as [E2|(cb & E2)]; rewrite E2; cbn [bind]; [auto|].
  destruct (slice_ok _ _ _ _ E2) as (_ & _ & S1 & L2). rewrite N.sub_0_r in L2.
  unfold decode_or_zero. rewrite DecodeIntMax32_be by exact L2. cbn [bind].
  assert (HEAD : content s = cb ++ content (Prune w s1)).
  { rewrite <- C1, (Prune_content w s1) by auto. f_equal. symmetry. apply slice_0_firstn. exact E2. }
  pose proof W as W0. rewrite HEAD in W0. apply Forall_app in W0 as [Wc Wr].
  destruct (int32_canonical cb (max_component_count pp) Wc L2) as (D1 & D2).
  destruct (path_loop_sound pp GP (N.to_nat (be_decode cb)) (Prune w s1) Wr) as [E5|[E5|(p & s' & E5 & P1 & P2 & P3 & P4)]]; rewrite E5; auto.
  right. right. exists p, s'. assert (LP : len p = be_decode cb) by (unfold len; lia).
  split; auto. split; [split; auto; split; auto; rewrite LP; exact D2|].
  unfold EncodePath. fold (encode_components pp p).
  rewrite toT_small by (eapply N.lt_le_trans; [rewrite LP; exact D2|apply width_fits; auto; apply GP]).
  rewrite LP, D1, <- app_assoc, <- P4. exact HEAD.
Qed.

Theorem C70_rel_path_stream pp s ref : go_params pp -> wf_bytes (content s) ->
  DecodeRelPathStream pp s ref = Panic \/ DecodeRelPathStream pp s ref = Hang
  \/ exists n suffix s', DecodeRelPathStream pp s ref = Ok (firstn (N.to_nat n) ref ++ suffix, s')
       /\ n <= len ref /\ writable pp suffix
       /\ content s = EncodeIntMax32 n (max_component_count pp) ++ EncodePath pp suffix ++ content s'.
Proof.
  intros GP W. unfold DecodeRelPathStream. set (w := GetWidthMax32Int (max_component_count pp)).
  destruct (NextAbsolute_cases w s) as [E|(s1 & E & C1 & L1)]; rewrite E; cbn [bind]; [auto|].
  destruct (slice_not (g_array s1) 0 w) as [E2|(cb & E2)]; rewrite E2; cbn [bind]; [auto|].
  destruct (slice_ok _ _ _ _ E2) as (_ & _ & S1 & L2). rewrite N.sub_0_r in L2.
  unfold decode_or_zero. rewrite DecodeIntMax32_be by exact L2. cbn [bind].
  destruct (slice_not ref 0 (be_decode cb)) as [E3|(pre & E3)]; rewrite E3; cbn [bind]; [auto|].
  destruct (slice_ok _ _ _ _ E3) as (_ & L3 & _ & _).
  rewrite (slice_0_firstn _ _ _ E3).
  assert (HEAD : content s = cb ++ content (Prune w s1)).
  { rewrite <- C1, (Prune_content w s1) by auto. f_equal. symmetry. apply slice_0_firstn. exact E2. }
  pose proof W as W0. rewrite HEAD in W0. apply Forall_app in W0 as [Wc Wr].
  destruct (int32_canonical cb (max_component_count pp) Wc L2) as (D1 & D2).
  destruct (C70_path_stream pp (Prune w s1) GP Wr) as [E5|[E5|(p & s' & E5 & P1 & P2)]]; rewrite E5; cbn [bind]; auto.
  right. right. exists (be_decode cb), p, s'. split; [reflexivity|]. split; auto. split; auto. rewrite D1, <- P2. exact HEAD.
Qed.

(** An identifier scheme that returns only what it would have encoded. *)
Definition scheme_sound (s : encoding_scheme) : Prop := forall b,
  dec s b = Panic \/ dec s b = Err
  \/ exists x, dec s b = Ok x /\ prefix_of (enc s x) b /\ enc_length s x = len (enc s x).

Lemma fixed_scheme_sound w : scheme_sound (fixed_scheme w).
Proof.
  intros b. cbn [dec enc enc_length fixed_scheme]. destruct (slice_not b 0 w) as [E|(x & E)]; [left; exact E|].
  right. right. exists x. destruct (slice_ok _ _ _ _ E) as (_ & _ & S1 & L2). split; auto. split; [eexists; exact S1|lia].
Qed.

Lemma uint64_exact b : wf_bytes b -> be_uint64 b = Panic
  \/ exists x rest, be_uint64 b = Ok x /\ x < 2 ^ 64 /\ b = BigIntToBytes x ++ rest /\ wf_bytes rest.
Proof.
  intros W. unfold be_uint64. destruct (slice_not b 0 8) as [E|(h & E)]; rewrite E; cbn [bind]; [auto|]. right.
  destruct (uint64_slice b h W E) as (_ & U2 & U3 & U4 & U5). exists (be_decode h), (skipn 8 b). rewrite U2. auto.
Qed.

(** Entries: for every schedule of the goroutine that feeds the decoder. *)
Theorem C70_entry ns ss ds pp sched b : go_params pp -> wf_bytes b ->
  scheme_sound ns -> scheme_sound ss -> scheme_sound ds ->
  (forall e, DecodeEntry ns ss ds pp sched b = Ok e ->
     prefix_of (EncodeEntry ns ss ds pp e) b /\ writable pp (e_path e) /\ e_time e < 2 ^ 64 /\ e_length e < 2 ^ 64)
  /\ DecodeEntry ns ss ds pp sched b <> Fatal.
Proof.
  intros GP W N1 S1 D1.
  assert (X : DecodeEntry ns ss ds pp sched b = Panic \/ DecodeEntry ns ss ds pp sched b = Err \/ DecodeEntry ns ss ds pp sched b = Hang
    \/ exists e, DecodeEntry ns ss ds pp sched b = Ok e /\ prefix_of (EncodeEntry ns ss ds pp e) b /\ writable pp (e_path e) /\ e_time e < 2 ^ 64 /\ e_length e < 2 ^ 64).
  { unfold DecodeEntry.
    destruct (N1 b) as [E|[E|(n & E & (r1 & R1) & L1)]]; rewrite E; cbn [bind]; [auto|auto|]. rewrite L1.
    replace (slice_from b (len (enc ns n))) with (Ok r1) by (rewrite R1; symmetry; apply slice_from_app2; reflexivity). cbn [bind].
    destruct (S1 r1) as [E1|[E1|(u & E1 & (r2 & R2) & L2)]]; rewrite E1; cbn [bind]; [auto|auto|]. rewrite L2.
    replace (slice_from b (len (enc ns n) + len (enc ss u))) with (Ok r2)
      by (rewrite R1, R2, app_assoc; symmetry; apply slice_from_app2; rewrite len_app; reflexivity). cbn [bind].
    assert (W2 : wf_bytes r2). { rewrite R1, R2 in W. apply Forall_app in W as [_ W]. apply Forall_app in W as [_ W]. exact W. }
    destruct (C70_path_stream pp (Stream [] r2 sched) GP W2) as [E2|[E2|(p & s' & E2 & P1 & P2)]]; rewrite E2; cbn [bind]; [auto|auto|].
    unfold content at 1 in P2. cbn [g_array g_future app] in P2. set (r3 := content s') in *. clearbody r3. clear E2.
    rewrite EncodePathLength_spec.
    assert (B3 : b = (enc ns n ++ enc ss u ++ EncodePath pp p) ++ r3) by (rewrite R1, R2, P2, <- !app_assoc; reflexivity).
    replace (slice_from b (len (enc ns n) + len (enc ss u) + len (EncodePath pp p))) with (Ok r3)
      by (rewrite B3; symmetry; apply slice_from_app2; rewrite !len_app; lia). cbn [bind].
    assert (W3 : wf_bytes r3) by (rewrite P2 in W2; apply Forall_app in W2; apply W2).
    destruct (uint64_exact r3 W3) as [E3|(t & r4 & E3 & T1 & T2 & W4)]; rewrite E3; cbn [bind]; [auto|].
    replace (slice_from b (len (enc ns n) + len (enc ss u) + len (EncodePath pp p) + 8)) with (Ok r4)
      by (rewrite B3, T2, app_assoc; symmetry; apply slice_from_app2; rewrite !len_app, BigIntToBytes_len; lia). cbn [bind].
    destruct (uint64_exact r4 W4) as [E4|(l & r5 & E4 & T3 & T4 & W5)]; rewrite E4; cbn [bind]; [auto|].
    replace (slice_from b (len (enc ns n) + len (enc ss u) + len (EncodePath pp p) + 16)) with (Ok r5)
      by (rewrite B3, T2, T4, !app_assoc; symmetry; apply slice_from_app2; rewrite !len_app, !BigIntToBytes_len; lia). cbn [bind].
    destruct (D1 r5) as [E5|[E5|(d & E5 & (r6 & R6) & L6)]]; rewrite E5; cbn [bind]; [auto|auto|].
    right. right. right. eexists. split; [reflexivity|]. cbn [e_path e_time e_length]. split; [|auto].
    exists r6. unfold EncodeEntry. cbn [e_namespace e_subspace e_path e_time e_length e_digest].
    rewrite B3, T2, T4, R6, <- !app_assoc. reflexivity. }
  split.
  - intros e E. destruct X as [Q|[Q|[Q|(e' & Q & R)]]]; [congruence|congruence|congruence|]. rewrite E in Q. injection Q as ->. exact R.
  - destruct X as [Q|[Q|[Q|(e' & Q & R)]]]; rewrite Q; discriminate.
Qed.

(** ** Input in a larger array *)
Lemma cslice_slice b spare from to : cslice b spare from to = slice (b ++ spare) from to.
Proof. unfold cslice, slice. rewrite len_app. reflexivity. Qed.
Lemma components_cap pp b spare : forall count pos, decode_components_cap pp b spare pos count = decode_components pp (b ++ spare) pos count.
Proof.
  induction count as [|count IH]; intros pos; cbn [decode_components_cap decode_components]; [reflexivity|].
  rewrite cslice_slice. destruct (slice _ _ _); cbn [bind]; auto.
  destruct (match DecodeIntMax32 a (max_component_length pp) with Ok l => Ok l | _ => Fatal end); cbn [bind]; auto.
  rewrite cslice_slice. destruct (slice _ _ _); cbn [bind]; auto. rewrite IH. reflexivity.
Qed.
Lemma DecodePath_cap_eq pp b spare : DecodePath_cap pp b spare = DecodePath pp (b ++ spare).
Proof.
  unfold DecodePath_cap, DecodePath. rewrite cslice_slice. destruct (slice _ _ _); cbn [bind]; auto.
  destruct (DecodeIntMax32 a (max_component_count pp)); cbn [bind]; auto. apply components_cap.
Qed.

Lemma slice_more {A} (a b : list A) i j : j <= len a -> slice (a ++ b) i j = slice a i j.
Proof.
  intros L. unfold slice. rewrite len_app. destruct (N.leb_spec i j); cbn [andb]; [|reflexivity].
  destruct (N.leb_spec j (len a + len b)); [|lia]. destruct (N.leb_spec j (len a)); [|lia]. f_equal.
  rewrite skipn_app, firstn_app. replace (N.to_nat (j - i) - _)%nat with 0%nat; [rewrite firstn_O, app_nil_r; reflexivity|].
  rewrite skipn_length. unfold len in *. lia.
Qed.
Lemma slice_from_short {A} (a : list A) i : len a < i -> slice_from a i = Panic.
Proof. intros L. unfold slice_from. destruct (N.leb_spec i (len a)); [lia|reflexivity]. Qed.

(** The decoder of keys and that of values notice when they have read beyond their
    input: what follows it in memory changes nothing. *)
Theorem C70_key_memory pp k spare : go_params pp -> wf_bytes k -> wf_bytes spare ->
  DecodeKey_cap k spare pp = DecodeKey k pp.
Proof.
  intros GP W WS. unfold DecodeKey_cap, DecodeKey. rewrite cslice_slice.
  destruct (N.lt_ge_cases (len k) 8) as [L|L].
  - assert (E : slice k 0 8 = Panic) by (unfold slice; destruct (N.leb_spec 8 (len k)); [lia|reflexivity]). rewrite E. cbn [bind].
    destruct (slice_not (k ++ spare) 0 8) as [E1|(h & E1)]; rewrite E1; cbn [bind]; [reflexivity|].
    destruct (uint64_slice (k ++ spare) h) as (U1 & _); try (apply Forall_app; split); auto.
    rewrite U1. cbn [bind]. rewrite slice_from_short by auto. reflexivity.
  - rewrite slice_more by auto. destruct (slice k 0 8); cbn [bind]; auto. destruct (be_uint64 a); cbn [bind]; auto.
    assert (E2 : slice_from k 8 = Ok (skipn 8 k)) by (unfold slice_from; destruct (N.leb_spec 8 (len k)); [reflexivity|lia]).
    rewrite E2. cbn [bind]. rewrite DecodePath_cap_eq.
    assert (WK : wf_bytes (skipn 8 k)) by (rewrite <- (firstn_skipn 8 k) in W; apply Forall_app in W; apply W).
    assert (LK : len k = 8 + len (skipn 8 k)) by (unfold len in *; rewrite skipn_length; lia).
    set (r := skipn 8 k) in *. clearbody r.
    assert (WA : wf_bytes (r ++ spare)) by (apply Forall_app; auto).
    destruct (path_exact pp r GP WK) as [Q|(p & rest & P1 & P2 & P3)].
    + rewrite Q. cbn [bind]. destruct (path_exact pp (r ++ spare) GP WA) as [Q'|(p & rest & P1 & P2 & P3)].
      { rewrite Q'. reflexivity. }
      rewrite P3. cbn [bind]. rewrite slice_from_short; [reflexivity|]. rewrite LK.
      destruct (N.lt_ge_cases (len r) (len (EncodePath pp p))) as [L3|L3]; [lia|exfalso].
      assert (R : r = EncodePath pp p ++ skipn (length (EncodePath pp p)) r).
      { rewrite <- (firstn_skipn (length (EncodePath pp p)) r) at 1. f_equal.
        apply (f_equal (firstn (length (EncodePath pp p)))) in P2. rewrite !firstn_app in P2.
        replace (length (EncodePath pp p) - length r)%nat with 0%nat in P2 by (unfold len in *; lia).
        rewrite Nat.sub_diag, !firstn_O, !app_nil_r in P2. rewrite P2. apply firstn_all. }
      rewrite R, writable_decodes in Q by auto. discriminate Q.
    + rewrite P3, P2, <- app_assoc, writable_decodes by auto. reflexivity.
Qed.

Lemma string_memory b spare : wf_bytes b -> wf_bytes spare -> bytesToString_cap b spare = bytesToString b.
Proof.
  intros W WS. unfold bytesToString_cap, bytesToString. rewrite cslice_slice.
  assert (WA : wf_bytes (b ++ spare)) by (apply Forall_app; auto).
  destruct (N.lt_ge_cases (len b) 8) as [L|L].
  - assert (E : slice b 0 8 = Panic) by (unfold slice; destruct (N.leb_spec 8 (len b)); [lia|reflexivity]). rewrite E. cbn [bind].
    destruct (slice_not (b ++ spare) 0 8) as [E1|(h & E1)]; rewrite E1; cbn [bind]; [reflexivity|].
    destruct (uint64_slice (b ++ spare) h) as (U1 & _); auto.
    rewrite U1. cbn [bind]. rewrite cslice_slice. set (l := add64 8 (be_decode h)).
    destruct (slice_not (b ++ spare) 8 l) as [E2|(x & E2)]; rewrite E2; cbn [bind]; [reflexivity|].
    destruct (slice_ok _ _ _ _ E2) as (L8 & _). rewrite slice_from_short by lia. reflexivity.
  - rewrite slice_more by auto. destruct (slice b 0 8); cbn [bind]; auto. destruct (be_uint64 a) as [l| | | |]; cbn [bind]; auto.
    rewrite cslice_slice. set (n := add64 8 l). destruct (N.lt_ge_cases (len b) n) as [L2|L2]; [|rewrite slice_more by auto; reflexivity].
    assert (E : slice b 8 n = Panic) by (unfold slice; destruct (N.leb_spec n (len b)); [lia|rewrite andb_false_r; reflexivity]). rewrite E. cbn [bind].
    destruct (slice_not (b ++ spare) 8 n) as [E1|(h & E1)]; rewrite E1; cbn [bind]; [reflexivity|]. rewrite slice_from_short by auto. reflexivity.
Qed.

Theorem C70_values_memory b spare : wf_bytes b -> wf_bytes spare -> DecodeValues_cap b spare = DecodeValues b.
Proof.
  intros W WS. unfold DecodeValues_cap, DecodeValues. rewrite cslice_slice.
  destruct (N.lt_ge_cases (len b) 8) as [L|L].
  - assert (E : slice b 0 8 = Panic) by (unfold slice; destruct (N.leb_spec 8 (len b)); [lia|reflexivity]). rewrite E. cbn [bind].
    destruct (slice_not (b ++ spare) 0 8) as [E1|(h & E1)]; rewrite E1; cbn [bind]; [reflexivity|].
    destruct (uint64_slice (b ++ spare) h) as (U1 & _); try (apply Forall_app; split); auto.
    rewrite U1. cbn [bind]. rewrite slice_from_short by auto. reflexivity.
  - rewrite slice_more by auto. destruct (slice b 0 8); cbn [bind]; auto. destruct (be_uint64 a); cbn [bind]; auto.
    assert (E2 : slice_from b 8 = Ok (skipn 8 b)) by (unfold slice_from; destruct (N.leb_spec 8 (len b)); [reflexivity|lia]).
    rewrite E2. cbn [bind].
    assert (WK : wf_bytes (skipn 8 b)) by (rewrite <- (firstn_skipn 8 b) in W; apply Forall_app in W; apply W).
    rewrite string_memory by auto. destruct (bytesToString (skipn 8 b)) as [[d r]| | | |] eqn:E3; cbn [bind]; auto.
    assert (WR : wf_bytes r).
    { unfold bytesToString in E3. destruct (slice (skipn 8 b) 0 8) as [h| | | |]; cbn [bind] in E3; try discriminate E3.
      destruct (be_uint64 h) as [l| | | |]; cbn [bind] in E3; try discriminate E3.
      destruct (slice (skipn 8 b) 8 (add64 8 l)); cbn [bind] in E3; try discriminate E3.
      destruct (slice_from (skipn 8 b) (add64 8 l)) as [x| | | |] eqn:E4; cbn [bind] in E3; try discriminate E3. injection E3 as <- <-.
      unfold slice_from in E4. destruct (_ <=? _); [|discriminate E4]. injection E4 as <-.
      rewrite <- (firstn_skipn (N.to_nat (add64 8 l)) (skipn 8 b)) in WK. apply Forall_app in WK. apply WK. }
    rewrite string_memory by auto. reflexivity.
Qed.

(** DecodePath does not: it is the decoder of the input and what follows it. *)
Theorem C70_path_memory pp b spare : DecodePath_cap pp b spare = DecodePath pp (b ++ spare).
Proof. apply DecodePath_cap_eq. Qed.

(** DecodePath given a truncated input makes up the rest of the path from what
    happens to follow the input in memory. *)
Theorem C70_path_memory_refuted : exists pp b spare n p,
  go_params pp /\ DecodePath pp b = Panic /\ DecodePath_cap pp b spare = Ok (n, p) /\ len b < n.
Proof.
  exists (PathParams 64 10 10 10), [1; 3; 7], [8; 9; 5], 5, [[7; 8; 9]].
  split; [repeat split; auto|]. repeat split; vm_compute; reflexivity.
Qed.

(** The stream decoder with no spare capacity is the one of M_Stream.v … *)
Theorem C70_stream_no_slack pp s : DecodePathStream_cap pp [] s = DecodePathStream pp s.
Proof.
  unfold DecodePathStream_cap, DecodePathStream. destruct (NextAbsolute _ s) as [[acc s1]| | | |]; cbn [bind]; auto.
  destruct (slice _ _ _); cbn [bind]; auto. destruct (decode_or_zero _ _); cbn [bind]; auto.
  generalize (N.to_nat a0). intros count. generalize (Prune (GetWidthMax32Int (max_component_count pp)) s1). clear.
  induction count as [|count IH]; intros s; cbn [path_stream_loop_cap path_stream_loop]; [reflexivity|].
  destruct (NextAbsolute _ s) as [[acc s2]| | | |]; cbn [bind]; auto.
  destruct (slice _ _ _); cbn [bind]; auto. destruct (decode_or_zero _ _); cbn [bind]; auto.
  destruct (NextAbsolute _ s2) as [[acc2 s3]| | | |]; cbn [bind]; auto.
  cbn [hd tl repeat]. rewrite cslice_slice, app_nil_r. destruct (slice _ _ _); cbn [bind]; auto. rewrite IH. reflexivity.
Qed.

(** … and with the capacity that append gives an array of two bytes (eight), a path
    whose bytes arrive late is read as another path, without an error, and its
    last bytes are left to be read as what follows. *)
Theorem C70_stream_memory_refuted : exists pp p q slack s s',
  go_params pp /\ writable pp p /\ content s = EncodePath pp p /\ (slack <= 6)%nat
  /\ DecodePathStream_cap pp [slack] s = Ok (q, s') /\ q <> p /\ content s' = [8; 9].
Proof.
  exists (PathParams 64 10 10 10), [[7; 8; 9]], [[7; 0; 0]], 6%nat, (Stream [] [1; 3; 7; 8; 9] []), (Stream [] [8; 9] []).
  split; [repeat split; auto|]. split.
  { split; [repeat constructor|]. split; [vm_compute; reflexivity|]. repeat constructor. }
  split; [reflexivity|]. split; [lia|]. split; [vm_compute; reflexivity|]. split; [discriminate|reflexivity].
Qed.

(** The limits are no part of what decoding checks: paths with more or longer
    components, or longer in total, are returned. *)
Theorem C70_limits_refuted : exists pp b n p,
  go_params pp /\ wf_bytes b /\ DecodePath pp b = Ok (n, p) /\ max_component_count pp < len p
  /\ max_path_length pp < N.of_nat (length (concat p)) /\ Exists (fun c => max_component_length pp < len c) p.
Proof.
  exists (PathParams 64 2 2 5), [3; 3; 1; 1; 1; 0; 3; 2; 2; 2], 10, [[1; 1; 1]; []; [2; 2; 2]].
  split; [repeat split; auto|]. split; [repeat constructor|]. split; [vm_compute; reflexivity|].
  split; [vm_compute; reflexivity|]. split; [vm_compute; reflexivity|]. left. vm_compute. reflexivity.
Qed.

(** Numbers of variable width have several readings as bytes, all accepted. *)
Theorem C70_int64_refuted : exists b x, wf_bytes b /\ DecodeIntMax64 b = Ok x /\ EncodeIntMax64 x <> b.
Proof. exists [0; 1], 1. split; [repeat constructor|]. split; [vm_compute; reflexivity|]. vm_compute. discriminate. Qed.

(** No decoder reports malformed input: on the empty input every one of them panics,
    or waits for ever if it reads a stream. *)
Theorem C70_empty pp ref sched : DecodePath pp [] = Panic /\ DecodeKey [] pp = Panic /\ DecodeValues [] = Panic
  /\ DecodeRelativePath pp [] ref = Panic /\ DecodePathStream pp (Stream [] [] sched) = Hang
  /\ DecodeRelPathStream pp (Stream [] [] sched) ref = Hang.
Proof.
  assert (P : forall m, slice ([] : bytes) 0 (GetWidthMax32Int m) = Panic).
  { intros m. unfold slice. pose proof (width32_pos m). destruct (N.leb_spec (GetWidthMax32Int m) (len ([] : bytes))) as [L|L]; [unfold len in L; cbn in L; lia|].
    rewrite andb_false_r. reflexivity. }
  assert (H : forall m, NextAbsolute (GetWidthMax32Int m) (Stream [] [] sched) = Hang).
  { intros m. destruct (NextAbsolute_cases (GetWidthMax32Int m) (Stream [] [] sched)) as [E|(s' & _ & C & L)]; [exact E|exfalso].
    pose proof (width32_pos m). unfold content in C. cbn in C. apply app_eq_nil in C as [C _]. rewrite C in L. unfold len in L. cbn in L. lia. }
  unfold DecodePath, DecodeKey, DecodeValues, DecodeRelativePath, DecodePathStream, DecodeRelPathStream.
  rewrite P, !H. repeat split; reflexivity.
Qed.

(** ** Instances *)
Definition C70_pp := PathParams 64 10 10 10.
Example C70_instance : go_params C70_pp /\ writable C70_pp [[7; 8]; []]
  /\ DecodePath C70_pp ([2; 2; 7; 8; 0] ++ [9; 9]) = Ok (5, [[7; 8]; []])
  /\ DecodePath C70_pp [2; 2; 7; 8] = Panic
  /\ DecodeKey ([0; 0; 0; 0; 0; 0; 1; 2] ++ [1; 1; 7] ++ [97; 98]) C70_pp = Ok (Position [97; 98] [[7]] 258)
  /\ DecodeKey_cap ([0; 0; 0; 0; 0; 0; 1; 2] ++ [1; 3; 7]) [97; 98] C70_pp = Panic
  /\ DecodeValues (EncodeValues (Values 5 [1] [2; 3]) ++ [7]) = Ok (Values 5 [1] [2; 3])
  /\ DecodeValues [0; 0; 0; 0; 0; 0; 0; 5; 255; 255; 255; 255; 255; 255; 255; 255] = Panic
  /\ DecodePathStream C70_pp (Stream [] ([1; 1; 7] ++ [8]) [(1, 0)%nat]) = Ok ([[7]], Stream [] [8] [])
  /\ DecodePathStream C70_pp (Stream [] [1; 1] []) = Hang
  /\ DecodeEntry (fixed_scheme 1) (fixed_scheme 1) (fixed_scheme 2) C70_pp [(60, 0)%nat]
       (EncodeEntry (fixed_scheme 1) (fixed_scheme 1) (fixed_scheme 2) C70_pp (Entry [1] [2] [3; 4] [[7]] 5 6) ++ [9])
     = Ok (Entry [1] [2] [3; 4] [[7]] 5 6).
Proof.
  split; [repeat split; auto|]. split; [split; [repeat constructor|split; [vm_compute; reflexivity|repeat constructor]]|].
  repeat split; vm_compute; reflexivity.
Qed.

Example C70_instance_database :
  let C := Cfg C70_pp [110] (fun b => b) (fun d => d) in
  let good := ([0; 0; 0; 0; 0; 0; 1; 2] ++ [1; 1; 7] ++ [97; 98], EncodeValues (Values 5 [1] [2; 3])) in
  reopen C (State [good] [] [] [] false None) = Ok (State [good] [Node [97; 98] [[7]] 258 [2; 3] true] [] [] false None)
  /\ reopen C (State [good; ([7], [])] [] [] [] false None) = Panic.
Proof. split; vm_compute; reflexivity. Qed.

Print Assumptions C70_numbers.
Print Assumptions C70_path.
Print Assumptions C70_key.
Print Assumptions C70_values.
Print Assumptions C70_path_stream.
Print Assumptions C70_rel_path_stream.
Print Assumptions C70_entry.
Print Assumptions C70_key_memory.
Print Assumptions C70_values_memory.
Print Assumptions C70_path_memory.
Print Assumptions C70_path_memory_refuted.
Print Assumptions C70_stream_no_slack.
Print Assumptions C70_stream_memory_refuted.
Print Assumptions C70_limits_refuted.
Print Assumptions C70_int64_refuted.
Print Assumptions C70_empty.
