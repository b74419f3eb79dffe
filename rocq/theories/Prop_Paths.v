(** C06, C07, C08, C19, C59: paths and integer codecs. *)
From Verif Require Import Base M_Order M_Encoding M_Paths M_Alias S_Order P_Order P_Encoding P_Paths P_Alias.
Local Open Scope N_scope.

(** * C06: prefix functions *)

Theorem C06_IsPathPrefixed p q : IsPathPrefixed p q = true <-> exists s, q = p ++ s.
Proof. exact (IsPathPrefixed_spec p q). Qed.
Print Assumptions C06_IsPathPrefixed.

Theorem C06_PrefixesOf q :
  (forall p, In p (PrefixesOf q) <-> exists s, q = p ++ s)
  /\ NoDup (PrefixesOf q)
  /\ (forall i, (i <= length q)%nat -> nth_error (PrefixesOf q) i = Some (firstn i q)).
Proof.
  split; [intros p; exact (PrefixesOf_In p q)|split; [exact (PrefixesOf_NoDup q)|exact (PrefixesOf_nth q)]].
Qed.
Print Assumptions C06_PrefixesOf.

Theorem C06_CommonPrefix a b :
  match CommonPrefix a b with
  | Ok c => c <> [] /\ prefix_of c a /\ prefix_of c b
            /\ forall d, prefix_of d a -> prefix_of d b -> prefix_of d c
  | Err => forall d, prefix_of d a -> prefix_of d b -> d = []
  | _ => False
  end.
Proof. exact (CommonPrefix_spec a b). Qed.
Print Assumptions C06_CommonPrefix.

Example C06_instance :
  IsPathPrefixed [[1]; [2; 3]] [[1]; [2; 3]; []] = true
  /\ IsPathPrefixed [[1]] [[1; 2]] = false
  /\ PrefixesOf [[1]; [2; 3]] = [[]; [[1]]; [[1]; [2; 3]]]
  /\ CommonPrefix [[1]; [2]] [[1]; [3]] = Ok [[1]] /\ CommonPrefix [[2]] [[1]] = Err.
Proof. vm_compute. auto. Qed.

(** * C07: integer codecs *)

Theorem C07_max32_roundtrip x max : max < 2 ^ 32 -> x <= max ->
  DecodeIntMax32 (EncodeIntMax32 x max) max = Ok x.
Proof. intros. apply EncodeIntMax32_roundtrip; auto. Qed.
Print Assumptions C07_max32_roundtrip.
Theorem C07_max32_width x max : len (EncodeIntMax32 x max) = GetWidthMax32Int max.
Proof. exact (EncodeIntMax32_len x max). Qed.
Print Assumptions C07_max32_width.
Theorem C07_max32_order x y max : max < 2 ^ 32 -> x <= max -> y <= max ->
  (bytes_lt (EncodeIntMax32 x max) (EncodeIntMax32 y max) <-> x < y).
Proof.
  intros Hm Hx Hy. split.
  - intros H. destruct (N.lt_trichotomy x y) as [?|[->|L]]; auto.
    + destruct (sto_irrefl _ bytes_sto _ H).
    + apply (EncodeIntMax32_lt y x max) in L; auto.
      destruct (sto_irrefl _ bytes_sto _ (sto_trans _ bytes_sto _ _ _ H L)).
  - intros H. apply EncodeIntMax32_lt; auto.
Qed.
Print Assumptions C07_max32_order.
Theorem C07_max32_injective x y max : max < 2 ^ 32 -> x <= max -> y <= max ->
  EncodeIntMax32 x max = EncodeIntMax32 y max -> x = y.
Proof.
  intros Hm Hx Hy H. pose proof (C07_max32_roundtrip x max Hm Hx) as E1.
  pose proof (C07_max32_roundtrip y max Hm Hy) as E2. congruence.
Qed.
Print Assumptions C07_max32_injective.

Theorem C07_max64_roundtrip x : x < 2 ^ 64 -> DecodeIntMax64 (EncodeIntMax64 x) = Ok x.
Proof. intros. apply EncodeIntMax64_roundtrip; auto. Qed.
Print Assumptions C07_max64_roundtrip.
Theorem C07_max64_width x : len (EncodeIntMax64 x) = GetWidthMax64Int x.
Proof. exact (EncodeIntMax64_len x). Qed.
Print Assumptions C07_max64_width.
Theorem C07_max64_injective x y : x < 2 ^ 64 -> y < 2 ^ 64 -> EncodeIntMax64 x = EncodeIntMax64 y -> x = y.
Proof.
  intros Hx Hy H. pose proof (C07_max64_roundtrip x Hx). pose proof (C07_max64_roundtrip y Hy). congruence.
Qed.
Print Assumptions C07_max64_injective.

Theorem C07_bigint_roundtrip x rest : x < 2 ^ 64 -> be_uint64 (BigIntToBytes x ++ rest) = Ok x.
Proof. exact (BigIntToBytes_roundtrip x rest). Qed.
Print Assumptions C07_bigint_roundtrip.
Theorem C07_bigint_order x y : x < 2 ^ 64 -> y < 2 ^ 64 ->
  (bytes_lt (BigIntToBytes x) (BigIntToBytes y) <-> x < y).
Proof.
  intros Hx Hy. split.
  - intros H. destruct (N.lt_trichotomy x y) as [?|[->|L]]; auto.
    + destruct (sto_irrefl _ bytes_sto _ H).
    + apply (BigIntToBytes_lt y x) in L; auto.
      destruct (sto_irrefl _ bytes_sto _ (sto_trans _ bytes_sto _ _ _ H L)).
  - intros H. apply BigIntToBytes_lt; auto.
Qed.
Print Assumptions C07_bigint_order.

Example C07_instance :
  70000 < 2 ^ 32 /\ 4660 <= 70000 /\ EncodeIntMax32 4660 70000 = [0; 18; 52]
  /\ DecodeIntMax32 [0; 18; 52] 70000 = Ok 4660 /\ EncodeIntMax64 70000 = [0; 1; 17; 112]
  /\ BigIntToBytes 258 = [0; 0; 0; 0; 0; 0; 1; 2].
Proof. vm_compute. repeat split; auto; discriminate. Qed.

(** * C08: absolute path codec *)

Theorem C08_roundtrip pp p rest :
  params_ok pp -> max_component_count pp < 2 ^ 32 -> max_component_length pp < 2 ^ 32 ->
  within_limits pp p ->
  DecodePath pp (EncodePath pp p ++ rest) = Ok (len (EncodePath pp p), p).
Proof.
  intros. apply DecodePath_EncodePath; [repeat split; auto; apply H|apply within_codec; auto].
Qed.
Print Assumptions C08_roundtrip.

Theorem C08_length pp p : EncodePathLength pp p = len (EncodePath pp p).
Proof. exact (EncodePathLength_spec pp p). Qed.
Print Assumptions C08_length.

Theorem C08_prefix_free pp p q r s :
  params_ok pp -> max_component_count pp < 2 ^ 32 -> max_component_length pp < 2 ^ 32 ->
  within_limits pp p -> within_limits pp q ->
  EncodePath pp p ++ r = EncodePath pp q ++ s -> p = q /\ r = s.
Proof.
  intros. eapply EncodePath_prefix_free; eauto using within_codec. repeat split; auto; apply H.
Qed.
Print Assumptions C08_prefix_free.

Theorem C08_IsValidPath pp p :
  max_component_count pp < 2 ^ 63 -> max_component_length pp < 2 ^ 63 -> max_path_length pp < 2 ^ 63 ->
  (IsValidPath p pp = true <-> within_limits pp p).
Proof. apply IsValidPath_spec. Qed.
Print Assumptions C08_IsValidPath.

(** Limits of 2^63 and more become negative: with the largest limits, which allow every path, none is accepted. *)
Theorem C08_large_limits_refuted :
  exists pp, params_ok pp /\ (forall p, len p < 2 ^ 63 -> Forall (fun c => len c < 2 ^ 63) p -> total_length p < 2 ^ 63 -> within_limits pp p)
    /\ forall p, IsValidPath p pp = false.
Proof.
  exists (PathParams 64 (2 ^ 64 - 1) (2 ^ 64 - 1) (2 ^ 64 - 1)). split; [vm_compute; repeat split|]. split.
  - intros p H1 H2 H3. unfold within_limits. cbn [max_component_count max_component_length max_path_length].
    assert (L : forall x, x < 2 ^ 63 -> x <= 2 ^ 64 - 1).
    { intros x Hx. apply N.lt_le_incl. eapply N.lt_le_trans; [exact Hx|]. vm_compute. discriminate. }
    split; [apply L; exact H1|]. split; [|apply L; exact H3]. eapply Forall_impl; [|exact H2]. intros c Hc. apply L, Hc.
  - intros p. unfold IsValidPath. cbn [max_component_count].
    replace (to_int (2 ^ 64 - 1)) with (-1)%Z by reflexivity.
    destruct (Z.ltb_spec (-1) (Z.of_N (len p))); [reflexivity|lia].
Qed.
Print Assumptions C08_large_limits_refuted.

Definition C08_pp := PathParams 64 50 300 5000.
Example C08_instance :
  params_ok C08_pp /\ within_limits C08_pp [[104; 105]; []; [255]]
  /\ EncodePath C08_pp [[104; 105]; []; [255]] = [3; 0; 2; 104; 105; 0; 0; 0; 1; 255]
  /\ DecodePath C08_pp ([3; 0; 2; 104; 105; 0; 0; 0; 1; 255] ++ [9; 9]) = Ok (10, [[104; 105]; []; [255]]).
Proof.
  split; [repeat split|split; [|vm_compute; auto]].
  apply within_limitsb_spec. reflexivity.
Qed.

(** * C19: relative path codec *)

(** The part that holds: the round trip at the level of values. *)
Theorem C19_roundtrip_partial pp p ref rest :
  params_ok pp -> max_component_count pp < 2 ^ 32 -> max_component_length pp < 2 ^ 32 ->
  within_limits pp p ->
  (exists c p' r', p = c :: p' /\ ref = c :: r') ->
  exists enc, EncodeRelativePath pp p ref = Ok enc /\ DecodeRelativePath pp (enc ++ rest) ref = Ok p.
Proof.
  intros H1 H2 H3 H4 H5. apply (EncodeRelativePath_total pp) in H5 as [enc H5]. exists enc. split; auto.
  eapply DecodeRelativePath_EncodeRelativePath; eauto using within_codec. repeat split; auto; apply H1.
Qed.
Print Assumptions C19_roundtrip_partial.

(** The same with the reference as a slice in memory: the value is right where the
    reference is long enough (otherwise what lies behind it in its array is
    taken), and memory is left alone when the array is too small for the result. *)
Theorem C19_memory_partial pp enc s p s' :
  (vis s <= length (backing s))%nat ->
  DecodeRelativePath_mem pp enc s = Ok (p, s') ->
  DecodeRelativePath pp enc (backing s) = Ok p
  /\ (DecodeRelativePath pp enc (contents s) = Ok p \/ DecodeRelativePath pp enc (contents s) = Panic)
  /\ ((length (backing s) < length p)%nat -> s' = s).
Proof.
  intros Hv H. pose proof (DecodeRelativePath_mem_spec pp enc s Hv) as K. rewrite H in K. exact K.
Qed.
Print Assumptions C19_memory_partial.

(** A number of components the reference does not have is not noticed when its
    array has them: here one that was never part of it. *)
Theorem C19_behind_reference_refuted :
  exists pp enc s p s',
    (vis s <= length (backing s))%nat /\ within_limits pp (contents s)
    /\ DecodeRelativePath pp enc (contents s) = Panic
    /\ DecodeRelativePath_mem pp enc s = Ok (p, s') /\ contents s = [[97]] /\ p = [[97]; [98]; [99]].
Proof.
  exists C08_pp, [2; 1; 0; 1; 99], (GoSlice [[97]; [98]; [100]] 1), [[97]; [98]; [99]], (GoSlice [[97]; [98]; [99]] 1).
  repeat split; try (apply within_limitsb_spec; reflexivity); try reflexivity. cbn. lia.
Qed.
Print Assumptions C19_behind_reference_refuted.

(** Otherwise the reference is overwritten with the decoded path. *)
Theorem C19_reference_overwritten pp enc s p s' :
  (vis s <= length (backing s))%nat ->
  DecodeRelativePath_mem pp enc s = Ok (p, s') ->
  (length p <= length (backing s))%nat ->
  backing s' = p ++ skipn (length p) (backing s).
Proof. exact (DecodeRelativePath_mem_overwrites pp enc s p s'). Qed.
Print Assumptions C19_reference_overwritten.

Theorem C19_reference_changed_refuted :
  exists pp p s enc s',
    within_limits pp p /\ within_limits pp (contents s) /\ vis s = length (backing s)
    /\ EncodeRelativePath pp p (contents s) = Ok enc
    /\ DecodeRelativePath_mem pp enc s = Ok (p, s')
    /\ contents s' <> contents s.
Proof.
  exists C08_pp, [[97]; [99]], (GoSlice [[97]; [98]] 2), [1; 1; 0; 1; 99], (GoSlice [[97]; [99]] 2).
  repeat split; try (apply within_limitsb_spec; reflexivity); try reflexivity. vm_compute. discriminate.
Qed.
Print Assumptions C19_reference_changed_refuted.

Theorem C19_length_refuted :
  exists pp p ref enc n,
    within_limits pp p /\ EncodeRelativePath pp p ref = Ok enc
    /\ EncodePathRelativeLength pp p ref = Ok n /\ n <> len enc.
Proof.
  exists C08_pp, [[97]; [99]], [[97]; [98]], [1; 1; 0; 1; 99], 2.
  repeat split; try (apply within_limitsb_spec; reflexivity); try reflexivity. vm_compute. discriminate.
Qed.
Print Assumptions C19_length_refuted.

(** Paths without a common first component end the process. *)
Theorem C19_no_common_prefix_refuted :
  exists pp p ref, within_limits pp p /\ within_limits pp ref /\ EncodeRelativePath pp p ref = Fatal.
Proof.
  exists C08_pp, [[97]], [[98]].
  repeat split; try (apply within_limitsb_spec; reflexivity); reflexivity.
Qed.
Print Assumptions C19_no_common_prefix_refuted.

Example C19_instance :
  EncodeRelativePath C08_pp [[97]; [99]; [1]] [[97]; [99]; [2; 2]] = Ok [2; 1; 0; 1; 1]
  /\ DecodeRelativePath C08_pp ([2; 1; 0; 1; 1] ++ [7]) [[97]; [99]; [2; 2]] = Ok [[97]; [99]; [1]].
Proof. vm_compute. auto. Qed.

(** * C59: path distance *)

Theorem C59_distance_partial a b :
  PathDistance a b = PathDistance b a /\ (0 <= PathDistance a b)%Z
  /\ (a = b -> PathDistance a b = 0%Z)
  /\ (map (@length N) a = map (@length N) b -> PathDistance a b = 0%Z -> a = b).
Proof.
  split; [exact (PathDistance_sym a b)|]. split; [exact (PathDistance_nonneg a b)|].
  split; [intros ->; exact (PathDistance_refl b)|exact (PathDistance_zero_eq a b)].
Qed.
Print Assumptions C59_distance_partial.

Theorem C59_zero_distance_refuted : exists a b, a <> b /\ PathDistance a b = 0%Z.
Proof. exists [[97]], [[97; 0]]. split; [discriminate|reflexivity]. Qed.
Print Assumptions C59_zero_distance_refuted.

Example C59_instance : PathDistance [[3; 4]] [[0]; [2]] = 29%Z.
Proof. reflexivity. Qed.
