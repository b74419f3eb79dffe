(** Proofs about M_Stream and M_Entry. *)
From Verif Require Import Base M_Order M_Encoding M_Paths M_Stream M_Entry M_Keys
  S_Order P_Order P_Encoding P_Paths P_Keys.
Local Open Scope N_scope.

(** Once everything has arrived the schedule does not matter. *)
Lemma NextAbsolute_all n a sched : n <= len a ->
  NextAbsolute n (Stream a [] sched) = Ok (a, Stream a [] (tl sched)).
Proof.
  intros H. unfold NextAbsolute. destruct sched as [|[b c] sched]; cbn [g_sched g_array g_future tl arrive];
    unfold arrive; cbn [g_array g_future g_sched]; rewrite firstn_nil, app_nil_r, skipn_nil;
    destruct (N.leb_spec n (len a)); try lia; reflexivity.
Qed.

Lemma skipn_len_app {A} (a b : list A) n : n = len a -> skipn (N.to_nat n) (a ++ b) = b.
Proof.
  intros ->. unfold len. rewrite Nat2N.id, skipn_app, skipn_all, Nat.sub_diag. reflexivity.
Qed.

Lemma width32_pos n : 1 <= GetWidthMax32Int n <= 4.
Proof.
  unfold GetWidthMax32Int. repeat destruct (_ <? _); lia.
Qed.

Lemma decode_or_zero_ok x max : max < 2 ^ 32 -> x <= max ->
  decode_or_zero (EncodeIntMax32 x max) max = Ok x.
Proof. intros. unfold decode_or_zero. rewrite EncodeIntMax32_roundtrip; auto. Qed.

Lemma path_stream_loop_all pp p rest sched :
  codec_params pp -> Forall (fun c => len c <= max_component_length pp) p ->
  GetWidthMax32Int (max_component_length pp) <= len rest ->
  exists sched', path_stream_loop pp (length p) (Stream (encode_components pp p ++ rest) [] sched)
  = Ok (p, Stream rest [] sched').
Proof.
  intros CP HF Hr. pose proof CP as ((PC & PL & PP) & HC & HL). revert sched.
  induction p as [|c p IH]; intros sched.
  - exists sched. reflexivity.
  - inversion HF as [|? ? Hc HF']; subst. specialize (IH HF').
    cbn [length path_stream_loop encode_components flat_map]. fold (encode_components pp p).
    set (w := GetWidthMax32Int (max_component_length pp)) in *.
    set (lb := EncodeIntMax32 (toT pp (len c)) (max_component_length pp)).
    assert (Hlb : len lb = w) by apply EncodeIntMax32_len.
    pose proof (width32_pos (max_component_length pp)) as W. fold w in W.
    replace (((lb ++ c) ++ encode_components pp p) ++ rest)
      with (lb ++ c ++ encode_components pp p ++ rest) by (rewrite !app_assoc; reflexivity).
    rewrite NextAbsolute_all by (rewrite !len_app; lia). cbn [bind].
    rewrite slice_0_app by lia. cbn [bind].
    unfold lb at 1. rewrite toT_small, decode_or_zero_ok by lia. cbn [bind].
    rewrite NextAbsolute_all by (rewrite !len_app; lia). cbn [bind].
    rewrite slice_app by (auto; lia). cbn [bind].
    unfold Prune. cbn [g_array g_future g_sched].
    rewrite app_assoc, skipn_len_app by (rewrite len_app; lia).
    destruct (IH (tl (tl sched))) as [s' E].
    exists s'. rewrite E. reflexivity.
Qed.

Lemma DecodePathStream_arrived pp p rest sched :
  codec_params pp -> codec_path pp p ->
  GetWidthMax32Int (max_component_length pp) <= len rest ->
  exists sched', DecodePathStream pp (Stream (EncodePath pp p ++ rest) [] sched)
    = Ok (p, Stream rest [] sched').
Proof.
  intros CP [H1 H2] Hr. pose proof CP as ((PC & PL & PP) & HC & HL).
  unfold DecodePathStream, EncodePath. fold (encode_components pp p).
  set (cb := EncodeIntMax32 (toT pp (len p)) (max_component_count pp)).
  assert (Hcb : len cb = GetWidthMax32Int (max_component_count pp)) by apply EncodeIntMax32_len.
  rewrite <- app_assoc, NextAbsolute_all by (rewrite len_app; lia). cbn [bind].
  rewrite slice_0_app by lia. cbn [bind].
  unfold cb at 1. rewrite toT_small, decode_or_zero_ok by lia. cbn [bind].
  unfold Prune. cbn [g_array g_future g_sched]. rewrite skipn_len_app by lia.
  replace (N.to_nat (len p)) with (length p) by (unfold len; lia).
  apply path_stream_loop_all; auto.
Qed.

(** The reader sees the whole input at its first call. *)
Lemma NextAbsolute_first n b k k' sched : n <= len b -> (length b <= k)%nat ->
  NextAbsolute n (Stream [] b ((k, k') :: sched)) = Ok (b, Stream b [] sched).
Proof.
  intros H Hk. unfold NextAbsolute. cbn [g_sched g_array g_future tl]. unfold arrive.
  cbn [g_array g_future g_sched]. rewrite firstn_all2, skipn_all2 by lia. cbn [app].
  destruct (N.leb_spec n (len b)); try lia. reflexivity.
Qed.

Lemma DecodePathStream_fast pp p rest k k' sched :
  codec_params pp -> codec_path pp p ->
  GetWidthMax32Int (max_component_length pp) <= len rest ->
  (length (EncodePath pp p ++ rest) <= k)%nat ->
  exists sched', DecodePathStream pp (Stream [] (EncodePath pp p ++ rest) ((k, k') :: sched))
    = Ok (p, Stream rest [] sched').
Proof.
  intros CP HP Hr Hk.
  destruct (DecodePathStream_arrived pp p rest ((0%nat, 0%nat) :: sched) CP HP Hr) as [s' E].
  exists s'. rewrite <- E. unfold DecodePathStream.
  assert (HL : GetWidthMax32Int (max_component_count pp) <= len (EncodePath pp p ++ rest)).
  { rewrite len_app. unfold EncodePath. rewrite len_app, EncodeIntMax32_len. lia. }
  rewrite NextAbsolute_first by auto. rewrite NextAbsolute_all by auto. reflexivity.
Qed.

(** What the entry codec needs of an identifier scheme: self-delimiting. *)
Definition scheme_ok (s : encoding_scheme) (x : bytes) : Prop :=
  (forall rest, dec s (enc s x ++ rest) = Ok x) /\ enc_length s x = len (enc s x).

Lemma slice_from_app2 {A} (a b : list A) n : n = len a -> slice_from (a ++ b) n = Ok b.
Proof. intros ->. apply slice_from_app; auto. Qed.

Lemma DecodeEntry_fast ns ss ds pp e k k' sched :
  codec_params pp -> codec_path pp (e_path e) ->
  e_time e < 2 ^ 64 -> e_length e < 2 ^ 64 ->
  scheme_ok ns (e_namespace e) -> scheme_ok ss (e_subspace e) -> scheme_ok ds (e_digest e) ->
  (length (EncodeEntry ns ss ds pp e) <= k)%nat ->
  DecodeEntry ns ss ds pp ((k, k') :: sched) (EncodeEntry ns ss ds pp e) = Ok e.
Proof.
  intros CP HP HT HL [N1 N2] [S1 S2] [D1 D2] Hk.
  unfold DecodeEntry, EncodeEntry in *.
  set (en := enc ns (e_namespace e)) in *. set (es := enc ss (e_subspace e)) in *.
  set (ed := enc ds (e_digest e)) in *.
  set (bt := BigIntToBytes (e_time e)) in *. set (bl := BigIntToBytes (e_length e)) in *.
  assert (Lt : len bt = 8) by apply BigIntToBytes_len.
  assert (Ll : len bl = 8) by apply BigIntToBytes_len.
  assert (Rt : forall r, be_uint64 (bt ++ r) = Ok (e_time e)) by (intros; apply BigIntToBytes_roundtrip; auto).
  assert (Rl : forall r, be_uint64 (bl ++ r) = Ok (e_length e)) by (intros; apply BigIntToBytes_roundtrip; auto).
  rewrite N1. cbn [bind]. rewrite N2.
  rewrite slice_from_app2 by auto. cbn [bind]. rewrite S1. cbn [bind]. rewrite S2.
  rewrite app_assoc, slice_from_app2 by (rewrite len_app; reflexivity). cbn [bind].
  rewrite !app_length in Hk.
  destruct (DecodePathStream_fast pp (e_path e) (bt ++ bl ++ ed) k k' sched) as [s' E]; auto.
  { rewrite !len_app. pose proof (width32_pos (max_component_length pp)). lia. }
  { rewrite !app_length. lia. }
  rewrite E. cbn [bind]. rewrite EncodePathLength_spec.
  rewrite app_assoc, slice_from_app2 by (rewrite !len_app; reflexivity). cbn [bind].
  rewrite Rt. cbn [bind].
  rewrite app_assoc, slice_from_app2 by (rewrite !len_app; lia). cbn [bind].
  rewrite Rl. cbn [bind].
  rewrite app_assoc, slice_from_app2 by (rewrite !len_app; lia). cbn [bind].
  rewrite <- (app_nil_r ed), D1. cbn [bind]. destruct e; reflexivity.
Qed.

Lemma fixed_scheme_ok w x : len x = w -> scheme_ok (fixed_scheme w) x.
Proof.
  intros <-. split; cbn; auto. intros rest. apply slice_0_app; auto.
Qed.
