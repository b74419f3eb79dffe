(** C09, C10, C11, C62: database keys and values, entry codec, key helpers. *)
From Verif Require Import Base M_Order M_Encoding M_Paths M_Stream M_Entry M_Keys M_Map
  S_Order P_Order P_Encoding P_Paths P_Keys P_Stream P_Map.
Local Open Scope N_scope.

(** * C09: database keys *)

Theorem C09_roundtrip pp p :
  params_ok pp -> max_component_count pp < 2 ^ 32 -> max_component_length pp < 2 ^ 32 ->
  within_limits pp (pos_path p) -> pos_time p < 2 ^ 64 ->
  DecodeKey (EncodeKey p pp) pp = Ok p.
Proof.
  intros. apply DecodeKey_EncodeKey; auto using within_codec. split; auto.
Qed.
Print Assumptions C09_roundtrip.

Theorem C09_unique pp p q :
  params_ok pp -> max_component_count pp < 2 ^ 32 -> max_component_length pp < 2 ^ 32 ->
  within_limits pp (pos_path p) -> within_limits pp (pos_path q) ->
  pos_time p < 2 ^ 64 -> pos_time q < 2 ^ 64 ->
  EncodeKey p pp = EncodeKey q pp -> p = q.
Proof.
  intros. eapply EncodeKey_inj; eauto using within_codec. split; auto.
Qed.
Print Assumptions C09_unique.

Theorem C09_time_order pp p q :
  pos_time p < pos_time q -> pos_time q < 2 ^ 64 ->
  bytes_lt (EncodeKey p pp) (EncodeKey q pp).
Proof. exact (EncodeKey_time_order pp p q). Qed.
Print Assumptions C09_time_order.

Definition C09_pp := PathParams 64 50 50 50.
Example C09_instance :
  within_limits C09_pp [[98; 108; 111; 103]; []] /\
  EncodeKey (Position [97; 108] [[98; 108; 111; 103]; []] 258) C09_pp
    = [0; 0; 0; 0; 0; 0; 1; 2; 2; 4; 98; 108; 111; 103; 0; 97; 108] /\
  DecodeKey [0; 0; 0; 0; 0; 0; 1; 2; 2; 4; 98; 108; 111; 103; 0; 97; 108] C09_pp
    = Ok (Position [97; 108] [[98; 108; 111; 103]; []] 258).
Proof. split; [apply within_limitsb_spec; reflexivity|vm_compute; auto]. Qed.

(** * C10: database values *)

Theorem C10_roundtrip v :
  v_length v < 2 ^ 64 -> len (v_digest v) + 8 < 2 ^ 64 -> len (v_auth v) + 8 < 2 ^ 64 ->
  DecodeValues (EncodeValues v) = Ok v.
Proof.
  intros. rewrite <- (app_nil_r (EncodeValues v)). apply DecodeValues_EncodeValues. repeat split; auto.
Qed.
Print Assumptions C10_roundtrip.

Theorem C10_truncated v t x s :
  v_length v < 2 ^ 64 -> len (v_digest v) + 8 < 2 ^ 64 -> len (v_auth v) + 8 < 2 ^ 64 ->
  EncodeValues v = t ++ x :: s -> DecodeValues t = Panic.
Proof.
  intros. apply (DecodeValues_trunc v); [repeat split; auto|]. exists x, s. auto.
Qed.
Print Assumptions C10_truncated.

Example C10_instance :
  let v := Values 5 [97; 98] [99] in
  DecodeValues (EncodeValues v) = Ok v
  /\ EncodeValues v = removelast (EncodeValues v) ++ [99]
  /\ DecodeValues (removelast (EncodeValues v)) = Panic.
Proof. vm_compute. auto. Qed.

(** * C11: entry codec *)

(** The part that holds: when the goroutine feeding the path stream has
    delivered everything before the decoder first looks. *)
Theorem C11_roundtrip_partial ns ss ds pp e k k' sched :
  params_ok pp -> max_component_count pp < 2 ^ 32 -> max_component_length pp < 2 ^ 32 ->
  within_limits pp (e_path e) -> e_time e < 2 ^ 64 -> e_length e < 2 ^ 64 ->
  (forall rest, dec ns (enc ns (e_namespace e) ++ rest) = Ok (e_namespace e)) ->
  enc_length ns (e_namespace e) = len (enc ns (e_namespace e)) ->
  (forall rest, dec ss (enc ss (e_subspace e) ++ rest) = Ok (e_subspace e)) ->
  enc_length ss (e_subspace e) = len (enc ss (e_subspace e)) ->
  (forall rest, dec ds (enc ds (e_digest e) ++ rest) = Ok (e_digest e)) ->
  enc_length ds (e_digest e) = len (enc ds (e_digest e)) ->
  (length (EncodeEntry ns ss ds pp e) <= k)%nat ->
  DecodeEntry ns ss ds pp ((k, k') :: sched) (EncodeEntry ns ss ds pp e) = Ok e.
Proof.
  intros. apply DecodeEntry_fast; auto using within_codec; split; auto.
Qed.
Print Assumptions C11_roundtrip_partial.

(** Missing: other schedules. With the bytes arriving one at a time as the
    decoder asks for them, a component longer than what has arrived is sliced
    out of bounds (component of 20 bytes; the buffer then has room for 8). *)
Definition C11_pp := PathParams 64 50 50 50.
Definition C11_entry := Entry [110] [97] [100; 100] [repeat 98 20] 5 7.
Theorem C11_roundtrip_refuted :
  exists ns ss ds pp e sched,
    (forall rest, dec ns (enc ns (e_namespace e) ++ rest) = Ok (e_namespace e))
    /\ (forall rest, dec ss (enc ss (e_subspace e) ++ rest) = Ok (e_subspace e))
    /\ (forall rest, dec ds (enc ds (e_digest e) ++ rest) = Ok (e_digest e))
    /\ within_limits pp (e_path e)
    /\ DecodeEntry ns ss ds pp sched (EncodeEntry ns ss ds pp e) = Panic.
Proof.
  exists (fixed_scheme 1), (fixed_scheme 1), (fixed_scheme 2), C11_pp, C11_entry, [].
  split; [|split; [|split; [|split]]].
  - intros rest. apply fixed_scheme_ok; reflexivity.
  - intros rest. apply fixed_scheme_ok; reflexivity.
  - intros rest. apply fixed_scheme_ok; reflexivity.
  - apply within_limitsb_spec; reflexivity.
  - vm_compute. reflexivity.
Qed.
Print Assumptions C11_roundtrip_refuted.

(** With the identifier schemes of the repository the decoder never returns: the
    namespace swallows the whole input and the path stream stays empty. *)
Theorem C11_shipped_schemes_hang e sched :
  DecodeEntry shipped_id_scheme shipped_id_scheme shipped_digest_scheme C11_pp sched
    (EncodeEntry shipped_id_scheme shipped_id_scheme shipped_digest_scheme C11_pp e) = Hang.
Proof.
  unfold DecodeEntry. set (b := EncodeEntry _ _ _ _ _). cbn [dec enc_length shipped_id_scheme bind].
  rewrite <- (app_nil_r b) at 1. rewrite slice_from_app2 by reflexivity. cbn [bind].
  change (len (@nil N)) with 0. rewrite N.add_0_r.
  rewrite <- (app_nil_r b) at 1. rewrite slice_from_app2 by reflexivity. cbn [bind].
  destruct sched as [|[k k'] sched]; [reflexivity|].
  unfold DecodePathStream, NextAbsolute. cbn [g_sched g_array g_future tl]. unfold arrive.
  cbn [g_array g_future g_sched]. rewrite firstn_nil, skipn_nil. reflexivity.
Qed.
Print Assumptions C11_shipped_schemes_hang.

(** With other identifier schemes, that do round-trip, the digest scheme of the repository makes the decoder of every
    entry panic, even when all bytes have arrived: it has no Decode function. *)
Theorem C11_shipped_digest_panics ns ss pp e k k' sched :
  params_ok pp -> max_component_count pp < 2 ^ 32 -> max_component_length pp < 2 ^ 32 ->
  within_limits pp (e_path e) -> e_time e < 2 ^ 64 -> e_length e < 2 ^ 64 ->
  (forall rest, dec ns (enc ns (e_namespace e) ++ rest) = Ok (e_namespace e)) ->
  enc_length ns (e_namespace e) = len (enc ns (e_namespace e)) ->
  (forall rest, dec ss (enc ss (e_subspace e) ++ rest) = Ok (e_subspace e)) ->
  enc_length ss (e_subspace e) = len (enc ss (e_subspace e)) ->
  (length (EncodeEntry ns ss shipped_digest_scheme pp e) <= k)%nat ->
  DecodeEntry ns ss shipped_digest_scheme pp ((k, k') :: sched) (EncodeEntry ns ss shipped_digest_scheme pp e) = Panic.
Proof.
  intros PO M1 M2 WL HT HL N1 N2 S1 S2 Hk.
  unfold DecodeEntry, EncodeEntry in *.
  set (en := enc ns (e_namespace e)) in *. set (es := enc ss (e_subspace e)) in *.
  set (ed := enc shipped_digest_scheme (e_digest e)) in *.
  set (bt := BigIntToBytes (e_time e)) in *. set (bl := BigIntToBytes (e_length e)) in *.
  assert (Lt : len bt = 8) by apply BigIntToBytes_len.
  assert (Ll : len bl = 8) by apply BigIntToBytes_len.
  assert (Rt : forall r, be_uint64 (bt ++ r) = Ok (e_time e)) by (intros; apply BigIntToBytes_roundtrip; auto).
  assert (Rl : forall r, be_uint64 (bl ++ r) = Ok (e_length e)) by (intros; apply BigIntToBytes_roundtrip; auto).
  rewrite N1. cbn [bind]. rewrite N2.
  rewrite slice_from_app2 by auto. cbn [bind]. rewrite S1. cbn [bind]. rewrite S2.
  rewrite app_assoc, slice_from_app2 by (rewrite len_app; reflexivity). cbn [bind].
  rewrite !app_length in Hk.
  destruct (DecodePathStream_fast pp (e_path e) (bt ++ bl ++ ed) k k' sched) as [s' E]; auto using within_codec.
  { repeat split; auto; apply PO. }
  { rewrite !len_app. pose proof (width32_pos (max_component_length pp)). lia. }
  { rewrite !app_length. lia. }
  rewrite E. cbn [bind]. rewrite EncodePathLength_spec.
  rewrite app_assoc, slice_from_app2 by (rewrite !len_app; reflexivity). cbn [bind].
  rewrite Rt. cbn [bind].
  rewrite app_assoc, slice_from_app2 by (rewrite !len_app; lia). cbn [bind].
  rewrite Rl. cbn [bind].
  rewrite app_assoc, slice_from_app2 by (rewrite !len_app; lia). cbn [bind]. reflexivity.
Qed.
Print Assumptions C11_shipped_digest_panics.

Example C11_instance_digest :
  let e := Entry [110] [97] [48; 97] [[98]] 5 7 in
  within_limits C11_pp (e_path e) /\ (length (EncodeEntry (fixed_scheme 1) (fixed_scheme 1) shipped_digest_scheme C11_pp e) <= 30)%nat
  /\ DecodeEntry (fixed_scheme 1) (fixed_scheme 1) shipped_digest_scheme C11_pp [(30, 0)%nat]
       (EncodeEntry (fixed_scheme 1) (fixed_scheme 1) shipped_digest_scheme C11_pp e) = Panic.
Proof. split; [apply within_limitsb_spec; reflexivity|]. split; [vm_compute; lia|vm_compute; reflexivity]. Qed.

(** A path ending in an empty component is not decoded from a stream that ends
    with it: the decoder waits for a byte that never comes. *)
Theorem C11_path_stream_refuted :
  exists p sched, within_limits C11_pp p
    /\ (length (EncodePath C11_pp p) <= fst (hd (0, 0)%nat sched))%nat
    /\ DecodePathStream C11_pp (Stream [] (EncodePath C11_pp p) sched) = Hang.
Proof.
  exists [[97]; []], [(9, 9)%nat]. split; [apply within_limitsb_spec; reflexivity|].
  split; [cbn; lia|vm_compute; reflexivity].
Qed.
Print Assumptions C11_path_stream_refuted.

Example C11_instance :
  DecodeEntry (fixed_scheme 1) (fixed_scheme 1) (fixed_scheme 2) C11_pp [(60, 0)%nat]
    (EncodeEntry (fixed_scheme 1) (fixed_scheme 1) (fixed_scheme 2) C11_pp C11_entry) = Ok C11_entry.
Proof. vm_compute. reflexivity. Qed.

(** * C62: database key helpers *)

Theorem C62_IsFirstPrefixOfSecond a b :
  exists r, IsFirstPrefixOfSecond a b = Ok r /\ (r = true <-> exists s, b = a ++ s).
Proof. exact (IsFirstPrefixOfSecond_spec a b). Qed.
Print Assumptions C62_IsFirstPrefixOfSecond.

Theorem C62_CompareKeys :
  exists lt : bytes -> bytes -> Prop,
    strict_total_order lt
    /\ (forall a b, lt a b <-> len a < len b \/ (len a = len b /\ bytes_lt a b))
    /\ forall a b, (CompareKeys a b = Ok Less <-> lt a b)
                   /\ (CompareKeys a b = Ok Equal <-> a = b)
                   /\ (CompareKeys a b = Ok Greater <-> lt b a).
Proof.
  exists shortlex_lt. pose proof shortlex_sto as [I T C]. split; [split; auto|]. split; [reflexivity|].
  assert (A : forall a b, shortlex_lt a b -> shortlex_lt b a -> False) by (intros a b H1 H2; apply (I a); eauto).
  intros a b. unfold Less, Equal, Greater.
  destruct (CompareKeys_decides a b) as [[-> H]|[[-> H]|[-> H]]]; unfold Less, Equal, Greater.
  - repeat split; try discriminate; auto; intros; subst; exfalso; eauto.
  - subst. repeat split; try discriminate; auto; intros; exfalso; eauto.
  - repeat split; try discriminate; auto; intros; subst; exfalso; eauto.
Qed.
Print Assumptions C62_CompareKeys.

(** [m] stands for the database; the last part says what a database lookup is:
    in a database sorted by key, the value stored with that key. *)
Theorem C62_GetMultipleValues (m : bmap bytes) keys : msorted m ->
  (forall vs, GetMultipleValues m keys = Ok vs <-> Forall2 (fun k v => In (k, v) m) keys vs)
  /\ (GetMultipleValues m keys = Err <-> exists k, In k keys /\ forall v, ~ In (k, v) m).
Proof.
  intros HS. pose proof (msorted_NoDup _ HS) as HN.
  pose proof (GetMultipleValues_spec m keys) as H.
  assert (G : forall k v, mget m k = Some v <-> In (k, v) m).
  { intros. split; [apply mget_In|apply mget_NoDup; auto]. }
  assert (G0 : forall k, mget m k = None <-> forall v, ~ In (k, v) m).
  { intros k. split.
    - intros E v Hv. apply G in Hv. congruence.
    - intros E. destruct (mget m k) as [v|] eqn:E'; auto. apply G in E'. exfalso. eapply E; eauto. }
  assert (D : forall ks vs vs', Forall2 (fun k v => mget m k = Some v) ks vs ->
     Forall2 (fun k v => In (k, v) m) ks vs' -> vs = vs').
  { induction ks as [|k ks IH]; intros vs vs' H1 H2; inversion H1; inversion H2; subst; auto.
    f_equal; [|eapply IH; eauto]. match goal with H : In _ m |- _ => apply G in H end. congruence. }
  assert (E : forall ks vs, Forall2 (fun k v => mget m k = Some v) ks vs ->
     Forall2 (fun k v => In (k, v) m) ks vs).
  { intros ks vs F. induction F; constructor; auto. apply G; auto. }
  assert (N : forall ks vs k, Forall2 (fun k v => In (k, v) m) ks vs -> In k ks -> exists v, In (k, v) m).
  { intros ks vs k F. induction F as [|a b ks' vs' HF F' IH]; intros Hk; inversion Hk; subst; eauto. }
  destruct (GetMultipleValues m keys) as [vs| | | |]; try tauto.
  - split.
    + intros vs'. split; [intros X; inversion X; subst; auto|]. intros X. f_equal. eapply D; eauto.
    + split; [discriminate|]. intros (k & Hk & X). exfalso.
      destruct (N keys vs k (E _ _ H) Hk) as (v & Hv). eapply X; eauto.
  - split.
    + intros vs'. split; [discriminate|]. intros X. destruct H as (k & Hk & X').
      destruct (N keys vs' k X Hk) as (v & Hv). apply G in Hv. congruence.
    + split; auto. intros _. destruct H as (k & Hk & X'). exists k. split; auto. apply G0; auto.
Qed.
Print Assumptions C62_GetMultipleValues.

Example C62_instance :
  GetMultipleValues [([1], [10]); ([2; 0], [20]); ([3], [30])] [[3]; [1]] = Ok [[30]; [10]] /\
  GetMultipleValues [([1], [10]); ([2; 0], [20]); ([3], [30])] [[3]; [2]] = Err /\
  IsFirstPrefixOfSecond [1; 2] [1; 2; 3] = Ok true /\ IsFirstPrefixOfSecond [1; 3] [1; 2; 3] = Ok false
  /\ CompareKeys [9] [1; 1] = Ok Less /\ CompareKeys [1; 2] [1; 1] = Ok Greater.
Proof. vm_compute. repeat split. Qed.
