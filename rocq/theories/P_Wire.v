(** Reading from a stream, whatever the schedule. *)
From Verif Require Import Base M_Encoding M_Stream M_Wire S_Wire P_Encoding P_Paths P_Stream.
Local Open Scope N_scope.

Lemma total_arrive n s : total (arrive n s) = total s.
Proof. unfold total, arrive. cbn. rewrite <- app_assoc, firstn_skipn. reflexivity. Qed.

(** The array after the call: at least [n] bytes, a prefix of the stream. *)
Lemma NextAbsolute_spec n s : n <= len (total s) ->
  exists s', NextAbsolute n s = Ok (g_array s', s') /\ total s' = total s /\ n <= len (g_array s').
Proof.
  intros H. unfold NextAbsolute. destruct (match g_sched s with [] => (O, O) | x :: _ => x end) as [b a].
  set (s1 := arrive b _).
  assert (T1 : total s1 = total s) by (unfold s1; rewrite total_arrive; reflexivity).
  destruct (N.leb_spec n (len (g_array s1))).
  - exists s1. auto.
  - assert (HL : len (g_array s1) + len (g_future s1) = len (total s)).
    { rewrite <- T1. unfold total, len. rewrite app_length. lia. }
    destruct (N.ltb_spec (len (g_array s1) + len (g_future s1)) n); [lia|].
    eexists. split; [reflexivity|]. split; [rewrite total_arrive; auto|].
    unfold arrive. cbn [g_array]. unfold len in *. rewrite app_length, firstn_length. lia.
Qed.

Lemma slice_total (s : stream) i j : i <= j -> j <= len (g_array s) -> slice (g_array s) i j = slice (total s) i j.
Proof.
  intros H1 H2. unfold slice, total. rewrite !(proj2 (N.leb_le _ _)) by (unfold len in *; rewrite ?app_length; lia).
  cbn [andb]. f_equal. rewrite skipn_app, firstn_app. unfold len in *. rewrite skipn_length.
  replace (N.to_nat (j - i) - (length (g_array s) - N.to_nat i))%nat with O by lia.
  cbn [firstn]. rewrite app_nil_r. reflexivity.
Qed.

Lemma index_total (s : stream) i : i < len (g_array s) -> index (g_array s) i = index (total s) i.
Proof. intros H. unfold index, total. rewrite nth_error_app1 by (unfold len in *; lia). reflexivity. Qed.

Lemma Prune_total n s : n <= len (g_array s) -> total (Prune n s) = skipn (N.to_nat n) (total s).
Proof.
  intros H. unfold total, Prune. cbn. rewrite skipn_app. unfold len in H.
  replace (N.to_nat n - length (g_array s))%nat with O by lia. reflexivity.
Qed.

Lemma len_app_le {A} (a b : list A) : len a <= len (a ++ b).
Proof. unfold len. rewrite app_length. lia. Qed.

(** ** 64-bit compact integers *)
Lemma width64 x : GetWidthMax64Int x = 1 \/ GetWidthMax64Int x = 2 \/ GetWidthMax64Int x = 4 \/ GetWidthMax64Int x = 8.
Proof. unfold GetWidthMax64Int. repeat destruct (_ <? _); auto. Qed.

Lemma int64_or_zero_ok x : x < 2 ^ 64 -> int64_or_zero (EncodeIntMax64 x) = x.
Proof. intros. unfold int64_or_zero. rewrite EncodeIntMax64_roundtrip; auto. Qed.

Lemma index_app_r {A} (a b : list A) i : i = len a -> index (a ++ b) i = index b 0.
Proof.
  intros ->. unfold index, len. rewrite Nat2N.id, nth_error_app2, Nat.sub_diag by lia. reflexivity.
Qed.

Lemma skipn_lenN {A} (a b : list A) n : n = len a -> skipn (N.to_nat n) (a ++ b) = b.
Proof. intros ->. unfold len. rewrite Nat2N.id, skipn_app, skipn_all, Nat.sub_diag. reflexivity. Qed.

Lemma index_0 {A} (a : A) l : index (a :: l) 0 = Ok a.
Proof. reflexivity. Qed.
Lemma index_1 {A} (a b : A) l : index (a :: b :: l) 1 = Ok b.
Proof. reflexivity. Qed.

(** Lengths, with [len] seen through. *)
Ltac lens := unfold len in *; cbn [length app] in *; repeat rewrite app_length in *; cbn [length] in *; repeat rewrite app_length in *; lia.

(** One NextAbsolute on a stream with a known total. *)
Ltac nx :=
  match goal with
  | |- context[NextAbsolute ?n ?s] =>
      match goal with
      | H : total s = _ |- _ =>
          let s' := fresh "s" in let E := fresh "E" in let T := fresh "T" in let L := fresh "L" in
          destruct (NextAbsolute_spec n s) as (s' & E & T & L);
          [rewrite H; lens|]; rewrite E; clear E; cbn [bind]; rewrite H in T
      end
  end.
Ltac tot := match goal with H : total ?s = _ |- context[total ?s] => rewrite H end.
Ltac ix := rewrite index_total by lia; tot; rewrite ?index_0, ?index_1; cbn [bind].
(** [a] is what lies between offsets [len pre] and [len pre + len a]. *)
Ltac sl pre a rest :=
  rewrite slice_total by lia; tot;
  match goal with |- context[slice ?t _ _] => change t with (pre ++ a ++ rest) end;
  rewrite slice_app by lens; cbn [bind].
(** The stream after pruning [pre]. *)
Ltac pr pre rest :=
  rewrite Prune_total by lia; tot;
  match goal with |- skipn _ ?t = _ => replace t with (pre ++ rest) by (rewrite <- ?app_assoc; reflexivity) end;
  apply skipn_lenN; lens.

Lemma amount_decodes base kind m :
  In base [128; 132; 136] -> ma_channel m <> ControlChannel -> ma_amount m < 2 ^ 64 ->
  decodes (decode_amount kind) (encode_amount base m) (MsgAmount kind (ma_channel m) (ma_amount m)).
Proof.
  intros HB HC HA s rest T. unfold decode_amount, encode_amount in *.
  set (h := u8 (width_header base (GetWidthMax64Int (ma_amount m)))) in *.
  set (c := u8 (ChannelMaskStart 0 (ma_channel m))) in *.
  assert (Hc : DecodeChannelFromBeginningOfByte c = ma_channel m) by (unfold c; destruct (ma_channel m); try congruence; reflexivity).
  assert (Hw : CompactWidthFromEndOfByte h = GetWidthMax64Int (ma_amount m)).
  { unfold h. destruct HB as [ <- | [ <- | [ <- | [] ]]]; destruct (width64 (ma_amount m)) as [ -> | [ -> | [ -> | -> ]]]; reflexivity. }
  pose proof (width64 (ma_amount m)) as W.
  pose proof (EncodeIntMax64_len (ma_amount m)) as EL.
  pose proof (int64_or_zero_ok (ma_amount m) HA) as EZ.
  set (w := GetWidthMax64Int (ma_amount m)) in *. set (e := EncodeIntMax64 (ma_amount m)) in *.
  cbn [app] in T. clearbody h c w e.
  nx. ix. rewrite Hw. nx. ix.
  nx. sl [h; c] e rest. rewrite EZ, Hc.
  eexists. split; [reflexivity|]. pr ([h; c] ++ e) rest.
Qed.

Lemma channel_decodes base kind c :
  In base [144; 152] -> c <> ControlChannel ->
  decodes (decode_channel kind) [u8 (ChannelMaskEnd base c)] (MsgChannel kind c).
Proof.
  intros HB HC s rest T. unfold decode_channel. cbn [app] in T.
  assert (Hc : DecodeChannelFromEndOfByte (u8 (ChannelMaskEnd base c)) = c).
  { destruct HB as [ <- | [ <- | [] ]]; destruct c; try congruence; reflexivity. }
  set (h := u8 (ChannelMaskEnd base c)) in *. clearbody h.
  nx. ix. rewrite Hc. eexists. split; [reflexivity|]. pr [h] rest.
Qed.

Lemma free_decodes m : mf_handle m < 2 ^ 64 ->
  decodes DecodeControlFree (EncodeControlFree m) (MsgFree ControlFree (mf_handle m) true (mf_type m)).
Proof.
  intros HA s rest T. unfold DecodeControlFree, EncodeControlFree in *.
  set (h := u8 (width_header 140 (GetWidthMax64Int (mf_handle m)))) in *.
  match type of T with _ = ([_; ?x] ++ _) ++ _ => set (c := x) in * end.
  assert (Hc : DecodeHandleTypeFromBeginningOfByte c = mf_type m)
    by (unfold c; destruct (mf_mine m), (mf_type m); reflexivity).
  assert (Hw : CompactWidthFromEndOfByte h = GetWidthMax64Int (mf_handle m)).
  { unfold h. destruct (width64 (mf_handle m)) as [ -> | [ -> | [ -> | -> ]]]; reflexivity. }
  pose proof (width64 (mf_handle m)) as W.
  pose proof (EncodeIntMax64_len (mf_handle m)) as EL.
  pose proof (int64_or_zero_ok (mf_handle m) HA) as EZ.
  set (w := GetWidthMax64Int (mf_handle m)) in *. set (e := EncodeIntMax64 (mf_handle m)) in *.
  cbn [app] in T. clearbody h c w e.
  nx. ix. rewrite Hw. nx. ix.
  nx. sl [h; c] e rest. rewrite EZ, Hc.
  eexists. split; [reflexivity|]. pr ([h; c] ++ e) rest.
Qed.

Lemma fixed_codec_ok w b : len b = w -> codec_ok (fixed_codec w) b.
Proof.
  intros Hw s rest T. unfold fixed_codec in *. cbn [c_dec c_enc] in *. nx. sl (@nil N) b rest.
  eexists. split; [reflexivity|]. pr b rest.
Qed.

(** Decoders in sequence. *)
Lemma decodes_bind {A B} (d : stream -> res (A * stream)) (f : A -> stream -> res (B * stream)) b a b' c :
  decodes d b a -> decodes (f a) b' c -> decodes (fun s => do (x, s1) <- d s; f x s1) (b ++ b') c.
Proof.
  intros H1 H2 s rest T. rewrite <- app_assoc in T. destruct (H1 s (b' ++ rest) T) as (s1 & E1 & T1).
  destruct (H2 s1 rest T1) as (s2 & E2 & T2). exists s2. rewrite E1. cbn [bind]. auto.
Qed.
Lemma decodes_ret {A} (a : A) : decodes (fun s => Ok (a, s)) [] a.
Proof. intros s rest T. exists s. auto. Qed.

Lemma bind_fragment_decodes {G} (g : codec G) m : codec_ok g (mb_member m) ->
  decodes (DecodePaiBindFragment g) (EncodePaiBindFragment g m) m.
Proof.
  intros HG s rest T. unfold DecodePaiBindFragment, EncodePaiBindFragment in *.
  set (h := if mb_secondary m then 6 else 4) in *. rewrite <- app_assoc in T. cbn [app] in T.
  assert (Hh : (h =? 6) = mb_secondary m) by (unfold h; destruct (mb_secondary m); reflexivity). clearbody h.
  nx. ix. rewrite Hh.
  destruct (HG (Prune 1 s0) rest) as (s2 & -> & T2); [pr [h] (c_enc g (mb_member m) ++ rest)|].
  cbn [bind]. exists s2. split; auto. destruct m. reflexivity.
Qed.

(** ** Decoders that do not wait: all bytes have arrived *)
(** The three PAI decoders read the handle that the encoders should have written. *)
Lemma pai_handle_arrived base h rest sched : In base [8; 12; 16] -> h < 2 ^ 64 ->
  pai_handle (Stream ([width_header base (GetWidthMax64Int h)] ++ EncodeIntMax64 h ++ rest) [] sched)
    = Ok (h, Stream rest [] (tl sched)).
Proof.
  intros HB HH.
  assert (E : CompactWidthFromEndOfByte (width_header base (GetWidthMax64Int h)) = GetWidthMax64Int h).
  { destruct HB as [ <- | [ <- | [ <- | [] ]]]; destruct (width64 h) as [ -> | [ -> | [ -> | -> ]]]; reflexivity. }
  pose proof (width64 h) as W. pose proof (EncodeIntMax64_len h) as EL.
  pose proof (int64_or_zero_ok h HH) as EZ.
  set (b := width_header base _) in *. set (w := GetWidthMax64Int h) in *. set (e := EncodeIntMax64 h) in *.
  clearbody b w e. unfold pai_handle. rewrite NextAbsolute_all by lens. cbn [bind g_array app].
  rewrite index_0. cbn [bind]. rewrite E. change (b :: e ++ rest) with ([b] ++ e ++ rest).
  rewrite slice_app by lens. cbn [bind]. rewrite EZ. unfold Prune. cbn [g_array g_future g_sched].
  do 3 f_equal. rewrite app_assoc. apply skipn_lenN. lens.
Qed.

(** ** Setup *)
Lemma read_cap_decodes {K Sig} bits (enc_cap : K -> bytes) dec_cap (sg : codec Sig) m :
  ms_handle m < 2 ^ bits -> ms_handle m < 2 ^ 64 ->
  decodes dec_cap (enc_cap (ms_capability m)) (ms_capability m) -> codec_ok sg (ms_signature m) ->
  decodes (DecodeSetupBindReadCapability dec_cap sg) (EncodeSetupBindReadCapability bits enc_cap sg m) m.
Proof.
  intros HB HH HC HS s rest T. unfold DecodeSetupBindReadCapability, EncodeSetupBindReadCapability in *.
  rewrite (N.mod_small _ _ HB) in T.
  set (h := u8 _) in *.
  assert (Hw : CompactWidthFromEndOfByte h = GetWidthMax64Int (ms_handle m)).
  { unfold h. destruct (width64 (ms_handle m)) as [ -> | [ -> | [ -> | -> ]]]; reflexivity. }
  pose proof (width64 (ms_handle m)) as W. pose proof (EncodeIntMax64_len (ms_handle m)) as EL.
  pose proof (int64_or_zero_ok (ms_handle m) HH) as EZ.
  set (w := GetWidthMax64Int (ms_handle m)) in *. set (e := EncodeIntMax64 (ms_handle m)) in *.
  rewrite <- !app_assoc in T. cbn [app] in T. clearbody h w e.
  nx. ix. rewrite Hw. nx. sl [h] e (enc_cap (ms_capability m) ++ c_enc sg (ms_signature m) ++ rest).
  destruct (HC (Prune (1 + w) s1) (c_enc sg (ms_signature m) ++ rest)) as (s2 & -> & T2).
  { pr ([h] ++ e) (enc_cap (ms_capability m) ++ c_enc sg (ms_signature m) ++ rest). }
  cbn [bind]. destruct (HS s2 rest T2) as (s3 & -> & T3). cbn [bind]. exists s3. rewrite EZ.
  destruct m; auto.
Qed.

Lemma static_token_decodes {K} (t : codec K) token : codec_ok t token ->
  decodes (DecodeSetupBindStaticToken t) (EncodeSetupBindStaticToken t token) token.
Proof.
  intros H s rest T. unfold DecodeSetupBindStaticToken, EncodeSetupBindStaticToken in *.
  rewrite <- app_assoc in T. cbn [app] in T. nx.
  destruct (H (Prune 1 s0) rest) as (s2 & -> & T2); [pr [48] (c_enc t token ++ rest)|]. eauto.
Qed.

(** ** Data *)
Lemma set_eagerness_decodes m : mm_sender m < 2 ^ 64 -> mm_receiver m < 2 ^ 64 ->
  decodes DecodeDataSetEagerness (EncodeDataSetEagerness m) m.
Proof.
  intros HS HR s rest T. unfold DecodeDataSetEagerness, EncodeDataSetEagerness in *.
  cbv zeta in T.
  match type of T with _ = ([?x; ?y] ++ _) ++ _ => set (h := x) in *; set (c := y) in * end.
  assert (Hh : has h 2 = mm_eager m) by (unfold h; destruct (mm_eager m); reflexivity).
  assert (Hc : CompactWidthFromEndOfByte (N.shiftr c 6) = GetWidthMax64Int (mm_sender m)
    /\ CompactWidthFromEndOfByte (N.shiftr c 4) = GetWidthMax64Int (mm_receiver m)).
  { unfold c. destruct (width64 (mm_sender m)) as [ -> | [ -> | [ -> | -> ]]];
      destruct (width64 (mm_receiver m)) as [ -> | [ -> | [ -> | -> ]]]; split; reflexivity. }
  destruct Hc as [Hs Hr].
  pose proof (width64 (mm_sender m)) as Ws. pose proof (EncodeIntMax64_len (mm_sender m)) as ELs.
  pose proof (int64_or_zero_ok (mm_sender m) HS) as EZs.
  pose proof (width64 (mm_receiver m)) as Wr. pose proof (EncodeIntMax64_len (mm_receiver m)) as ELr.
  pose proof (int64_or_zero_ok (mm_receiver m) HR) as EZr.
  set (ws := GetWidthMax64Int (mm_sender m)) in *. set (es := EncodeIntMax64 (mm_sender m)) in *.
  set (wr := GetWidthMax64Int (mm_receiver m)) in *. set (er := EncodeIntMax64 (mm_receiver m)) in *.
  rewrite <- !app_assoc in T. cbn [app] in T. clearbody h c ws wr es er.
  nx. ix. ix. rewrite Hs, Hr. nx. sl [h; c] es (er ++ rest).
  rewrite slice_total by lia. tot. change (h :: c :: es ++ er ++ rest) with (([h; c] ++ es) ++ er ++ rest).
  rewrite slice_app by lens. cbn [bind]. rewrite EZs, EZr, Hh.
  eexists. split; [destruct m; reflexivity|]. pr ([h; c] ++ es ++ er) rest.
Qed.

Lemma reply_payload_decodes handle : handle < 2 ^ 64 ->
  decodes DecodeDataReplyPayload (EncodeDataReplyPayload handle) handle.
Proof.
  intros HH s rest T. unfold DecodeDataReplyPayload, EncodeDataReplyPayload in *.
  set (h := u8 _) in *.
  assert (Hw : CompactWidthFromEndOfByte h = GetWidthMax64Int handle).
  { unfold h. destruct (width64 handle) as [ -> | [ -> | [ -> | -> ]]]; reflexivity. }
  pose proof (width64 handle) as W. pose proof (EncodeIntMax64_len handle) as EL.
  pose proof (int64_or_zero_ok handle HH) as EZ.
  set (w := GetWidthMax64Int handle) in *. set (e := EncodeIntMax64 handle) in *.
  cbn [app] in T. clearbody h w e.
  nx. ix. rewrite Hw. nx. sl [h] e rest. rewrite EZ.
  eexists. split; [reflexivity|]. pr ([h] ++ e) rest.
Qed.

(** The payload of a DataSendPayload, when it has arrived with its header and
    nothing follows it. *)
Lemma data_send_payload_alone b sched : len b < 2 ^ 63 ->
  exists sched', DecodeDataSendPayload (Stream (EncodeDataSendPayload (MsgPayload (len b) b)) [] sched)
    = Ok (MsgPayload (len b) b, Stream [] [] sched').
Proof.
  intros HB. unfold DecodeDataSendPayload, EncodeDataSendPayload. cbn [my_amount my_bytes].
  set (h := u8 _) in *.
  assert (Hw : CompactWidthFromEndOfByte h = GetWidthMax64Int (len b)).
  { unfold h. destruct (width64 (len b)) as [ -> | [ -> | [ -> | -> ]]]; reflexivity. }
  pose proof (width64 (len b)) as W. pose proof (EncodeIntMax64_len (len b)) as EL.
  assert (EZ := int64_or_zero_ok (len b) ltac:(lia)).
  set (w := GetWidthMax64Int (len b)) in *. set (e := EncodeIntMax64 (len b)) in *.
  clearbody h w e. rewrite NextAbsolute_all by lens. cbn [bind app]. rewrite index_0. cbn [bind]. rewrite Hw.
  rewrite NextAbsolute_all by lens. cbn [bind].
  replace (h :: e ++ b) with ([h] ++ e ++ b) by reflexivity. rewrite slice_app by lens. cbn [bind].
  rewrite EZ. unfold as_int. rewrite (proj2 (N.ltb_lt _ _) HB). cbn [bind].
  replace ([h] ++ e ++ b) with (([h] ++ e) ++ b ++ []) by (rewrite app_nil_r, <- app_assoc; reflexivity).
  rewrite slice_app by lens. cbn [bind]. unfold Prune. cbn [g_array g_future g_sched].
  eexists. do 3 f_equal. rewrite (skipn_all2 (([h] ++ e) ++ b ++ [])) by lens. apply skipn_nil.
Qed.

(** ** Reconciliation *)
Lemma reconciliation_send_payload_decodes bits b : len b < 2 ^ 63 -> len b < 2 ^ bits ->
  decodes DecodeReconciliationSendPayload (EncodeReconciliationSendPayload bits (MsgPayload (len b) b))
    (MsgPayload (len b) b).
Proof.
  intros HB Hb s rest T. unfold DecodeReconciliationSendPayload, EncodeReconciliationSendPayload in *.
  cbn [my_amount my_bytes] in T. rewrite (N.mod_small _ _ Hb) in T. cbv zeta in T.
  set (h := u8 _) in *.
  assert (Hw : CompactWidthFromEndOfByte h = GetWidthMax64Int (len b)).
  { unfold h. destruct (width64 (len b)) as [ -> | [ -> | [ -> | -> ]]]; reflexivity. }
  pose proof (width64 (len b)) as W. pose proof (EncodeIntMax64_len (len b)) as EL.
  assert (EZ := int64_or_zero_ok (len b) ltac:(lia)).
  set (w := GetWidthMax64Int (len b)) in *. set (e := EncodeIntMax64 (len b)) in *.
  rewrite <- !app_assoc in T. cbn [app] in T. clearbody h w e.
  nx. ix. rewrite Hw. nx. sl [h] e (b ++ rest). rewrite EZ. unfold as_int.
  rewrite (proj2 (N.ltb_lt _ _) HB). cbn [bind].
  assert (T2 : total (Prune (1 + w) s1) = b ++ rest) by (pr ([h] ++ e) (b ++ rest)).
  nx. sl (@nil N) b rest. eexists. split; [reflexivity|]. pr b rest.
Qed.
