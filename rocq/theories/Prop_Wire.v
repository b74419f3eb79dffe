(** C41, C43, C54, C60: message codecs without entries, areas and ranges, and
    their header helpers. *)
From Verif Require Import Base M_Encoding M_Stream M_Wire S_Wire P_Encoding P_Stream P_Wire.
Local Open Scope N_scope.

(** Checking all numbers below a bound. *)
Definition all_below (n : nat) (f : N -> bool) : bool := forallb f (map N.of_nat (seq 0 n)).
Lemma all_below_spec n f : all_below n f = true -> forall x, x < N.of_nat n -> f x = true.
Proof.
  intros H x Hx. unfold all_below in H. rewrite forallb_forall in H. apply H.
  apply in_map_iff. exists (N.to_nat x). rewrite N2Nat.id. split; auto. apply in_seq. lia.
Qed.

(** * C60 *)

(** The header [b] has clear low bits; the two low bits of the result give the
    width, the others are those of [b]. *)
Theorem C60_compact_width : forall b w, b < 256 -> b mod 4 = 0 -> In w [1; 2; 4; 8] ->
  CompactWidthFromEndOfByte (CompactWidthOr b w) = w
  /\ CompactWidthOr b w / 4 = b / 4
  /\ CompactWidthOr b w < 256.
Proof.
  intros b w Hb Hm Hw.
  assert (H : all_below 256 (fun b => negb (b mod 4 =? 0) ||
    forallb (fun w => (CompactWidthFromEndOfByte (CompactWidthOr b w) =? w)
      && (CompactWidthOr b w / 4 =? b / 4) && (CompactWidthOr b w <? 256)) [1; 2; 4; 8]) = true)
    by (vm_compute; reflexivity).
  apply all_below_spec with (x := b) in H; [|assumption].
  rewrite Hm, N.eqb_refl in H. cbn [negb orb] in H. rewrite forallb_forall in H. specialize (H w Hw).
  apply andb_true_iff in H. destruct H as [H H3]. apply andb_true_iff in H. destruct H as [H1 H2].
  apply N.eqb_eq in H1, H2. apply N.ltb_lt in H3. auto.
Qed.

(** The width read back is also right for bytes beyond 256 (an int header). *)
Theorem C60_compact_width_any : forall b w, b mod 4 = 0 -> In w [1; 2; 4; 8] ->
  CompactWidthFromEndOfByte (CompactWidthOr b w) = w /\ CompactWidthOr b w = b + N.log2 w.
Proof.
  intros b w Hm Hw.
  assert (E : CompactWidthOr b w = b + CompactWidthEndMasks w /\ N.land (CompactWidthOr b w) 3 = CompactWidthEndMasks w).
  { assert (HM : CompactWidthEndMasks w < 4) by (destruct Hw as [ <- | [ <- | [ <- | [ <- | [] ]]]]; cbn; lia).
    assert (HL : N.land b (CompactWidthEndMasks w) = 0).
    { apply N.bits_inj. intros i. rewrite N.land_spec, N.bits_0.
      destruct (N.lt_ge_cases i 2).
      - assert (N.testbit b i = false).
        { rewrite <- (N.mod_pow2_bits_low b 2) by auto. change (2 ^ 2) with 4. rewrite Hm. apply N.bits_0. }
        rewrite H0. reflexivity.
      - assert (N.testbit (CompactWidthEndMasks w) i = false).
        { rewrite <- (N.mod_small _ _ HM). change 4 with (2 ^ 2). apply N.mod_pow2_bits_high. auto. }
        rewrite H0. apply andb_false_r. }
    split.
    - unfold CompactWidthOr. rewrite <- N.lxor_lor by auto. symmetry. apply N.add_nocarry_lxor. auto.
    - change 3 with (N.ones 2). rewrite N.land_ones. unfold CompactWidthOr. change (2 ^ 2) with 4.
      rewrite <- N.lxor_lor, <- N.add_nocarry_lxor by auto.
      rewrite N.add_mod, Hm, N.add_0_l, N.mod_mod, N.mod_small by (auto; lia). reflexivity. }
  destruct E as [E1 E2]. split.
  - unfold CompactWidthFromEndOfByte, has.
    assert (L2 : N.land (CompactWidthOr b w) 2 = N.land (CompactWidthEndMasks w) 2)
      by (rewrite <- E2, <- N.land_assoc; reflexivity).
    assert (L1 : N.land (CompactWidthOr b w) 1 = N.land (CompactWidthEndMasks w) 1)
      by (rewrite <- E2, <- N.land_assoc; reflexivity).
    rewrite E2, L2, L1. destruct Hw as [ <- | [ <- | [ <- | [ <- | [] ]]]]; reflexivity.
  - rewrite E1. destruct Hw as [ <- | [ <- | [ <- | [ <- | [] ]]]]; reflexivity.
Qed.

Example C60_instance : CompactWidthFromEndOfByte (CompactWidthOr 100 4) = 4 /\ CompactWidthOr 100 4 = 102.
Proof. split; reflexivity. Qed.

(** * C54 *)

(** The codes of the logical channels and of the handle types. *)
Definition channel_code (c : channel) : option N :=
  match c with
  | ReconciliationChannel => Some 0 | DataChannel => Some 1 | IntersectionChannel => Some 2
  | CapabilityChannel => Some 3 | AreaOfInterestChannel => Some 4 | PayloadRequestChannel => Some 5
  | StaticTokenChannel => Some 6 | ControlChannel => None
  end.
Definition handle_code (t : handle_type) : N :=
  match t with
  | IntersectionHandle => 0 | CapabilityHandle => 1 | AreaOfInterestHandle => 2
  | PayloadRequestHandle => 3 | StaticTokenHandle => 4
  end.

(** In the first three bits of a byte whose other bits are [b], and in the last
    three bits of a byte whose other bits are those of [8 * b]: the code is
    there, the other bits are unchanged, and decoding gives the channel back. *)
Theorem C54_codes_partial :
  (forall c code b, channel_code c = Some code -> b < 32 ->
     ChannelMaskStart b c = 32 * code + b /\ DecodeChannelFromBeginningOfByte (ChannelMaskStart b c) = c
     /\ ChannelMaskEnd (8 * b) c = 8 * b + code /\ DecodeChannelFromEndOfByte (ChannelMaskEnd (8 * b) c) = c)
  /\ (forall t b, b < 32 ->
     HandleMask b t = 32 * handle_code t + b /\ DecodeHandleTypeFromBeginningOfByte (HandleMask b t) = t)
  /\ (forall c c' code, channel_code c = Some code -> channel_code c' = Some code -> c = c')
  /\ (forall t t', handle_code t = handle_code t' -> t = t').
Proof.
  split; [|split; [|split]].
  - intros c code b HC Hb.
    assert (H : all_below 32 (fun b => (ChannelMaskStart b c =? 32 * code + b) && (ChannelMaskEnd (8 * b) c =? 8 * b + code)) = true
      /\ all_below 32 (fun b => match channel_code (DecodeChannelFromBeginningOfByte (ChannelMaskStart b c)) with Some x => x =? code | None => false end
           && match channel_code (DecodeChannelFromEndOfByte (ChannelMaskEnd (8 * b) c)) with Some x => x =? code | None => false end) = true).
    { destruct c; try discriminate; injection HC as <-; split; vm_compute; reflexivity. }
    destruct H as [H1 H2].
    apply all_below_spec with (x := b) in H1; [|assumption]. apply all_below_spec with (x := b) in H2; [|assumption].
    apply andb_true_iff in H1, H2. destruct H1 as [H1 H1'], H2 as [H2 H2']. apply N.eqb_eq in H1, H1'.
    repeat split; auto.
    + destruct (DecodeChannelFromBeginningOfByte (ChannelMaskStart b c)), c; try discriminate HC; injection HC as <-; try discriminate H2; reflexivity.
    + destruct (DecodeChannelFromEndOfByte (ChannelMaskEnd (8 * b) c)), c; try discriminate HC; injection HC as <-; try discriminate H2'; reflexivity.
  - intros t b Hb.
    assert (H : all_below 32 (fun b => (HandleMask b t =? 32 * handle_code t + b)
      && (handle_code (DecodeHandleTypeFromBeginningOfByte (HandleMask b t)) =? handle_code t)) = true)
      by (destruct t; vm_compute; reflexivity).
    apply all_below_spec with (x := b) in H; [|assumption]. apply andb_true_iff in H. destruct H as [H1 H2].
    apply N.eqb_eq in H1, H2. split; auto.
    destruct (DecodeHandleTypeFromBeginningOfByte (HandleMask b t)), t; try discriminate H2; reflexivity.
  - intros c c' code H H'. rewrite <- H' in H. destruct c, c'; try reflexivity; try discriminate.
  - intros t t'. destruct t, t'; try reflexivity; discriminate.
Qed.

Example C54_instance : ChannelMaskStart 5 PayloadRequestChannel = 165
  /\ DecodeChannelFromBeginningOfByte 165 = PayloadRequestChannel.
Proof. split; reflexivity. Qed.

(** The control channel, which is a value of the same type, gets the code of the
    reconciliation channel. *)
Theorem C54_control_channel_refuted : exists c c', c <> c'
  /\ ChannelMaskStart 0 c = ChannelMaskStart 0 c' /\ ChannelMaskEnd 0 c = ChannelMaskEnd 0 c'
  /\ DecodeChannelFromBeginningOfByte (ChannelMaskStart 0 c) <> c.
Proof. exists ControlChannel, ReconciliationChannel. repeat split; discriminate. Qed.

(** * C41 *)

(** A control message as the caller sees it: what it says, on which channel. *)
Definition logical (c : channel) : Prop := c <> ControlChannel.

(** Absolve, plead, announce dropping and apologise round trip for every
    channel other than the control channel, every amount, all following bytes
    and all ways in which the bytes arrive; issue guarantee keeps channel and
    amount; free keeps handle and type, and the owner flag when it is set. *)
Theorem C41_control_partial :
  (forall c a, logical c -> a < 2 ^ 64 ->
     decodes DecodeControlAbsolve (EncodeControlAbsolve (MsgAmount ControlAbsolve c a)) (MsgAmount ControlAbsolve c a))
  /\ (forall c a, logical c -> a < 2 ^ 64 ->
     decodes DecodeControlPlead (EncodeControlPlead (MsgAmount ControlPlead c a)) (MsgAmount ControlPlead c a))
  /\ (forall c, logical c ->
     decodes DecodeControlAnnounceDropping (EncodeControlAnnounceDropping (MsgChannel ControlAnnounceDropping c))
       (MsgChannel ControlAnnounceDropping c))
  /\ (forall c, logical c ->
     decodes DecodeControlApologise (EncodeControlApologise (MsgChannel ControlApologise c)) (MsgChannel ControlApologise c))
  /\ (forall c a, logical c -> a < 2 ^ 64 -> exists k,
     decodes DecodeControlIssueGuarantee (EncodeControlIssueGuarantee (MsgAmount ControlIssueGuarantee c a)) (MsgAmount k c a))
  /\ (forall h t, h < 2 ^ 64 ->
     decodes DecodeControlFree (EncodeControlFree (MsgFree ControlFree h true t)) (MsgFree ControlFree h true t)).
Proof.
  repeat split.
  - intros c a HC HA. apply (amount_decodes 132 ControlAbsolve (MsgAmount ControlAbsolve c a)); cbn; auto.
  - intros c a HC HA. apply (amount_decodes 136 ControlPlead (MsgAmount ControlPlead c a)); cbn; auto.
  - intros c HC. apply channel_decodes; cbn; auto.
  - intros c HC. apply channel_decodes; cbn; auto.
  - intros c a HC HA. exists ControlAbsolve.
    apply (amount_decodes 128 ControlAbsolve (MsgAmount ControlIssueGuarantee c a)); cbn; auto.
  - intros h t HH. apply (free_decodes (MsgFree ControlFree h true t)); auto.
Qed.

(** One byte arrives at a time, three bytes follow. *)
Example C41_instance :
  DecodeControlPlead (Stream [] (EncodeControlPlead (MsgAmount ControlPlead CapabilityChannel 70000) ++ [1; 2; 3]) [])
  = Ok (MsgAmount ControlPlead CapabilityChannel 70000, Stream [] [1; 2; 3] []).
Proof. vm_compute. reflexivity. Qed.

(** The six control messages as one type, and their bytes. *)
Inductive control :=
| CGuarantee (c : channel) (a : N) | CAbsolve (c : channel) (a : N) | CPlead (c : channel) (a : N)
| CDropping (c : channel) | CApologise (c : channel) | CFree (h : N) (mine : bool) (t : handle_type).
Definition control_bytes (m : control) : bytes :=
  match m with
  | CGuarantee c a => EncodeControlIssueGuarantee (MsgAmount ControlIssueGuarantee c a)
  | CAbsolve c a => EncodeControlAbsolve (MsgAmount ControlAbsolve c a)
  | CPlead c a => EncodeControlPlead (MsgAmount ControlPlead c a)
  | CDropping c => EncodeControlAnnounceDropping (MsgChannel ControlAnnounceDropping c)
  | CApologise c => EncodeControlApologise (MsgChannel ControlApologise c)
  | CFree h mine t => EncodeControlFree (MsgFree ControlFree h mine t)
  end.
Definition control_fits (m : control) : Prop :=
  match m with
  | CGuarantee c a | CAbsolve c a | CPlead c a => logical c /\ a < 2 ^ 64
  | CDropping c | CApologise c => logical c
  | CFree h _ _ => h < 2 ^ 64
  end.

Lemma app_inj_len {A} (a a' r r' : list A) : length a = length a' -> a ++ r = a' ++ r' -> a = a' /\ r = r'.
Proof. revert a'. induction a; destruct a'; cbn; intros HL E; try discriminate; auto.
  injection E as -> E. apply IHa in E; [|lia]. destruct E; subst; auto. Qed.

Lemma cons_inj {A} (x y : A) l l' : x :: l = y :: l' -> x = y /\ l = l'.
Proof. intros E. injection E. auto. Qed.

Lemma amount_bytes_inj a a' r r' : a < 2 ^ 64 -> a' < 2 ^ 64 -> GetWidthMax64Int a = GetWidthMax64Int a' ->
  EncodeIntMax64 a ++ r = EncodeIntMax64 a' ++ r' -> a = a' /\ r = r'.
Proof.
  intros Ha Ha' HW E.
  assert (HL : length (EncodeIntMax64 a) = length (EncodeIntMax64 a'))
    by (pose proof (EncodeIntMax64_len a); pose proof (EncodeIntMax64_len a'); unfold len in *; lia).
  apply app_inj_len in E; [|exact HL]. destruct E as [E ->]. split; [|reflexivity].
  pose proof (EncodeIntMax64_roundtrip a Ha) as R. rewrite E, EncodeIntMax64_roundtrip in R by auto. congruence.
Qed.

Lemma width_cases a : In (GetWidthMax64Int a) [1; 2; 4; 8].
Proof. unfold GetWidthMax64Int. repeat destruct (_ <? _); cbn; auto. Qed.

Lemma header_inj b b' a a' : In b [128; 132; 136; 140] -> In b' [128; 132; 136; 140] ->
  u8 (width_header b (GetWidthMax64Int a)) = u8 (width_header b' (GetWidthMax64Int a')) ->
  b = b' /\ GetWidthMax64Int a = GetWidthMax64Int a'.
Proof.
  intros Hb Hb'. pose proof (width_cases a) as Hw. pose proof (width_cases a') as Hw'.
  cbn in Hb, Hb', Hw, Hw'.
  destruct Hb as [ <- |[ <- |[ <- |[ <- |[]]]]]; destruct Hb' as [ <- |[ <- |[ <- |[ <- |[]]]]];
  destruct Hw as [ <- |[ <- |[ <- |[ <- |[]]]]]; destruct Hw' as [ <- |[ <- |[ <- |[ <- |[]]]]];
  vm_compute; intros E; try discriminate E; auto.
Qed.

Lemma header_channel b x a c : In b [128; 132; 136; 140] -> In x [144; 152] ->
  u8 (width_header b (GetWidthMax64Int a)) <> u8 (ChannelMaskEnd x c).
Proof.
  intros Hb Hx. pose proof (width_cases a) as Hw. cbn in Hb, Hx, Hw.
  destruct Hb as [ <- |[ <- |[ <- |[ <- |[]]]]]; destruct Hx as [ <- |[ <- |[]]];
  destruct Hw as [ <- |[ <- |[ <- |[ <- |[]]]]]; destruct c; vm_compute; discriminate.
Qed.

Lemma channel_start_inj c c' : logical c -> logical c' ->
  u8 (ChannelMaskStart 0 c) = u8 (ChannelMaskStart 0 c') -> c = c'.
Proof.
  unfold logical. destruct c, c'; vm_compute; intros F F' E; try discriminate E; auto; exfalso; auto.
Qed.

(** Bytes determine the message, even when anything follows: what the decoders
    drop (kind of a guarantee, owner of a freed handle) has been sent. *)
Theorem C41_bytes_distinct : forall m m' r r', control_fits m -> control_fits m' ->
  control_bytes m ++ r = control_bytes m' ++ r' -> m = m' /\ r = r'.
Proof.
  intros m m' r r' F F' E.
  destruct m as [c a|c a|c a|c|c|h mi t]; destruct m' as [c' a'|c' a'|c' a'|c'|c'|h' mi' t']; cbn [control_fits] in F, F';
    cbn [control_bytes EncodeControlAnnounceDropping EncodeControlApologise mc_channel app] in E;
    unfold EncodeControlIssueGuarantee, EncodeControlAbsolve, EncodeControlPlead, EncodeControlFree, encode_amount in E;
    cbn [ma_amount ma_channel mf_handle mf_mine mf_type app] in E; apply cons_inj in E; destruct E as [E0 E1].
  all: try (apply header_inj in E0; [destruct E0 as [E0 HW]|cbn; auto|cbn; auto]; try discriminate E0).
  all: try (exfalso; revert E0; apply header_channel; cbn; auto; fail).
  all: try (exfalso; symmetry in E0; revert E0; apply header_channel; cbn; auto; fail).
  1-3: apply cons_inj in E1; destruct E1 as [E1 E2]; apply channel_start_inj in E1; [|tauto|tauto]; subst c';
       apply amount_bytes_inj in E2; [destruct E2; subst; auto|tauto|tauto|exact HW].
  1-4: destruct c, c'; cbn in E0; try discriminate E0; try (exfalso; apply F; reflexivity);
       try (exfalso; apply F'; reflexivity); subst; auto.
  apply cons_inj in E1. destruct E1 as [E1 E2]. apply amount_bytes_inj in E2; [|assumption|assumption|exact HW]. destruct E2; subst.
  split; [|reflexivity]. destruct mi, mi', t, t'; cbn in E1; try discriminate E1; reflexivity.
Qed.

Example C41_bytes_distinct_instance :
  control_fits (CFree 700 false PayloadRequestHandle) /\ control_fits (CFree 700 true PayloadRequestHandle)
  /\ control_bytes (CFree 700 false PayloadRequestHandle) = [141; 96; 2; 188]
  /\ control_bytes (CFree 700 true PayloadRequestHandle) = [141; 112; 2; 188].
Proof. repeat split; vm_compute; reflexivity. Qed.

(** A guarantee arrives as an absolution; a free message about the receiver's
    handle arrives as one about the sender's; the control channel is lost. *)
Theorem C41_control_refuted :
  (exists m rest s, ma_kind m = ControlIssueGuarantee /\ total s = EncodeControlIssueGuarantee m ++ rest
     /\ exists m' s', DecodeControlIssueGuarantee s = Ok (m', s') /\ ma_kind m' = ControlAbsolve)
  /\ (exists m s, mf_mine m = false /\ total s = EncodeControlFree m
     /\ exists m' s', DecodeControlFree s = Ok (m', s') /\ mf_mine m' = true)
  /\ (exists m s, ma_channel m = ControlChannel /\ total s = EncodeControlAbsolve m
     /\ exists m' s', DecodeControlAbsolve s = Ok (m', s') /\ ma_channel m' = ReconciliationChannel).
Proof.
  split; [|split].
  - exists (MsgAmount ControlIssueGuarantee DataChannel 7), [9], (Stream [128; 32; 7; 9] [] []).
    repeat split. eexists. eexists. split; [vm_compute; reflexivity|reflexivity].
  - exists (MsgFree ControlFree 7 false CapabilityHandle), (Stream [140; 32; 7] [] []).
    repeat split. eexists. eexists. split; [vm_compute; reflexivity|reflexivity].
  - exists (MsgAmount ControlAbsolve ControlChannel 7), (Stream [132; 0; 7] [] []).
    repeat split. eexists. eexists. split; [vm_compute; reflexivity|reflexivity].
Qed.

(** * C43 *)

(** The bytes that a message with handle [h] should have: header with the width
    of the handle, the handle, and the rest of the message. *)
Definition handle_message (base h : N) (body : bytes) : bytes :=
  [width_header base (GetWidthMax64Int h)] ++ EncodeIntMax64 h ++ body.

(** Bind fragments round trip always. The other three decoders return the handle
    and the scheme values of well-formed messages that have arrived entirely,
    and the encoders write well-formed messages only when the handle is 1. *)
Theorem C43_pai_partial : forall (G K Sig : Type) (g : codec G) (k : codec K) (sg : codec Sig),
  (forall m, codec_ok g (mb_member m) -> decodes (DecodePaiBindFragment g) (EncodePaiBindFragment g m) m)
  /\ (forall h m rest sched, h < 2 ^ 64 -> codec_ok g m -> exists s',
       DecodePaiReplyFragment g (Stream (handle_message 8 h (c_enc g m ++ rest)) [] sched) = Ok (MsgReply h m, s')
       /\ total s' = rest)
  /\ (forall h rest sched, h < 2 ^ 64 -> exists s',
       DecodePaiRequestSubspaceCapability (Stream (handle_message 12 h rest) [] sched) = Ok (MsgRequest h, s')
       /\ total s' = rest)
  /\ (forall h c s rest sched, h < 2 ^ 64 -> codec_ok k c -> codec_ok sg s -> exists s',
       DecodePaiReplySubspaceCapability k sg (Stream (handle_message 16 h (c_enc k c ++ c_enc sg s ++ rest)) [] sched)
         = Ok (MsgCapability h c s, s')
       /\ total s' = rest)
  /\ (forall m, EncodePaiReplyFragment g (MsgReply 1 m) = handle_message 8 1 (c_enc g m))
  /\ EncodePaiRequestSubspaceCapability (MsgRequest 1) = handle_message 12 1 []
  /\ (forall c s, EncodePaiReplySubspaceCapability k sg (MsgCapability 1 c s) = handle_message 16 1 (c_enc k c ++ c_enc sg s)).
Proof.
  intros G K Sig g k sg. repeat split; try reflexivity.
  - intros. apply bind_fragment_decodes. auto.
  - intros h m rest sched HH HG. unfold DecodePaiReplyFragment, handle_message.
    rewrite pai_handle_arrived by (cbn; auto). cbn [bind].
    destruct (HG (Stream (c_enc g m ++ rest) [] (tl sched)) rest) as (s' & -> & T); [apply app_nil_r|].
    cbn [bind]. eauto.
  - intros h rest sched HH. unfold DecodePaiRequestSubspaceCapability, handle_message.
    rewrite pai_handle_arrived by (cbn; auto). cbn [bind]. eexists. split; [reflexivity|apply app_nil_r].
  - intros h c s rest sched HH HK HS. unfold DecodePaiReplySubspaceCapability, handle_message.
    rewrite pai_handle_arrived by (cbn; auto). cbn [bind].
    destruct (HK (Stream (c_enc k c ++ c_enc sg s ++ rest) [] (tl sched)) (c_enc sg s ++ rest)) as (s1 & -> & T); [apply app_nil_r|].
    cbn [bind]. destruct (HS s1 rest T) as (s2 & -> & T2). cbn [bind]. eauto.
Qed.

Example C43_instance :
  codec_ok (fixed_codec 2) [5; 6]
  /\ DecodePaiBindFragment (fixed_codec 2) (Stream [] (EncodePaiBindFragment (fixed_codec 2) (MsgBind [5; 6] true) ++ [9]) [])
  = Ok (MsgBind [5; 6] true, Stream [] [9] []).
Proof. split; [apply fixed_codec_ok; reflexivity|vm_compute; reflexivity]. Qed.

(** Handle 2 is decoded as handle 1; when the header arrives alone the decoder
    panics; a handle from 256 on swallows the bytes that follow. *)
Theorem C43_pai_refuted :
  (exists s s', total s = EncodePaiRequestSubspaceCapability (MsgRequest 2)
     /\ DecodePaiRequestSubspaceCapability s = Ok (MsgRequest 1, s'))
  /\ (exists s, total s = EncodePaiRequestSubspaceCapability (MsgRequest 1)
     /\ DecodePaiRequestSubspaceCapability s = Panic)
  /\ (exists s s', total s = EncodePaiReplyFragment (fixed_codec 1) (MsgReply 300 [7]) ++ [9]
     /\ DecodePaiReplyFragment (fixed_codec 1) s = Ok (MsgReply 519 [9], s')).
Proof.
  split; [|split].
  - exists (Stream [12; 1] [] []). eexists. split; [reflexivity|vm_compute; reflexivity].
  - exists (Stream [] [12; 1] []). split; [reflexivity|vm_compute; reflexivity].
  - exists (Stream [9; 2; 7; 9] [] []). eexists. split; [reflexivity|vm_compute; reflexivity].
Qed.

(** The commitment reveal message is the nonce alone; its decoder drops the first
    byte of the nonce as a header and takes one byte of what follows, or waits
    forever. *)
Theorem C43_commitment_refuted :
  (exists nonce next s s', len nonce = 4 /\ total s = EncodeCommitmentReveal nonce ++ next
     /\ DecodeCommitmentReveal 4 s = Ok ([2; 3; 4; 9], s') /\ nonce <> [2; 3; 4; 9])
  /\ (forall nonce s, total s = EncodeCommitmentReveal nonce -> DecodeCommitmentReveal (len nonce) s = Hang).
Proof.
  split.
  - exists [1; 2; 3; 4], [9], (Stream [1; 2; 3; 4; 9] [] []). eexists.
    repeat split. discriminate.
  - intros nonce s T. unfold DecodeCommitmentReveal, EncodeCommitmentReveal in *.
    assert (H : NextAbsolute (1 + len nonce) s = Hang); [|rewrite H; reflexivity].
    unfold NextAbsolute. destruct (match g_sched s with [] => (O, O) | x :: _ => x end) as [b a].
    set (s1 := arrive b _). assert (T1 : total s1 = nonce) by (unfold s1; rewrite total_arrive; auto).
    assert (HL : len (g_array s1) + len (g_future s1) = len nonce).
    { rewrite <- T1. unfold total. lens. }
    destruct (N.leb_spec (1 + len nonce) (len (g_array s1))); [lia|].
    destruct (N.ltb_spec (len (g_array s1) + len (g_future s1)) (1 + len nonce)); [reflexivity|lia].
Qed.

Print Assumptions C60_compact_width.
Print Assumptions C60_compact_width_any.
Print Assumptions C54_codes_partial.
Print Assumptions C54_control_channel_refuted.
Print Assumptions C41_control_partial.
Print Assumptions C41_bytes_distinct.
Print Assumptions C41_control_refuted.
Print Assumptions C43_pai_partial.
Print Assumptions C43_pai_refuted.
Print Assumptions C43_commitment_refuted.
