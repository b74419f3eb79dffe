(** C76: what the message decoders make of any bytes, arriving in any pieces. *)
From Verif Require Import Base M_Order M_Encoding M_Paths M_Ranges M_Areas M_Entry M_Stream M_Wire M_Rel M_Wire2
  S_Wire P_Encoding P_Paths P_Stream P_Wire Prop_Malformed.
Local Open Scope N_scope.

(** ** What is on the wire *)

(** A reading of bytes: the value and the bytes behind it; None: there are not enough bytes. *)
Definition reading (A : Type) := bytes -> option (A * bytes).
(** [w] bytes. *)
Definition piece (w : N) : reading bytes :=
  fun c => if len c <? w then None else Some (firstn (N.to_nat w) c, skipn (N.to_nat w) c).
(** A number in [w] bytes, the most significant first. *)
Definition number (w : N) : reading N :=
  fun c => match piece w c with Some (b, r) => Some (be_decode b, r) | None => None end.

(** The decoder waits until all bytes of the reading are there, then returns its value and leaves the bytes behind it. *)
Definition reads {A} (d : stream -> res (A * stream)) (g : reading A) : Prop :=
  forall s, wf_bytes (total s) ->
  match g (total s) with
  | Some (a, rest) => exists s', d s = Ok (a, s') /\ total s' = rest
  | None => d s = Hang
  end.

(** ** Reading from a stream *)

Lemma Next n s : (len (total s) < n /\ NextAbsolute n s = Hang)
  \/ (n <= len (total s) /\ exists s', NextAbsolute n s = Ok (g_array s', s') /\ total s' = total s /\ n <= len (g_array s')).
Proof.
  destruct (N.lt_ge_cases (len (total s)) n) as [L|L].
  - left. split; [exact L|]. unfold NextAbsolute. destruct (match g_sched s with [] => (O, O) | x :: _ => x end) as [b a].
    set (s1 := arrive b _).
    assert (T1 : total s1 = total s) by (unfold s1; rewrite total_arrive; reflexivity).
    assert (HL : len (g_array s1) + len (g_future s1) = len (total s)) by (rewrite <- T1; unfold total, len; rewrite app_length; lia).
    destruct (N.leb_spec n (len (g_array s1))); [lia|]. destruct (N.ltb_spec (len (g_array s1) + len (g_future s1)) n); [reflexivity|lia].
  - right. split; [exact L|]. apply NextAbsolute_spec. exact L.
Qed.

Lemma land3 h : N.land h 3 = h mod 4.
Proof. change 3 with (N.ones 2). rewrite N.land_ones. reflexivity. Qed.
Lemma has_low h m : m < 4 -> has h m = (N.land (h mod 4) m =? m).
Proof.
  intros L. unfold has. rewrite <- land3, <- N.land_assoc. f_equal. f_equal.
  assert (E : m = 0 \/ m = 1 \/ m = 2 \/ m = 3) by lia. destruct E as [-> | [-> | [-> | ->]]]; reflexivity.
Qed.
(** The two last bits of a byte say how many bytes a number has. *)
Lemma width_end h : CompactWidthFromEndOfByte h = 2 ^ (h mod 4).
Proof.
  unfold CompactWidthFromEndOfByte. rewrite !has_low by lia. pose proof (N.mod_lt h 4 ltac:(lia)) as L.
  assert (E : h mod 4 = 0 \/ h mod 4 = 1 \/ h mod 4 = 2 \/ h mod 4 = 3) by lia. destruct E as [-> | [-> | [-> | ->]]]; reflexivity.
Qed.
Lemma width_cases h : 2 ^ (h mod 4) = 1 \/ 2 ^ (h mod 4) = 2 \/ 2 ^ (h mod 4) = 4 \/ 2 ^ (h mod 4) = 8.
Proof.
  pose proof (N.mod_lt h 4 ltac:(lia)) as L.
  assert (E : h mod 4 = 0 \/ h mod 4 = 1 \/ h mod 4 = 2 \/ h mod 4 = 3) by lia. destruct E as [-> | [-> | [-> | ->]]]; auto.
Qed.
Lemma int64_width b h : len b = 2 ^ (h mod 4) -> DecodeIntMax64 b = Ok (be_decode b).
Proof. intros L. unfold DecodeIntMax64. rewrite L. destruct (width_cases h) as [-> | [-> | [-> | ->]]]; reflexivity. Qed.
Lemma int64_or_zero_width b h : len b = 2 ^ (h mod 4) -> int64_or_zero b = be_decode b.
Proof. intros L. unfold int64_or_zero. rewrite (int64_width b h L). reflexivity. Qed.


(** A slice of what has arrived is a part of the stream. *)
Lemma slice_part (s : stream) i w : i + w <= len (g_array s) ->
  slice (g_array s) i (i + w) = Ok (firstn (N.to_nat w) (skipn (N.to_nat i) (total s))).
Proof.
  intros L. rewrite slice_total by lia. unfold slice. rewrite !(proj2 (N.leb_le _ _)); cbn [andb].
  - replace (i + w - i) with w by lia. reflexivity.
  - unfold total, len in *. rewrite app_length. lia.
  - lia.
Qed.

Lemma skipn_cons2 {A} (a b : A) l n : skipn (N.to_nat (2 + n)) (a :: b :: l) = skipn (N.to_nat n) l.
Proof. replace (N.to_nat (2 + n)) with (S (S (N.to_nat n))) by lia. reflexivity. Qed.
Lemma skipn_cons1 {A} (a : A) l n : skipn (N.to_nat (1 + n)) (a :: l) = skipn (N.to_nat n) l.
Proof. replace (N.to_nat (1 + n)) with (S (N.to_nat n)) by lia. reflexivity. Qed.

(** ** Control messages *)

(** The channel in the first three bits of a byte, and in the last three. *)
Definition channels : list channel :=
  [ReconciliationChannel; DataChannel; IntersectionChannel; CapabilityChannel; AreaOfInterestChannel; PayloadRequestChannel;
   StaticTokenChannel; StaticTokenChannel].
Definition first_bits (b : N) : channel := nth (N.to_nat (b / 32)) channels ControlChannel.
Definition last_bits (b : N) : channel := nth (N.to_nat (b mod 8)) channels ControlChannel.
Definition handle_bits (b : N) : handle_type :=
  nth (N.to_nat (b / 32)) [IntersectionHandle; CapabilityHandle; AreaOfInterestHandle; PayloadRequestHandle] StaticTokenHandle.

Lemma all_bytes (P : N -> bool) : forallb P (map N.of_nat (seq 0 256)) = true -> forall b, b < 256 -> P b = true.
Proof.
  intros H b L. rewrite forallb_forall in H. apply H. apply in_map_iff. exists (N.to_nat b). split; [apply N2Nat.id|].
  apply in_seq. lia.
Qed.
Definition channel_eqb (a b : channel) : bool :=
  match a, b with
  | ControlChannel, ControlChannel | ReconciliationChannel, ReconciliationChannel | DataChannel, DataChannel
  | IntersectionChannel, IntersectionChannel | CapabilityChannel, CapabilityChannel | AreaOfInterestChannel, AreaOfInterestChannel
  | PayloadRequestChannel, PayloadRequestChannel | StaticTokenChannel, StaticTokenChannel => true
  | _, _ => false
  end.
Definition handle_eqb (a b : handle_type) : bool :=
  match a, b with
  | IntersectionHandle, IntersectionHandle | CapabilityHandle, CapabilityHandle | AreaOfInterestHandle, AreaOfInterestHandle
  | PayloadRequestHandle, PayloadRequestHandle | StaticTokenHandle, StaticTokenHandle => true
  | _, _ => false
  end.
Lemma first_bits_ok b : b < 256 -> DecodeChannelFromBeginningOfByte b = first_bits b.
Proof.
  intros L. assert (H : channel_eqb (DecodeChannelFromBeginningOfByte b) (first_bits b) = true).
  { revert b L. apply all_bytes. vm_compute. reflexivity. }
  destruct (DecodeChannelFromBeginningOfByte b), (first_bits b); try discriminate H; reflexivity.
Qed.
Lemma last_bits_ok b : b < 256 -> DecodeChannelFromEndOfByte b = last_bits b.
Proof.
  intros L. assert (H : channel_eqb (DecodeChannelFromEndOfByte b) (last_bits b) = true).
  { revert b L. apply all_bytes. vm_compute. reflexivity. }
  destruct (DecodeChannelFromEndOfByte b), (last_bits b); try discriminate H; reflexivity.
Qed.
Lemma handle_bits_ok b : b < 256 -> DecodeHandleTypeFromBeginningOfByte b = handle_bits b.
Proof.
  intros L. assert (H : handle_eqb (DecodeHandleTypeFromBeginningOfByte b) (handle_bits b) = true).
  { revert b L. apply all_bytes. vm_compute. reflexivity. }
  destruct (DecodeHandleTypeFromBeginningOfByte b), (handle_bits b); try discriminate H; reflexivity.
Qed.

(** Two bytes and a number. *)
Definition amount_reading (k : msg_kind) : reading msg_amount := fun c =>
  match c with
  | h :: b :: r => match number (2 ^ (h mod 4)) r with Some (x, rest) => Some (MsgAmount k (first_bits b) x, rest) | None => None end
  | _ => None
  end.
Definition channel_reading (k : msg_kind) : reading msg_channel := fun c =>
  match c with h :: rest => Some (MsgChannel k (last_bits h), rest) | [] => None end.
Definition free_reading : reading msg_free := fun c =>
  match c with
  | h :: b :: r => match number (2 ^ (h mod 4)) r with Some (x, rest) => Some (MsgFree ControlFree x true (handle_bits b), rest) | None => None end
  | _ => None
  end.

(** The first byte, the first two, and [i] bytes followed by a number. *)
Lemma next1 s : match total s with
  | [] => NextAbsolute 1 s = Hang
  | h :: c => exists s', NextAbsolute 1 s = Ok (g_array s', s') /\ index (g_array s') 0 = Ok h /\ total s' = h :: c /\ 1 <= len (g_array s')
  end.
Proof.
  destruct (Next 1 s) as [[L E]|(L & s' & E & T & A)]; destruct (total s) as [|h c] eqn:EC; auto.
  - rewrite len_cons in L. lia.
  - cbn in L. lia.
  - exists s'. split; [exact E|]. split; [|split; [exact T|exact A]]. rewrite index_total by lia. rewrite T. reflexivity.
Qed.
Lemma next2 s : match total s with
  | h :: b :: c => exists s', NextAbsolute 2 s = Ok (g_array s', s') /\ index (g_array s') 0 = Ok h /\ index (g_array s') 1 = Ok b
                     /\ total s' = h :: b :: c /\ 2 <= len (g_array s')
  | _ => NextAbsolute 2 s = Hang
  end.
Proof.
  destruct (Next 2 s) as [[L E]|(L & s' & E & T & A)]; destruct (total s) as [|h [|b c]] eqn:EC; auto.
  - rewrite !len_cons in L. lia.
  - cbn in L. lia.
  - rewrite len_cons in L. cbn in L. lia.
  - exists s'. split; [exact E|]. rewrite !index_total by lia. rewrite T. auto.
Qed.
Lemma next_number i h s : i <= len (total s) ->
  match number (2 ^ (h mod 4)) (skipn (N.to_nat i) (total s)) with
  | None => NextAbsolute (i + 2 ^ (h mod 4)) s = Hang
  | Some (x, rest) => exists s' b, NextAbsolute (i + 2 ^ (h mod 4)) s = Ok (g_array s', s') /\ slice (g_array s') i (i + 2 ^ (h mod 4)) = Ok b
      /\ len b = 2 ^ (h mod 4) /\ be_decode b = x /\ total s' = total s /\ i + 2 ^ (h mod 4) <= len (g_array s')
      /\ rest = skipn (N.to_nat (i + 2 ^ (h mod 4))) (total s) /\ total (Prune (i + 2 ^ (h mod 4)) s') = rest
  end.
Proof.
  intros LI. unfold number, piece. set (w := 2 ^ (h mod 4)).
  assert (LS : len (skipn (N.to_nat i) (total s)) = len (total s) - i) by (unfold len; rewrite skipn_length; lia). rewrite LS.
  destruct (Next (i + w) s) as [[L E]|(L & s' & E & T & A)]; destruct (N.ltb_spec (len (total s) - i) w); try lia; auto.
  exists s', (firstn (N.to_nat w) (skipn (N.to_nat i) (total s))). split; [exact E|]. rewrite slice_part by exact A. rewrite T.
  split; [reflexivity|]. split; [apply len_firstn; rewrite LS; lia|]. split; [reflexivity|]. split; [reflexivity|]. split; [exact A|].
  assert (R : skipn (N.to_nat w) (skipn (N.to_nat i) (total s)) = skipn (N.to_nat (i + w)) (total s)).
  { clear. replace (N.to_nat (i + w)) with (N.to_nat i + N.to_nat w)%nat by lia. generalize (N.to_nat i) (N.to_nat w) (total s).
    induction n as [|n IH]; intros m l; [reflexivity|]. destruct l; cbn [skipn Nat.add]; [apply skipn_nil|apply IH]. }
  split; [exact R|]. rewrite Prune_total by exact A. rewrite T. symmetry. exact R.
Qed.

(** A stream of bytes is cut into bytes. *)
Lemma wf_cons b c : wf_bytes (b :: c) -> b < 256 /\ wf_bytes c.
Proof. intros W. inversion W; auto. Qed.

Lemma amount_reads k : reads (decode_amount k) (amount_reading k).
Proof.
  intros s W. unfold decode_amount, amount_reading. pose proof (next1 s) as N1. destruct (total s) as [|h c] eqn:EC; [rewrite N1; reflexivity|].
  destruct N1 as (s1 & E1 & I1 & T1 & _). rewrite E1. cbn [bind]. rewrite I1. cbn [bind].
  pose proof (next2 s1) as N2. rewrite T1 in N2. destruct c as [|b c]; [rewrite N2; reflexivity|].
  destruct N2 as (s2 & E2 & _ & I2 & T2 & _). rewrite E2. cbn [bind]. rewrite I2. cbn [bind].
  apply wf_cons in W as [_ W]. apply wf_cons in W as [Wb _]. rewrite first_bits_ok by exact Wb. rewrite width_end.
  pose proof (next_number 2 h s2) as N3. rewrite T2 in N3. specialize (N3 ltac:(rewrite !len_cons; lia)). change (skipn (N.to_nat 2) (h :: b :: c)) with c in N3.
  destruct (number (2 ^ (h mod 4)) c) as [[x rest]|]; [|rewrite N3; reflexivity].
  destruct N3 as (s3 & a & E3 & S3 & La & Da & T3 & A3 & _ & R3). rewrite E3. cbn [bind]. rewrite S3. cbn [bind].
  eexists. rewrite (int64_or_zero_width a h La), Da. split; [reflexivity|exact R3].
Qed.

Lemma free_reads : reads DecodeControlFree free_reading.
Proof.
  intros s W. unfold DecodeControlFree, free_reading. pose proof (next1 s) as N1. destruct (total s) as [|h c] eqn:EC; [rewrite N1; reflexivity|].
  destruct N1 as (s1 & E1 & I1 & T1 & _). rewrite E1. cbn [bind]. rewrite I1. cbn [bind].
  pose proof (next2 s1) as N2. rewrite T1 in N2. destruct c as [|b c]; [rewrite N2; reflexivity|].
  destruct N2 as (s2 & E2 & _ & I2 & T2 & _). rewrite E2. cbn [bind]. rewrite I2. cbn [bind].
  apply wf_cons in W as [_ W]. apply wf_cons in W as [Wb _]. rewrite handle_bits_ok by exact Wb. rewrite width_end.
  pose proof (next_number 2 h s2) as N3. rewrite T2 in N3. specialize (N3 ltac:(rewrite !len_cons; lia)). change (skipn (N.to_nat 2) (h :: b :: c)) with c in N3.
  destruct (number (2 ^ (h mod 4)) c) as [[x rest]|]; [|rewrite N3; reflexivity].
  destruct N3 as (s3 & a & E3 & S3 & La & Da & T3 & A3 & _ & R3). rewrite E3. cbn [bind]. rewrite S3. cbn [bind].
  eexists. rewrite (int64_or_zero_width a h La), Da. split; [reflexivity|exact R3].
Qed.

Lemma channel_reads k : reads (decode_channel k) (channel_reading k).
Proof.
  intros s W. unfold decode_channel, channel_reading. pose proof (next1 s) as N1. destruct (total s) as [|h c] eqn:EC; [rewrite N1; reflexivity|].
  destruct N1 as (s1 & E1 & I1 & T1 & A1). rewrite E1. cbn [bind]. rewrite I1. cbn [bind].
  apply wf_cons in W as [Wh _]. rewrite last_bits_ok by exact Wh. eexists. split; [reflexivity|]. rewrite Prune_total, T1 by exact A1. reflexivity.
Qed.

Theorem C76_control :
  reads DecodeControlIssueGuarantee (amount_reading ControlAbsolve) /\ reads DecodeControlAbsolve (amount_reading ControlAbsolve)
  /\ reads DecodeControlPlead (amount_reading ControlPlead)
  /\ reads DecodeControlAnnounceDropping (channel_reading ControlAnnounceDropping)
  /\ reads DecodeControlApologise (channel_reading ControlApologise) /\ reads DecodeControlFree free_reading.
Proof.
  split; [exact (amount_reads ControlAbsolve)|]. split; [exact (amount_reads ControlAbsolve)|]. split; [exact (amount_reads ControlPlead)|].
  split; [exact (channel_reads ControlAnnounceDropping)|]. split; [exact (channel_reads ControlApologise)|exact free_reads].
Qed.

(** ** Data messages of numbers, payloads *)

(** The widths of the two numbers are in the first two bits and the two bits behind them of the second byte. *)
Definition metadata_reading : reading msg_metadata := fun c =>
  match c with
  | h :: b :: r =>
      match number (2 ^ (b / 64)) r with
      | Some (x, r1) => match number (2 ^ (b / 16 mod 4)) r1 with
                        | Some (y, rest) => Some (MsgMetadata (N.testbit h 1) x y, rest)
                        | None => None
                        end
      | None => None
      end
  | _ => None
  end.
Definition handle_reading : reading N := fun c =>
  match c with h :: r => number (2 ^ (h mod 4)) r | [] => None end.
(** A payload: a byte, its length, its bytes. *)
Definition payload_reading : reading msg_payload := fun c =>
  match c with
  | h :: r => match number (2 ^ (h mod 4)) r with
              | Some (n, r1) => match piece n r1 with Some (b, rest) => Some (MsgPayload n b, rest) | None => None end
              | None => None
              end
  | [] => None
  end.

Lemma number_head (h : N) (c : bytes) : skipn (N.to_nat 1) (h :: c) = c. Proof. reflexivity. Qed.

Theorem C76_reply_payload : reads DecodeDataReplyPayload handle_reading.
Proof.
  intros s W. unfold DecodeDataReplyPayload, handle_reading. pose proof (next1 s) as N1. destruct (total s) as [|h c] eqn:EC; [rewrite N1; reflexivity|].
  destruct N1 as (s1 & E1 & I1 & T1 & A1). rewrite E1. cbn [bind]. rewrite I1. cbn [bind]. rewrite width_end.
  pose proof (next_number 1 h s1) as N3. rewrite T1 in N3. specialize (N3 ltac:(rewrite !len_cons; lia)). rewrite number_head in N3.
  destruct (number (2 ^ (h mod 4)) c) as [[x rest]|]; [|rewrite N3; reflexivity].
  destruct N3 as (s3 & a & E3 & S3 & La & Da & T3 & A3 & _ & R3). rewrite E3. cbn [bind]. rewrite S3. cbn [bind].
  eexists. rewrite (int64_or_zero_width a h La), Da. split; [reflexivity|exact R3].
Qed.

(** A payload message: as long as its length is below 2^63 (else see below). *)
Theorem C76_reconciliation_payload s : wf_bytes (total s) ->
  match handle_reading (total s) with
  | None => DecodeReconciliationSendPayload s = Hang
  | Some (n, _) =>
      if n <? 2 ^ 63
      then match payload_reading (total s) with
           | Some (m, rest) => exists s', DecodeReconciliationSendPayload s = Ok (m, s') /\ total s' = rest
           | None => DecodeReconciliationSendPayload s = Hang
           end
      else DecodeReconciliationSendPayload s = Panic
  end.
Proof.
  intros W. unfold DecodeReconciliationSendPayload, payload_reading, handle_reading. pose proof (next1 s) as N1. destruct (total s) as [|h c] eqn:EC; [rewrite N1; reflexivity|].
  destruct N1 as (s1 & E1 & I1 & T1 & A1). rewrite E1. cbn [bind]. rewrite I1. cbn [bind]. rewrite width_end.
  pose proof (next_number 1 h s1) as N3. rewrite T1 in N3. specialize (N3 ltac:(rewrite !len_cons; lia)). rewrite number_head in N3.
  destruct (number (2 ^ (h mod 4)) c) as [[x rest]|]; [|rewrite N3; reflexivity].
  destruct N3 as (s3 & a & E3 & S3 & La & Da & T3 & A3 & _ & R3). rewrite E3. cbn [bind]. rewrite S3. cbn [bind].
  rewrite (int64_or_zero_width a h La), Da. unfold as_int. destruct (x <? 2 ^ 63); [cbn [bind]|reflexivity].
  set (s4 := Prune (1 + 2 ^ (h mod 4)) s3) in *. clearbody s4. subst rest. unfold piece.
  destruct (Next x s4) as [[L E]|(L & s5 & E & T & A)]; rewrite E; cbn [bind].
  - destruct (N.ltb_spec (len (total s4)) x); [reflexivity|lia].
  - destruct (N.ltb_spec (len (total s4)) x); [lia|]. change x with (0 + x) at 1. rewrite slice_part by (rewrite N.add_0_l; exact A). cbn [bind].
    rewrite T. eexists. split; [reflexivity|]. rewrite Prune_total, T by exact A. reflexivity.
Qed.

Lemma has_bit h i : has h (2 ^ i) = N.testbit h i.
Proof.
  unfold has. destruct (N.testbit h i) eqn:B.
  - apply N.eqb_eq. apply N.bits_inj. intros j. rewrite N.land_spec, N.pow2_bits_eqb. destruct (N.eqb_spec i j) as [->|]; [rewrite B|rewrite andb_false_r]; reflexivity.
  - apply N.eqb_neq. intros E. assert (X : N.testbit (N.land h (2 ^ i)) i = N.testbit (2 ^ i) i) by (rewrite E; reflexivity).
    rewrite N.land_spec, B, N.pow2_bits_true in X. discriminate X.
Qed.

Lemma skipn_add {A} (l : list A) a b : skipn (N.to_nat b) (skipn (N.to_nat a) l) = skipn (N.to_nat (a + b)) l.
Proof.
  replace (N.to_nat (a + b)) with (N.to_nat a + N.to_nat b)%nat by lia. generalize (N.to_nat a) (N.to_nat b). intros n m. revert l.
  induction n as [|n IH]; intros l; [reflexivity|]. destruct l; cbn [skipn Nat.add]; [apply skipn_nil|apply IH].
Qed.

Theorem C76_metadata : reads DecodeDataSetEagerness metadata_reading.
Proof.
  intros s W. unfold DecodeDataSetEagerness, metadata_reading. pose proof (next2 s) as N2. destruct (total s) as [|h [|b c]] eqn:EC; try (rewrite N2; reflexivity).
  destruct N2 as (s1 & E1 & I1 & J1 & T1 & _). rewrite E1. cbn [bind]. rewrite I1, J1. cbn [bind].
  apply wf_cons in W as [_ W]. apply wf_cons in W as [Wb _]. rewrite !width_end, !N.shiftr_div_pow2. change (2 ^ 6) with 64. change (2 ^ 4) with 16.
  assert (Q : b / 64 < 4) by (apply N.div_lt_upper_bound; lia). replace (b / 64 mod 4) with (b / 64) by (symmetry; apply N.mod_small; exact Q).
  assert (WX : exists i, 2 ^ (b / 64) = 2 ^ (i mod 4)) by (exists (b / 64); rewrite (N.mod_small (b / 64) 4 Q); reflexivity). destruct WX as (i & WX).
  unfold number, piece. set (v := 2 ^ (b / 64)) in *. set (w := 2 ^ (b / 16 mod 4)).
  destruct (Next (2 + v + w) s1) as [[L E]|(L & s2 & E & T & A)]; rewrite E; rewrite T1, !len_cons in L; cbn [bind].
  - destruct (N.ltb_spec (len c) v); [reflexivity|]. replace (len (skipn (N.to_nat v) c)) with (len c - v) by (unfold len; rewrite skipn_length; lia).
    destruct (N.ltb_spec (len c - v) w); [reflexivity|lia].
  - destruct (N.ltb_spec (len c) v); [lia|]. replace (len (skipn (N.to_nat v) c)) with (len c - v) by (unfold len; rewrite skipn_length; lia).
    destruct (N.ltb_spec (len c - v) w); [lia|]. rewrite slice_part by lia. cbn [bind]. rewrite slice_part by exact A. cbn [bind]. rewrite !T, !T1.
    rewrite skipn_cons2. change (skipn (N.to_nat 2) (h :: b :: c)) with c.
    rewrite (int64_or_zero_width (firstn (N.to_nat v) c) i) by (rewrite <- WX; apply len_firstn; lia).
    rewrite (int64_or_zero_width (firstn (N.to_nat w) (skipn (N.to_nat v) c)) (b / 16))
      by (apply len_firstn; unfold len in *; rewrite skipn_length; lia).
    change 2 with (2 ^ 1) at 1. rewrite has_bit. eexists. split; [reflexivity|]. rewrite Prune_total, T, T1 by exact A.
    rewrite <- N.add_assoc, skipn_cons2. symmetry. apply skipn_add.
Qed.

(** ** Messages with values of the caller's schemes *)

(** The decoder of a scheme reads its own grammar. *)
Section Schemes.
Context {G K Sig : Type} (g : codec G) (rg : reading G) (k : stream -> res (K * stream)) (rk : reading K) (sg : codec Sig) (rs : reading Sig).

(** A grammar leaves a part of the bytes behind. *)
Definition leaves_rest {A} (r : reading A) : Prop := forall c a rest, r c = Some (a, rest) -> exists used, c = used ++ rest.

Definition bind_reading : reading (msg_bind G) := fun c =>
  match c with
  | h :: r => match rg r with Some (m, rest) => Some (MsgBind m (h =? 6), rest) | None => None end
  | [] => None
  end.
Theorem C76_bind_fragment : reads (c_dec g) rg -> reads (DecodePaiBindFragment g) bind_reading.
Proof.
  intros HG s W. unfold DecodePaiBindFragment, bind_reading. pose proof (next1 s) as N1. destruct (total s) as [|h c] eqn:EC; [rewrite N1; reflexivity|].
  destruct N1 as (s1 & E1 & I1 & T1 & A1). rewrite E1. cbn [bind]. rewrite I1. cbn [bind].
  assert (T2 : total (Prune 1 s1) = c) by (rewrite Prune_total, T1 by exact A1; reflexivity).
  specialize (HG (Prune 1 s1)). rewrite T2 in HG. specialize (HG (proj2 (wf_cons _ _ W))).
  destruct (rg c) as [[m rest]|]; [|rewrite HG; reflexivity]. destruct HG as (s2 & E2 & T3). rewrite E2. cbn [bind]. eauto.
Qed.

Definition static_token_reading : reading G := fun c => match c with _ :: r => rg r | [] => None end.
Theorem C76_static_token : reads (c_dec g) rg -> reads (DecodeSetupBindStaticToken g) static_token_reading.
Proof.
  intros HG s W. unfold DecodeSetupBindStaticToken, static_token_reading. pose proof (next1 s) as N1. destruct (total s) as [|h c] eqn:EC; [rewrite N1; reflexivity|].
  destruct N1 as (s1 & E1 & I1 & T1 & A1). rewrite E1. cbn [bind].
  assert (T2 : total (Prune 1 s1) = c) by (rewrite Prune_total, T1 by exact A1; reflexivity).
  specialize (HG (Prune 1 s1)). rewrite T2 in HG. exact (HG (proj2 (wf_cons _ _ W))).
Qed.

(** A handle, a capability, a signature. *)
Definition read_capability_reading : reading (msg_read_cap K Sig) := fun c =>
  match handle_reading c with
  | Some (x, r) => match rk r with
                   | Some (cap, r1) => match rs r1 with Some (sig, rest) => Some (MsgReadCap cap x sig, rest) | None => None end
                   | None => None
                   end
  | None => None
  end.
Lemma skipn_wf n (c : bytes) : wf_bytes c -> wf_bytes (skipn n c).
Proof. intros W. rewrite <- (firstn_skipn n c) in W. apply Forall_app in W. apply W. Qed.
Theorem C76_read_capability : reads k rk -> leaves_rest rk -> reads (c_dec sg) rs -> reads (DecodeSetupBindReadCapability k sg) read_capability_reading.
Proof.
  intros HK LK HS s W. unfold DecodeSetupBindReadCapability, read_capability_reading, handle_reading.
  pose proof (next1 s) as N1. destruct (total s) as [|h c] eqn:EC; [rewrite N1; reflexivity|].
  destruct N1 as (s1 & E1 & I1 & T1 & A1). rewrite E1. cbn [bind]. rewrite I1. cbn [bind]. rewrite width_end.
  pose proof (next_number 1 h s1) as N3. rewrite T1 in N3. specialize (N3 ltac:(rewrite !len_cons; lia)). rewrite number_head in N3.
  destruct (number (2 ^ (h mod 4)) c) as [[x rest]|]; [|rewrite N3; reflexivity].
  destruct N3 as (s3 & a & E3 & S3 & La & Da & T3 & A3 & RE & R3). rewrite E3. cbn [bind]. rewrite S3. cbn [bind].
  rewrite (int64_or_zero_width a h La), Da.
  assert (W2 : wf_bytes rest) by (rewrite RE; apply skipn_wf; exact W).
  specialize (HK (Prune (1 + 2 ^ (h mod 4)) s3)). rewrite R3 in HK. specialize (HK W2).
  destruct (rk rest) as [[cap r1]|] eqn:EK; [|rewrite HK; reflexivity]. destruct HK as (s4 & E4 & T4). rewrite E4. cbn [bind].
  assert (W3 : wf_bytes r1). { destruct (LK _ _ _ EK) as (u & ->). apply Forall_app in W2. apply W2. }
  specialize (HS s4). rewrite T4 in HS. specialize (HS W3). destruct (rs r1) as [[sig r2]|]; [|rewrite HS; reflexivity].
  destruct HS as (s5 & E5 & T5). rewrite E5. cbn [bind]. eauto.
Qed.
End Schemes.

(** The nonce of a commitment, behind a byte that the encoder does not write. *)
Definition reveal_reading (n : N) : reading bytes := fun c => match c with _ :: r => piece n r | [] => None end.
Theorem C76_commitment_reveal n : reads (DecodeCommitmentReveal n) (reveal_reading n).
Proof.
  intros s W. unfold DecodeCommitmentReveal, reveal_reading, piece.
  destruct (Next (1 + n) s) as [[L E]|(L & s1 & E & T & A)]; rewrite E; cbn [bind]; destruct (total s) as [|h c] eqn:EC; auto.
  - rewrite len_cons in L. destruct (N.ltb_spec (len c) n); [reflexivity|lia].
  - unfold len in L. cbn [length] in L. lia.
  - rewrite len_cons in L. destruct (N.ltb_spec (len c) n); [lia|]. rewrite slice_part by exact A. cbn [bind]. rewrite T, number_head.
    eexists. split; [reflexivity|]. rewrite Prune_total, T by exact A. apply skipn_cons1.
Qed.

(** ** All decoders: two decodings of the same bytes agree *)

(** Whenever both succeed, the value and the bytes left do not depend on how the bytes arrive; and no way of arriving succeeds where
    another returns an error. *)
Definition settled {A} (d : stream -> res (A * stream)) : Prop :=
  forall s t, total s = total t ->
  match d s, d t with
  | Ok (a, s'), Ok (b, t') => a = b /\ total s' = total t'
  | Ok _, Err | Err, Ok _ => False
  | _, _ => True
  end.
Definition agree2 {A} (r1 r2 : res (A * stream)) : Prop :=
  match r1, r2 with
  | Ok (a, s'), Ok (b, t') => a = b /\ total s' = total t'
  | Ok _, Err | Err, Ok _ => False
  | _, _ => True
  end.
Definition agree {A} (r1 r2 : res A) : Prop :=
  match r1, r2 with Ok a, Ok b => a = b | Ok _, Err | Err, Ok _ => False | _, _ => True end.
(** [b] and [c] are what has arrived of the same bytes. *)
Definition prefixes (b c : bytes) : Prop := exists x y, b ++ x = c ++ y.

Lemma agree2_Ok {A} (a : A) s t : total s = total t -> agree2 (Ok (a, s)) (Ok (a, t)).
Proof. intros E. split; auto. Qed.
Lemma agree2_bind {A B} (r1 r2 : res (A * stream)) (k1 k2 : A * stream -> res (B * stream)) : agree2 r1 r2 ->
  (forall a s t, total s = total t -> agree2 (k1 (a, s)) (k2 (a, t))) -> agree2 (bind r1 k1) (bind r2 k2).
Proof.
  intros H1 H2. destruct r1 as [[a s]| | | |], r2 as [[b t]| | | |]; cbn [bind agree2] in *; try exact I; try contradiction;
    [destruct H1 as [<- T]; exact (H2 a s t T)|..]; match goal with |- agree2 ?r _ => destruct r as [[? ?]| | | |]; exact I | |- _ => idtac end.
Qed.
Lemma agree2_pure {A B} (r1 r2 : res A) (k1 k2 : A -> res (B * stream)) : agree r1 r2 ->
  (forall a, r1 = Ok a -> r2 = Ok a -> agree2 (k1 a) (k2 a)) -> agree2 (bind r1 k1) (bind r2 k2).
Proof.
  intros H1 H2. destruct r1 as [a| | | |], r2 as [b| | | |]; cbn [bind agree] in *; try exact I; try contradiction;
    [rewrite <- H1 in *; exact (H2 a eq_refl eq_refl)|..]; match goal with |- agree2 ?r _ => destruct r as [[? ?]| | | |]; exact I | |- _ => idtac end.
Qed.
Lemma agree2_next {B} n s t (k1 k2 : bytes * stream -> res (B * stream)) : total s = total t ->
  (forall s' t', total s' = total t' -> n <= len (g_array s') -> n <= len (g_array t') -> prefixes (g_array s') (g_array t') ->
    agree2 (k1 (g_array s', s')) (k2 (g_array t', t'))) ->
  agree2 (bind (NextAbsolute n s) k1) (bind (NextAbsolute n t) k2).
Proof.
  intros T H. destruct (Next n s) as [[L E]|(L & s1 & E & T1 & A1)]; rewrite E; [exact I|].
  destruct (Next n t) as [[L' E']|(_ & t1 & E' & T2 & A2)]; rewrite E'; [rewrite T in L; lia|]. cbn [bind].
  apply (H s1 t1); auto; [congruence|]. exists (g_future s1), (g_future t1). change (total s1 = total t1). congruence.
Qed.
Lemma prefixes_index b c i x y : prefixes b c -> index b i = Ok x -> index c i = Ok y -> x = y.
Proof.
  intros (u & v & E) H1 H2. unfold index in *. destruct (nth_error b (N.to_nat i)) as [x'|] eqn:E1; [|discriminate]. injection H1 as ->.
  destruct (nth_error c (N.to_nat i)) as [y'|] eqn:E2; [|discriminate]. injection H2 as ->.
  assert (F1 : nth_error (b ++ u) (N.to_nat i) = Some x) by (rewrite nth_error_app1; [exact E1|apply nth_error_Some; congruence]).
  assert (F2 : nth_error (c ++ v) (N.to_nat i) = Some y) by (rewrite nth_error_app1; [exact E2|apply nth_error_Some; congruence]). congruence.
Qed.
Lemma slice_app_r {A} (b u : list A) i j x : slice b i j = Ok x -> slice (b ++ u) i j = Ok x /\ j <= len b.
Proof.
  unfold slice. destruct (N.leb_spec i j) as [L1|]; [|discriminate]. destruct (N.leb_spec j (len b)) as [L2|]; [|discriminate]. cbn [andb]. intros E. split; [|exact L2].
  destruct (N.leb_spec j (len (b ++ u))) as [_|L3]; [|unfold len in *; rewrite app_length in L3; lia]. cbn [andb]. rewrite <- E. f_equal.
  rewrite skipn_app, firstn_app, skipn_length. unfold len in *. replace (N.to_nat (j - i) - (length b - N.to_nat i))%nat with 0%nat by lia.
  rewrite firstn_O, app_nil_r. reflexivity.
Qed.
Lemma prefixes_slice b c i j x y : prefixes b c -> slice b i j = Ok x -> slice c i j = Ok y -> x = y.
Proof.
  intros (u & v & E) H1 H2. apply (slice_app_r _ u) in H1 as [H1 _]. apply (slice_app_r _ v) in H2 as [H2 _]. rewrite E in H1. congruence.
Qed.
Lemma slice_bound {A} (b : list A) i j x : slice b i j = Ok x -> j <= len b.
Proof. intros H. apply (slice_app_r _ []) in H. apply H. Qed.
Lemma index_bound {A} (b : list A) i x : index b i = Ok x -> i < len b.
Proof.
  unfold index. destruct (nth_error b (N.to_nat i)) eqn:E; [|discriminate]. intros _. assert (X : nth_error b (N.to_nat i) <> None) by congruence.
  apply nth_error_Some in X. unfold len. lia.
Qed.
Lemma Prune_same n s t : total s = total t -> n <= len (g_array s) -> n <= len (g_array t) -> total (Prune n s) = total (Prune n t).
Proof. intros T L1 L2. rewrite !Prune_total by assumption. rewrite T. reflexivity. Qed.


Lemma agree_refl {A} (r : res A) : agree r r.
Proof. destruct r; cbn [agree]; auto. Qed.
Lemma agree_index b c i : prefixes b c -> agree (index b i) (index c i).
Proof.
  intros P. pose proof (prefixes_index b c i) as H. unfold index in *. destruct (nth_error b (N.to_nat i)), (nth_error c (N.to_nat i)); cbn [agree]; auto.
Qed.
Lemma agree_slice b c i j : prefixes b c -> agree (slice b i j) (slice c i j).
Proof.
  intros P. pose proof (prefixes_slice b c i j) as H. unfold slice in *.
  destruct ((i <=? j) && (j <=? len b)), ((i <=? j) && (j <=? len c)); cbn [agree]; auto.
Qed.

Ltac settle := repeat (cbn beta iota zeta;
  match goal with
  | |- agree2 (if ?b then _ else _) (if ?b then _ else _) => destruct b
  | |- agree2 (match ?b with _ => _ end) (match ?b with _ => _ end) => destruct b
  | |- agree2 (Ok _) (Ok _) => apply agree2_Ok
  | |- agree2 Err _ => exact I
  | |- agree2 Panic _ => exact I
  | |- agree2 (bind (NextAbsolute _ _) _) _ =>
      let P := fresh "P" in let s := fresh "s" in let t := fresh "t" in apply agree2_next; [|intros s t ? ? ? P]
  | P : prefixes ?b ?c |- agree2 (bind (index ?b _) _) (bind (index ?c _) _) =>
      let X := fresh "X" in let Y := fresh "Y" in
      apply agree2_pure; [apply agree_index; assumption|intros ? X Y; apply index_bound in X; apply index_bound in Y]
  | P : prefixes ?b ?c |- agree2 (bind (slice ?b _ _) _) (bind (slice ?c _ _) _) =>
      let X := fresh "X" in let Y := fresh "Y" in
      apply agree2_pure; [apply agree_slice; assumption|intros ? X Y; apply slice_bound in X; apply slice_bound in Y]
  | |- agree2 (bind ?r _) (bind ?r _) => apply agree2_pure; [apply agree_refl|intros ? _ _]
  | |- total (Prune _ _) = total (Prune _ _) => apply Prune_same; [|lia..]
  | |- total _ = total _ => assumption
  end).

Lemma settled_agree {A} (d : stream -> res (A * stream)) : (forall s t, total s = total t -> agree2 (d s) (d t)) -> settled d.
Proof. intros H s t T. exact (H s t T). Qed.
Lemma agree_settled {A} (d : stream -> res (A * stream)) s t : settled d -> total s = total t -> agree2 (d s) (d t).
Proof. intros H T. exact (H s t T). Qed.

Lemma stream_int_settled w : settled (stream_int w).
Proof. apply settled_agree. intros s t T. unfold stream_int. settle. Qed.

Lemma pai_handle_settled : settled pai_handle.
Proof. apply settled_agree. intros s t T. unfold pai_handle. settle. Qed.

Lemma path_stream_loop_settled pp count : settled (path_stream_loop pp count).
Proof.
  apply settled_agree. induction count as [|count IH]; intros s t T; cbn [path_stream_loop]; settle.
  apply agree2_bind; [apply IH; settle|intros; settle].
Qed.
Lemma DecodePathStream_settled pp : settled (DecodePathStream pp).
Proof. apply settled_agree. intros s t T. unfold DecodePathStream. settle. apply agree_settled; [apply path_stream_loop_settled|settle]. Qed.
Lemma DecodeRelPathStream_settled pp ref : settled (fun s => DecodeRelPathStream pp s ref).
Proof.
  apply settled_agree. intros s t T. unfold DecodeRelPathStream. settle.
  apply agree2_bind; [apply agree_settled; [apply DecodePathStream_settled|settle]|intros; settle].
Qed.

Create HintDb settled_db.
Lemma bind_bind {A B C} (r : res A) (f : A -> res B) (h : B -> res C) : bind (bind r f) h = bind r (fun a => bind (f a) h).
Proof. destruct r; reflexivity. Qed.
Ltac settle_all := settle; try (
  match goal with
  | |- agree2 (DecodeRelPathStream _ _ _) (DecodeRelPathStream _ _ _) =>
      refine (agree_settled (fun s => DecodeRelPathStream _ s _) _ _ (DecodeRelPathStream_settled _ _) _)
  | |- agree2 (?d ?s) (?d ?t) => apply (agree_settled d s t); [solve [auto with settled_db]|]
  | |- agree2 (bind _ _) (bind _ _) => apply agree2_bind; [|intros]
  | |- agree2 (bind (if ?b then _ else _) _) _ => destruct b
  | |- agree2 (bind (bind _ _) _) _ => rewrite !bind_bind
  end; settle_all).
#[local] Hint Resolve stream_int_settled pai_handle_settled : settled_db.

Section Settled.
Variables (ns ss ds : codec bytes) (pp : path_params).
Hypotheses (HN : settled (c_dec ns)) (HS : settled (c_dec ss)) (HD : settled (c_dec ds)).

Lemma entry_entry_settled ref : settled (DecodeStreamEntryRelativeEntry ns ss ds pp ref).
Proof. apply settled_agree. intros s t T. unfold DecodeStreamEntryRelativeEntry. settle_all. Qed.
Lemma entry_range_settled outer n : settled (DecodeStreamEntryRelativeRange3d ss ds pp outer n).
Proof. apply settled_agree. intros s t T. unfold DecodeStreamEntryRelativeRange3d. settle_all. Qed.
Lemma range_settled ref : settled (DecodeStreamRange3dRelative ss pp ref).
Proof. apply settled_agree. intros s t T. unfold DecodeStreamRange3dRelative. settle_all. Qed.
Lemma area_settled outer : settled (DecodeStreamAreaInArea ss pp outer).
Proof. apply settled_agree. intros s t T. unfold DecodeStreamAreaInArea. settle_all. Qed.
Lemma entry_area_settled outer n : settled (DecodeStreamEntryInNamespaceArea ss ds pp outer n).
Proof. apply settled_agree. intros s t T. unfold DecodeStreamEntryInNamespaceArea. settle_all. Qed.
End Settled.
#[local] Hint Resolve entry_entry_settled entry_range_settled range_settled area_settled entry_area_settled : settled_db.

Lemma nil_codec_settled : settled (c_dec nil_codec).
Proof. intros s t T. exact I. Qed.
#[local] Hint Resolve nil_codec_settled : settled_db.

(** C76: two decodings of the same bytes agree, for every decoder of paths, numbers, entries, ranges and areas. *)
Theorem C76_values (ns ss ds : codec bytes) pp : settled (c_dec ns) -> settled (c_dec ss) -> settled (c_dec ds) ->
  settled (DecodePathStream pp) /\ (forall ref, settled (fun s => DecodeRelPathStream pp s ref))
  /\ (forall ref, settled (DecodeStreamEntryRelativeEntry ns ss ds pp ref))
  /\ (forall outer n, settled (DecodeStreamEntryRelativeRange3d ss ds pp outer n))
  /\ (forall ref, settled (DecodeStreamRange3dRelative ss pp ref))
  /\ (forall outer, settled (DecodeStreamAreaInArea ss pp outer))
  /\ (forall outer n, settled (DecodeStreamEntryInNamespaceArea ss ds pp outer n)).
Proof.
  intros. repeat split; intros; auto using DecodePathStream_settled, DecodeRelPathStream_settled with settled_db.
Qed.

Section SettledMessages.
Context {K Sig T F G : Type}.
Variables (ns ss ds : codec bytes) (tok : codec T) (g : codec G) (k : codec K) (sg : codec Sig) (pp : path_params).
Hypotheses (HN : settled (c_dec ns)) (HS : settled (c_dec ss)) (HD : settled (c_dec ds)) (HT : settled (c_dec tok))
  (HG : settled (c_dec g)) (HK : settled (c_dec k)) (HSg : settled (c_dec sg)).
#[local] Hint Resolve HN HS HD HT HG HK HSg : settled_db.

Lemma sent_entry_settled ha hn current second sw rw : settled (decode_sent_entry ns ss ds pp ha hn current second sw rw).
Proof. apply settled_agree. intros s t E. unfold decode_sent_entry. settle_all. Qed.
#[local] Hint Resolve sent_entry_settled : settled_db.

(** C76: the messages of private area intersection, whose handle is cut out of what has arrived. *)
Theorem C76_pai_messages : settled (DecodePaiReplyFragment g) /\ settled DecodePaiRequestSubspaceCapability
  /\ settled (DecodePaiReplySubspaceCapability k sg).
Proof.
  repeat split; apply settled_agree; intros s t E; unfold DecodePaiReplyFragment, DecodePaiRequestSubspaceCapability, DecodePaiReplySubspaceCapability; settle_all.
Qed.

(** C76: the messages with an entry or an area. *)
Theorem C76_entry_messages ha hn current granted pv first :
  settled (DecodeDataSendEntry ns ss ds pp ha hn tok current) /\ settled (DecodeDataBindPayloadRequest ns ss ds pp ha hn current)
  /\ settled (DecodeSetupBindAreaOfInterest pp granted) /\ settled (DecodeReconciliationSendEntry ss pp pv ns ds first tok).
Proof.
  repeat split; apply settled_agree; intros s t E;
    unfold DecodeDataSendEntry, DecodeDataBindPayloadRequest, DecodeSetupBindAreaOfInterest, DecodeReconciliationSendEntry; settle_all.
Qed.

Lemma range_stream_settled ref : settled (range_stream ss pp ref).
Proof. apply settled_agree. intros s t E. unfold range_stream, or_stop, some_of. settle_all. Qed.
#[local] Hint Resolve range_stream_settled : settled_db.
Lemma range_or_zero_settled ref : settled (range_or_zero ss pp ref).
Proof. apply settled_agree. intros s t E. unfold range_or_zero. settle_all. Qed.
(** C76: the messages with a range. *)
Theorem C76_range_messages hr pv (neutral : F) fp : settled fp ->
  settled (DecodeReconciliationSendFingerprint ss pp pv hr neutral fp) /\ settled (DecodeReconciliationAnnounceEntries ss pp pv hr).
Proof.
  intros HF. pose proof range_or_zero_settled as HR.
  repeat split; apply settled_agree; intros s t E; unfold DecodeReconciliationSendFingerprint, DecodeReconciliationAnnounceEntries; settle_all.
Qed.
End SettledMessages.

(** ** All decoders: what is left is the end of what was there, and the process is never ended *)

Definition orderly {A} (d : stream -> res (A * stream)) : Prop :=
  forall s, match d s with Ok (_, s') => exists used, total s = used ++ total s' | Fatal => False | _ => True end.

Definition ending {A} (c : bytes) (r : res (A * stream)) : Prop :=
  match r with Ok (_, s') => exists used, c = used ++ total s' | Fatal => False | _ => True end.
Definition tail_of (c c' : bytes) : Prop := exists used, c = used ++ c'.
Lemma tail_refl c : tail_of c c.
Proof. exists []. reflexivity. Qed.
Lemma tail_trans a b c : tail_of a b -> tail_of b c -> tail_of a c.
Proof. intros [u ->] [v ->]. exists (u ++ v). rewrite app_assoc. reflexivity. Qed.
Lemma tail_Prune c n s : tail_of c (total s) -> tail_of c (total (Prune n s)).
Proof.
  intros H. eapply tail_trans; [exact H|]. exists (firstn (N.to_nat n) (g_array s)). unfold total, Prune. cbn [g_array g_future].
  rewrite app_assoc, firstn_skipn. reflexivity.
Qed.
Lemma ending_next {B} c n s (k : bytes * stream -> res (B * stream)) : tail_of c (total s) ->
  (forall s', tail_of c (total s') -> ending c (k (g_array s', s'))) -> ending c (bind (NextAbsolute n s) k).
Proof.
  intros T H. destruct (Next n s) as [[L E]|(L & s1 & E & T1 & A1)]; rewrite E; [exact I|]. cbn [bind]. apply H. rewrite T1. exact T.
Qed.
Lemma ending_bind {A B} c (r : res (A * stream)) (k : A * stream -> res (B * stream)) : ending c r ->
  (forall a s', tail_of c (total s') -> ending c (k (a, s'))) -> ending c (bind r k).
Proof. intros H1 H2. destruct r as [[a s]| | | |]; try exact I; [exact (H2 a s H1)|exact H1]. Qed.
Lemma ending_pure {A B} c (r : res A) (k : A -> res (B * stream)) : r <> Fatal -> (forall a, ending c (k a)) -> ending c (bind r k).
Proof. intros H1 H2. destruct r; try exact I; [apply H2|congruence]. Qed.
Lemma orderly_ending {A} (d : stream -> res (A * stream)) c s : orderly d -> tail_of c (total s) -> ending c (d s).
Proof.
  intros H T. specialize (H s). destruct (d s) as [[a s']| | | |]; auto. exact (tail_trans _ _ _ T H).
Qed.
Lemma ending_orderly {A} (d : stream -> res (A * stream)) : (forall c s, tail_of c (total s) -> ending c (d s)) -> orderly d.
Proof. intros H s. exact (H (total s) s (tail_refl _)). Qed.
Lemma index_quiet {A} (b : list A) i : index b i <> Fatal.
Proof. unfold index. destruct (nth_error b (N.to_nat i)); discriminate. Qed.
Lemma slice_quiet {A} (b : list A) i j : slice b i j <> Fatal.
Proof. unfold slice. destruct ((i <=? j) && (j <=? len b)); discriminate. Qed.
Lemma int64_quiet b : DecodeIntMax64 b <> Fatal.
Proof. unfold DecodeIntMax64. match goal with |- (if ?c then _ else _) <> _ => destruct c end; discriminate. Qed.
Lemma int32_quiet b m : DecodeIntMax32 b m <> Fatal.
Proof.
  unfold DecodeIntMax32. repeat match goal with |- (if ?c then _ else _) <> _ => destruct c end; try discriminate.
  pose proof (slice_quiet b 0 2). destruct (slice b 0 2); cbn [bind]; try discriminate; [|congruence].
  pose proof (index_quiet b 2). destruct (index b 2); cbn [bind]; try discriminate. congruence.
Qed.
Lemma or_zero_quiet b m : decode_or_zero b m <> Fatal.
Proof. unfold decode_or_zero. pose proof (int32_quiet b m). destruct (DecodeIntMax32 b m); try discriminate. congruence. Qed.
Lemma as_int_quiet x : as_int x <> Fatal.
Proof. unfold as_int. destruct (x <? 2 ^ 63); discriminate. Qed.
Create HintDb orderly_db.
#[local] Hint Resolve index_quiet slice_quiet int64_quiet int32_quiet or_zero_quiet as_int_quiet tail_Prune : orderly_db.

Ltac order_all := cbn beta iota zeta; try (
  match goal with
  | |- ending _ Err => exact I
  | |- ending _ Panic => exact I
  | |- ending _ (Ok (_, ?s)) => match goal with |- ending ?c _ => change (tail_of c (total s)) end
  | |- ending _ (if ?b then _ else _) => destruct b
  | |- ending _ (bind (NextAbsolute _ _) _) => apply ending_next; [|intros]
  | |- ending _ (bind (if ?b then _ else _) _) => destruct b
  | |- ending _ (bind (match ?b with _ => _ end) _) => destruct b
  | |- ending _ (bind (bind _ _) _) => rewrite !bind_bind
  | |- ending _ (bind _ _) => apply ending_pure; [solve [auto with orderly_db]|intros]
  | |- ending _ (bind (Ok _) _) => cbn [bind]
  | |- ending _ (bind Err _) => exact I
  | |- ending _ (bind Panic _) => exact I
  | |- ending _ (bind _ _) => apply ending_bind; [|intros]
  | |- ending _ (DecodeRelPathStream _ _ _) => refine (orderly_ending (fun s => DecodeRelPathStream _ s _) _ _ _ _); [solve [auto with orderly_db]|]
  | |- ending _ (?d ?s) => apply (orderly_ending d); [solve [auto with orderly_db]|]
  | |- ending _ (match ?b with _ => _ end) => destruct b
  | |- tail_of _ (total (Prune _ _)) => apply tail_Prune
  | |- tail_of _ _ => eassumption
  end; order_all).

Lemma stream_int_orderly w : orderly (stream_int w).
Proof. apply ending_orderly. intros c s T. unfold stream_int. order_all. Qed.
Lemma pai_handle_orderly : orderly pai_handle.
Proof. apply ending_orderly. intros c s T. unfold pai_handle. order_all. Qed.
Lemma path_stream_loop_orderly pp count : orderly (path_stream_loop pp count).
Proof.
  induction count as [|count IH]; apply ending_orderly; intros c s T; cbn [path_stream_loop]; order_all.
Qed.
#[local] Hint Resolve stream_int_orderly pai_handle_orderly path_stream_loop_orderly : orderly_db.
Lemma DecodePathStream_orderly pp : orderly (DecodePathStream pp).
Proof. apply ending_orderly. intros c s T. unfold DecodePathStream. order_all. Qed.
#[local] Hint Resolve DecodePathStream_orderly : orderly_db.
Lemma DecodeRelPathStream_orderly pp ref : orderly (fun s => DecodeRelPathStream pp s ref).
Proof. apply ending_orderly. intros c s T. unfold DecodeRelPathStream. order_all. Qed.
#[local] Hint Resolve DecodeRelPathStream_orderly : orderly_db.

(** C76: the decoders of paths, entries, ranges and areas leave the end of what was there, and never end the process. *)
Theorem C76_values_left (ns ss ds : codec bytes) pp : orderly (c_dec ns) -> orderly (c_dec ss) -> orderly (c_dec ds) ->
  orderly (DecodePathStream pp) /\ (forall ref, orderly (fun s => DecodeRelPathStream pp s ref))
  /\ (forall ref, orderly (DecodeStreamEntryRelativeEntry ns ss ds pp ref))
  /\ (forall outer n, orderly (DecodeStreamEntryRelativeRange3d ss ds pp outer n))
  /\ (forall ref, orderly (DecodeStreamRange3dRelative ss pp ref))
  /\ (forall outer, orderly (DecodeStreamAreaInArea ss pp outer))
  /\ (forall outer n, orderly (DecodeStreamEntryInNamespaceArea ss ds pp outer n)).
Proof.
  intros HN HS HD. split; [auto with orderly_db|]. split; [intros; auto with orderly_db|].
  repeat split; intros; apply ending_orderly; intros c s T;
    unfold DecodeStreamEntryRelativeEntry, DecodeStreamEntryRelativeRange3d, DecodeStreamRange3dRelative, DecodeStreamAreaInArea,
      DecodeStreamEntryInNamespaceArea; order_all.
Qed.

Section OrderlyMessages.
Context {K Sig T F G : Type}.
Variables (ns ss ds : codec bytes) (tok : codec T) (g : codec G) (k : codec K) (sg : codec Sig) (pp : path_params).
Hypotheses (HN : orderly (c_dec ns)) (HS : orderly (c_dec ss)) (HD : orderly (c_dec ds)) (HT : orderly (c_dec tok))
  (HG : orderly (c_dec g)) (HK : orderly (c_dec k)) (HSg : orderly (c_dec sg)).

Lemma nil_codec_orderly : orderly (c_dec nil_codec).
Proof. intros s. exact I. Qed.
Lemma entry_entry_orderly ref : orderly (DecodeStreamEntryRelativeEntry ns ss ds pp ref).
Proof. apply (C76_values_left ns ss ds pp HN HS HD). Qed.
Lemma range_orderly ref : orderly (DecodeStreamRange3dRelative ss pp ref).
Proof. apply (C76_values_left ns ss ds pp HN HS HD). Qed.
Lemma nil_area_orderly outer : orderly (DecodeStreamAreaInArea nil_codec pp outer).
Proof. apply (C76_values_left ns nil_codec ds pp HN nil_codec_orderly HD). Qed.
Lemma entry_area_orderly outer n : orderly (DecodeStreamEntryInNamespaceArea ss ds pp outer n).
Proof. apply (C76_values_left ns ss ds pp HN HS HD). Qed.
#[local] Hint Resolve entry_entry_orderly nil_area_orderly entry_area_orderly range_orderly HN HS HD HT HG HK HSg : orderly_db.
Lemma sent_entry_orderly ha hn current second sw rw : orderly (decode_sent_entry ns ss ds pp ha hn current second sw rw).
Proof. apply ending_orderly. intros c s E. unfold decode_sent_entry. order_all. Qed.
Lemma range_stream_orderly ref : orderly (range_stream ss pp ref).
Proof. apply ending_orderly. intros c s E. unfold range_stream, or_stop, some_of. order_all. Qed.
#[local] Hint Resolve range_stream_orderly : orderly_db.
Lemma range_or_zero_orderly ref : orderly (range_or_zero ss pp ref).
Proof. apply ending_orderly. intros c s E. unfold range_or_zero. order_all. Qed.
#[local] Hint Resolve sent_entry_orderly : orderly_db.

(** C76: every message decoder leaves the end of what was there and never ends the process. *)
Theorem C76_messages_left ha hn current granted pv hr first n (neutral : F) fp : orderly fp ->
  orderly DecodeControlIssueGuarantee /\ orderly DecodeControlAbsolve /\ orderly DecodeControlPlead
  /\ orderly DecodeControlAnnounceDropping /\ orderly DecodeControlApologise /\ orderly DecodeControlFree
  /\ orderly (DecodeCommitmentReveal n)
  /\ orderly (DecodePaiBindFragment g) /\ orderly (DecodePaiReplyFragment g) /\ orderly DecodePaiRequestSubspaceCapability
  /\ orderly (DecodePaiReplySubspaceCapability k sg)
  /\ orderly (DecodeSetupBindReadCapability (c_dec k) sg) /\ orderly (DecodeSetupBindStaticToken k)
  /\ orderly (DecodeSetupBindAreaOfInterest pp granted)
  /\ orderly DecodeDataSendPayload /\ orderly DecodeDataSetEagerness /\ orderly DecodeDataReplyPayload
  /\ orderly DecodeReconciliationSendPayload
  /\ orderly (DecodeDataSendEntry ns ss ds pp ha hn tok current) /\ orderly (DecodeDataBindPayloadRequest ns ss ds pp ha hn current)
  /\ orderly (DecodeReconciliationSendEntry ss pp pv ns ds first tok)
  /\ orderly (DecodeReconciliationSendFingerprint ss pp pv hr neutral fp)
  /\ orderly (DecodeReconciliationAnnounceEntries ss pp pv hr).
Proof.
  intros HF. pose proof range_or_zero_orderly as HR.
  repeat split; apply ending_orderly; intros c s E;
    unfold DecodeControlIssueGuarantee, DecodeControlAbsolve, DecodeControlPlead, DecodeControlAnnounceDropping, DecodeControlApologise,
      decode_amount, decode_channel, DecodeControlFree, DecodeCommitmentReveal, DecodePaiBindFragment, DecodePaiReplyFragment,
      DecodePaiRequestSubspaceCapability, DecodePaiReplySubspaceCapability, DecodeSetupBindReadCapability, DecodeSetupBindStaticToken,
      DecodeSetupBindAreaOfInterest, DecodeDataSendPayload, DecodeDataSetEagerness, DecodeDataReplyPayload, DecodeReconciliationSendPayload,
      DecodeDataSendEntry, DecodeDataBindPayloadRequest, DecodeReconciliationSendEntry, DecodeReconciliationSendFingerprint,
      DecodeReconciliationAnnounceEntries; order_all.
Qed.
End OrderlyMessages.

(** ** Where errors and panics come from *)

(** A result whose success implies [O], whose error [E] and whose panic [P]. *)
Definition judged {A} (O E P : Prop) (r : res A) : Prop := match r with Ok _ => O | Err => E | Panic => P | _ => True end.

Lemma stream_int_sure w s : (exists i, w = 2 ^ (i mod 4)) ->
  stream_int w s = Hang \/ exists x s', stream_int w s = Ok (x, s') /\ tail_of (total s) (total s').
Proof.
  intros [i EW]. unfold stream_int. destruct (Next w s) as [[L E]|(L & s1 & E & T & A)]; rewrite E; [left; reflexivity|]. right. cbn [bind].
  pose proof (slice_part s1 0 w) as S1. rewrite N.add_0_l in S1. rewrite S1 by exact A. cbn [bind].
  rewrite (int64_width _ i); [|change (skipn (N.to_nat 0) (total s1)) with (total s1); rewrite <- EW; apply len_firstn; rewrite T; exact L]. cbn [bind].
  eexists _, _. split; [reflexivity|]. apply tail_Prune. rewrite T. apply tail_refl.
Qed.
Lemma two_bits h k : exists i, 2 ^ (N.shiftr (N.land h (3 * 2 ^ k)) k) = 2 ^ (i mod 4).
Proof.
  exists (N.shiftr h k). f_equal. rewrite N.shiftr_land. replace (N.shiftr (3 * 2 ^ k) k) with 3; [apply land3|].
  rewrite N.shiftr_div_pow2, N.div_mul; [reflexivity|]. apply N.pow_nonzero. lia.
Qed.
Lemma last_two_bits h : exists i, 2 ^ (N.land h 3) = 2 ^ (i mod 4).
Proof. exists h. rewrite land3. reflexivity. Qed.

Section Failures.
Variables (ss ds : codec bytes) (pp : path_params).
Hypothesis HS : orderly (c_dec ss).

(** The subspace or a path relative to one of [refs] fails in this way somewhere further on. *)
Definition subspace_fails (f : res (bytes * stream)) (c : bytes) : Prop := exists t, tail_of c (total t) /\ c_dec ss t = f.
Definition path_panics (refs : list path) (c : bytes) : Prop := exists t ref, tail_of c (total t) /\ In ref refs /\ DecodeRelPathStream pp t ref = Panic.

Lemma judged_path {B} O E (P : Prop) c refs ref s (k : path * stream -> res B) : go_params pp -> wf_bytes c -> tail_of c (total s) -> In ref refs ->
  (path_panics refs c -> P) -> (forall p s', tail_of c (total s') -> judged O E P (k (p, s'))) ->
  judged O E P (bind (DecodeRelPathStream pp s ref) k).
Proof.
  intros GP W T I HP HK. assert (W' : wf_bytes (total s)) by (destruct T as [u ->]; apply Forall_app in W; apply W).
  destruct (C70_rel_path_stream pp s ref GP W') as [X|[X|(n & suffix & s' & X & _ & _ & TT)]]; rewrite X; cbn [bind judged]; [|exact Logic.I|].
  - apply HP. exists s, ref. auto.
  - apply HK. eapply tail_trans; [exact T|]. eexists. unfold content in TT. unfold total. rewrite TT, !app_assoc. reflexivity.
Qed.
Lemma judged_int {B} O E P c w s (k : N * stream -> res B) : (exists i, w = 2 ^ (i mod 4)) -> tail_of c (total s) ->
  (forall x s', tail_of c (total s') -> judged O E P (k (x, s'))) -> judged O E P (bind (stream_int w s) k).
Proof.
  intros HW T HK. destruct (stream_int_sure w s HW) as [X|(x & s' & X & T')]; rewrite X; cbn [bind judged]; [exact I|].
  apply HK. exact (tail_trans _ _ _ T T').
Qed.
Lemma judged_peek {B} O E P w s (k : N -> stream -> res B) : (exists i, w = 2 ^ (i mod 4)) -> (forall x s', judged O E P (k x s')) ->
  judged O E P (bind (NextAbsolute w s) (fun y => let '(b, s') := y in bind (slice b 0 w) (fun a => bind (DecodeIntMax64 a) (fun x => k x s')))).
Proof.
  intros [i EW] HK. destruct (Next w s) as [[L X]|(L & s1 & X & T & A)]; rewrite X; [exact I|]. cbn [bind].
  pose proof (slice_part s1 0 w) as S1. rewrite N.add_0_l in S1. rewrite S1 by exact A. cbn [bind].
  rewrite (int64_width _ i); [apply HK|]. change (skipn (N.to_nat 0) (total s1)) with (total s1). rewrite <- EW. apply len_firstn. rewrite T. exact L.
Qed.
Lemma judged_subspace {B} O (E P : Prop) c s (k : bytes * stream -> res B) : tail_of c (total s) ->
  (subspace_fails Err c -> E) -> (subspace_fails Panic c -> P) ->
  (forall x s', tail_of c (total s') -> judged O E P (k (x, s'))) -> judged O E P (bind (c_dec ss s) k).
Proof.
  intros T HE HP HK. pose proof (HS s) as H. destruct (c_dec ss s) as [[x s']| | | |] eqn:X; cbn [bind judged]; auto.
  - apply HK. exact (tail_trans _ _ _ T H).
  - apply HE. exists s. auto.
  - apply HP. exists s. auto.
Qed.

(** The header asks for something the reference range does not have, or says nothing about the start of the subspaces. *)
Definition refused (b1 b2 : N) (ref : range3d) : bool :=
  negb (N.testbit b1 7 || N.testbit b1 6)
  || r_open (subspace_range ref) && (N.testbit b1 5 && negb (N.testbit b1 4))
  || r_open (path_range ref) && (negb (N.testbit b1 3) || negb (N.testbit b1 1))
  || r_open (time_range ref) && (negb (N.testbit b2 7) || negb (N.testbit b1 0) && negb (N.testbit b2 3)).

Lemma has_two h i j : i <> j -> has h (2 ^ i + 2 ^ j) = N.testbit h i && N.testbit h j.
Proof.
  intros D. unfold has. assert (E : 2 ^ i + 2 ^ j = N.lor (2 ^ i) (2 ^ j)).
  { rewrite <- N.lxor_lor, <- N.add_nocarry_lxor; [reflexivity|..]; apply N.bits_inj; intros n; rewrite N.land_spec, N.bits_0;
      (destruct (N.eq_dec n i) as [->|X]; [rewrite (N.pow2_bits_false j i) by congruence; apply andb_false_r|rewrite (N.pow2_bits_false i n) by congruence; reflexivity]). }
  rewrite E. destruct (N.testbit h i) eqn:Ti, (N.testbit h j) eqn:Tj; cbn [andb].
  - apply N.eqb_eq. apply N.bits_inj. intros n. rewrite N.land_spec, N.lor_spec.
    destruct (N.eq_dec n i) as [->|X]; [rewrite Ti; reflexivity|]. destruct (N.eq_dec n j) as [->|Y]; [rewrite Tj; reflexivity|].
    rewrite !N.pow2_bits_false by congruence. apply andb_false_r.
  - apply N.eqb_neq. intros X. apply (f_equal (fun m => N.testbit m j)) in X. rewrite N.land_spec, Tj, N.lor_spec, N.pow2_bits_true, orb_true_r in X. discriminate.
  - apply N.eqb_neq. intros X. apply (f_equal (fun m => N.testbit m i)) in X. rewrite N.land_spec, Ti, N.lor_spec, N.pow2_bits_true in X. discriminate.
  - apply N.eqb_neq. intros X. apply (f_equal (fun m => N.testbit m i)) in X. rewrite N.land_spec, Ti, N.lor_spec, N.pow2_bits_true in X. discriminate.
Qed.

(** C76: a range relative to another is refused exactly where its header says so, or the subspace is; it panics only in a path or
    the subspace. *)
Theorem C76_range_failures ref s b1 b2 c : go_params pp -> wf_bytes (total s) -> total s = b1 :: b2 :: c ->
  match DecodeStreamRange3dRelative ss pp ref s with
  | Ok _ => refused b1 b2 ref = false
  | Err => refused b1 b2 ref = true \/ subspace_fails Err (total s)
  | Panic => path_panics [r_start (path_range ref); r_end (path_range ref)] (total s) \/ subspace_fails Panic (total s)
  | Fatal => False
  | Hang => True
  end.
Proof.
  intros GP W EC. pose proof (proj1 (proj2 (proj2 (proj2 (proj2 (C76_values_left nil_codec ss nil_codec pp (fun s => I) HS (fun s => I)))))) ref s) as NF.
  set (PP := path_panics _ _ \/ _).
  enough (J : judged (refused b1 b2 ref = false) (refused b1 b2 ref = true \/ subspace_fails Err (total s)) PP (DecodeStreamRange3dRelative ss pp ref s)).
  { destruct (DecodeStreamRange3dRelative ss pp ref s); auto. }
  clear NF. unfold DecodeStreamRange3dRelative. pose proof (next2 s) as N2. rewrite EC in N2.
  destruct N2 as (s1 & E1 & I1 & J1 & T1 & A1). rewrite E1. cbn [bind]. rewrite I1, J1. cbn [bind]. cbn zeta.
  assert (TL : tail_of (total s) (total (Prune 2 s1))) by (apply tail_Prune; rewrite T1, <- EC; apply tail_refl).
  generalize dependent (Prune 2 s1). clear s1 E1 I1 J1 T1 A1. intros s2 T2.
  assert (IP : path_panics [r_start (path_range ref); r_end (path_range ref)] (total s) -> PP) by (left; assumption).
  assert (IS : subspace_fails Panic (total s) -> PP) by (right; assumption).
  unfold start_code, end_code, refused.
  change 192 with (2 ^ 7 + 2 ^ 6). change 48 with (2 ^ 5 + 2 ^ 4) at 1. rewrite !has_two by discriminate.
  change 128 with (2 ^ 7). change 64 with (2 ^ 6) at 1. change 32 with (2 ^ 5). change 16 with (2 ^ 4). change 8 with (2 ^ 3).
  rewrite !has_bit, (has_bit b1 1 : has b1 2 = _), (has_bit b1 0 : has b1 1 = _).
  replace (N.land b1 4 =? 64) with false.
  2: { symmetry. apply N.eqb_neq. intros X. apply (f_equal (fun m => N.testbit m 6)) in X. rewrite N.land_spec, andb_false_r in X. discriminate. }
  generalize (N.testbit b1 7) (N.testbit b1 6) (N.testbit b1 5) (N.testbit b1 4) (N.testbit b1 3) (N.testbit b1 1) (N.testbit b1 0) (N.testbit b2 7) (N.testbit b2 3).
  intros x7 x6 x5 x4 x3 x1 x0 y7 y3.
  Ltac judge := cbn [bind negb andb orb]; cbn beta iota zeta; rewrite ?andb_true_r, ?andb_false_r, ?orb_true_r, ?orb_false_r;
    try (match goal with
    | |- judged _ _ _ (bind (DecodeRelPathStream _ _ _) _) => eapply judged_path; [eassumption|eassumption|eassumption| |eassumption|]; [first [left; reflexivity|right; left; reflexivity]|intros]
    | |- judged _ _ _ (bind (stream_int _ _) _) => eapply judged_int; [first [exact (two_bits _ 4)|exact (two_bits _ 2)|apply last_two_bits]|eassumption|intros]
    | |- judged _ _ _ (bind (c_dec ss _) _) => eapply judged_subspace; [eassumption|auto|auto|intros]
    | |- judged _ _ _ (bind (NextAbsolute _ _) _) => eapply judged_peek; [apply last_two_bits|intros]
    | |- judged _ _ _ (bind (if ?b then _ else _) _) => destruct b
    | |- judged _ _ _ (bind (match (if ?b then _ else _) with _ => _ end) _) => destruct b
    | |- judged _ _ _ (if ?b then _ else _) => destruct b
    | |- judged _ _ _ Err => cbn [judged]; auto
    | |- judged _ _ _ (Ok _) => cbn [judged]; auto
    end; judge).
  destruct (r_open (subspace_range ref)), (r_open (path_range ref)), (r_open (time_range ref)), x7, x6, x5, x4; judge.
Qed.
End Failures.

(** ** The two decoders that look at what happens to have arrived *)

Lemma Next_all n s s' b : NextAbsolute n s = Ok (b, s') -> g_future s = [] -> g_future s' = [].
Proof.
  unfold NextAbsolute, arrive. intros E F. destruct (match g_sched s with [] => (O, O) | x :: _ => x end) as [x y].
  cbn [g_array g_future g_sched] in E. rewrite F, !firstn_nil, !skipn_nil in E.
  repeat match type of E with (if ?c then _ else _) = _ => destruct c end; [injection E as _ <-; reflexivity|discriminate E|injection E as _ <-; reflexivity].
Qed.
Lemma all_arrived s : g_future s = [] -> g_array s = total s.
Proof. intros F. unfold total. rewrite F, app_nil_r. reflexivity. Qed.
Lemma slice_short {A} (b : list A) i j : len b < j -> slice b i j = Panic.
Proof. intros L. unfold slice. destruct (N.leb_spec j (len b)); [lia|]. rewrite andb_false_r. reflexivity. Qed.
Lemma array_part s : len (g_array s) <= len (total s).
Proof. unfold total, len. rewrite app_length. lia. Qed.

(** C76: a request for a capability is decoded exactly or panics; it panics only if bytes are still to come, or missing. *)
Theorem C76_request s :
  match DecodePaiRequestSubspaceCapability s with
  | Ok (m, s') => handle_reading (total s) = Some (mq_handle m, total s')
  | Panic => g_future s <> [] \/ handle_reading (total s) = None
  | Hang => total s = []
  | _ => False
  end.
Proof.
  unfold DecodePaiRequestSubspaceCapability, pai_handle. pose proof (next1 s) as N1.
  destruct (total s) as [|h c] eqn:EC; [rewrite N1; reflexivity|]. destruct N1 as (s1 & E1 & I1 & T1 & A1). rewrite E1. cbn [bind]. rewrite I1. cbn [bind]. cbn zeta.
  rewrite width_end. unfold handle_reading, number, piece. set (w := 2 ^ (h mod 4)).
  destruct (N.le_gt_cases (1 + w) (len (g_array s1))) as [L|L].
  - rewrite slice_part by exact L. cbn [bind]. rewrite T1, number_head. pose proof (array_part s1) as LA. rewrite T1, len_cons in LA.
    destruct (N.ltb_spec (len c) w); [lia|]. cbn [mq_handle]. rewrite (int64_or_zero_width _ h) by (apply len_firstn; assumption).
    rewrite Prune_total, T1, skipn_cons1 by exact L. reflexivity.
  - rewrite slice_short by exact L. cbn [bind]. destruct (g_future s) eqn:F; [right|left; discriminate].
    pose proof (Next_all _ _ _ _ E1 F) as F1. rewrite (all_arrived _ F1), T1, len_cons in L.
    destruct (N.ltb_spec (len c) w); [reflexivity|lia].
Qed.

(** C76: the payload of DataSendPayload is exact whenever there is one, but of what follows it bytes may be lost. *)
Theorem C76_send_payload_partial s :
  match DecodeDataSendPayload s with
  | Ok (m, s') => exists rest, payload_reading (total s) = Some (m, rest) /\ tail_of rest (total s')
  | Panic => g_future s <> [] \/ payload_reading (total s) = None \/ exists n r, handle_reading (total s) = Some (n, r) /\ 2 ^ 63 <= n
  | Hang => handle_reading (total s) = None
  | _ => False
  end.
Proof.
  unfold DecodeDataSendPayload, payload_reading, handle_reading. pose proof (next1 s) as N1. destruct (total s) as [|h c] eqn:EC; [rewrite N1; reflexivity|].
  destruct N1 as (s1 & E1 & I1 & T1 & A1). rewrite E1. cbn [bind]. rewrite I1. cbn [bind]. cbn zeta. rewrite width_end.
  pose proof (next_number 1 h s1) as N3. rewrite T1 in N3. specialize (N3 ltac:(rewrite !len_cons; lia)). rewrite number_head in N3.
  destruct (number (2 ^ (h mod 4)) c) as [[x rest]|]; [|rewrite N3; reflexivity].
  destruct N3 as (s3 & a & E3 & S3 & La & Da & T3 & A3 & RR & R3). rewrite E3. cbn [bind]. rewrite S3. cbn [bind].
  rewrite (int64_or_zero_width a h La), Da. unfold as_int. destruct (N.ltb_spec x (2 ^ 63)) as [B|B]; cbn [bind]; [|right; right; eauto].
  set (w := 2 ^ (h mod 4)) in *. unfold piece. rewrite skipn_cons1 in RR. 
  destruct (N.le_gt_cases (1 + w + x) (len (g_array s3))) as [L|L].
  - rewrite slice_part by exact L. cbn [bind]. pose proof (array_part s3) as LA. rewrite T3, len_cons in LA. rewrite T3.
    assert (ER : len rest = len c - w) by (rewrite RR; unfold len; rewrite skipn_length; lia). 
    destruct (N.ltb_spec (len rest) x); [lia|]. eexists. split.
    + rewrite skipn_cons1, <- RR. reflexivity.
    + apply tail_Prune. rewrite Prune_total by exact L. rewrite T3. replace (1 + w + x) with (1 + (w + x)) by lia. rewrite skipn_cons1, <- skipn_add, <- RR. apply tail_refl.
  - rewrite slice_short by exact L. cbn [bind]. destruct (g_future s) eqn:F; [right; left|left; discriminate].
    pose proof (Next_all _ _ _ _ E3 (Next_all _ _ _ _ E1 F)) as F1. rewrite (all_arrived _ F1), T3, len_cons in L, A3.
    assert (ER : len rest = len c - w) by (rewrite RR; unfold len; rewrite skipn_length; lia).
    destruct (N.ltb_spec (len rest) x); [reflexivity|lia].
Qed.

(** Refuted: that the bytes after the payload do not depend on the schedule. Of two messages that have both
    arrived, the second is lost with the first; if it has not, it is kept. *)
Definition two_payloads : bytes := [100; 1; 7; 100; 1; 9].
Theorem C76_send_payload_refuted : exists s t m s' t', total s = total t
  /\ DecodeDataSendPayload s = Ok (m, s') /\ DecodeDataSendPayload t = Ok (m, t') /\ total s' = [] /\ total t' = skipn 3 two_payloads.
Proof.
  exists (Stream two_payloads [] []), (Stream (firstn 3 two_payloads) (skipn 3 two_payloads) []). eexists _, _, _. repeat split; vm_compute; reflexivity.
Qed.

(** Refuted: that a request is decoded however its bytes arrive. *)
Theorem C76_request_refuted : exists s t, total s = total t
  /\ (exists m s', DecodePaiRequestSubspaceCapability s = Ok (m, s')) /\ DecodePaiRequestSubspaceCapability t = Panic.
Proof.
  exists (Stream [16; 7] [] []), (Stream [16] [7] []). split; [reflexivity|]. split; [eexists _, _; vm_compute; reflexivity|vm_compute; reflexivity].
Qed.

(** ** Instances *)

(** A guarantee, arriving in three pieces, with a byte behind it. *)
Example C76_instance_control : exists s', DecodeControlAbsolve (Stream [] [129; 32; 1; 44; 99] [(1, 0); (0, 1)]%nat) = Ok (MsgAmount ControlAbsolve DataChannel 300, s')
  /\ total s' = [99].
Proof. eexists. split; vm_compute; reflexivity. Qed.
Example C76_instance_control_wf : wf_bytes (total (Stream [] [129; 32; 1; 44; 99] [(1, 0); (0, 1)]%nat)).
Proof. repeat constructor. Qed.

(** Codecs of one byte meet the hypotheses. *)
Definition one_byte : codec bytes := Codec (fun b => b) (fun s => do (b, s1) <- NextAbsolute 1 s; do x <- slice b 0 1; Ok (x, Prune 1 s1)).
Example C76_instance_codec : settled (c_dec one_byte) /\ orderly (c_dec one_byte).
Proof.
  split; [apply settled_agree; intros s t T; cbn [c_dec one_byte]; settle|apply ending_orderly; intros c s T; cbn [c_dec one_byte]; order_all].
Qed.
Lemma one_byte_reads : reads (c_dec one_byte) (piece 1).
Proof.
  intros s W. cbn [c_dec one_byte]. unfold piece. destruct (Next 1 s) as [[L E]|(L & s1 & E & T & A)]; rewrite E; cbn [bind];
    destruct (N.ltb_spec (len (total s)) 1); try lia; [reflexivity|]. pose proof (slice_part s1 0 1) as S1. rewrite N.add_0_l in S1. rewrite S1 by exact A. cbn [bind].
  rewrite T. eexists. split; [reflexivity|]. rewrite Prune_total, T by exact A. reflexivity.
Qed.
Example C76_instance_bind : reads (DecodePaiBindFragment one_byte) (bind_reading (piece 1)).
Proof. apply C76_bind_fragment. exact one_byte_reads. Qed.

(** A range relative to one that is open above: refused; and one that is not. *)
Definition small_params : path_params := {| pp_bits := 8; max_component_count := 3; max_component_length := 4; max_path_length := 10 |}.
Definition open_ref : range3d := Range3d (Range [1] [] true) (Range [[1]] [] true) (Range 5 0 true).
Definition closed_ref : range3d := Range3d (Range [1] [9] false) (Range [[1]] [[2]] false) (Range 5 50 false).
Definition range_wire : bytes := [88; 128; 1; 0; 1; 0; 3; 7].
Example C76_instance_range :
  DecodeStreamRange3dRelative one_byte small_params open_ref (Stream range_wire [] []) = Err
  /\ refused 88 128 open_ref = true /\ refused 88 128 closed_ref = false
  /\ match DecodeStreamRange3dRelative one_byte small_params closed_ref (Stream range_wire [] []) with Ok _ => True | _ => False end.
Proof. repeat split; vm_compute; try reflexivity. Qed.
Example C76_instance_range_wf : go_params small_params /\ wf_bytes (total (Stream range_wire [] [])).
Proof. split; [repeat split; auto; reflexivity|repeat constructor]. Qed.
Print Assumptions C76_control.
Print Assumptions C76_reply_payload.
Print Assumptions C76_reconciliation_payload.
Print Assumptions C76_metadata.
Print Assumptions C76_bind_fragment.
Print Assumptions C76_static_token.
Print Assumptions C76_read_capability.
Print Assumptions C76_commitment_reveal.
Print Assumptions C76_values.
Print Assumptions C76_pai_messages.
Print Assumptions C76_entry_messages.
Print Assumptions C76_range_messages.
Print Assumptions C76_values_left.
Print Assumptions C76_messages_left.
Print Assumptions C76_range_failures.
Print Assumptions C76_request.
Print Assumptions C76_send_payload_partial.
Print Assumptions C76_send_payload_refuted.
Print Assumptions C76_request_refuted.
