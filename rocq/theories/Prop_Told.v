(** C41, C43: what every control message, and every handle of a private area intersection message, is told as. *)
From Verif Require Import Base M_Order M_Encoding M_Stream M_Wire S_Wire P_Encoding P_Stream P_Wire Prop_Wire.
Local Open Scope N_scope.

(** * C41: every control message *)

(** The channel a receiver is told: the control channel has no code of its own. *)
Definition told (c : channel) : channel := match c with ControlChannel => ReconciliationChannel | _ => c end.

(** For every message, all following bytes and all ways in which the bytes arrive: guarantees and absolutions are told as absolutions, pleas as
    pleas, all with their amount; every freed handle as the sender's own; and the control channel as that of reconciliation. *)
Theorem C41_exactly :
  (forall m, ma_amount m < 2 ^ 64 ->
     decodes DecodeControlIssueGuarantee (EncodeControlIssueGuarantee m) (MsgAmount ControlAbsolve (told (ma_channel m)) (ma_amount m))
     /\ decodes DecodeControlAbsolve (EncodeControlAbsolve m) (MsgAmount ControlAbsolve (told (ma_channel m)) (ma_amount m))
     /\ decodes DecodeControlPlead (EncodeControlPlead m) (MsgAmount ControlPlead (told (ma_channel m)) (ma_amount m)))
  /\ (forall m,
     decodes DecodeControlAnnounceDropping (EncodeControlAnnounceDropping m) (MsgChannel ControlAnnounceDropping (told (mc_channel m)))
     /\ decodes DecodeControlApologise (EncodeControlApologise m) (MsgChannel ControlApologise (told (mc_channel m))))
  /\ (forall m, mf_handle m < 2 ^ 64 ->
     decodes DecodeControlFree (EncodeControlFree m) (MsgFree ControlFree (mf_handle m) true (mf_type m))).
Proof.
  assert (T : forall c, told c <> ControlChannel) by (intros []; discriminate).
  assert (E1 : forall base m, encode_amount base m = encode_amount base (MsgAmount (ma_kind m) (told (ma_channel m)) (ma_amount m)))
    by (intros base [k [] a]; reflexivity).
  split; [|split].
  - intros m HA. unfold EncodeControlIssueGuarantee, EncodeControlAbsolve, EncodeControlPlead.
    rewrite !(E1 _ m).
    split; [|split].
    + apply (amount_decodes 128 ControlAbsolve (MsgAmount (ma_kind m) (told (ma_channel m)) (ma_amount m))); cbn; auto.
    + apply (amount_decodes 132 ControlAbsolve (MsgAmount (ma_kind m) (told (ma_channel m)) (ma_amount m))); cbn; auto.
    + apply (amount_decodes 136 ControlPlead (MsgAmount (ma_kind m) (told (ma_channel m)) (ma_amount m))); cbn; auto.
  - intros [k c].
    replace (EncodeControlAnnounceDropping (MsgChannel k c)) with (EncodeControlAnnounceDropping (MsgChannel k (told c))) by (destruct c; reflexivity).
    replace (EncodeControlApologise (MsgChannel k c)) with (EncodeControlApologise (MsgChannel k (told c))) by (destruct c; reflexivity).
    split.
    + apply channel_decodes; cbn; auto.
    + apply channel_decodes; cbn; auto.
  - intros m HA. apply free_decodes. exact HA.
Qed.
Print Assumptions C41_exactly.

Example C41_instance_exactly :
  DecodeControlIssueGuarantee (Stream [] (EncodeControlIssueGuarantee (MsgAmount ControlIssueGuarantee ControlChannel 300) ++ [9]) [])
  = Ok (MsgAmount ControlAbsolve ReconciliationChannel 300, Stream [] [9] [])
  /\ DecodeControlFree (Stream [] (EncodeControlFree (MsgFree ControlFree 7 false StaticTokenHandle)) [])
  = Ok (MsgFree ControlFree 7 true StaticTokenHandle, Stream [] [] []).
Proof. split; vm_compute; reflexivity. Qed.

(** * C43: every handle *)

(** The encoders write the width [w] of the handle where the handle belongs, in one byte. When that and at least [w - 1] bytes after it have arrived, the
    decoder takes these for the handle, and leaves the others: every handle below 256 is told as 1. *)
Theorem C43_exactly h rest sched :
  let w := GetWidthMax64Int h in
  w - 1 <= len rest ->
  exists sched' told,
    DecodePaiRequestSubspaceCapability (Stream (EncodePaiRequestSubspaceCapability (MsgRequest h) ++ rest) [] sched)
    = Ok (MsgRequest told, Stream (skipn (N.to_nat (w - 1)) rest) [] sched')
    /\ told = be_decode (w :: firstn (N.to_nat (w - 1)) rest)
    /\ (h < 256 -> told = 1).
Proof.
  intros w HR. exists (tl sched). eexists.
  assert (HW : GetWidthMax64Int h = w) by reflexivity. clearbody w.
  assert (C : w = 1 \/ w = 2 \/ w = 4 \/ w = 8) by (rewrite <- HW; destruct (width64 h) as [ -> | [ -> | [ -> | -> ]]]; auto).
  assert (LT : len (firstn (N.to_nat (w - 1)) rest) = w - 1).
  { unfold len in *. rewrite firstn_length. lia. }
  split; [|split; [reflexivity|]].
  - unfold DecodePaiRequestSubspaceCapability, EncodePaiRequestSubspaceCapability, pai_handle. cbn [mq_handle]. rewrite HW.
    set (hd := width_header 12 (u8 w)). assert (HC : CompactWidthFromEndOfByte hd = w).
    { unfold hd. destruct C as [ -> | [ -> | [ -> | -> ]]]; reflexivity. }
    assert (U : u8 w = w) by (destruct C as [ -> | [ -> | [ -> | -> ]]]; reflexivity). rewrite U. clearbody hd.
    rewrite NextAbsolute_all by (cbn [app]; rewrite len_cons; lia). cbn [bind g_array app]. rewrite index_0. cbn [bind]. rewrite HC.
    replace (hd :: w :: rest) with ([hd] ++ (w :: firstn (N.to_nat (w - 1)) rest) ++ skipn (N.to_nat (w - 1)) rest)
      by (cbn [app]; rewrite firstn_skipn; reflexivity).
    rewrite slice_app by (change (len [hd]) with 1; rewrite ?len_cons, ?LT; lia). cbn [bind].
    unfold int64_or_zero, DecodeIntMax64. rewrite len_cons, LT.
    replace ((_ || _) || _ || _) with true
      by (destruct C as [ -> | [ -> | [ -> | -> ]]]; reflexivity).
    f_equal. f_equal. unfold Prune. cbn [g_array g_future g_sched]. f_equal.
    rewrite app_assoc. rewrite skipn_app.
    assert (LL : length ([hd] ++ w :: firstn (N.to_nat (w - 1)) rest) = N.to_nat (1 + w)).
    { cbn [app length]. unfold len in LT. lia. }
    rewrite <- LL, skipn_all, Nat.sub_diag. reflexivity.
  - intros L. assert (W1 : w = 1) by (rewrite <- HW; unfold GetWidthMax64Int; change (2 ^ 8) with 256; rewrite (proj2 (N.ltb_lt _ _) L); reflexivity).
    rewrite W1. reflexivity.
Qed.
Print Assumptions C43_exactly.

Example C43_instance_exactly :
  DecodePaiRequestSubspaceCapability (Stream (EncodePaiRequestSubspaceCapability (MsgRequest 300) ++ [44; 5]) [] [])
  = Ok (MsgRequest 556, Stream [5] [] []).
Proof. vm_compute. reflexivity. Qed.
