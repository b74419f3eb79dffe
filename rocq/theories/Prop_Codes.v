(** C54, C60: which codes can be read back from every header byte. *)
From Verif Require Import Base M_Order M_Encoding M_Stream M_Wire S_Wire P_Encoding P_Stream P_Wire Prop_Wire.
Local Open Scope N_scope.

Lemma bytes_all (P : N -> bool) : forallb P (map N.of_nat (seq 0 256)) = true -> forall b, b < 256 -> P b = true.
Proof.
  intros H b L. rewrite forallb_forall in H. apply H. apply in_map_iff. exists (N.to_nat b).
  split; [apply N2Nat.id|]. apply in_seq. lia.
Qed.

(** Every bit of [a] is one of [b]. *)
Definition bits_of (a b : N) : Prop := forall i, N.testbit a i = true -> N.testbit b i = true.

Lemma bits_of_land a b : bits_of a b <-> N.land a b = a.
Proof.
  unfold bits_of. split.
  - intros H. apply N.bits_inj. intros i. rewrite N.land_spec. destruct (N.testbit a i) eqn:E; [rewrite (H i E)|]; reflexivity.
  - intros H i E. rewrite <- H, N.land_spec in E. apply andb_true_iff in E. apply E.
Qed.

Definition channel_eqb (a b : channel) : bool :=
  match channel_code a, channel_code b with Some x, Some y => x =? y | None, None => true | _, _ => false end.
Lemma channel_eqb_eq a b : channel_eqb a b = true <-> a = b.
Proof. destruct a, b; unfold channel_eqb; cbn; split; intros; auto; discriminate. Qed.
Lemma handle_eqb_eq a b : (handle_code a =? handle_code b) = true <-> a = b.
Proof. destruct a, b; cbn; split; intros; auto; discriminate. Qed.

(** Written into any byte at all, a channel other than that of control, or a handle type, is read back exactly when every bit that the byte has set where
    the code goes is one of the code; the greatest code, 6 of the channels and 4 of the handle types, is read back from every byte. The control channel is
    read back from none. *)
Theorem C54_exactly b : b < 256 ->
  (forall c code, channel_code c = Some code ->
     (DecodeChannelFromBeginningOfByte (ChannelMaskStart b c) = c <-> bits_of (b / 32) code \/ code = 6)
     /\ (DecodeChannelFromEndOfByte (ChannelMaskEnd b c) = c <-> bits_of (b mod 8) code \/ code = 6))
  /\ DecodeChannelFromBeginningOfByte (ChannelMaskStart b ControlChannel) <> ControlChannel
  /\ DecodeChannelFromEndOfByte (ChannelMaskEnd b ControlChannel) <> ControlChannel
  /\ forall t, (DecodeHandleTypeFromBeginningOfByte (HandleMask b t) = t <-> bits_of (b / 32) (handle_code t) \/ handle_code t = 4).
Proof.
  intros L. split; [|split; [|split]].
  - intros c code Hc. rewrite !bits_of_land, <- !channel_eqb_eq.
    assert (H : forall c, forallb (fun b => match channel_code c with None => true | Some code =>
        Bool.eqb (channel_eqb (DecodeChannelFromBeginningOfByte (ChannelMaskStart b c)) c) ((N.land (b / 32) code =? b / 32) || (code =? 6))
        && Bool.eqb (channel_eqb (DecodeChannelFromEndOfByte (ChannelMaskEnd b c)) c) ((N.land (b mod 8) code =? b mod 8) || (code =? 6)) end)
        (map N.of_nat (seq 0 256)) = true) by (intros []; vm_compute; reflexivity).
    pose proof (bytes_all _ (H c) b L) as E. cbv beta in E. rewrite Hc in E. apply andb_true_iff in E as [E1 E2].
    apply Bool.eqb_prop in E1, E2. rewrite E1, E2, !orb_true_iff, !N.eqb_eq. split; reflexivity.
  - assert (H : forallb (fun b => negb (channel_eqb (DecodeChannelFromBeginningOfByte (ChannelMaskStart b ControlChannel)) ControlChannel))
        (map N.of_nat (seq 0 256)) = true) by (vm_compute; reflexivity).
    pose proof (bytes_all _ H b L) as E. cbv beta in E. rewrite <- channel_eqb_eq. destruct (channel_eqb _ _); [discriminate E|discriminate].
  - assert (H : forallb (fun b => negb (channel_eqb (DecodeChannelFromEndOfByte (ChannelMaskEnd b ControlChannel)) ControlChannel))
        (map N.of_nat (seq 0 256)) = true) by (vm_compute; reflexivity).
    pose proof (bytes_all _ H b L) as E. cbv beta in E. rewrite <- channel_eqb_eq. destruct (channel_eqb _ _); [discriminate E|discriminate].
  - intros t. rewrite bits_of_land, <- handle_eqb_eq.
    assert (H : forall t, forallb (fun b =>
        Bool.eqb (handle_code (DecodeHandleTypeFromBeginningOfByte (HandleMask b t)) =? handle_code t) ((N.land (b / 32) (handle_code t) =? b / 32) || (handle_code t =? 4)))
        (map N.of_nat (seq 0 256)) = true) by (intros []; vm_compute; reflexivity).
    pose proof (bytes_all _ (H t) b L) as E. cbv beta in E. apply Bool.eqb_prop in E. rewrite E, !orb_true_iff, !N.eqb_eq. reflexivity.
Qed.
Print Assumptions C54_exactly.

Example C54_instance_exactly :
  DecodeChannelFromBeginningOfByte (ChannelMaskStart 255 StaticTokenChannel) = StaticTokenChannel
  /\ DecodeChannelFromBeginningOfByte (ChannelMaskStart 32 CapabilityChannel) = CapabilityChannel /\ bits_of (32 / 32) 3
  /\ DecodeChannelFromBeginningOfByte (ChannelMaskStart 32 IntersectionChannel) = CapabilityChannel /\ ~ bits_of (32 / 32) 2.
Proof. rewrite !bits_of_land. repeat split; vm_compute; discriminate. Qed.

(** Any byte at all as a header: the width is read back exactly when the two low bits that are set are those of its code; other widths than the four are
    not written. *)
Theorem C60_exactly b : b < 256 ->
  (forall w, In w [1; 2; 4; 8] -> (CompactWidthFromEndOfByte (CompactWidthOr b w) = w <-> bits_of (b mod 4) (N.log2 w)))
  /\ (forall w, ~ In w [1; 2; 4; 8] -> CompactWidthOr b w = b).
Proof.
  intros L. split.
  - intros w Hw. rewrite bits_of_land.
    assert (H : forallb (fun b => forallb (fun w => Bool.eqb (CompactWidthFromEndOfByte (CompactWidthOr b w) =? w) (N.land (b mod 4) (N.log2 w) =? b mod 4)) [1; 2; 4; 8])
        (map N.of_nat (seq 0 256)) = true) by (vm_compute; reflexivity).
    pose proof (bytes_all _ H b L) as E. cbv beta in E. rewrite forallb_forall in E. specialize (E w Hw). apply Bool.eqb_prop in E.
    rewrite <- !N.eqb_eq, E. reflexivity.
  - intros w Hw. unfold CompactWidthOr, CompactWidthEndMasks.
    destruct (N.eqb_spec w 1) as [K|K]; [elim Hw; subst; cbn; auto|]. destruct (N.eqb_spec w 2) as [K2|K2]; [elim Hw; subst; cbn; auto|].
    destruct (N.eqb_spec w 4) as [K4|K4]; [elim Hw; subst; cbn; auto|]. destruct (N.eqb_spec w 8) as [K8|K8]; [elim Hw; subst; cbn; auto|].
    apply N.lor_0_r.
Qed.
Print Assumptions C60_exactly.

Example C60_instance_exactly :
  CompactWidthFromEndOfByte (CompactWidthOr 33 2) = 2 /\ bits_of (33 mod 4) (N.log2 2)
  /\ CompactWidthFromEndOfByte (CompactWidthOr 33 4) = 8 /\ ~ bits_of (33 mod 4) (N.log2 4).
Proof. rewrite !bits_of_land. repeat split; vm_compute; discriminate. Qed.
