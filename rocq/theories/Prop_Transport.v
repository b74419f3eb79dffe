(** C55: the transport. *)
From Verif Require Import Base M_Encoding M_Transport P_Encoding.
From Coq Require Import Lia.
Local Open Scope N_scope.

Lemma read_full_spec n frags :
  match read_full n frags with
  | Some (b, fs) => (n <= length (concat frags))%nat /\ b = firstn n (concat frags) /\ concat fs = skipn n (concat frags)
  | None => (length (concat frags) < n)%nat
  end.
Proof.
  revert n. induction frags as [|f fs IH]; intros n.
  - destruct n; cbn; auto with arith.
  - destruct n as [|n]; [cbn; auto with arith|]. set (m := S n) in *.
    assert (R : read_full m (f :: fs) = if (m <=? length f)%nat then Some (firstn m f, skipn m f :: fs)
      else match read_full (m - length f) fs with Some (b, fs') => Some (f ++ b, fs') | None => None end) by reflexivity.
    rewrite R. clear R. cbn [concat]. rewrite app_length, firstn_app, skipn_app.
    destruct (Nat.leb_spec m (length f)).
    + replace (m - length f)%nat with 0%nat by lia. cbn [firstn skipn concat]. rewrite app_nil_r. repeat split; lia.
    + specialize (IH (m - length f)%nat). destruct (read_full _ fs) as [[b fs']|].
      * destruct IH as (L & -> & E). rewrite (firstn_all2 f) by lia. rewrite (skipn_all2 f) by lia. repeat split; auto. lia.
      * lia.
Qed.

Lemma recv_concat fuel f1 f2 : concat f1 = concat f2 -> recv_loop fuel f1 = recv_loop fuel f2.
Proof.
  revert f1 f2. induction fuel as [|fuel IH]; intros f1 f2 E; [reflexivity|]. cbn [recv_loop].
  pose proof (read_full_spec 8 f1) as A. pose proof (read_full_spec 8 f2) as B.
  destruct (read_full 8 f1) as [[h1 g1]|], (read_full 8 f2) as [[h2 g2]|]; rewrite E in A; auto; try lia.
  destruct A as (_ & -> & E1). destruct B as (_ & -> & E2).
  destruct (2 ^ 63 <=? _); auto. assert (EG : concat g1 = concat g2) by congruence. rewrite EG.
  destruct (_ <? _); auto. set (k := N.to_nat (be_decode (firstn 8 (concat f2)))).
  pose proof (read_full_spec k g1) as C. pose proof (read_full_spec k g2) as D.
  destruct (read_full k g1) as [[m1 k1]|], (read_full k g2) as [[m2 k2]|]; rewrite EG in C; auto; try lia.
  destruct C as (_ & -> & C). destruct D as (_ & -> & D). rewrite (IH k1 k2) by congruence. reflexivity.
Qed.

(** One step of the loop on an unfragmented stream. *)
Lemma recv_step fuel s :
  recv_loop (S fuel) [s]
  = if (length s <? 8)%nat then ([], false)
    else let n := be_decode (firstn 8 s) in
         if 2 ^ 63 <=? n then ([], true)
         else if N.of_nat (length (skipn 8 s)) <? n then ([], false)
         else let r := recv_loop fuel [skipn (N.to_nat n) (skipn 8 s)] in
              (firstn (N.to_nat n) (skipn 8 s) :: fst r, snd r).
Proof.
  cbn [recv_loop]. pose proof (read_full_spec 8 [s]) as A. cbn [concat] in A. rewrite app_nil_r in A.
  destruct (read_full 8 [s]) as [[h g]|].
  - destruct A as (L & -> & E). rewrite E. destruct (Nat.ltb_spec (length s) 8); [lia|].
    destruct (2 ^ 63 <=? _); auto. destruct (_ <? _) eqn:EL; auto. apply N.ltb_ge in EL.
    set (k := N.to_nat (be_decode (firstn 8 s))). pose proof (read_full_spec k g) as B. rewrite E in B.
    destruct (read_full k g) as [[m g']|].
    + destruct B as (_ & -> & EB).
      rewrite (recv_concat fuel g' [skipn k (skipn 8 s)]) by (cbn; rewrite app_nil_r; exact EB). reflexivity.
    + lia.
  - destruct (Nat.ltb_spec (length s) 8); [reflexivity|lia].
Qed.

(** A message with its length in front, as Recv expects it. *)
Definition frame (m : bytes) : bytes := BigIntToBytes (len m) ++ m.

Lemma BigIntToBytes_length n : length (BigIntToBytes n) = 8%nat.
Proof. reflexivity. Qed.

Lemma frame_head m rest : len m < 2 ^ 63 ->
  firstn 8 (frame m ++ rest) = BigIntToBytes (len m) /\ skipn 8 (frame m ++ rest) = m ++ rest
  /\ be_decode (BigIntToBytes (len m)) = len m.
Proof.
  intros H. unfold frame. rewrite <- app_assoc. split; [reflexivity|]. split; [reflexivity|].
  apply be_decode_encode. change (256 ^ N.of_nat 8) with (2 ^ 64). lia.
Qed.

Lemma recv_frames ms tail fuel : Forall (fun m => len m < 2 ^ 63) ms ->
  (length ms <= fuel)%nat ->
  recv_loop fuel [concat (map frame ms) ++ tail]
  = let r := recv_loop (fuel - length ms) [tail] in (ms ++ fst r, snd r).
Proof.
  intros H. revert fuel. induction H as [|m ms Hm _ IH]; intros fuel L.
  - cbn [map concat app length]. rewrite Nat.sub_0_r. destruct (recv_loop fuel [tail]); reflexivity.
  - destruct fuel as [|fuel]; [cbn in L; lia|]. cbn [length] in L. rewrite recv_step. cbn [map concat]. rewrite <- app_assoc.
    set (rest := concat (map frame ms) ++ tail) in *. destruct (frame_head m rest Hm) as (E1 & E2 & E3).
    rewrite E1, E2, E3. unfold frame at 1. rewrite !app_length, BigIntToBytes_length.
    destruct (Nat.ltb_spec (8 + length m + length rest) 8); [lia|]. cbv zeta.
    replace (2 ^ 63 <=? len m) with false by (symmetry; apply N.leb_gt; auto).
    replace (_ <? len m) with false by (symmetry; apply N.ltb_ge; unfold len; lia).
    unfold len. rewrite Nat2N.id, firstn_app, skipn_app, firstn_all, skipn_all, Nat.sub_diag. cbn [firstn skipn app].
    rewrite app_nil_r. rewrite IH by lia. cbn [length Nat.sub]. reflexivity.
Qed.

Lemma frames_length ms : (length ms <= length (concat (map frame ms)))%nat.
Proof.
  induction ms as [|m ms IH]; [cbn; lia|]. cbn [map concat length]. unfold frame at 1.
  rewrite !app_length, BigIntToBytes_length. lia.
Qed.

Lemma Recv_cat frags s : concat frags = s -> Recv frags = recv_loop (S (length s)) [s].
Proof. intros E. unfold Recv. rewrite E. apply recv_concat. cbn. rewrite app_nil_r. exact E. Qed.

(** What is received depends on the bytes only, not on how they arrive. *)
Theorem C55_fragmentation f1 f2 : concat f1 = concat f2 -> Recv f1 = Recv f2.
Proof. intros E. unfold Recv. rewrite E. apply recv_concat, E. Qed.
Print Assumptions C55_fragmentation.

(** If every message is sent with its length in front, then at any time the
    receiver has delivered exactly the messages that have fully arrived, in order.

    Missing from the full property: Send does not put the length in front, and
    the initiating side sends a message of its own; see below. *)
Theorem C55_framed_partial ms m k frags :
  Forall (fun m => len m < 2 ^ 63) (m :: ms) -> (k < length (frame m))%nat ->
  concat frags = concat (map frame ms) ++ firstn k (frame m) ->
  Recv frags = (ms, false).
Proof.
  intros H Hk E. inversion H as [|? ? Hm Hms]; subst. rewrite (Recv_cat _ _ E).
  pose proof (frames_length ms). rewrite recv_frames; auto; [|rewrite app_length; unfold bytes in *; lia].
  set (fuel := (_ - _)%nat). assert (R : recv_loop fuel [firstn k (frame m)] = ([], false)).
  { destruct fuel; [reflexivity|]. rewrite recv_step. destruct (Nat.ltb_spec (length (firstn k (frame m))) 8); [reflexivity|].
    rewrite firstn_length in H1.
    assert (E1 : firstn 8 (firstn k (frame m)) = BigIntToBytes (len m)).
    { rewrite firstn_firstn. replace (Nat.min 8 k) with 8%nat by lia. reflexivity. }
    rewrite E1. cbv zeta. pose proof (frame_head m [] Hm) as (_ & _ & E3). rewrite E3.
    replace (2 ^ 63 <=? len m) with false by (symmetry; apply N.leb_gt; auto).
    replace (_ <? len m) with true; [reflexivity|]. symmetry. apply N.ltb_lt.
    assert (EF : length (frame m) = (8 + length m)%nat) by (unfold frame; rewrite app_length; reflexivity).
    rewrite skipn_length, firstn_length. unfold len. lia. }
  rewrite R. cbn [fst snd]. rewrite app_nil_r. reflexivity.
Qed.
Print Assumptions C55_framed_partial.

Example C55_instance :
  let frags := [[0; 0; 0]; [0; 0; 0; 0; 2; 9]; [8; 0; 0; 0; 0; 0; 0; 0; 0; 0; 0]; [0; 0]] in
  concat frags = concat (map frame [[9; 8]; []]) ++ firstn 4 (frame [1])
  /\ Recv frags = ([[9; 8]; []], false).
Proof. vm_compute. split; reflexivity. Qed.

(** ** Sending *)

Fixpoint send_all (t : transport) (alfie : bool) (ds : list (N * bytes)) : res transport :=
  match ds with
  | [] => Ok t
  | (c, d) :: ds' => do t' <- Send t d c alfie; send_all t' alfie ds'
  end.

(** The data sent on one channel. *)
Definition sent_on (c : N) (ds : list (N * bytes)) : list bytes :=
  map snd (filter (fun x => fst x =? c) ds).

Lemma update_nth {A} (l : list A) i v j : (i < length l)%nat ->
  nth_error (update l i v) j = if (j =? i)%nat then Some v else nth_error l j.
Proof.
  revert i j. induction l as [|x l IH]; intros i j H; [cbn in H; lia|].
  destruct i, j; cbn; auto. apply IH. cbn in H. lia.
Qed.
Lemma update_length {A} (l : list A) i v : length (update l i v) = length l.
Proof. revert i. induction l; intros [|i]; cbn; auto. Qed.

Definition streams (alfie : bool) (t : transport) := if alfie then t_initiated t else t_accepted t.

Lemma Send_spec t d c alfie w :
  t_closed t = false -> nth_error (streams alfie t) (N.to_nat c) = Some (Some w) ->
  exists t', Send t d c alfie = Ok t' /\ t_closed t' = false
    /\ streams (negb alfie) t' = streams (negb alfie) t
    /\ length (streams alfie t') = length (streams alfie t)
    /\ forall j, nth_error (streams alfie t') j
         = if (j =? N.to_nat c)%nat then Some (Some (w ++ d)) else nth_error (streams alfie t) j.
Proof.
  intros Hc Hn. unfold Send. rewrite Hc.
  assert (L : (N.to_nat c < length (streams alfie t))%nat) by (apply nth_error_Some; congruence).
  destruct alfie; cbn [streams negb] in *; unfold write, index; rewrite Hn; cbn [bind];
    eexists; (split; [reflexivity|]); cbn [t_closed t_accepted t_initiated];
    (split; [auto|]); (split; [reflexivity|]); (split; [apply update_length|]); intros j; apply update_nth; auto.
Qed.

(** Channels are independent: each stream carries what was sent on its channel,
    in order, after what was there before; the other direction is untouched. *)
Theorem C55_channels_partial t alfie ds :
  t_closed t = false ->
  (forall c d, In (c, d) ds -> exists w, nth_error (streams alfie t) (N.to_nat c) = Some (Some w)) ->
  exists t', send_all t alfie ds = Ok t'
    /\ streams (negb alfie) t' = streams (negb alfie) t
    /\ forall c w, nth_error (streams alfie t) (N.to_nat c) = Some (Some w) ->
         nth_error (streams alfie t') (N.to_nat c) = Some (Some (w ++ concat (sent_on c ds))).
Proof.
  revert t. induction ds as [|[c d] ds IH]; intros t HC HS.
  - exists t. cbn. repeat split; auto. intros c w H. rewrite app_nil_r. exact H.
  - cbn [send_all]. destruct (HS c d (or_introl eq_refl)) as [w Hw].
    destruct (Send_spec t d c alfie w HC Hw) as (t1 & E & HC1 & O1 & L1 & N1). rewrite E. cbn [bind].
    destruct (IH t1 HC1) as (t2 & E2 & O2 & N2).
    { intros c' d' HI. destruct (HS c' d' (or_intror HI)) as [w' Hw']. rewrite N1. destruct (_ =? _)%nat; eauto. }
    exists t2. split; [exact E2|]. split; [congruence|]. intros c' w' Hw'.
    unfold sent_on. cbn [filter fst]. destruct (N.eqb_spec c c') as [->|NE].
    + cbn [map snd concat]. rewrite Hw' in Hw. injection Hw as <-. rewrite app_assoc. apply N2. rewrite N1, Nat.eqb_refl. reflexivity.
    + apply N2. rewrite N1. destruct (Nat.eqb_spec (N.to_nat c') (N.to_nat c)); [|exact Hw']. exfalso. apply NE. lia.
Qed.
Print Assumptions C55_channels_partial.

Example C55_instance_channels :
  exists t', send_all (Initiate NewQuicTransport) true [(2, [5]); (0, [6]); (2, [7])] = Ok t'
    /\ nth_error (t_initiated t') 2 = Some (Some (init_bytes 2 ++ [5; 7])).
Proof. eexists. vm_compute. split; reflexivity. Qed.

(** No non-empty sequence of Sends is received as it was sent, however it is cut:
    the receiver takes the first eight bytes of the data for a length. *)
Lemma recv_volume fuel s : (8 * length (fst (recv_loop fuel [s])) + length (concat (fst (recv_loop fuel [s]))) <= length s)%nat.
Proof.
  revert s. induction fuel as [|fuel IH]; intros s; [cbn; lia|]. rewrite recv_step.
  destruct (Nat.ltb_spec (length s) 8); [cbn; lia|]. cbv zeta. destruct (2 ^ 63 <=? _); [cbn; lia|].
  destruct (_ <? _) eqn:EL; [cbn; lia|]. apply N.ltb_ge in EL. cbn [fst].
  set (n := N.to_nat (be_decode (firstn 8 s))) in *. specialize (IH (skipn n (skipn 8 s))).
  cbn [length concat]. rewrite app_length, firstn_length. rewrite !skipn_length in *. unfold bytes in *. lia.
Qed.

Theorem C55_unframed_refuted ds frags : ds <> [] -> concat frags = concat ds -> fst (Recv frags) <> ds.
Proof.
  intros HN E R. rewrite (Recv_cat _ _ E) in R. pose proof (recv_volume (S (length (concat ds))) (concat ds)) as V.
  unfold bytes in *. rewrite R in V. destruct ds; [congruence|]. cbn [length] in V. lia.
Qed.
Print Assumptions C55_unframed_refuted.

(** The data of /repo/tests/quic_test.go: nothing is ever received. *)
Example C55_instance_unframed : Recv [[1; 2; 3; 4]; [5; 6]; [7]] = ([], false).
Proof. vm_compute. reflexivity. Qed.

(** Even with lengths in front, what the initiating side sends is received with
    an extra first message, the channel number that Initiate writes. *)
Theorem C55_initiator_refuted t c ms frags :
  t_closed t = false -> c < 8 -> Forall (fun m => len m < 2 ^ 63) ms ->
  forall t' w, send_all (Initiate t) true (map (fun m => (c, frame m)) ms) = Ok t' ->
  nth_error (t_initiated t') (N.to_nat c) = Some (Some w) -> concat frags = w ->
  Recv frags = ([c] :: ms, false).
Proof.
  intros HC Hc HM t' w ES EW EF.
  assert (HI : nth_error (streams true (Initiate t)) (N.to_nat c) = Some (Some (init_bytes c))).
  { cbn [streams Initiate t_initiated]. assert (X : c = 0 \/ c = 1 \/ c = 2 \/ c = 3 \/ c = 4 \/ c = 5 \/ c = 6 \/ c = 7) by lia.
    repeat (destruct X as [->|X]; [reflexivity|]). subst c. reflexivity. }
  destruct (C55_channels_partial (Initiate t) true (map (fun m => (c, frame m)) ms)) as (t2 & E2 & _ & N2).
  { exact HC. }
  { intros c' d HIn. apply in_map_iff in HIn as (m & Em & _). injection Em as <- <-. eauto. }
  rewrite ES in E2. injection E2 as <-. specialize (N2 c _ HI). cbn [streams] in N2. rewrite EW in N2. injection N2 as ->.
  assert (EM : concat (sent_on c (map (fun m => (c, frame m)) ms)) = concat (map frame ms)).
  { f_equal. unfold sent_on. clear. induction ms as [|m ms IH]; [reflexivity|].
    cbn [map filter fst]. rewrite N.eqb_refl. cbn [map snd]. f_equal. exact IH. }
  rewrite EM in EF. apply (C55_framed_partial ([c] :: ms) [] 0); [|cbn; lia|].
  - constructor; [reflexivity|]. constructor; [reflexivity|auto].
  - rewrite EF. cbn [map concat firstn]. rewrite app_nil_r. reflexivity.
Qed.
Print Assumptions C55_initiator_refuted.

Example C55_instance_initiator :
  exists t' w, send_all (Initiate NewQuicTransport) true [(2, frame [5; 6])] = Ok t'
    /\ nth_error (t_initiated t') 2 = Some (Some w) /\ Recv [w] = ([[2]; [5; 6]], false).
Proof. do 2 eexists. split; [vm_compute; reflexivity|]. split; [vm_compute; reflexivity|]. vm_compute. reflexivity. Qed.

(** Eight bytes from the peer with the first bit set end the process. *)
Theorem C55_length_refuted header rest frags :
  length header = 8%nat -> 2 ^ 63 <= be_decode header -> concat frags = header ++ rest ->
  Recv frags = ([], true).
Proof.
  intros HL HB E. rewrite (Recv_cat _ _ E), recv_step, app_length, HL.
  destruct (Nat.ltb_spec (8 + length rest) 8); [lia|]. cbv zeta. rewrite firstn_app, HL.
  rewrite firstn_all2 by lia. cbn [firstn Nat.sub]. rewrite app_nil_r.
  replace (2 ^ 63 <=? be_decode header) with true by (symmetry; apply N.leb_le; auto). reflexivity.
Qed.
Print Assumptions C55_length_refuted.

Example C55_instance_length : Recv [[128; 0; 0; 0]; [0; 0; 0; 0]] = ([], true).
Proof. vm_compute. reflexivity. Qed.

(** Sending before the streams exist panics, and so does closing. *)
Theorem C55_early_refuted data c alfie :
  Send NewQuicTransport data c alfie = Panic /\ Close NewQuicTransport = Panic
  /\ Close (Initiate NewQuicTransport) = Panic.
Proof.
  split; [|split; reflexivity]. unfold Send, NewQuicTransport. cbn [t_closed t_initiated t_accepted].
  assert (W : write (repeat None 8) c data = Panic).
  { unfold write, index. destruct (nth_error (repeat None 8) (N.to_nat c)) as [s|] eqn:E; [|reflexivity].
    apply nth_error_In, repeat_spec in E. subst s. reflexivity. }
  destruct alfie; rewrite W; reflexivity.
Qed.
Print Assumptions C55_early_refuted.

(** Two listeners on one stream, as the messenger starts them: there are turns
    after which neither has any of the messages sent. *)
Theorem C55_two_listeners_refuted :
  exists ms sched, (forall m, In m ms -> len m < 2 ^ 63) /\ length ms = 2%nat /\
    let l := listen_run sched [concat (map frame ms)] in
    length (ls_got_a l ++ ls_got_b l) = 3%nat /\ forall m, In m ms -> ~ In m (ls_got_a l ++ ls_got_b l).
Proof.
  exists [[0; 0; 0; 0; 0; 0; 0; 0]; [0; 0; 0; 0; 0; 0; 0; 0; 7]], [true; false; true; false; true; true].
  split; [intros m [<-|[<-|[]]]; vm_compute; reflexivity|]. split; [reflexivity|].
  split; [vm_compute; reflexivity|].
  intros m [<-|[<-|[]]]; vm_compute; intros H; repeat (destruct H as [H|H]; [discriminate|]); contradiction.
Qed.
Print Assumptions C55_two_listeners_refuted.

(** A transport is closed once all its streams exist; from then on nothing is sent, whatever is
    tried. *)
Fixpoint sends (t : transport) (ds : list (bytes * N * bool)) : list (res unit) * transport :=
  match ds with
  | [] => ([], t)
  | (d, c, alfie) :: ds' =>
      match Send t d c alfie with
      | Ok t' => let r := sends t' ds' in (Ok tt :: fst r, snd r)
      | Err => let r := sends t ds' in (Err :: fst r, snd r)
      | Panic => ([Panic], t) | Fatal => ([Fatal], t) | Hang => ([Hang], t)
      end
  end.
Theorem C55_closed t ds : (forall s, In s (t_accepted t ++ t_initiated t) -> s <> None) ->
  exists t', Close t = Ok t' /\ sends t' ds = (map (fun _ => Err) ds, t')
    /\ t_accepted t' = t_accepted t /\ t_initiated t' = t_initiated t /\ Close t' = Ok t'.
Proof.
  intros H. unfold Close.
  assert (F : forallb (fun s : option bytes => match s with Some _ => true | None => false end) (t_accepted t ++ t_initiated t) = true).
  { apply forallb_forall. intros s Hs. specialize (H s Hs). destruct s; congruence. }
  rewrite F. eexists. split; [reflexivity|]. cbn [t_accepted t_initiated]. rewrite F. split; [|auto].
  induction ds as [|[[d c] alfie] ds IH]; [reflexivity|]. cbn [sends map]. unfold Send. cbn [t_closed]. rewrite IH. reflexivity.
Qed.
Print Assumptions C55_closed.

Example C55_instance_closed : exists t t', Send (accept (Initiate NewQuicTransport)) [1; 2] 2 true = Ok t
  /\ Close t = Ok t' /\ Send t' [3] 2 true = Err /\ Send t' [3] 9 false = Err.
Proof. eexists. eexists. split; [vm_compute; reflexivity|]. split; [vm_compute; reflexivity|]. split; reflexivity. Qed.
