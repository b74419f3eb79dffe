(** C23: GrowingBytes. *)
From Verif Require Import Base M_Growing P_Growing.
Local Open Scope N_scope.

(** Whatever the schedule: every NextAbsolute(n) that returns, returns at least n
    bytes, and exactly those that follow, in what the network sent, the bytes
    pruned by then. *)
Theorem C23_in_order ls s n gone b :
  gruns ls ginit = Some s -> In (n, gone, b) (g_returned s) ->
  n <= len b /\ exists later, g_sent s = gone ++ b ++ later.
Proof. intros H. apply (gi_returned s). eapply gruns_inv; eauto. apply ginv_init. Qed.
Print Assumptions C23_in_order.

(** The pruned bytes and the array are what the goroutine has taken in. *)
Theorem C23_nothing_lost ls s :
  gruns ls ginit = Some s ->
  exists in_hand, g_sent s = g_gone s ++ g_array s ++ in_hand ++ concat (g_in s)
    /\ (in_hand <> [] -> g_p s = PGot in_hand).
Proof.
  intros H. exists (in_hand (g_p s)). split.
  - apply (gi_stream s). eapply gruns_inv; eauto. apply ginv_init.
  - destruct (g_p s); cbn; congruence.
Qed.
Print Assumptions C23_nothing_lost.

(** A request made when the goroutine is idle, and whose token has been taken, is
    answered in every schedule that is continued until nothing more can happen,
    as soon as enough bytes have been sent. *)
Theorem C23_woken_partial ls s ls' s' id n :
  gruns ls ginit = Some s ->
  g_p s = PSelect -> g_token s = false -> g_held s = false -> g_c s = CWait n id ->
  g_deferred s = Some (id, n) -> len (g_array s) < n -> n <= len (g_array s ++ concat (g_in s)) ->
  gruns ls' s = Some s' -> (forall l, internal l = true -> gstep l s' = None) ->
  exists gone b, In (n, gone, b) (g_returned s').
Proof.
  intros HR HP HT HH HC HD HL HN HR' HQ.
  assert (HI : ginv s) by (eapply gruns_inv; eauto; apply ginv_init).
  destruct (underway_runs id n ls' s s') as [H|H]; auto.
  - left. split; auto. left. pose proof (gi_deferred s HI) as G. rewrite HP, HD in G. destruct G as [_ G].
    unfold enough. rewrite HP. cbn [in_hand app]. repeat split; auto.
  - exfalso. eapply underway_moves; eauto.
Qed.
Print Assumptions C23_woken_partial.

(** Such schedules exist: from any state the goroutine and a reader in a call can
    only make so many steps. *)
Theorem C23_steps_bounded s :
  exists k, forall ls s', forallb internal ls = true -> gruns ls s = Some s' -> (length ls <= k)%nat.
Proof. exists (weight s). intros. eapply weight_runs; eauto. Qed.
Print Assumptions C23_steps_bounded.

(** The reader asks for three bytes; they come in two chunks. *)
Definition calm : list label := [LCall 3; LReader; LReader; LReader; LTakeToken].
Example C23_instance :
  exists s s', gruns (calm ++ [LSend [1; 2]; LSend [3; 4]]) ginit = Some s
    /\ g_p s = PSelect /\ g_token s = false /\ g_held s = false /\ g_c s = CWait 3 0 /\ g_deferred s = Some (0%nat, 3)
    /\ len (g_array s) < 3 /\ 3 <= len (g_array s ++ concat (g_in s))
    /\ gruns [LTakeChunk; LProducer; LProducer; LTakeChunk; LProducer; LProducer; LProducer; LReader; LProducer;
              LProducer; LTakeToken] s = Some s'
    /\ (forall l, internal l = true -> gstep l s' = None)
    /\ g_returned s' = [(3, [], [1; 2; 3; 4])].
Proof.
  eexists. eexists. split; [vm_compute; reflexivity|]. do 5 (split; [reflexivity|]). split; [vm_compute; reflexivity|].
  split; [vm_compute; discriminate|]. split; [vm_compute; reflexivity|]. split; [|reflexivity].
  intros l Hl. destruct l; try discriminate; reflexivity.
Qed.

(** First race: the bytes arrive between the test of the length (75) and the
    registration of the request. The token makes the goroutine look at nothing,
    and the reader waits although its bytes are there. *)
Theorem C23_unnoticed_refuted :
  exists ls s n id, gruns ls ginit = Some s /\ g_c s = CWait n id /\ n <= len (g_array s)
    /\ forall l, internal l = true -> gstep l s = None.
Proof.
  exists [LCall 1; LSend [7]; LTakeChunk; LProducer; LProducer; LReader; LReader; LReader; LTakeToken].
  eexists. exists 1, 0%nat. split; [vm_compute; reflexivity|]. repeat split.
  - cbn. lia.
  - intros l Hl. destruct l; try discriminate; reflexivity.
Qed.
Print Assumptions C23_unnoticed_refuted.

(** Second race: the reader, answered, registers its next request before the
    goroutine erases the old one (52). The new request is erased: whatever is sent
    from then on, it is never answered. *)
Theorem C23_erased_refuted :
  exists ls s n id, gruns ls ginit = Some s /\ g_c s = CWait n id
    /\ forall ls' s', gruns ls' s = Some s' -> g_c s' = CWait n id /\ g_returned s' = g_returned s.
Proof.
  exists (calm ++ [LSend [7; 7; 7]; LTakeChunk; LProducer; LProducer; LProducer; LReader;
                   LCall 5; LReader; LReader; LProducer; LProducer; LTakeToken; LReader]).
  eexists. exists 5, 1%nat. split; [vm_compute; reflexivity|]. split; [reflexivity|].
  intros ls' s' H. match type of H with gruns _ ?s0 = _ => set (s0' := s0) in H end.
  destruct (gruns_keeps (dropped 5 1 (g_returned s0')) (dropped_step 5 1 (g_returned s0')) ls' s0' s') as (H1 & _ & _ & _ & H2); auto.
  repeat split. discriminate.
Qed.
Print Assumptions C23_erased_refuted.

(** Third race: the goroutine takes the chunk before the token. After answering it
    blocks on its own channel (53) forever: nothing is received any more. *)
Theorem C23_jam_refuted :
  exists ls s, gruns ls ginit = Some s
    /\ forall ls' s', gruns ls' s = Some s' -> g_p s' = PToken /\ (length (g_array s') <= length (g_array s))%nat.
Proof.
  exists [LCall 3; LReader; LReader; LReader; LSend [7; 7; 7]; LTakeChunk; LProducer; LProducer; LProducer; LReader; LProducer].
  eexists. split; [vm_compute; reflexivity|].
  intros ls' s' H. match type of H with gruns _ ?s0 = _ => set (s0' := s0) in H end.
  destruct (gruns_keeps (jammed 3) (jammed_step 3) ls' s0' s') as (H1 & _ & H2 & _); auto.
  repeat split. cbn. lia.
Qed.
Print Assumptions C23_jam_refuted.

(** Fourth race: as the second, with the same length. The reader waits for a
    channel that is never used again, with the lock held. *)
Theorem C23_wedge_refuted :
  exists ls s n id, gruns ls ginit = Some s /\ g_c s = CWaitOld n id
    /\ forall ls' s', gruns ls' s = Some s' -> g_c s' = CWaitOld n id /\ g_held s' = true /\ g_returned s' = g_returned s.
Proof.
  exists (calm ++ [LSend [7; 7; 7]; LTakeChunk; LProducer; LProducer; LProducer; LReader;
                   LPrune 3; LCall 3; LReader; LReader]).
  eexists. exists 3, 0%nat. split; [vm_compute; reflexivity|]. split; [reflexivity|].
  intros ls' s' H. match type of H with gruns _ ?s0 = _ => set (s0' := s0) in H end.
  destruct (gruns_keeps (wedged 3 0 (g_returned s0')) (wedged_step 3 0 (g_returned s0')) ls' s0' s')
    as (H1 & _ & H2 & _ & _ & H3); auto.
  repeat split; discriminate.
Qed.
Print Assumptions C23_wedge_refuted.
