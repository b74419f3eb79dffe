(** Model of range-based reconciliation:
    /repo/pkg/wgps/reconciliation/reconciler.go, and the handlers of
    /repo/pkg/wgps/wgps_messenger.go:2767-3037. (announcer.go and
    reconcile_msg_tracker.go are commented out in /repo.) *)
From Verif Require Import Base M_Order M_Encoding M_Paths M_Successor M_Ranges M_Areas M_Keys M_Entry M_Map
  M_Store M_Query M_Transport.
Local Open Scope N_scope.

(** SEND_ENTRIES_THRESHOLD, reconciler.go:28; the literal 8 at
    wgps_messenger.go:2997. *)
Definition SEND_ENTRIES_THRESHOLD : N := 8.

(** What Respond returns: three structs, of which
    - all are zero: nothing to do ([Nothing]);
    - the third has WantResponse: announce the entries of its range ([Announce]);
    - the first two are fingerprints of two ranges, the second with the number of
      the message it answers ([Split]); a range that is split contains entries,
      so these are not zero. *)
Inductive answer :=
| Nothing
| Announce (r : range3d)
| Split (left : range3d) (fp_left : bytes) (right : range3d) (fp_right : bytes) (covers : N).

(** reconciler.go:128-210 and wgps_messenger.go:2965-3037 Respond (the second
    without covers). [summary] is Storage.Summarise; a parameter, so that the
    exchange can also be studied with a summary that works. *)
Definition Respond_with (summary : list node -> range3d -> res (bytes * N))
  (finalise : bytes -> bytes) (isEqual : bytes -> bytes -> bool)
  (t : list node) (yours : range3d) (fp : bytes) (counter : N) : res answer :=
  do s <- summary t yours;
  if isEqual fp (finalise (fst s)) then Ok Nothing
  else if snd s <=? SEND_ENTRIES_THRESHOLD then Ok (Announce yours)
  else
    do lr <- SplitRange t yours;
    do sl <- summary t (fst lr);
    do sr <- summary t (snd lr);
    Ok (Split (fst lr) (finalise (fst sl)) (snd lr) (finalise (fst sr)) counter).

(** The fingerprint scheme of /repo/PinaGoladaStore/StoreSchemes.go:60-67. *)
Definition Respond : list node -> range3d -> bytes -> N -> res answer :=
  Respond_with Summarise (fun fp => fp) beqb.

(** entryDriverTypes.go:98-110 GetInterestRange, with the subspace scheme of
    StoreSchemes.go:54-59; store.go:350-354 AreaOfInterestToRange *)
Definition AreaOfInterestToRange (pp : path_params) (aoi : area_of_interest) : res range3d :=
  AreaTo3dRange [] SuccessorSubspaceId pp (aoi_area aoi).

(** reconciler.go:50-87 NewReconciler with DetermineRange (89-109) and Initiate
    (111-126): the range and fingerprint in FingerPrintQueue when it returns. For
    Alfie Initiate waits for a range that is not sent when the areas do not
    intersect, and NewReconciler waits for Initiate. Betty only computes the
    range. *)
Definition NewReconciler (pp : path_params) (t : list node) (alfie : bool) (ours theirs : area_of_interest)
  : res (option (range3d * bytes)) :=
  do r1 <- AreaOfInterestToRange pp ours;
  do r2 <- AreaOfInterestToRange pp theirs;
  match IntersectRange3d OrderSubspace r1 r2 with
  | None => if alfie then Hang else Ok None
  | Some r =>
      if alfie then do s <- Summarise t r; Ok (Some (r, fst s)) else Ok None
  end.

(** ** The exchange between two reconcilers

    Fingerprint messages in flight, in any order of delivery, and the ranges
    announced. [true] stands for the first peer. The receiver of a message
    answers it with Respond; the two fingerprints of a split go back to the
    sender. *)
Record xmsg := XMsg { x_to : bool; x_range : range3d; x_fp : bytes }.
Record xstate := XState { x_pending : list xmsg; x_announced : list (bool * range3d) }.

Section Exchange.
Variable respond : list node -> range3d -> bytes -> N -> res answer.
Variables tA tB : list node.    (* the trees of the two peers *)

Definition tree_of (a : bool) : list node := if a then tA else tB.

(** What a peer does with an answer. *)
Definition replies (to : bool) (a : answer) : list xmsg :=
  match a with
  | Split l fl r fr _ => [XMsg (negb to) l fl; XMsg (negb to) r fr]
  | _ => []
  end.
Definition announces (to : bool) (a : answer) : list (bool * range3d) :=
  match a with Announce r => [(to, r)] | _ => [] end.

Inductive xstep : xstate -> xstate -> Prop :=
| XStep pre to r fp post ann counter a :
    respond (tree_of to) r fp counter = Ok a ->
    xstep (XState (pre ++ XMsg to r fp :: post) ann)
          (XState (pre ++ post ++ replies to a) (ann ++ announces to a)).

Inductive xsteps : nat -> xstate -> xstate -> Prop :=
| xs_refl s : xsteps 0 s s
| xs_step n s1 s2 s3 : xsteps n s1 s2 -> xstep s2 s3 -> xsteps (S n) s1 s3.
End Exchange.

(** ** The messenger *)

(** binary.BigEndian.PutUint64(b, v): panics when b has fewer than 8 bytes. *)
Definition PutUint64 (b : bytes) (v : N) : res bytes :=
  if len b <? 8 then Panic else Ok (be_encode 8 v ++ skipn 8 b).

Section Messenger.
Variable C : cfg.
Variable gob_entry : entry -> bytes -> bytes.   (* EncodeEntryPayload, 2924-2935 *)
Variable gob_range : range3d -> bytes.          (* EncodeRange, 2870-2875 *)

(** What encoding/gob writes for a value of a struct type without exported fields
    before it refuses the value: at most a description of the type. *)
Variable gob_type : bytes.
(** wgps_messenger.go:2885-2901 EncodeSummary: both fields are lower case; the
    error is ignored. *)
Definition EncodeSummary (s : bytes * N) (r : range3d) : bytes := gob_type.

Definition ReconciliationChannel : N := 1.
Definition DataChannel : N := 2.

(** wgps_messenger.go:2774-2791: the entries of a range, each with its payload
    (errors of GetPayload are ignored). *)
Fixpoint send_entries (xs : list ext) : M (list (N * bytes)) :=
  match xs with
  | [] => ret []
  | (e, _) :: xs' =>
      let* payload := (fun st => match GetPayload C (EntryPosition e) st with
                                 | (Ok b, st') => (Ok b, st')
                                 | (Err, st') => (Ok [], st')
                                 | (x, st') => (x, st')
                                 end) in
      let enc := gob_entry e payload in
      let* final := lift (PutUint64 [] (len enc)) in
      let* rest := send_entries xs' in
      ret ((DataChannel, final ++ enc) :: rest)
  end.

(** wgps_messenger.go:2767-2811 HandleMsgReconciliationAcceptor: what it sends,
    by channel. *)
Definition HandleMsgReconciliationAcceptor (r : range3d) (fp : bytes) : M (list (N * bytes)) :=
  let* t := gets tree in
  let* a := lift (Respond t r fp 0) in
  match a with
  | Announce r' =>
      let* xs := (fun st => match driver_Query C r' st with
                            | (Err, st') => (Fatal, st')
                            | x => x
                            end) in
      send_entries xs
  | Nothing => ret []
  | Split l _ rr _ _ =>
      let* lh := lift (PutUint64 [] (len (gob_range l))) in
      let* rh := lift (PutUint64 [] (len (gob_range rr))) in
      ret [(ReconciliationChannel, lh ++ gob_range l); (ReconciliationChannel, rh ++ gob_range rr)]
  end.

(** wgps_messenger.go:2813-2837 HandleMsgReconciliationInitiator *)
Definition HandleMsgReconciliationInitiator (t : list node) (r : range3d) (q : transport) : res transport :=
  do s <- Summarise t r;
  Send q (EncodeSummary s r) ReconciliationChannel true.
End Messenger.
