(** Model of a running messenger: the part of NewWgpsMessenger that is not commented out
    (/repo/pkg/wgps/wgps_messenger.go:649-677, 783-843), Initiate (2605-2628), Close (2724-2746),
    HandleDataInitiator (2839-2868) and the gob codecs (2870-2945), over the transport of
    M_Transport.v, the handlers of M_Sync.v and the store of M_Store.v; and of two messengers
    connected to each other. The queues, channels and finders that are constructed (384-647)
    are not used by any code that is not commented out. *)
From Verif Require Import Base M_Order M_Encoding M_Paths M_Ranges M_Keys M_Entry M_Map M_Store M_Transport M_Sync.
Local Open Scope N_scope.

(** A Recv goroutine (/repo/pkg/wgps/transport/quic.go:142-194): what it has of the length it is
    reading, or the length and what it has of the message. *)
Inductive rx := Header (got : bytes) | Body (n : N) (got : bytes).

(** [mg_in r c]: bytes that have arrived on stream [c] of the streams initiated ([r] is true) or
    accepted and have not been read; [mg_rx r d] and [mg_queue r d]: the Recv goroutine of the data
    ([d] is true) or reconciliation listener and the messages in its channel. The capacity of
    the channels (32) is left out: a goroutine that waits there goes on later. *)
Record messenger := Messenger {
  mg_store : state; mg_transport : transport;
  mg_in : bool -> N -> bytes; mg_rx : bool -> bool -> rx; mg_queue : bool -> bool -> list bytes }.

Definition upd_in (f : bool -> N -> bytes) (r : bool) (c : N) (v : bytes) : bool -> N -> bytes :=
  fun r' c' => if Bool.eqb r r' && (c =? c') then v else f r' c'.
Definition upd {A} (f : bool -> bool -> A) (r d : bool) (v : A) : bool -> bool -> A :=
  fun r' d' => if Bool.eqb r r' && Bool.eqb d d' then v else f r' d'.

(** wgps_messenger.go:360-382, 649, 783-843: no connection yet. *)
Definition NewMessenger (st : state) : messenger :=
  Messenger st NewQuicTransport (fun _ _ => []) (fun _ _ => Header []) (fun _ _ => []).

Section Messenger.
Variable C : cfg.
Variable gob_entry : entry -> bytes -> bytes.       (* EncodeEntryPayload, 2924-2935 *)
Variable gob_range : range3d -> bytes.              (* EncodeRange, 2870-2875 *)
Variable gob_type : bytes.                          (* EncodeSummary, 2885-2901; see M_Sync.v *)
Variable ungob_entry : bytes -> entry * bytes.      (* DecodeEntryPayload, 2936-2945; errors are dropped *)
Variable ungob_range : bytes -> range3d.            (* DecodeRange, 2877-2883; errors are dropped *)

(** wgps_messenger.go:2902-2922 DecodeSummary: encoding/gob sets no field that is not exported;
    the result is zero for all bytes. *)
Definition DecodeSummary (m : bytes) : (bytes * N) * range3d :=
  (([], 0), Range3d (Range [] [] false) (Range [] [] false) (Range 0 0 false)).

(** wgps_messenger.go:2859-2867 HandleDataInitiator; the result of Set is dropped. *)
Definition remote_op (e : entry) (payload : bytes) (now : N) : op :=
  OpSet (Input (e_subspace e) (e_path e) payload (e_time e)) (e_subspace e) now.
Definition HandleDataInitiator (e : entry) (payload : bytes) (now : N) (st : state) : res (list entry) * state :=
  step C (remote_op e payload now) st.

(** Sends one after the other; their errors are dropped (wgps_messenger.go:2789, 2804, 2809). *)
Fixpoint send_all (out : list (N * bytes)) (q : transport) : res transport :=
  match out with
  | [] => Ok q
  | (c, b) :: out' => match Send q b c false with Ok q' => send_all out' q' | Err => send_all out' q | x => x end
  end.

(** The callbacks of AsyncReceive, wgps_messenger.go:813-837. [None]: the process ends, or the
    call never returns. Handlers run one at a time. *)
Definition handle (r d : bool) (m : bytes) (now : N) (g : messenger) : option messenger :=
  let with_store st := Some (Messenger st (mg_transport g) (mg_in g) (mg_rx g) (mg_queue g)) in
  let with_transport q := Some (Messenger (mg_store g) q (mg_in g) (mg_rx g) (mg_queue g)) in
  match r, d with
  | false, true => Some g
  | true, true =>
      let '(e, payload) := ungob_entry m in
      match HandleDataInitiator e payload now (mg_store g) with
      | (Ok _, st) | (Err, st) => with_store st
      | _ => None
      end
  | false, false =>
      let '(s, range) := DecodeSummary m in
      match HandleMsgReconciliationAcceptor C gob_entry gob_range range (fst s) (mg_store g) with
      | (Ok out, st) =>
          match send_all out (mg_transport g) with
          | Ok q => Some (Messenger st q (mg_in g) (mg_rx g) (mg_queue g))
          | _ => None
          end
      | _ => None
      end
  | true, false =>
      match HandleMsgReconciliationInitiator gob_type (tree (mg_store g)) (ungob_range m) (mg_transport g) with
      | Ok q => with_transport q
      | Err => Some g
      | _ => None
      end
  end.

(** Up to [k] bytes are read by one of the two Recv goroutines of a role. Both read DataChannel
    (wgps_messenger.go:839-843). make panics for lengths from 2^63 (quic.go:155, 180). Close
    (quic.go:117-134) ends only what is written to a stream; what arrives can still be read. *)
Definition read (r d : bool) (k : nat) (g : messenger) : option messenger :=
  let i := mg_in g r DataChannel in
  match mg_rx g r d with
  | Header got =>
      let n := Nat.min k (8 - length got) in
      let got' := got ++ firstn n i in
      let g' s := Messenger (mg_store g) (mg_transport g) (upd_in (mg_in g) r DataChannel (skipn n i)) (upd (mg_rx g) r d s) (mg_queue g) in
      if (length got' =? 8)%nat then if 2 ^ 63 <=? be_decode got' then None else Some (g' (Body (be_decode got') []))
      else Some (g' (Header got'))
  | Body want got =>
      let n := N.to_nat (N.min (N.of_nat k) (want - len got)) in
      let got' := got ++ firstn n i in
      let g' s q := Messenger (mg_store g) (mg_transport g) (upd_in (mg_in g) r DataChannel (skipn n i)) (upd (mg_rx g) r d s) (upd (mg_queue g) r d q) in
      if len got' =? want then Some (g' (Header []) (mg_queue g r d ++ [got']))
      else Some (g' (Body want got') (mg_queue g r d))
  end.

(** What can happen to a messenger: it initiates a connection, accepts one, bytes of the peer
    arrive, a Recv goroutine reads, a callback handles the next message, its application calls
    the store, it is closed. *)
Inductive event :=
| EInitiate | EAccept | EArrive (r : bool) (c : N) (b : bytes)
| ERead (r d : bool) (k : nat) | EHandle (r d : bool) (now : N) | ELocal (o : op) | EClose.

Definition react (ev : event) (g : messenger) : option messenger :=
  match ev with
  | EInitiate => Some (Messenger (mg_store g) (Initiate (mg_transport g)) (mg_in g) (mg_rx g) (mg_queue g))
  | EAccept => Some (Messenger (mg_store g) (accept (mg_transport g)) (mg_in g) (mg_rx g) (mg_queue g))
  | EArrive r c b => Some (Messenger (mg_store g) (mg_transport g) (upd_in (mg_in g) r c (mg_in g r c ++ b)) (mg_rx g) (mg_queue g))
  | ERead r d k => read r d k g
  | EHandle r d now =>
      match mg_queue g r d with
      | [] => Some g
      | m :: q => handle r d m now (Messenger (mg_store g) (mg_transport g) (mg_in g) (mg_rx g) (upd (mg_queue g) r d q))
      end
  | ELocal o =>
      match step C o (mg_store g) with
      | (Ok _, st) | (Err, st) => Some (Messenger st (mg_transport g) (mg_in g) (mg_rx g) (mg_queue g))
      | _ => None
      end
  | EClose => match Close (mg_transport g) with
              | Ok q => Some (Messenger (mg_store g) q (mg_in g) (mg_rx g) (mg_queue g))
              | _ => None
              end
  end.

Fixpoint reacts (evs : list event) (g : messenger) : option messenger :=
  match evs with [] => Some g | ev :: evs' => match react ev g with Some g' => reacts evs' g' | None => None end end.
End Messenger.

(** ** Two messengers

    [true] and [false] name the two. [nt_seen p r c] counts the bytes of stream [c] that have arrived
    at [p]; the streams [p] initiated are those its peer accepted. *)
Record net := Net { nt_peer : bool -> messenger; nt_seen : bool -> bool -> N -> nat }.

Definition upd_peer (f : bool -> messenger) (p : bool) (g : messenger) : bool -> messenger :=
  fun p' => if Bool.eqb p p' then g else f p'.
(** The bytes a messenger has written on a stream so far. *)
Definition written (g : messenger) (r : bool) (c : N) : bytes :=
  match nth_error (if r then t_initiated (mg_transport g) else t_accepted (mg_transport g)) (N.to_nat c) with
  | Some (Some w) => w
  | _ => []
  end.
Definition connected (g : messenger) (r : bool) : Prop :=
  Forall (fun s => s <> None) (if r then t_initiated (mg_transport g) else t_accepted (mg_transport g)).

Section Net.
Variable C : bool -> cfg.
Variable gob_entry : entry -> bytes -> bytes.
Variable gob_range : range3d -> bytes.
Variable gob_type : bytes.
Variable ungob_entry : bytes -> entry * bytes.
Variable ungob_range : bytes -> range3d.
Notation react p := (react (C p) gob_entry gob_range gob_type ungob_entry ungob_range).

(** One step: something happens at one of them. A messenger initiates once, and accepts what its
    peer has initiated; what arrives is what its peer has written. *)
Inductive nstep : net -> bool -> event -> net -> Prop :=
| NInitiate n p g : ~ connected (nt_peer n p) true ->
    react p EInitiate (nt_peer n p) = Some g -> nstep n p EInitiate (Net (upd_peer (nt_peer n) p g) (nt_seen n))
| NAccept n p g : connected (nt_peer n (negb p)) true -> ~ connected (nt_peer n p) false ->
    react p EAccept (nt_peer n p) = Some g -> nstep n p EAccept (Net (upd_peer (nt_peer n) p g) (nt_seen n))
| NArrive n p r c k g : connected (nt_peer n p) r ->
    let b := firstn k (skipn (nt_seen n p r c) (written (nt_peer n (negb p)) (negb r) c)) in
    react p (EArrive r c b) (nt_peer n p) = Some g ->
    nstep n p (EArrive r c b) (Net (upd_peer (nt_peer n) p g)
      (fun p' r' c' => if Bool.eqb p p' && Bool.eqb r r' && (c =? c') then (nt_seen n p r c + length b)%nat else nt_seen n p' r' c'))
| NOwn n p ev g :
    match ev with ERead _ _ _ | EHandle _ _ _ | ELocal _ | EClose => True | _ => False end ->
    react p ev (nt_peer n p) = Some g -> nstep n p ev (Net (upd_peer (nt_peer n) p g) (nt_seen n)).

Inductive nsteps : net -> list (bool * event) -> net -> Prop :=
| ns_nil n : nsteps n [] n
| ns_step n1 tr n2 p ev n3 : nsteps n1 tr n2 -> nstep n2 p ev n3 -> nsteps n1 (tr ++ [(p, ev)]) n3.
End Net.
Definition new_net (stA stB : state) : net := Net (fun p => NewMessenger (if p then stA else stB)) (fun _ _ _ => O).
