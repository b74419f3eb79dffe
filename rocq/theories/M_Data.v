(** Model of /repo/pkg/wgps/data: the data sender (data_sender.go) and the
    payload ingester (payload_ingester.go), with AsyncReceive
    (/repo/pkg/wgps/syncutils/utils.go:16-32). *)
From Verif Require Import Base M_Order M_Keys M_Entry M_Map M_Store M_Payload M_Book.
Local Open Scope N_scope.

(** ** Data sender *)

(** The messages of the data channel, /repo/pkg/wgps/wgpstypes: MsgDataSendEntry,
    MsgDataReplyPayload, MsgDataSendPayload. *)
Inductive data_msg :=
| MsgSendEntry (e : entry) (token : bytes) (offset handle : N)
| MsgReplyPayload (handle : N)
| MsgSendPayload (amount : N) (b : bytes).

(** data_sender.go:20-32 DataSendEntryPack and DataBindPayloadRequestPack, and
    the nil with which the queue starts (53). The Payload is the file name in the
    payload directory of the namespace's store: its BytesWithOffset reads the
    file when it is called. *)
Inductive pack :=
| PackNil
| PackEntry (e : entry) (offset handle : N) (token : bytes) (ns file : bytes)
| PackRequest (handle offset : N) (ns file : bytes).

(** data_sender.go:34-37 PayloadRequest *)
Record payload_request := PayloadRequest { pr_offset : N; pr_entry : entry }.

(** data_sender.go:50-55 NewDataSender: InternalQueue *)
Definition NewDataSender : list pack := [PackNil].

Section Sender.
Variable fname : bytes -> bytes.            (* PayloadScheme.EncodingScheme.Encode *)
Variable transform : bytes -> bytes.        (* Opts.TransformPayload *)

(** data_sender.go:57-74 QueueEntry; [dirs] gives the payload directory of the
    store that Opts.GetStore returns for a namespace. *)
Definition QueueEntry (dirs : bytes -> pdir) (e : entry) (handle : N) (token : bytes) (offset : N) (q : list pack)
  : res (list pack) :=
  do f <- pd_Get fname (e_digest e) (dirs (e_namespace e));
  Ok (q ++ [PackEntry e offset handle token (e_namespace e) f]).

(** data_sender.go:76-93 QueuePayloadRequest *)
Definition QueuePayloadRequest (dirs : bytes -> pdir) (theirs : hstore payload_request) (handle : N) (q : list pack)
  : res (list pack) :=
  match hs_Get theirs handle with
  | None => Err
  | Some r =>
      do f <- pd_Get fname (e_digest (pr_entry r)) (dirs (e_namespace (pr_entry r)));
      Ok (q ++ [PackRequest handle (pr_offset r) (e_namespace (pr_entry r)) f])
  end.

(** data_sender.go:116-125 and 141-150: one message per byte. *)
Definition chunks (b : bytes) : list data_msg :=
  map (fun c => let t := transform [c] in MsgSendPayload (len t) t) b.

(** data_sender.go:95-157 Messages: the messages and whether the error is nil.
    The queue is not changed. *)
Fixpoint Messages (dirs : bytes -> pdir) (q : list pack) : list data_msg * bool :=
  let after (head : data_msg) (ns f : bytes) (offset : N) (rest : list data_msg * bool) :=
    match pl_BytesWithOffset f (to_int offset) (dirs ns) with
    | Ok b => (head :: chunks b ++ fst rest, snd rest)
    | _ => ([head], false)
    end in
  match q with
  | [] => ([], true)
  | PackNil :: q' => Messages dirs q'
  | PackEntry e offset handle token ns f :: q' =>
      after (MsgSendEntry e token offset handle) ns f offset (Messages dirs q')
  | PackRequest handle offset ns f :: q' =>
      after (MsgReplyPayload handle) ns f offset (Messages dirs q')
  end.

(** The three calls a user of the sender makes; a call of the first two that
    returns an error leaves the queue as it is. The state is the queue and what
    the calls of Messages have returned so far. *)
Inductive ds_op :=
| DEntry (dirs : bytes -> pdir) (e : entry) (handle : N) (token : bytes) (offset : N)
| DRequest (dirs : bytes -> pdir) (theirs : hstore payload_request) (handle : N)
| DMessages (dirs : bytes -> pdir).
Definition ds_step (st : list pack * list (list data_msg * bool)) (o : ds_op) : list pack * list (list data_msg * bool) :=
  let '(q, out) := st in
  match o with
  | DEntry dirs e h t off => (match QueueEntry dirs e h t off q with Ok q' => q' | _ => q end, out)
  | DRequest dirs theirs h => (match QueuePayloadRequest dirs theirs h q with Ok q' => q' | _ => q end, out)
  | DMessages dirs => (q, out ++ [Messages dirs q])
  end.
Definition ds_run (ops : list ds_op) : list pack * list (list data_msg * bool) :=
  fold_left ds_step ops (NewDataSender, []).
End Sender.

(** ** Payload ingester *)

(** payload_ingester.go:29-33 Event *)
Record event := Event { ev_entry : option entry; ev_data : bytes; ev_cancel : bool }.

(** payload_ingester.go:21-27 CurrentIngestion. A nil FifoQueue is [None]; the
    contents of a queue are listed, 32 at most. *)
Inductive kind := Uninitialised | Pending | Active | Cancelled.
Record ingestion := Ingestion { in_kind : kind; in_fifo : option (list event); in_received : N; in_entry : option entry }.

(** What the callback asks a store to do: IngestPayload at a position
    (payload_ingester.go:103-109). *)
Record ingest_call := IngestCall { ic_pos : position; ic_data : bytes; ic_offset : Z }.

Definition fifo_capacity : N := 32.
(** Sending on the queue: blocks on a nil channel, and on a full one, since
    nothing in the code receives from it. *)
Definition fifo_send (i : ingestion) (v : event) : res ingestion :=
  match in_fifo i with
  | None => Hang
  | Some q => if len q <? fifo_capacity then Ok (Ingestion (in_kind i) (Some (q ++ [v])) (in_received i) (in_entry i))
              else Hang
  end.

Section Ingester.
Variable process : bytes -> N -> bytes.     (* ProcessReceivedPayload *)

(** *entry in Go: a nil pointer panics. *)
Definition deref {A} (o : option A) : res A := match o with Some a => Ok a | None => Panic end.

(** payload_ingester.go:66-121: the callback on one event. *)
Definition on_event (v : event) (i : ingestion) : res (ingestion * list ingest_call) :=
  if ev_cancel v then
    match in_kind i with
    | Active =>
        do i' <- fifo_send i (Event None [] true);
        Ok (Ingestion Cancelled (in_fifo i') (in_received i') (in_entry i'), [])
    | k =>
        match ev_entry v with
        | Some e =>
            match k with
            | Active =>
                do _ <- fifo_send i (Event None [] true);
                Ok (Ingestion Pending None 0 (Some e), [])
            | _ => Ok (i, [])
            end
        | None =>
            match k with
            | Active =>
                do e <- deref (in_entry i);
                let t := process (ev_data v) (e_length e) in
                do i' <- fifo_send i (Event (Some e) t false);
                Ok (Ingestion Active (in_fifo i') (add64 (in_received i) (len t)) (in_entry i), [])
            | Pending =>
                do e <- deref (in_entry i);
                let t := process (ev_data v) (e_length e) in
                Ok (Ingestion Active (Some [Event (Some e) t false]) (len t) (Some e),
                    [IngestCall (EntryPosition e) t 0])
            | _ => Ok (i, [])
            end
        end
    end
  else Ok (i, []).

(** The ingester: its channel of events (capacity 32, 59), the ingestion that
    the goroutine of 64 works on, the field EntryToRequestPayloadFor of the value
    that the callers use, and what the stores have been asked to do. *)
Record ingester := Ingester { g_events : list event; g_current : ingestion; g_request : option entry; g_calls : list ingest_call }.

(** payload_ingester.go:53-62 NewPayloadIngester *)
Definition NewPayloadIngester : ingester := Ingester [] (Ingestion Uninitialised None 0 None) None [].

(** One atomic step of a caller or of the goroutine:
    - [GSend v]: the send on Events in Target, Push or Terminate; possible only
      while the channel has room;
    - [GRequest o]: the assignment to EntryToRequestPayloadFor;
    - [GReceive]: AsyncReceive (utils.go:18-30, with onEnd nil) takes an event
      and runs the callback. *)
Inductive g_step : ingester -> ingester -> Prop :=
| GSend v g : len (g_events g) < 32 ->
    g_step g (Ingester (g_events g ++ [v]) (g_current g) (g_request g) (g_calls g))
| GRequest o g : g_step g (Ingester (g_events g) (g_current g) o (g_calls g))
| GReceive v es i' cs g : g_events g = v :: es -> on_event v (g_current g) = Ok (i', cs) ->
    g_step g (Ingester es i' (g_request g) (g_calls g ++ cs)).

Inductive g_steps : ingester -> ingester -> Prop :=
| g_refl g : g_steps g g
| g_trans g1 g2 g3 : g_steps g1 g2 -> g_step g2 g3 -> g_steps g1 g3.

(** The calls of a user, payload_ingester.go:129-157, run to completion with the
    goroutine receiving each event at once. *)
Inductive g_call := GTarget (e : entry) (request : bool) | GPush (b : bytes) (last : bool) | GTerminate.
Definition call_request (c : g_call) (o : option entry) : option entry :=
  match c with
  | GTarget e true => Some e
  | GTarget _ false => o
  | GPush _ _ => None
  | GTerminate => o
  end.
(** What Terminate returns after the given calls (152-157). *)
Definition Terminate_result (cs : list g_call) : option entry :=
  fold_left (fun o c => call_request c o) cs None.

(** The same calls as steps of a caller's goroutine, payload_ingester.go:129-157:
    sends on Events and assignments to EntryToRequestPayloadFor, in the order of
    the statements. *)
Inductive g_action := ASend (v : event) | AAssign (o : option entry).
Definition call_actions (c : g_call) : list g_action :=
  match c with
  | GTarget e r => ASend (Event (Some e) [] false) :: if r then [AAssign (Some e)] else []
  | GPush b last => ASend (Event None b false) :: (if last then [ASend (Event None [] true)] else []) ++ [AAssign None]
  | GTerminate => [ASend (Event None [] true)]
  end.
(** A caller with actions still to do beside the goroutine, and the events that
    the goroutine has received so far (utils.go:18-30). *)
Inductive c_steps (todo0 : list g_action) : list g_action -> ingester -> list event -> Prop :=
| c_refl : c_steps todo0 todo0 NewPayloadIngester []
| c_send v todo g got : c_steps todo0 (ASend v :: todo) g got -> len (g_events g) < 32 ->
    c_steps todo0 todo (Ingester (g_events g ++ [v]) (g_current g) (g_request g) (g_calls g)) got
| c_assign o todo g got : c_steps todo0 (AAssign o :: todo) g got ->
    c_steps todo0 todo (Ingester (g_events g) (g_current g) o (g_calls g)) got
| c_receive v es i' cs todo g got : c_steps todo0 todo g got -> g_events g = v :: es -> on_event v (g_current g) = Ok (i', cs) ->
    c_steps todo0 todo (Ingester es i' (g_request g) (g_calls g ++ cs)) (got ++ [v]).
End Ingester.
