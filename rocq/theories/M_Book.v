(** Model of the bookkeeping of the sync protocol:
    /repo/pkg/wgps/handlestore/handle_store.go, /repo/pkg/wgps/guaranteed_queue.go,
    /repo/pkg/wgps/cap_finder.go, /repo/pkg/wgps/reconciliation/aoi_intersection_finder.go,
    /repo/pkg/wgps/reconciliation/reconciler_map.go. *)
From Verif Require Import Base M_Order M_Paths M_Ranges M_Areas M_Entry.
Local Open Scope N_scope.

(** ** Go maps *)
(** A map is a list of bindings with different keys; where Go iterates, in an
    order of its own, the model takes the order as an argument. *)
Section Maps.
Context {K V : Type} (eqb : K -> K -> bool).
Fixpoint mget (m : list (K * V)) (k : K) : option V :=
  match m with [] => None | (k', v) :: m' => if eqb k k' then Some v else mget m' k end.
Definition mdel (m : list (K * V)) (k : K) : list (K * V) := filter (fun kv => negb (eqb k (fst kv))) m.
Definition mput (m : list (K * V)) (k : K) (v : V) : list (K * V) := (k, v) :: mdel m k.
End Maps.

(** ** Handle stores *)

(** /repo/pkg/wgps/handlestore/handle_store.go:15-19 HandleStoreTriple *)
Record triple (V : Type) := Triple { t_value : V; t_asked : bool; t_refs : Z }.
Arguments Triple {V}. Arguments t_value {V}. Arguments t_asked {V}. Arguments t_refs {V}.

(** /repo/pkg/wgps/handlestore/handle_store.go:21-28 HandleStore *)
Record hstore (V : Type) := HStore { h_least : N; h_map : list (N * triple V) }.
Arguments HStore {V}. Arguments h_least {V}. Arguments h_map {V}.

Section Handles.
Context {V : Type}.
(** /repo/pkg/wgps/handlestore/handle_store.go:7-11 NewMap, in a zero HandleStore
    (/repo/pkg/wgps/wgps_messenger.go:554-585) *)
Definition hs_new : hstore V := HStore 0 [].
(** /repo/pkg/wgps/handlestore/handle_store.go:33-37 Get; None is not found (then
    Go also returns the zero value) *)
Definition hs_Get (s : hstore V) (h : N) : option V := option_map t_value (mget N.eqb (h_map s) h).
(** /repo/pkg/wgps/handlestore/handle_store.go:40-45 Bind *)
Definition hs_Bind (s : hstore V) (v : V) : N * hstore V :=
  let h := h_least s in
  (h, HStore ((h + 1) mod 2 ^ 64) (mput N.eqb (h_map s) h (Triple v false 0))).
(** /repo/pkg/wgps/handlestore/handle_store.go:47-54 Update *)
Definition hs_Update (s : hstore V) (h : N) (v : V) : res (hstore V) :=
  match mget N.eqb (h_map s) h with
  | None => Err
  | Some t => Ok (HStore (h_least s) (mput N.eqb (h_map s) h (Triple v (t_asked t) (t_refs t))))
  end.
(** /repo/pkg/wgps/handlestore/handle_store.go:56-59 CanUse *)
Definition hs_CanUse (s : hstore V) (h : N) : bool :=
  match mget N.eqb (h_map s) h with Some t => negb (t_asked t) | None => false end.
(** /repo/pkg/wgps/handlestore/handle_store.go:61-74 Free *)
Definition hs_Free (s : hstore V) (h : N) : res (hstore V) :=
  match mget N.eqb (h_map s) h with
  | None => Err
  | Some t => Ok (HStore (h_least s)
      (if (t_refs t =? 0)%Z then mdel N.eqb (h_map s) h
       else mput N.eqb (h_map s) h (Triple (t_value t) true (t_refs t))))
  end.
(** /repo/pkg/wgps/handlestore/handle_store.go:76-83 IncrementMessageRefCount *)
Definition hs_Increment (s : hstore V) (h : N) : res (hstore V) :=
  match mget N.eqb (h_map s) h with
  | None => Err
  | Some t => Ok (HStore (h_least s) (mput N.eqb (h_map s) h (Triple (t_value t) (t_asked t) (int64 (t_refs t + 1)))))
  end.
(** /repo/pkg/wgps/handlestore/handle_store.go:85-96 DecrementMessageRefCount *)
Definition hs_Decrement (s : hstore V) (h : N) : res (hstore V) :=
  match mget N.eqb (h_map s) h with
  | None => Err
  | Some t => Ok (HStore (h_least s)
      (if t_asked t && (int64 (t_refs t - 1) =? 0)%Z then mdel N.eqb (h_map s) h
       else mput N.eqb (h_map s) h (Triple (t_value t) (t_asked t) (int64 (t_refs t - 1)))))
  end.

(** The calls of a history, and a run; a call that fails changes nothing. *)
Inductive hs_op := HBind (v : V) | HUpdate (h : N) (v : V) | HFree (h : N) | HInc (h : N) | HDec (h : N).
Definition hs_step (s : hstore V) (o : hs_op) : hstore V :=
  let keep r := match r with Ok s' => s' | _ => s end in
  match o with
  | HBind v => snd (hs_Bind s v)
  | HUpdate h v => keep (hs_Update s h v)
  | HFree h => keep (hs_Free s h)
  | HInc h => keep (hs_Increment s h)
  | HDec h => keep (hs_Decrement s h)
  end.
Definition hs_run (s : hstore V) (ops : list hs_op) : hstore V := fold_left hs_step ops s.
(** The handles the calls of Bind return, in order. *)
Fixpoint hs_handles (s : hstore V) (ops : list hs_op) : list N :=
  match ops with
  | [] => []
  | o :: ops' => match o with HBind v => [fst (hs_Bind s v)] | _ => [] end ++ hs_handles (hs_step s o) ops'
  end.
End Handles.
Arguments hs_op : clear implicits.

(** ** Guaranteed queues *)

(** /repo/pkg/wgps/guaranteed_queue.go:8-13 GuaranteedQueue: the channel (of
    capacity 32, /repo/pkg/wgps/wgps_messenger.go:385) with what was sent into it
    and not yet received, and what its receiver (724-780, commented out) passed to
    the transport. *)
Record gqueue := GQueue { q_guarantees : N; q_queue : list bytes; q_received : bytes; q_outgoing : bytes;
                          q_sent : list bytes }.
Definition queue_capacity : N := 32.

(** The receiver takes [n] messages. *)
Definition q_take (n : nat) (q : gqueue) : gqueue :=
  GQueue (q_guarantees q) (skipn n (q_queue q)) (q_received q) (q_outgoing q) (q_sent q ++ firstn n (q_queue q)).

(** len(string(b)) of a byte: string(b) is the UTF-8 encoding of the rune *)
Definition rune_length (b : N) : N := if b <? 128 then 1 else 2.

(** len(strconv.FormatUint(n, 10)) *)
Definition decimal_length (n : N) : N := if n =? 0 then 1 else (fix digits (fuel : nat) (n : N) : N :=
  match fuel with O => 0 | S f => if n =? 0 then 0 else 1 + digits f (n / 10) end) 20%nat n.

(** /repo/pkg/wgps/guaranteed_queue.go:38-51 UseGuarantees; [sched] says how many
    messages the receiver takes before each test of the loop condition. *)
Fixpoint use_loop (sched : list nat) (received : bytes) (q : gqueue) : res gqueue :=
  let q := q_take (hd O sched) q in
  let q := GQueue (q_guarantees q) (q_queue q) received (q_outgoing q) (q_sent q) in
  match q_queue q with
  | [] => Ok q
  | _ :: _ =>
      match received with
      | [] => Panic
      | b :: rest =>
          if decimal_length (q_guarantees q) <? rune_length b then Ok q
          else use_loop (tl sched) rest
                 (GQueue (sub64 (q_guarantees q) (rune_length b)) (q_queue q) rest (q_outgoing q ++ [b]) (q_sent q))
      end
  end.
Definition UseGuarantees (sched : list nat) (q : gqueue) : res gqueue := use_loop sched (q_received q) q.

(** /repo/pkg/wgps/guaranteed_queue.go:16-20 Push; a full channel blocks. *)
Definition Push (sched : list nat) (m : bytes) (q : gqueue) : res gqueue :=
  let q := q_take (hd O sched) q in
  if queue_capacity <=? len (q_queue q) then Hang
  else UseGuarantees (tl sched)
         (GQueue (q_guarantees q) (q_queue q ++ [m]) (q_received q ++ m) (q_outgoing q) (q_sent q)).

(** /repo/pkg/wgps/guaranteed_queue.go:23-26 AddGuarantees *)
Definition AddGuarantees (sched : list nat) (n : N) (q : gqueue) : res gqueue :=
  UseGuarantees sched (GQueue (add64 (q_guarantees q) n) (q_queue q) (q_received q) (q_outgoing q) (q_sent q)).

(** /repo/pkg/wgps/guaranteed_queue.go:32-36 Plead *)
Definition Plead (target : N) (q : gqueue) : N * gqueue :=
  let amount := sub64 (q_guarantees q) target in
  (amount, GQueue (sub64 (q_guarantees q) amount) (q_queue q) (q_received q) (q_outgoing q) (q_sent q)).

(** The calls on a queue, each with its schedule, and the receiver in between. *)
Inductive q_op := QPush (sched : list nat) (m : bytes) | QAdd (sched : list nat) (n : N) | QPlead (target : N) | QTake (n : nat).
Definition q_step (q : gqueue) (o : q_op) : res gqueue :=
  match o with
  | QPush sched m => Push sched m q
  | QAdd sched n => AddGuarantees sched n q
  | QPlead t => Ok (snd (Plead t q))
  | QTake n => Ok (q_take n q)
  end.
Fixpoint q_run (q : gqueue) (ops : list q_op) : res gqueue :=
  match ops with [] => Ok q | o :: ops' => do q1 <- q_step q o; q_run q1 ops' end.

(** /repo/pkg/wgps/wgps_messenger.go:384-388: both byte slices are made with length 1 *)
Definition q_new : gqueue := GQueue 0 [] [0] [0] [].

(** ** Capability finder *)

(** /repo/pkg/wgps/cap_finder.go:23-26: the handles of each namespace. The key is
    the encoded namespace; its base64 form is left out (it makes no
    difference, C80_capabilities). *)
Definition cap_finder := list (bytes * list N).
Definition bytes_eqb (a b : bytes) : bool := (OrderBytes a b =? 0)%Z.

Section Caps.
Context {C : Type}.
Variables (encode_namespace : bytes -> bytes) (granted_namespace : C -> bytes) (granted_area : C -> area).
(** HandleStoreOurs.Get; the zero capability if there is none *)
Variable cap_of : N -> C.

(** /repo/pkg/wgps/cap_finder.go:45-50 NewCapFinder *)
Definition NewCapFinder : cap_finder := [].

(** /repo/pkg/wgps/cap_finder.go:57-77 AddCap: line 68 writes into the set found
    for the key, which is the nil map if there is none. *)
Definition AddCap (c : cap_finder) (handle : N) : res cap_finder :=
  let key := encode_namespace (granted_namespace (cap_of handle)) in
  match mget bytes_eqb c key with
  | None => Panic
  | Some set => Ok (mput bytes_eqb c key (if existsb (N.eqb handle) set then set else set ++ [handle]))
  end.

(** /repo/pkg/wgps/cap_finder.go:79-103 FindCapHandle; [iter] is the order in which
    Go iterates over the set. *)
Definition FindCapHandle (iter : list N -> list N) (c : cap_finder) (e : entry) : N :=
  match mget bytes_eqb c (encode_namespace (e_namespace e)) with
  | None => 0
  | Some set =>
      let pos := Position (e_subspace e) (e_path e) (e_time e) in
      match find (fun h => IsIncludedArea OrderSubspace (granted_area (cap_of h)) pos) (iter set) with
      | Some h => h
      | None => 0
      end
  end.
End Caps.

(** ** Intersections of areas of interest *)

(** /repo/pkg/wgps/reconciliation/aoi_intersection_finder.go:20-34 AoiIntersectionFinder
    (the schemes and handle stores are arguments below) *)
Record aoi_finder := AoiFinder { f_ours : list (N * bytes); f_theirs : list (N * bytes);
                                 f_queue : list (bytes * N * N) }.
(** /repo/pkg/wgps/reconciliation/aoi_intersection_finder.go:37-51 *)
Definition NewAoiIntersectionFinder : aoi_finder := AoiFinder [] [] [].

(** /repo/pkg/wgps/reconciliation/aoi_intersection_finder.go:53-129
    AddAoiHandleToNamespace. [ours_area] and [theirs_area] are the areas bound to
    the handles (the stores are copied by value but share their maps); a handle
    not found only gives an error that is dropped, and the zero area. [iter] is the
    order of the iteration at 85. *)
Definition AddAoiHandleToNamespace (isEqual : bytes -> bytes -> bool) (ours_area theirs_area : N -> area)
  (iter : list (N * bytes) -> list (N * bytes)) (handle : N) (namespace : bytes) (ours : bool) (f : aoi_finder) : aoi_finder :=
  let other := if ours then f_theirs f else f_ours f in
  let area_of := if ours then ours_area else theirs_area in
  let other_area := if ours then theirs_area else ours_area in
  let found := flat_map (fun on : N * bytes =>
    let (o, ns) := on in
    if negb (isEqual namespace ns) then []
    else match IntersectArea OrderSubspace (area_of handle) (other_area o) with
         | None => []
         | Some _ => [(namespace, if ours then handle else o, if ours then o else handle)]
         end) (iter other) in
  AoiFinder (if ours then mput N.eqb (f_ours f) handle namespace else f_ours f)
            (if ours then f_theirs f else mput N.eqb (f_theirs f) handle namespace)
            (f_queue f ++ found).

(** /repo/pkg/wgps/reconciliation/aoi_intersection_finder.go:131-140
    HandleToNamespaceId; a missing key gives the nil namespace. *)
Definition HandleToNamespaceId (handle : N) (ours : bool) (f : aoi_finder) : bytes :=
  match mget N.eqb (if ours then f_ours f else f_theirs f) handle with Some ns => ns | None => [] end.

(** ** Reconcilers *)

(** /repo/pkg/wgps/reconciliation/reconciler_map.go:9-11; inner maps are shared by
    reference, but the one written at 18 is replaced at 22. *)
Definition reconciler_map (R : Type) := list (N * list (N * R)).
(** /repo/pkg/wgps/reconciliation/reconciler_map.go:13-24 AddReconciler *)
Definition AddReconciler {R} (ours theirs : N) (r : R) (m : reconciler_map R) : reconciler_map R :=
  mput N.eqb m ours [(theirs, r)].
(** /repo/pkg/wgps/reconciliation/reconciler_map.go:26-40 GetReconciler *)
Definition GetReconciler {R} (ours theirs : N) (m : reconciler_map R) : res R :=
  match mget N.eqb m ours with
  | None => Err
  | Some inner => match mget N.eqb inner theirs with None => Err | Some r => Ok r end
  end.
