(** Specification vocabulary for the store. [live] reads the entry database
    through its decoders; nothing else refers to the operations of the store. *)
From Verif Require Import Base M_Encoding M_Paths M_Keys M_Entry M_Map M_Store S_Order.
Local Open Scope N_scope.

(** A non-empty path strictly below each of the three limits. *)
Definition strict_path (pp : path_params) (p : path) : Prop :=
  p <> [] /\ len p < max_component_count pp
  /\ Forall (fun c => len c < max_component_length pp) p
  /\ total_length p < max_path_length pp.

(** Parameters that fit their type and the 32-bit path codec. *)
Definition store_params (pp : path_params) : Prop :=
  params_ok pp /\ max_component_count pp < 2 ^ 32 /\ max_component_length pp < 2 ^ 32.

(** The byte strings [U] that occur as payloads and tokens in a history: no two
    of them have the same digest (file name), and digests and lengths are those
    of a 64-bit machine. *)
Definition universe (C : cfg) (U : bytes -> Prop) : Prop :=
  (forall a b, U a -> U b -> c_fname C (c_hash C a) = c_fname C (c_hash C b) -> a = b)
  /\ (forall a, U a -> len a < 2 ^ 64 /\ len (c_hash C a) + 8 < 2 ^ 64).

(** An entry as offered to IngestEntry: path strictly within the limits, 64-bit
    numbers, the digest of some byte string. *)
Definition entry_ok (C : cfg) (U : bytes -> Prop) (e : entry) : Prop :=
  strict_path (c_pp C) (e_path e) /\ e_time e < 2 ^ 64 /\ e_length e < 2 ^ 64
  /\ (exists b, U b /\ e_digest e = c_hash C b) /\ U (e_subspace e).

(** An entry is live when the entry database holds it. *)
Definition live (C : cfg) (st : state) (e : entry) : Prop :=
  e_namespace e = c_ns C /\
  exists k v w, In (k, v) (kv st)
    /\ DecodeKey k (c_pp C) = Ok (Position (e_subspace e) (e_path e) (e_time e))
    /\ DecodeValues v = Ok w /\ v_digest w = e_digest e /\ v_length w = e_length e.

(** Same subspace and path. *)
Definition same_place (x y : entry) : Prop := e_subspace x = e_subspace y /\ e_path x = e_path y.

(** [x] is at a non-empty proper prefix of the path of [y], same subspace. *)
Definition above (x y : entry) : Prop :=
  e_subspace x = e_subspace y /\ e_path x <> [] /\ proper_prefix_of (e_path x) (e_path y).

(** When an entry with a token is to be accepted by a store holding the entries
    [L]. *)
Definition acceptable (C : cfg) (L : entry -> Prop) (e : entry) (token : bytes) : Prop :=
  e_namespace e = c_ns C /\ token = e_subspace e
  /\ (forall x, L x -> above x e -> e_time x < e_time e)
  /\ (forall x, L x -> same_place x e -> e_time x < e_time e).

(** What an accepted entry prunes. *)
Definition prunes (e x : entry) : Prop := above e x /\ e_time x < e_time e.

(** [y] supersedes [x]: newer, at the same place or above. *)
Definition supersedes (y x : entry) : Prop :=
  e_time x < e_time y /\ (same_place y x \/ above y x).

(** ** Histories *)

(** The entry and the token an operation offers to the store. *)
Definition set_entry (C : cfg) (i : input) (now : N) : entry :=
  Entry (c_ns C) (i_sub i) (c_hash C (i_payload i)) (i_path i)
    (if i_time i =? 0 then now else i_time i) (len (i_payload i)).
Definition offer (C : cfg) (o : op) : option (entry * bytes) :=
  match o with
  | OpSet i auth now => Some (set_entry C i now, auth)
  | OpIngest e token => Some (e, token)
  | OpReopen => None
  end.

(** Offered by some operation with a token that authorises it. *)
Definition offered (C : cfg) (ops : list op) (e : entry) : Prop :=
  e_namespace e = c_ns C /\ exists o, In o ops /\ offer C o = Some (e, e_subspace e).

(** Operations whose paths are strictly within the limits and whose payloads,
    subspaces and digests come from [U]. *)
Definition op_ok (C : cfg) (U : bytes -> Prop) (o : op) : Prop :=
  match o with
  | OpSet i _ now => U (i_payload i) /\ entry_ok C U (set_entry C i now)
  | OpIngest e _ => entry_ok C U e
  | OpReopen => True
  end.

Definition history_ok (C : cfg) (U : bytes -> Prop) (ops : list op) : Prop :=
  store_params (c_pp C) /\ universe C U /\ Forall (op_ok C U) ops /\ len ops + 1 < 2 ^ 64.

(** States reached from the empty store by such a history. *)
Definition reached (C : cfg) (U : bytes -> Prop) (ops : list op) (st : state) : Prop :=
  history_ok C U ops /\ run C ops empty_store = Some st.

(** ** Histories at the limits and with crashes *)

(** Paths within the limits (not strictly), numbers of a 64-bit machine. *)
Definition op_within (C : cfg) (o : op) : Prop :=
  match offer C o with
  | None => True
  | Some (e, _) =>
      within_limits (c_pp C) (e_path e) /\ e_path e <> [] /\ e_time e < 2 ^ 64 /\ e_length e < 2 ^ 64
      /\ len (e_digest e) + 8 < 2 ^ 64 /\ len (c_hash C (e_subspace e)) + 8 < 2 ^ 64
  end.

Definition set_budget (b : option nat) (st : state) : state :=
  State (kv st) (tree st) (refs st) (files st) (locked st) b.

(** States reached by operations and crashes: an operation may be cut short
    after any number of durable writes ([b]), or may end the process by itself
    (panic, log.Fatal, blocked forever); the store is then opened again. *)
Inductive lives (C : cfg) : list op -> state -> Prop :=
| lives_new : lives C [] empty_store
| lives_step ops o st r st' :
    lives C ops st -> step C o st = (r, st') -> (r = Err \/ exists pr, r = Ok pr) ->
    lives C (ops ++ [o]) st'
| lives_crash ops o b st r st' st'' :
    lives C ops st -> step C o (set_budget b st) = (r, st') -> reopen C st' = Ok st'' ->
    lives C (ops ++ [o]) st''.

(** An operation is cut short after [b] durable writes (None: not cut) and the
    store is opened again. *)
Definition crashed (C : cfg) (o : op) (b : option nat) (st st'' : state) : Prop :=
  exists r st', step C o (set_budget b st) = (r, st') /\ reopen C st' = Ok st''.

(** States reached by operations strictly below the limits, and crashes. *)
Definition survived (C : cfg) (U : bytes -> Prop) (ops : list op) (st : state) : Prop :=
  store_params (c_pp C) /\ universe C U /\ Forall (op_ok C U) ops /\ lives C ops st.

(** Operations with paths of bytes up to and including the limits (the empty
    path included), and numbers of a 64-bit machine. *)
Definition op_bounded (C : cfg) (o : op) : Prop :=
  match offer C o with
  | None => True
  | Some (e, _) =>
      wf_path (e_path e) /\ within_limits (c_pp C) (e_path e) /\ e_time e < 2 ^ 64 /\ e_length e < 2 ^ 64
      /\ len (e_digest e) + 8 < 2 ^ 64 /\ len (c_hash C (e_subspace e)) + 8 < 2 ^ 64
  end.

(** Parameters with room for one more in their type. *)
Definition roomy (pp : path_params) : Prop :=
  0 < max_component_count pp /\ max_component_count pp + 1 < 2 ^ pp_bits pp /\ max_path_length pp + 1 < 2 ^ pp_bits pp.

(** The states that follow [st] under operations, each returning or ending the
    process (panic, log.Fatal, blocked forever), after which the store is opened
    again. *)
Inductive goes (C : cfg) (st : state) : list op -> state -> Prop :=
| goes_nil : goes C st [] st
| goes_step ops o s r s' :
    goes C st ops s -> step C o s = (r, s') -> (r = Err \/ exists pr, r = Ok pr) -> goes C st (ops ++ [o]) s'
| goes_died ops o s r s' s'' :
    goes C st ops s -> step C o s = (r, s') -> reopen C s' = Ok s'' -> goes C st (ops ++ [o]) s''.
