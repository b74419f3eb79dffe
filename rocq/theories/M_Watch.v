(** What another goroutine reads from a store while a call of Set or IngestEntry
    (/repo/pkg/data_model/store/store.go:32-176) runs. The readers take no lock that the call
    holds: EntryDriver.Get and Query (entry_driver.go:56-92, 135-164) read the k-d tree, then the
    entry database; GetPayload (store.go:358-375) reads the entry database, looks for the file
    under the lock of the payload driver (filesystem.go:74-85), and reads the file without it
    (32-35).

    The call is seen after each number of its durable writes. A change of the tree follows the
    write of the entry database it belongs to (entry_driver.go:94-133), so at every instant the
    tree is that of some moment, and the database that of this moment or the next one. The two
    readings of a reader are given separate moments for this reason too. A reading of the tree at
    the very instant of its change is not modelled. *)
From Verif Require Import Base M_Order M_Encoding M_Paths M_Successor M_Ranges M_Keys M_Entry M_Map M_Store M_Query.
Local Open Scope N_scope.

Section Watch.
Variable C : cfg.
Notation pp := (c_pp C).

(** The store when the call [o], made in [st], has done [n] durable writes, or has returned with
    fewer. *)
Definition moment (o : op) (st : state) (n : nat) : state :=
  snd (step C o (State (kv st) (tree st) (refs st) (files st) (locked st) (Some n))).

(** entry_driver.go:67-91: the entry of a node, with the database as in [later]. *)
Definition watch_value (s : bytes) (p : path) (n : node) (later : state) : res ext :=
  match mget (kv later) (EncodeKey (node_pos n) pp) with
  | None => Err
  | Some b =>
      do w <- DecodeValues b;
      Ok (Entry (c_ns C) s (v_digest w) p (n_time n) (v_length w), v_auth w)
  end.

(** entry_driver.go:56-92 Get; None is "entry does not exist". *)
Definition watch_Get (s : bytes) (p : path) (now later : state) : res (option ext) :=
  do o <- fst (storage_Get C s (SuccessorSubspaceId s) p now);
  match o with
  | None => Ok None
  | Some n => do x <- watch_value s p n later; Ok (Some x)
  end.

(** entry_driver.go:141-162, the loop of Query: node number [k] is looked up in [later k]. *)
Fixpoint watch_values (ns : list node) (k : nat) (later : nat -> state) : res (list ext) :=
  match ns with
  | [] => Ok []
  | n :: ns' =>
      do x <- watch_value (n_sub n) (n_path n) n (later k);
      do r <- watch_values ns' (S k) later;
      Ok (x :: r)
  end.
(** entry_driver.go:135-164 Query *)
Definition watch_Query (r : range3d) (now : state) (later : nat -> state) : res (list ext) :=
  let ns := query (tree now) r in
  do xs <- watch_values ns 0 later;
  Ok (repeat zero_ext (length ns) ++ xs).

(** store.go:358-375 GetPayload: the entry database in [now], the search for the file in [later],
    the reading of the file, whose error is dropped (filesystem.go:33), in [last]. *)
Definition watch_GetPayload (p : position) (now later last : state) : res bytes :=
  match mget (kv now) (EncodeKey p pp) with
  | None => Err
  | Some b =>
      do w <- DecodeValues b;
      match mget (files later) (c_fname C (v_digest w)) with
      | None => Err
      | Some _ => Ok (match mget (files last) (c_fname C (v_digest w)) with Some b => b | None => [] end)
      end
  end.

(** filesystem.go:102-112 Set: os.WriteFile empties the file and then writes it; the file when
    [k] bytes have been written. *)
Definition writing (b : bytes) (k : nat) (st : state) : state :=
  set_files (fun m => mset m (c_fname C (c_hash C b)) (firstn k b)) st.
End Watch.
