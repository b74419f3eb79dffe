(** Model of the data-model store: /repo/pkg/data_model/store/store.go,
    entry_driver/entry_driver.go, kv_driver/prefix_driver.go,
    datamodeltypes/entryDriverTypes.go, payload_kv_driver/payload_ref_counter.go,
    the Get/Set/Erase part of payload_kv_driver/filesystem.go, and
    /repo/PinaGoladaStore/StoreDriver.go, StoreSchemes.go.

    Every call of pebble and of the file system succeeds here, except "not
    found"; M_Fault.v has the same functions with calls that fail. *)
From Verif Require Import Base M_Order M_Encoding M_Paths M_Successor M_Ranges M_Keys M_Entry M_Map.
Local Open Scope N_scope.

(** /repo/pkg/data_model/kdnode/willowkdtreenode.go:9-14 Key. [n_shared] is not
    a field: it records that Subspace and the components of Path are slices of
    one database key (nodes built by InitKDTree), so that an append to the last
    component writes into the subspace. *)
Record node := Node { n_sub : bytes; n_path : path; n_time : N; n_fp : bytes; n_shared : bool }.
Definition node_pos (n : node) : position := Position (n_sub n) (n_path n) (n_time n).

(** The state of a store: entry database, k-d tree, reference-count database,
    payload files, and the ingestion lock.
    - [tree] is the multiset of nodes of the k-d tree; a query is modelled by its
      answer (C34 relates it to tree traversal).
    - [refs]: the 8-byte big-endian counts are modelled by the numbers.
    - [files]: keyed by the bytes of the digest (GetKey without the base32
      rendering; with it the store does the same, C80_store).
    - [budget]: Some n means that the process dies when it attempts durable
      write number n+1; None means that it does not die. *)
Record state := State {
  kv : bmap bytes;
  tree : list node;
  refs : bmap N;
  files : bmap bytes;
  locked : bool;
  budget : option nat
}.

(** Parameters of a store: path parameters, namespace, the digest function
    (PayloadScheme.FromBytes) and the digest encoding (PayloadScheme.Encode).
    The other schemes are those of /repo/PinaGoladaStore/StoreSchemes.go. *)
Record cfg := Cfg {
  c_pp : path_params;
  c_ns : bytes;
  c_hash : bytes -> bytes;
  c_fname : bytes -> bytes
}.

(** ** Programs over a state *)
Definition M (A : Type) := state -> res A * state.
Definition ret {A} (a : A) : M A := fun st => (Ok a, st).
Definition fail {A} : M A := fun st => (Err, st).
Definition lift {A} (r : res A) : M A := fun st => (r, st).
Definition bindM {A B} (m : M A) (f : A -> M B) : M B :=
  fun st =>
    match m st with
    | (Ok a, st') => f a st'
    | (Err, st') => (Err, st')
    | (Panic, st') => (Panic, st')
    | (Fatal, st') => (Fatal, st')
    | (Hang, st') => (Hang, st')
    end.
Notation "'let*' x := m 'in' k" := (bindM m (fun x => k))
  (at level 200, x pattern, m at level 100, k at level 200, right associativity).
Notation "m ;; k" := (bindM m (fun _ => k)) (at level 100, right associativity).

Definition gets {A} (f : state -> A) : M A := fun st => (Ok (f st), st).

(** A durable write: the process dies here when the budget is used up. *)
Definition durable (f : state -> state) : M unit :=
  fun st =>
    match budget st with
    | None => (Ok tt, f st)
    | Some O => (Fatal, st)
    | Some (S n) =>
        let st' := f st in
        (Ok tt, State (kv st') (tree st') (refs st') (files st') (locked st') (Some n))
    end.

Definition set_kv (f : bmap bytes -> bmap bytes) (st : state) : state :=
  State (f (kv st)) (tree st) (refs st) (files st) (locked st) (budget st).
Definition set_tree (f : list node -> list node) (st : state) : state :=
  State (kv st) (f (tree st)) (refs st) (files st) (locked st) (budget st).
Definition set_refs (f : bmap N -> bmap N) (st : state) : state :=
  State (kv st) (tree st) (f (refs st)) (files st) (locked st) (budget st).
Definition set_files (f : bmap bytes -> bmap bytes) (st : state) : state :=
  State (kv st) (tree st) (refs st) (f (files st)) (locked st) (budget st).
Definition set_locked (b : bool) (st : state) : state :=
  State (kv st) (tree st) (refs st) (files st) b (budget st).

(** sync.Mutex.Lock: blocks forever when the lock is never released. *)
Definition lock : M unit := fun st => if locked st then (Hang, st) else (Ok tt, set_locked true st).
(** sync.Mutex.Unlock (only ever called with the lock held). *)
Definition unlock : M unit := fun st => (Ok tt, set_locked false st).

Section Store.
Variable C : cfg.
Notation pp := (c_pp C).

(** ** Payload driver *)

(** /repo/pkg/data_model/payload_kv_driver/filesystem.go:102-112 Set (with GetKey
    23-26): digest and length. *)
Definition payload_Set (b : bytes) : M (bytes * N) :=
  let d := c_hash C b in
  durable (set_files (fun m => mset m (c_fname C d) b)) ;; ret (d, len b).

(** /repo/pkg/data_model/payload_kv_driver/filesystem.go:88-99 Erase; the callers
    ignore the results. *)
Definition payload_Erase (d : bytes) : M unit := durable (set_files (fun m => mdel m (c_fname C d))).

(** /repo/pkg/data_model/payload_kv_driver/filesystem.go:74-85 Get, followed by
    the Bytes() of the returned payload (32-35). *)
Definition payload_Get (d : bytes) : M bytes :=
  let* o := gets (fun st => mget (files st) (c_fname C d)) in
  match o with None => fail | Some b => ret b end.

(** ** Reference counter: payload_ref_counter.go:28-42 Increment *)
Definition ref_Increment (d : bytes) : M N :=
  let* o := gets (fun st => mget (refs st) d) in
  let c := match o with None => 1 | Some c => add64 c 1 end in
  durable (set_refs (fun m => mset m d c)) ;; ret c.

(** payload_ref_counter.go:50-62 Decrement *)
Definition ref_Decrement (d : bytes) : M N :=
  let* o := gets (fun st => mget (refs st) d) in
  match o with
  | None => fail
  | Some c => let c' := sub64 c 1 in durable (set_refs (fun m => mset m d c')) ;; ret c'
  end.

(** payload_ref_counter.go:68-77 Count *)
Definition ref_Count (d : bytes) : M N :=
  let* o := gets (fun st => mget (refs st) d) in
  match o with None => fail | Some c => ret c end.

(** ** K-d tree *)

(** /repo/pkg/data_model/kdnode/wrapper.go:12-61 Query *)
Definition query (t : list node) (r : range3d) : list node :=
  filter (fun n => IsIncluded3d OrderSubspace r (node_pos n)) t.

(** kdtree equality of two keys: Order (willowkdtreenode.go:18-52) is Equal in
    all three dimensions. *)
Definition node_is (s : bytes) (p : path) (t : N) (n : node) : bool :=
  (OrderTimestamp (n_time n) t =? 0)%Z && beqb (n_sub n) s && (OrderPath (n_path n) p =? 0)%Z.

Fixpoint remove_first (f : node -> bool) (t : list node) : list node :=
  match t with [] => [] | n :: t' => if f n then t' else n :: remove_first f t' end.

(** The range of exactly one subspace and any time, as written at
    prefix_driver.go:21-37 and entryDriverTypes.go:28-44. A nil end path is the
    empty path. *)
Definition path_window (s0 s1 : bytes) (from : path) (to : option path) : range3d :=
  Range3d (Range s0 s1 false)
          (Range from (match to with Some q => q | None => [] end) false)
          (Range 0 2 true).

(** /repo/pkg/data_model/datamodeltypes/entryDriverTypes.go:27-69 Get; None is
    the zero position. [s0], [s1] are the ends of the subspace range. *)
Definition storage_Get (s0 s1 : bytes) (p : path) : M (option node) :=
  let* e := lift (SuccessorPath p pp) in
  let* t := gets tree in
  match query t (path_window s0 s1 p e) with
  | [] => ret None
  | [n] => ret (Some n)
  | _ => lift Fatal
  end.

(** ** Entry driver *)

(** /repo/pkg/data_model/datamodeltypes/storetypes.go ExtendedEntry *)
Definition ext := (entry * bytes)%type.

(** /repo/pkg/data_model/entry_driver/entry_driver.go:56-92 Get. None is the
    error "entry does not exist", [Err] any other error. *)
Definition driver_Get_at (s0 s1 : bytes) (p : path) : M (option ext) :=
  let* o := storage_Get s0 s1 p in
  match o with
  | None => ret None
  | Some n =>
      let* v := gets (fun st => mget (kv st) (EncodeKey (node_pos n) pp)) in
      match v with
      | None => fail
      | Some b =>
          let* w := lift (DecodeValues b) in
          ret (Some (Entry (c_ns C) s0 (v_digest w) p (n_time n) (v_length w), v_auth w))
      end
  end.
Definition driver_Get (s : bytes) (p : path) : M (option ext) :=
  driver_Get_at s (SuccessorSubspaceId s) p.

(** /repo/pkg/data_model/entry_driver/entry_driver.go:94-117 Insert, with
    KDTreeStorage.Insert (entryDriverTypes.go:71-81): an equal key makes Add
    return false. *)
Definition driver_Insert (x : ext) : M unit :=
  let '(e, auth) := x in
  let k := EncodeKey (EntryPosition e) pp in
  durable (set_kv (fun m => mset m k (EncodeValues (Values (e_length e) (e_digest e) auth)))) ;;
  let* t := gets tree in
  if existsb (node_is (e_subspace e) (e_path e) (e_time e)) t then fail
  else fun st => (Ok tt, set_tree (cons (Node (e_subspace e) (e_path e) (e_time e) [] false)) st).

(** /repo/pkg/data_model/entry_driver/entry_driver.go:119-133 Delete; the callers
    ignore the error. *)
Definition driver_Delete (e : entry) : M unit :=
  durable (set_kv (fun m => mdel m (EncodeKey (EntryPosition e) pp))) ;;
  fun st => (Ok tt, set_tree (remove_first (node_is (e_subspace e) (e_path e) (e_time e))) st).

(** ** Prefix driver *)

Fixpoint prefix_queries (s : bytes) (ps : list path) (t : list node) : res (list node) :=
  match ps with
  | [] => Ok []
  | p :: ps' =>
      do e <- SuccessorPath p pp;
      do r <- prefix_queries s ps' t;
      Ok (query t (path_window s (SuccessorSubspaceId s) p e) ++ r)
  end.

(** /repo/pkg/data_model/kv_driver/prefix_driver.go:13-50 DriverPrefixesOf *)
Definition DriverPrefixesOf (s : bytes) (p : path) : M (list node) :=
  let prefixes := PrefixesOf p in
  let* ps := lift (slice prefixes 1 (sub64 (len prefixes) 1)) in
  let* t := gets tree in
  lift (prefix_queries s ps t).

(** The components of [q] = SuccessorPath(p) that are the very slices of p's
    components (successor.go:17 and 25 copy only the slice of components), seen
    after SuccessorPrefix has rewritten p's components to those of [after]. *)
Definition reshare (p after q : path) : path :=
  let k := if toT pp (len p) <? max_component_count pp then length p else Nat.pred (length q) in
  firstn k after ++ skipn k q.

(** /repo/pkg/data_model/kv_driver/prefix_driver.go:52-80 PrefixedBy. The second
    result is the caller's path after the call. SuccessorPrefix may rewrite the
    bytes of that path: the node inserted just before shares them, so it changes
    too (that node is the head of [tree]). *)
Definition PrefixedBy (s : bytes) (p : path) : M (list node * path) :=
  let* start := lift (SuccessorPath p pp) in
  let* e := lift (SuccessorPrefix p pp) in
  let after := SuccessorPrefix_caller p pp in
  (fun st => (Ok tt, set_tree (fun t =>
     match t with
     | [] => []
     | n :: t' => Node (n_sub n) after (n_time n) (n_fp n) (n_shared n) :: t'
     end) st)) ;;
  let* t := gets tree in
  let start' := match start with Some q => reshare p after q | None => [] end in
  ret (query t (path_window s (SuccessorSubspaceId s) start' e), after).

(** What SuccessorPath(path) of a node built by InitKDTree does to that node
    (TryAppendZeroByte at successor.go:22 and 73, [append] on the last component,
    whose slice has the rest of the key, that is the subspace, as capacity): the
    first byte of the subspace becomes 0. Only reached with the maximal number of
    components. *)
Definition clobber (n : node) : bytes :=
  if n_shared n && negb (toT pp (len (n_path n)) <? max_component_count pp)
     && match TryAppendZeroByte (last (n_path n) []) pp with Some _ => true | None => false end
  then match n_sub n with [] => [] | _ :: r => 0 :: r end
  else n_sub n.

Definition clobber_node (n : node) : node := Node (clobber n) (n_path n) (n_time n) (n_fp n) (n_shared n).

(** Loop of PrunableEntries, store.go:256-268. *)
Fixpoint prunable_loop (t : N) (cands : list node) : M (list ext) :=
  match cands with
  | [] => ret []
  | n :: cands' =>
      if n_time n <? t then
        (fun st => (Ok tt, set_tree (map (fun m =>
           if node_is (n_sub n) (n_path n) (n_time n) m && n_shared n then clobber_node m else m)) st)) ;;
        let* o := driver_Get_at (clobber n) (SuccessorSubspaceId (n_sub n)) (n_path n) in
        match o with
        | None => fail
        | Some x => let* r := prunable_loop t cands' in ret (x :: r)
        end
      else prunable_loop t cands'
  end.

(** store.go:245-270 PrunableEntries *)
Definition PrunableEntries (s : bytes) (p : path) (t : N) : M (list ext) :=
  let* r := PrefixedBy s p in prunable_loop t (fst r).

(** Loop of InsertEntry, store.go:223-240. *)
Fixpoint prune_loop (xs : list ext) : M (list entry) :=
  match xs with
  | [] => ret []
  | (e, _) :: xs' =>
      driver_Delete e ;;
      let* c := ref_Decrement (e_digest e) in
      (if c =? 0 then payload_Erase (e_digest e) else ret tt) ;;
      let* r := prune_loop xs' in
      ret (e :: r)
  end.

(** store.go:178-243 InsertEntry. TokenEncoding.Encode is the identity
    (StoreSchemes.go:80-83). *)
Definition InsertEntry (e : entry) (token : bytes) : M (list entry) :=
  let* a := payload_Set token in
  driver_Insert (Entry (c_ns C) (e_subspace e) (e_digest e) (e_path e) (e_time e) (e_length e), fst a) ;;
  let* _ := ref_Increment (e_digest e) in
  let* xs := PrunableEntries (e_subspace e) (e_path e) (e_time e) in
  prune_loop xs.

(** StoreSchemes.go:31-37 IsEqual, 69-78 Authorise, IsAuthoriseWrite *)
Definition ns_equal (a b : bytes) : bool := beqb a b.
Definition Authorise (e : entry) (opts : bytes) : res bytes :=
  if beqb (e_subspace e) opts then Ok (e_subspace e) else Err.
Definition IsAuthoriseWrite (e : entry) (token : bytes) : bool := beqb (e_subspace e) token.

(** store.go:105-147: what IngestEntry does with an entry found at the same
    subspace and path; [true] means go on with the insertion. The digest and
    length comparisons at 112-120 are dead: equal timestamps are caught at 108. *)
Definition replace_other (e : entry) (x : ext) : M bool :=
  let '(o, auth) := x in
  if (OrderPath (e_path o) (e_path e) =? 0)%Z then
    if e_time e <=? e_time o then unlock ;; ret false
    else
      driver_Delete o ;;
      payload_Erase auth ;;
      (if negb (beqb (e_digest o) (e_digest e)) then
         let* c := ref_Decrement (e_digest o) in
         if c =? 0 then payload_Erase (e_digest o) else ret tt
       else ret tt) ;;
      ret true
  else ret true.

(** store.go:68-176 IngestEntry. When nothing is found the zero entry is
    compared (107); its path is empty, and an empty e_path has panicked before. *)
Definition IngestEntry (e : entry) (token : bytes) : M (list entry) :=
  lock ;;
  if negb (ns_equal (c_ns C) (e_namespace e)) then unlock ;; fail
  else if negb (IsAuthoriseWrite e token) then unlock ;; fail
  else
    let* prefixes := DriverPrefixesOf (e_subspace e) (e_path e) in
    if existsb (fun n => e_time e <=? n_time n) prefixes then unlock ;; fail
    else
      let* o := driver_Get (e_subspace e) (e_path e) in
      let* go := match o with None => ret true | Some x => replace_other e x end in
      if negb go then fail
      else
        let* pruned := InsertEntry e token in
        unlock ;; ret pruned.

(** /repo/pkg/data_model/datamodeltypes/storetypes.go EntryInput *)
Record input := Input { i_sub : bytes; i_path : path; i_payload : bytes; i_time : N }.

(** store.go:32-66 Set; [now] is time.Now().UnixMicro(). *)
Definition Set_ (i : input) (auth : bytes) (now : N) : M (list entry) :=
  let t := if i_time i =? 0 then now else i_time i in
  let* dl := payload_Set (i_payload i) in
  let e := Entry (c_ns C) (i_sub i) (fst dl) (i_path i) t (snd dl) in
  let* token := lift (Authorise e auth) in
  let* pruned := IngestEntry e token in
  let* c := ref_Count (fst dl) in
  (if c =? 0 then payload_Erase (fst dl) else ret tt) ;;
  ret pruned.

(** store.go:358-375 GetPayload *)
Definition GetPayload (p : position) : M bytes :=
  let* o := gets (fun st => mget (kv st) (EncodeKey p pp)) in
  match o with
  | None => fail
  | Some b => let* w := lift (DecodeValues b) in payload_Get (v_digest w)
  end.

(** /repo/PinaGoladaStore/StoreDriver.go:73-86: one node per database key. *)
Definition load_node (kvp : bytes * bytes) : res node :=
  let p := DecodeKey (fst kvp) pp in
  match p with
  | Ok _ | Err =>
      do v <- DecodeValues (snd kvp);
      match p with
      | Ok q => Ok (Node (pos_subspace q) (pos_path q) (pos_time q) (v_auth v) true)
      | _ => Fatal
      end
  | Panic => Panic
  | Fatal => Fatal
  | Hang => Hang
  end.

Fixpoint load_nodes (m : bmap bytes) : res (list node) :=
  match m with
  | [] => Ok []
  | x :: m' => do n <- load_node x; do r <- load_nodes m'; Ok (n :: r)
  end.

(** Opening a store on the durable part of a state: InitStorage (18-67) and
    InitKDTree (69-88). *)
Definition reopen (st : state) : res state :=
  do t <- load_nodes (kv st);
  Ok (State (kv st) t (refs st) (files st) false None).

(** A new, empty store. *)
Definition empty_store : state := State [] [] [] [] false None.

(** ** Histories *)
Inductive op :=
| OpSet (i : input) (auth : bytes) (now : N)
| OpIngest (e : entry) (token : bytes)
| OpReopen.

(** One operation: what it returned (None for a restart) and the state after. *)
Definition step (o : op) (st : state) : res (list entry) * state :=
  match o with
  | OpSet i auth now => Set_ i auth now st
  | OpIngest e token => IngestEntry e token st
  | OpReopen => match reopen st with
                | Ok st' => (Ok [], st')
                | Err => (Err, st) | Panic => (Panic, st) | Fatal => (Fatal, st) | Hang => (Hang, st)
                end
  end.

(** A history: operations one after the other; an error does not stop it, the
    end of the process does ([None]: killed by panic, log.Fatal, or stuck). *)
Fixpoint run (ops : list op) (st : state) : option state :=
  match ops with
  | [] => Some st
  | o :: ops' =>
      match step o st with
      | (Ok _, st') | (Err, st') => run ops' st'
      | _ => None
      end
  end.
End Store.

(** /repo/PinaGoladaStore/StoreSchemes.go:97-101 and 103-122, with any digest
    function in place of SHA-256. *)
Definition shipped_params : path_params := PathParams 64 50 50 50.
Definition hex_char (n : N) : N := if n <? 10 then 48 + n else 87 + n.
(** encoding/hex EncodeToString *)
Definition hex_encode (b : bytes) : bytes := flat_map (fun x => [hex_char (x / 16); hex_char (x mod 16)]) b.
Definition shipped_fname (d : bytes) : bytes := match hex_decode d with Some r => r | None => [] end.
Definition shipped_cfg (ns : bytes) (digest : bytes -> bytes) : cfg :=
  Cfg shipped_params ns (fun b => hex_encode (digest b)) shipped_fname.
