(** The store of M_Store.v when calls of pebble and of the file system may fail: what each of the functions of
    /repo/pkg/data_model/store/store.go, entry_driver/entry_driver.go, payload_kv_driver and
    /repo/PinaGoladaStore/StoreDriver.go does with the error. A call that fails has no effect, except that writing and
    reading a file may stop in the middle. *)
From Verif Require Import Base M_Order M_Encoding M_Paths M_Successor M_Ranges M_Keys M_Entry M_Map M_Store.
Local Open Scope N_scope.

(** How a call of pebble or of the operating system goes: as it should; it returns an error; or it returns an error after
    [n] bytes (os.WriteFile and os.ReadFile) or keys (an iterator). *)
Inductive outcome := Fine | Fails | Torn (n : nat).

(** Programs over a state and the outcomes still to come; calls beyond the list go as they should. *)
Definition F (A : Type) := state * list outcome -> res A * (state * list outcome).
Definition retF {A} (a : A) : F A := fun s => (Ok a, s).
Definition failF {A} : F A := fun s => (Err, s).
Definition bindF {A B} (m : F A) (f : A -> F B) : F B :=
  fun s =>
    match m s with
    | (Ok a, s') => f a s'
    | (Err, s') => (Err, s')
    | (Panic, s') => (Panic, s')
    | (Fatal, s') => (Fatal, s')
    | (Hang, s') => (Hang, s')
    end.
Notation "'let!' x := m 'in' k" := (bindF m (fun x => k))
  (at level 200, x pattern, m at level 100, k at level 200, right associativity).
(** A program that makes no such call. *)
Definition mem {A} (m : M A) : F A := fun s => let '(r, st) := m (fst s) in (r, (st, snd s)).
Definition upd (f : state -> state) : F unit := fun s => (Ok tt, (f (fst s), snd s)).
(** The outcome of the next call. *)
Definition io : F outcome :=
  fun s => match snd s with [] => (Ok Fine, s) | o :: os => (Ok o, (fst s, os)) end.
(** A call whose error is dropped. *)
Definition ignore {A} (m : F A) : F unit :=
  fun s =>
    match m s with
    | (Ok _, s') | (Err, s') => (Ok tt, s')
    | (Panic, s') => (Panic, s')
    | (Fatal, s') => (Fatal, s')
    | (Hang, s') => (Hang, s')
    end.

Section Fault.
Variable C : cfg.
Notation pp := (c_pp C).

(** kv_driver_pebble.go:70-77 Get (None: "pebble: not found"), 79-85 Set, 87-93 Delete, for the database of entries and
    that of counts. *)
Definition db_get {A} (f : state -> option A) : F (option A) :=
  let! o := io in
  match o with Fine => mem (gets f) | _ => failF end.
Definition db_write (f : state -> state) : F unit :=
  let! o := io in
  match o with Fine => upd f | _ => failF end.

(** filesystem.go:102-112 Set: the error of WriteFile is dropped (109). *)
Definition f_payload_Set (b : bytes) : F (bytes * N) :=
  let d := c_hash C b in
  let! o := io in
  let! _ := match o with
            | Fine => upd (set_files (fun m => mset m (c_fname C d) b))
            | Fails => retF tt
            | Torn n => upd (set_files (fun m => mset m (c_fname C d) (firstn n b)))
            end in
  retF (d, len b).

(** filesystem.go:88-99 Erase *)
Definition f_payload_Erase (d : bytes) : F unit :=
  let! o := io in
  match o with
  | Fine => let! p := mem (gets (fun st => mget (files st) (c_fname C d))) in
            match p with None => failF | Some _ => upd (set_files (fun m => mdel m (c_fname C d))) end
  | _ => failF
  end.

(** filesystem.go:74-85 Get and the Bytes() of its result (32-35), which drops the error of ReadFile. *)
Definition f_payload_Get (d : bytes) : F bytes :=
  let! o := io in
  match o with
  | Fine => let! p := mem (gets (fun st => mget (files st) (c_fname C d))) in
            match p with
            | None => failF
            | Some b => let! o := io in retF (match o with Fine => b | Fails => [] | Torn n => firstn n b end)
            end
  | _ => failF
  end.

(** payload_ref_counter.go:28-42 Increment: the error of Set is dropped (40). *)
Definition f_Increment (d : bytes) : F N :=
  let! o := db_get (fun st => mget (refs st) d) in
  let c := match o with None => 1 | Some c => add64 c 1 end in
  let! _ := ignore (db_write (set_refs (fun m => mset m d c))) in retF c.
(** payload_ref_counter.go:50-62 Decrement: the same (60). *)
Definition f_Decrement (d : bytes) : F N :=
  let! o := db_get (fun st => mget (refs st) d) in
  match o with
  | None => failF
  | Some c => let c' := sub64 c 1 in let! _ := ignore (db_write (set_refs (fun m => mset m d c'))) in retF c'
  end.
(** payload_ref_counter.go:68-77 Count *)
Definition f_Count (d : bytes) : F N :=
  let! o := db_get (fun st => mget (refs st) d) in
  match o with None => failF | Some c => retF c end.

(** entry_driver.go:56-92 Get; None is "entry does not exist". *)
Definition f_driver_Get_at (s0 s1 : bytes) (p : path) : F (option ext) :=
  let! o := mem (storage_Get C s0 s1 p) in
  match o with
  | None => retF None
  | Some n =>
      let! v := db_get (fun st => mget (kv st) (EncodeKey (node_pos n) pp)) in
      match v with
      | None => failF
      | Some b =>
          let! w := mem (lift (DecodeValues b)) in
          retF (Some (Entry (c_ns C) s0 (v_digest w) p (n_time n) (v_length w), v_auth w))
      end
  end.

(** entry_driver.go:94-117 Insert *)
Definition f_driver_Insert (x : ext) : F unit :=
  let '(e, auth) := x in
  let k := EncodeKey (EntryPosition e) pp in
  let! _ := db_write (set_kv (fun m => mset m k (EncodeValues (Values (e_length e) (e_digest e) auth)))) in
  let! t := mem (gets tree) in
  if existsb (node_is (e_subspace e) (e_path e) (e_time e)) t then failF
  else upd (set_tree (cons (Node (e_subspace e) (e_path e) (e_time e) [] false))).

(** entry_driver.go:119-133 Delete: the tree is left alone when the database reports an error (125-128). *)
Definition f_driver_Delete (e : entry) : F unit :=
  let! _ := db_write (set_kv (fun m => mdel m (EncodeKey (EntryPosition e) pp))) in
  let! t := mem (gets tree) in
  if existsb (node_is (e_subspace e) (e_path e) (e_time e)) t
  then upd (set_tree (remove_first (node_is (e_subspace e) (e_path e) (e_time e))))
  else failF.

(** Loop of PrunableEntries, store.go:256-268. *)
Fixpoint f_prunable_loop (t : N) (cands : list node) : F (list ext) :=
  match cands with
  | [] => retF []
  | n :: cands' =>
      if n_time n <? t then
        let! _ := upd (set_tree (map (fun m =>
           if node_is (n_sub n) (n_path n) (n_time n) m && n_shared n then clobber_node C m else m))) in
        let! o := f_driver_Get_at (clobber C n) (SuccessorSubspaceId (n_sub n)) (n_path n) in
        match o with
        | None => failF
        | Some x => let! r := f_prunable_loop t cands' in retF (x :: r)
        end
      else f_prunable_loop t cands'
  end.
(** store.go:245-270 PrunableEntries *)
Definition f_PrunableEntries (s : bytes) (p : path) (t : N) : F (list ext) :=
  let! r := mem (PrefixedBy C s p) in f_prunable_loop t (fst r).

(** Loop of InsertEntry, store.go:223-240: the errors of Delete (226) and of Erase (236) are dropped. *)
Fixpoint f_prune_loop (xs : list ext) : F (list entry) :=
  match xs with
  | [] => retF []
  | (e, _) :: xs' =>
      let! _ := ignore (f_driver_Delete e) in
      let! c := f_Decrement (e_digest e) in
      let! _ := (if c =? 0 then ignore (f_payload_Erase (e_digest e)) else retF tt) in
      let! r := f_prune_loop xs' in
      retF (e :: r)
  end.

(** store.go:178-243 InsertEntry: the error of Increment is dropped (209). *)
Definition f_InsertEntry (e : entry) (token : bytes) : F (list entry) :=
  let! a := f_payload_Set token in
  let! _ := f_driver_Insert (Entry (c_ns C) (e_subspace e) (e_digest e) (e_path e) (e_time e) (e_length e), fst a) in
  let! _ := ignore (f_Increment (e_digest e)) in
  let! xs := f_PrunableEntries (e_subspace e) (e_path e) (e_time e) in
  f_prune_loop xs.

(** store.go:105-147: the errors of Delete (132) and Erase (133, 143) are dropped; that of Decrement is returned with the lock
    held (140). *)
Definition f_replace_other (e : entry) (x : ext) : F bool :=
  let '(o, auth) := x in
  if (OrderPath (e_path o) (e_path e) =? 0)%Z then
    if e_time e <=? e_time o then let! _ := mem unlock in retF false
    else
      let! _ := ignore (f_driver_Delete o) in
      let! _ := ignore (f_payload_Erase auth) in
      let! _ := (if negb (beqb (e_digest o) (e_digest e)) then
                   let! c := f_Decrement (e_digest o) in
                   if c =? 0 then ignore (f_payload_Erase (e_digest o)) else retF tt
                 else retF tt) in
      retF true
  else retF true.

(** store.go:68-176 IngestEntry: errors of Get (103) and of InsertEntry (168) are returned with the lock held. *)
Definition f_IngestEntry (e : entry) (token : bytes) : F (list entry) :=
  let! _ := mem lock in
  if negb (ns_equal (c_ns C) (e_namespace e)) then let! _ := mem unlock in failF
  else if negb (IsAuthoriseWrite e token) then let! _ := mem unlock in failF
  else
    let! prefixes := mem (DriverPrefixesOf C (e_subspace e) (e_path e)) in
    if existsb (fun n => e_time e <=? n_time n) prefixes then let! _ := mem unlock in failF
    else
      let! o := f_driver_Get_at (e_subspace e) (SuccessorSubspaceId (e_subspace e)) (e_path e) in
      let! go := match o with None => retF true | Some x => f_replace_other e x end in
      if negb go then failF
      else
        let! pruned := f_InsertEntry e token in
        let! _ := mem unlock in retF pruned.

(** store.go:32-66 Set *)
Definition f_Set (i : input) (auth : bytes) (now : N) : F (list entry) :=
  let t := if i_time i =? 0 then now else i_time i in
  let! dl := f_payload_Set (i_payload i) in
  let e := Entry (c_ns C) (i_sub i) (fst dl) (i_path i) t (snd dl) in
  let! token := mem (lift (Authorise e auth)) in
  let! pruned := f_IngestEntry e token in
  let! c := f_Count (fst dl) in
  let! _ := (if c =? 0 then ignore (f_payload_Erase (fst dl)) else retF tt) in
  retF pruned.

(** store.go:358-375 GetPayload *)
Definition f_GetPayload (p : position) : F bytes :=
  let! o := db_get (fun st => mget (kv st) (EncodeKey p pp)) in
  match o with
  | None => failF
  | Some b => let! w := mem (lift (DecodeValues b)) in f_payload_Get (v_digest w)
  end.

(** The loop of ListAllValues, kv_driver_pebble.go:131-142, over the keys an iterator gives: every value is read. *)
Fixpoint f_values (m : bmap bytes) : F (bmap bytes) :=
  match m with
  | [] => retF []
  | (k, _) :: m' =>
      let! v := db_get (fun st => mget (kv st) k) in
      match v with
      | None => failF
      | Some b => let! r := f_values m' in retF ((k, b) :: r)
      end
  end.
(** kv_driver_pebble.go:112-144 ListAllValues. An iterator that meets an error gives no more keys, and its Close returns
    the error, which ends the process (126-130), as any error of Close does. *)
Definition f_ListAllValues : F (bmap bytes) :=
  let! o := io in
  match o with
  | Fails => failF
  | _ =>
      let! m := mem (gets kv) in
      fun s =>
        let '(r, s') := f_values (match o with Torn n => firstn n m | _ => m end) s in
        (let! c := io in
         match o, c with Fine, Fine => (fun s => (r, s)) | _, _ => mem (lift Fatal) end) s'
  end.

(** StoreDriver.go:18-88 InitStorage and InitKDTree: an error of pebble.Open ends the process (22, 32); one of ListAllValues is
    dropped (71), and the tree is empty. *)
Definition f_reopen : F unit :=
  let! o := io in
  match o with
  | Fine =>
      let! o := io in
      match o with
      | Fine =>
          fun s =>
            match f_ListAllValues s with
            | (Ok m, (st, os)) =>
                match load_nodes C m with
                | Ok t => (Ok tt, (State (kv st) t (refs st) (files st) false None, os))
                | Err => (Err, (st, os)) | Panic => (Panic, (st, os)) | Fatal => (Fatal, (st, os)) | Hang => (Hang, (st, os))
                end
            | (Err, (st, os)) => (Ok tt, (State (kv st) [] (refs st) (files st) false None, os))
            | (Panic, s') => (Panic, s') | (Fatal, s') => (Fatal, s') | (Hang, s') => (Hang, s')
            end
      | _ => mem (lift Fatal)
      end
  | _ => mem (lift Fatal)
  end.

(** One operation of a history, see [step]. *)
Definition f_step (o : op) : F (list entry) :=
  match o with
  | OpSet i auth now => f_Set i auth now
  | OpIngest e token => f_IngestEntry e token
  | OpReopen => let! _ := f_reopen in retF []
  end.
End Fault.
