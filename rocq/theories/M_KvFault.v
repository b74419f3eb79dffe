(** The key-value driver of /repo/pkg/data_model/kv_driver/kv_driver_pebble.go, and Query of
    /repo/pkg/data_model/entry_driver/entry_driver.go on top of it, when calls of pebble may fail, with an account of the
    iterators and values that pebble has handed out and that have not been given back. Keys are byte strings, as in M_Query.v
    (the memory behind them is in M_Pebble.v). Close (62-68) and Batch (146-149) are single calls of pebble and not here. *)
From Verif Require Import Base M_Order M_Encoding M_Paths M_Ranges M_Areas M_Keys M_Entry M_Map M_Store M_Query M_Fault.
Local Open Scope N_scope.

(** A database; how the calls of pebble still to come will go (beyond the list: as they should); how many iterators and how
    many values are open. *)
Record kvdb := KvDb { db_map : bmap bytes; db_todo : list outcome; db_iters : N; db_values : N }.
Definition K (A : Type) := kvdb -> res A * kvdb.
Definition retK {A} (a : A) : K A := fun s => (Ok a, s).
Definition failK {A} : K A := fun s => (Err, s).
Definition liftK {A} (r : res A) : K A := fun s => (r, s).
Definition bindK {A B} (m : K A) (f : A -> K B) : K B :=
  fun s =>
    match m s with
    | (Ok a, s') => f a s'
    | (Err, s') => (Err, s')
    | (Panic, s') => (Panic, s')
    | (Fatal, s') => (Fatal, s')
    | (Hang, s') => (Hang, s')
    end.
Notation "'let?' x := m 'in' k" := (bindK m (fun x => k))
  (at level 200, x pattern, m at level 100, k at level 200, right associativity).
Definition next_call : K outcome :=
  fun s => match db_todo s with
           | [] => (Ok Fine, s)
           | o :: os => (Ok o, KvDb (db_map s) os (db_iters s) (db_values s))
           end.
Definition with_map (f : bmap bytes -> bmap bytes) : K unit :=
  fun s => (Ok tt, KvDb (f (db_map s)) (db_todo s) (db_iters s) (db_values s)).
Definition open_iter : K unit := fun s => (Ok tt, KvDb (db_map s) (db_todo s) (db_iters s + 1) (db_values s)).
Definition shut_iter : K unit := fun s => (Ok tt, KvDb (db_map s) (db_todo s) (db_iters s - 1) (db_values s)).
Definition open_value : K unit := fun s => (Ok tt, KvDb (db_map s) (db_todo s) (db_iters s) (db_values s + 1)).
(** closer.Close(); its error is dropped everywhere. *)
Definition shut_value : K unit := fun s => (Ok tt, KvDb (db_map s) (db_todo s) (db_iters s) (db_values s - 1)).

(** pebble DB.Get, with "not found" as None: a value that is found has to be given back. *)
Definition db_Get (k : bytes) : K (option bytes) :=
  let? o := next_call in
  match o with
  | Fine => fun s => match mget (db_map s) k with
                     | None => (Ok None, s)
                     | Some v => (let? _ := open_value in retK (Some v)) s
                     end
  | _ => failK
  end.
(** pebble DB.Delete *)
Definition db_Delete (k : bytes) : K unit :=
  let? o := next_call in match o with Fine => with_map (fun m => mdel m k) | _ => failK end.
(** pebble DB.NewIter and the moves of the iterator: the keys in the order of the moves ([backward]: from the last), of
    the database as it is now, and whether the iterator meets no error on its way. After an error there are no more keys. *)
Definition db_NewIter (backward : bool) : K (list bytes * bool) :=
  let? o := next_call in
  match o with
  | Fails => failK
  | _ => let? _ := open_iter in
         fun s => let ks := if backward then rev (mkeys (db_map s)) else mkeys (db_map s) in
                  (Ok (match o with Torn n => (firstn n ks, false) | _ => (ks, true) end), s)
  end.
(** pebble Iterator.Close: false is an error, that of the moves or its own. *)
Definition iter_Close (fine : bool) : K bool :=
  let? o := next_call in
  let? _ := shut_iter in
  retK (fine && match o with Fine => true | _ => false end).
(** The deferred function of 126-130 and 176-180: an error of Close ends the process. It runs after a return and after a
    panic, not after the end of the process. *)
Definition deferring {A} (fine : bool) (body : K A) : K A :=
  fun s =>
    match body s with
    | (Fatal, s') => (Fatal, s')
    | (Hang, s') => (Hang, s')
    | (r, s') => (let? c := iter_Close fine in liftK (if c then r else Fatal)) s'
    end.

(** kv_driver_pebble.go:70-77 Get *)
Definition drv_Get (k : bytes) : K bytes :=
  let? v := db_Get k in
  match v with None => failK | Some b => let? _ := shut_value in retK b end.

(** kv_driver_pebble.go:95-110 Clear: an error of Delete is returned without closing the iterator (102-104). *)
Fixpoint drv_clear_loop (ks : list bytes) : K unit :=
  match ks with
  | [] => retK tt
  | k :: ks' => let? _ := db_Delete k in drv_clear_loop ks'
  end.
Definition drv_Clear : K unit :=
  let? it := db_NewIter false in
  let? _ := drv_clear_loop (fst it) in
  let? c := iter_Close (snd it) in
  if c then retK tt else failK.

(** kv_driver_pebble.go:112-144 ListAllValues *)
Fixpoint drv_values_loop (ks : list bytes) : K (bmap bytes) :=
  match ks with
  | [] => retK []
  | k :: ks' =>
      let? v := db_Get k in
      match v with
      | None => failK
      | Some b => let? _ := shut_value in let? r := drv_values_loop ks' in retK ((k, b) :: r)
      end
  end.
Definition drv_ListAllValues : K (bmap bytes) :=
  let? it := db_NewIter false in deferring (snd it) (drv_values_loop (fst it)).

(** kv_driver_pebble.go:151-161 GetMultipleValues *)
Fixpoint drv_GetMultipleValues (ks : list bytes) : K (list bytes) :=
  match ks with
  | [] => retK []
  | k :: ks' => let? v := drv_Get k in let? r := drv_GetMultipleValues ks' in retK (v :: r)
  end.

Section Listing.
Variable C : cfg.

(** kv_driver_pebble.go:184-244, the loop of ListValues, as [list_loop]; the value is given back at 242, after it has been
    appended: not when the loop is left at 228, nor after a panic of DecodeValues (222). *)
Fixpoint drv_list_loop (aoi : area_of_interest) (ks : list bytes) (plen : N) (acc : list entry) : K (list entry) :=
  match ks with
  | [] => retK acc
  | k :: ks' =>
      let a := aoi_area aoi in
      let? q := liftK (DecodeKey k (c_pp C)) in
      if (r_end (area_times a) <? pos_time q)
         || negb (OrderSubspace (pos_subspace q) (area_subspace a) =? 0)%Z
         || (len (pos_path q) <? len (area_path a)) then drv_list_loop aoi ks' plen acc
      else
        let? pre := liftK (slice (pos_path q) 0 (len (area_path a))) in
        if negb (OrderPath pre (area_path a) =? 0)%Z then drv_list_loop aoi ks' plen acc
        else if ((0 <? aoi_max_count aoi) && ge_int (len acc) (aoi_max_count aoi))
                || (pos_time q <? r_start (area_times a)) then retK acc
        else
          let? v := db_Get k in
          match v with
          | None => failK
          | Some b =>
              let? w := liftK (DecodeValues b) in
              let plen' := add64 plen (v_length w) in
              if (0 <? aoi_max_size aoi) && (aoi_max_size aoi <=? plen') then retK acc
              else
                let? _ := shut_value in
                drv_list_loop aoi ks' plen'
                  (acc ++ [Entry (c_ns C) (pos_subspace q) (v_digest w) (pos_path q) (pos_time q) (v_length w)])
          end
  end.
(** kv_driver_pebble.go:163-245 ListValues, store.go:383-390 ListWithAOI *)
Definition drv_ListValues (aoi : area_of_interest) : K (list entry) :=
  let? it := db_NewIter true in deferring (snd it) (drv_list_loop aoi (fst it) 0 []).

(** entry_driver.go:138-163, the loop of Query over the nodes that the index has in the range. *)
Fixpoint drv_query_loop (ns : list node) : K (list ext) :=
  match ns with
  | [] => retK []
  | n :: ns' =>
      let? b := drv_Get (EncodeKey (node_pos n) (c_pp C)) in
      let? w := liftK (DecodeValues b) in
      let? r := drv_query_loop ns' in
      retK ((Entry (c_ns C) (n_sub n) (v_digest w) (n_path n) (n_time n) (v_length w), v_auth w) :: r)
  end.
(** entry_driver.go:135-164 Query, on the index [t] *)
Definition drv_Query (t : list node) (r : range3d) : K (list ext) :=
  let ns := query t r in
  let? xs := drv_query_loop ns in retK (repeat zero_ext (length ns) ++ xs).
End Listing.
