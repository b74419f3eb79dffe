(** The key-value driver over pebble's iterators: Clear, ListAllValues and
    ListValues of /repo/pkg/data_model/kv_driver/kv_driver_pebble.go, and
    InitKDTree of /repo/PinaGoladaStore/StoreDriver.go, with the memory that
    holds the keys.

    Iterator.Key returns a slice whose contents, by pebble's documentation, may
    change at the next move of the iterator: the iterator appends the key to
    [keyBuf[:0]], so that the array is used again when it is large enough. Here
    each move is given as a choice: into the array used before, if it is large
    enough, or into a new one. Elsewhere in the model (M_Store, M_Query) keys are
    byte strings, as if every move used a new array. Values (DB.Get) are copies
    here as there. *)
From Verif Require Import Base M_Order M_Encoding M_Paths M_Ranges M_Areas M_Keys M_Entry M_Map M_Store M_Cap M_Query.
Local Open Scope N_scope.

(** The arrays that were allocated; a slice of one of them that starts at [0]. *)
Definition memory := list bytes.
Record key_slice := KeySlice { k_array : nat; k_len : nat }.
Definition array (m : memory) (a : nat) : bytes := nth a m [].
Definition contents (m : memory) (s : key_slice) : bytes := firstn (k_len s) (array m (k_array s)).
Definition beyond (m : memory) (s : key_slice) : bytes := skipn (k_len s) (array m (k_array s)).

Fixpoint set_array (a : nat) (b : bytes) (m : memory) : memory :=
  match m, a with
  | [], _ => []
  | _ :: r, O => b :: r
  | c :: r, S a' => c :: set_array a' b r
  end.

Section Iterator.
(** What append allocates beyond the [n] bytes it is given. *)
Context (extra : nat -> nat).

(** A move to the key [k]: [buf] is the array of the iterator, [fresh] the
    choice. *)
Definition move_key (fresh : bool) (k : bytes) (buf : option nat) (m : memory) : key_slice * memory :=
  let new := (KeySlice (length m) (length k), m ++ [k ++ repeat 0 (extra (length k))]) in
  match buf with
  | Some a =>
      if negb fresh && (length k <=? length (array m a))%nat
      then (KeySlice a (length k), set_array a (k ++ skipn (length k) (array m a)) m)
      else new
  | None => new
  end.

(** kv_driver_pebble.go:95-110 Clear: the iterator stays on the keys that were
    there when it was made. *)
Fixpoint clear_loop {V} (ks : list bytes) (fs : list bool) (buf : option nat) (m : memory) (db : bmap V) : bmap V :=
  match ks with
  | [] => db
  | k :: ks' =>
      let '(s, m1) := move_key (hd true fs) k buf m in
      clear_loop ks' (tl fs) (Some (k_array s)) m1 (mdel db (contents m1 s))
  end.
Definition Clear {V} (fs : list bool) (db : bmap V) : bmap V := clear_loop (mkeys db) fs None [] db.

(** kv_driver_pebble.go:112-142 ListAllValues: the slices and values, and the
    memory when the loop is done. *)
Fixpoint list_all {V} (db : bmap V) (ks : list bytes) (fs : list bool) (buf : option nat) (m : memory)
  : res (list (key_slice * V)) * memory :=
  match ks with
  | [] => (Ok [], m)
  | k :: ks' =>
      let '(s, m1) := move_key (hd true fs) k buf m in
      match mget db (contents m1 s) with
      | None => (Err, m1)
      | Some v =>
          let '(r, m2) := list_all db ks' (tl fs) (Some (k_array s)) m1 in
          (do l <- r; Ok ((s, v) :: l), m2)
      end
  end.
(** What the caller sees: for each key its bytes, what its array holds beyond
    them, and the value. *)
Definition ListAllValues {V} (fs : list bool) (db : bmap V) : res (list (bytes * bytes * V)) :=
  let '(r, m) := list_all db (mkeys db) fs None [] in
  do l <- r; Ok (map (fun x => (contents m (fst x), beyond m (fst x), snd x)) l).

(** StoreDriver.go:69-88 InitKDTree *)
Definition load_listed (pp : path_params) (x : bytes * bytes * bytes) : res node :=
  let '(k, spare, v) := x in
  let p := DecodeKey_cap k spare pp in
  match p with
  | Ok _ | Err =>
      do w <- DecodeValues v;
      match p with
      | Ok q => Ok (Node (pos_subspace q) (pos_path q) (pos_time q) (v_auth w) true)
      | _ => Fatal
      end
  | Panic => Panic
  | Fatal => Fatal
  | Hang => Hang
  end.
Fixpoint load_all (pp : path_params) (l : list (bytes * bytes * bytes)) : res (list node) :=
  match l with
  | [] => Ok []
  | x :: l' => do n <- load_listed pp x; do r <- load_all pp l'; Ok (n :: r)
  end.
Definition reopen_iter (C : cfg) (fs : list bool) (st : state) : res state :=
  match ListAllValues fs (kv st) with
  | Ok l => do t <- load_all (c_pp C) l; Ok (State (kv st) t (refs st) (files st) false None)
  | _ => Ok (State (kv st) [] (refs st) (files st) false None) (* the error is ignored (71) *)
  end.

(** paths.go:117-127, the loop of DecodePath: where the components are in the
    array (offset, length). *)
Fixpoint component_slices (pp : path_params) (b spare : bytes) (pos : N) (count : nat) : res (N * list (N * N)) :=
  match count with
  | O => Ok (pos, [])
  | S count' =>
      let w := GetWidthMax32Int (max_component_length pp) in
      do lb <- cslice b spare pos (pos + w);
      do l <- match DecodeIntMax32 lb (max_component_length pp) with Ok l => Ok l | _ => Fatal end;
      do _ <- cslice b spare (pos + w) (pos + w + l);
      do (pos', p) <- component_slices pp b spare (pos + w + l) count';
      Ok (pos', (pos + w, l) :: p)
  end.
(** key_utilities.go:36-53 DecodeKey and paths.go:104-129 DecodePath: the
    timestamp is a number, path and subspace are slices of the key. *)
Definition DecodeKey_slices (k spare : bytes) (pp : path_params) : res (N * list (N * N) * (N * N)) :=
  do tb <- cslice k spare 0 8;
  do t <- be_uint64 tb;
  do rest <- slice_from k 8;
  let cw := GetWidthMax32Int (max_component_count pp) in
  do cb <- cslice rest spare 0 cw;
  do count <- DecodeIntMax32 cb (max_component_count pp);
  do (n, cs) <- component_slices pp rest spare cw (N.to_nat count);
  do _ <- slice_from k (8 + n);
  Ok (t, map (fun c => (8 + fst c, snd c)) cs, (8 + n, len k - (8 + n))).

(** An entry whose subspace and path are slices of an array. *)
Record listed := Listed { l_array : nat; l_sub : N * N; l_path : list (N * N); l_time : N; l_digest : bytes; l_length : N }.
Definition part (m : memory) (a : nat) (s : N * N) : bytes := firstn (N.to_nat (snd s)) (skipn (N.to_nat (fst s)) (array m a)).
Definition seen (C : cfg) (m : memory) (x : listed) : entry :=
  Entry (c_ns C) (part m (l_array x) (l_sub x)) (l_digest x) (map (part m (l_array x)) (l_path x)) (l_time x) (l_length x).

(** kv_driver_pebble.go:185-243, the loop of ListValues; [ps] are the keys from
    the last to the first, with the value DB.Get finds. *)
Fixpoint list_values (C : cfg) (aoi : area_of_interest) (ps : list (bytes * bytes)) (fs : list bool) (buf : option nat)
  (m : memory) (plen : N) (acc : list listed) : res (list listed) * memory :=
  match ps with
  | [] => (Ok acc, m)
  | (k, v) :: ps' =>
      let '(s, m1) := move_key (hd true fs) k buf m in
      let a := aoi_area aoi in
      match DecodeKey_slices (contents m1 s) (beyond m1 s) (c_pp C) with
      | Ok (t, cs, sub) =>
          let p := map (part m1 (k_array s)) cs in
          let go := list_values C aoi ps' (tl fs) (Some (k_array s)) m1 in
          if (r_end (area_times a) <? t) || negb (OrderSubspace (part m1 (k_array s) sub) (area_subspace a) =? 0)%Z
             || (len p <? len (area_path a)) then go plen acc
          else if negb (OrderPath (firstn (length (area_path a)) p) (area_path a) =? 0)%Z then go plen acc
          else if ((0 <? aoi_max_count aoi) && ge_int (len acc) (aoi_max_count aoi)) || (t <? r_start (area_times a)) then (Ok acc, m1)
          else
            match DecodeValues v with
            | Ok w =>
                let plen' := add64 plen (v_length w) in
                if (0 <? aoi_max_size aoi) && (aoi_max_size aoi <=? plen') then (Ok acc, m1)
                else go plen' (acc ++ [Listed (k_array s) sub cs t (v_digest w) (v_length w)])
            | Err => (Err, m1) | Panic => (Panic, m1) | Fatal => (Fatal, m1) | Hang => (Hang, m1)
            end
      | Err => (Err, m1) | Panic => (Panic, m1) | Fatal => (Fatal, m1) | Hang => (Hang, m1)
      end
  end.
Definition ListValues (C : cfg) (aoi : area_of_interest) (fs : list bool) (st : state) : res (list entry) :=
  let '(r, m) := list_values C aoi (rev (kv st)) fs None [] 0 [] in
  do l <- r; Ok (map (seen C m) l).
End Iterator.
