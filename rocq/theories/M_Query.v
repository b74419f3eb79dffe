(** Model of the reading operations over many entries: ListValues
    (kv_driver_pebble.go), EntryDriver.Query, and the Summarise, SplitRange and
    GetInterestRange operations of KDTreeStorage. *)
From Verif Require Import Base M_Order M_Encoding M_Paths M_Successor M_Ranges M_Areas M_Keys M_Entry M_Map M_Store.
Local Open Scope N_scope.

(** [len(values) >= int(m)]: Go's conversion makes counts of 2^63 and above
    negative. *)
Definition ge_int (n m : N) : bool := (2 ^ 63 <=? m) || (m <=? n).

(** /repo/pkg/data_model/kv_driver/kv_driver_pebble.go:185-243: the loop of
    ListValues over the keys from the last to the first. *)
Fixpoint list_loop (C : cfg) (aoi : area_of_interest) (ps : list (bytes * bytes)) (plen : N) (acc : list entry)
  : res (list entry) :=
  match ps with
  | [] => Ok acc
  | (k, v) :: ps' =>
      let a := aoi_area aoi in
      do q <- DecodeKey k (c_pp C);
      if (r_end (area_times a) <? pos_time q)
         || negb (OrderSubspace (pos_subspace q) (area_subspace a) =? 0)%Z
         || (len (pos_path q) <? len (area_path a)) then list_loop C aoi ps' plen acc
      else
        do pre <- slice (pos_path q) 0 (len (area_path a));
        if negb (OrderPath pre (area_path a) =? 0)%Z then list_loop C aoi ps' plen acc
        else if ((0 <? aoi_max_count aoi) && ge_int (len acc) (aoi_max_count aoi))
                || (pos_time q <? r_start (area_times a)) then Ok acc
        else
          do w <- DecodeValues v;
          let plen' := add64 plen (v_length w) in
          if (0 <? aoi_max_size aoi) && (aoi_max_size aoi <=? plen') then Ok acc
          else list_loop C aoi ps' plen'
                 (acc ++ [Entry (c_ns C) (pos_subspace q) (v_digest w) (pos_path q) (pos_time q) (v_length w)])
  end.

(** kv_driver_pebble.go:163-245 ListValues, store.go:383-390 ListWithAOI *)
Definition ListWithAOI (C : cfg) (aoi : area_of_interest) : M (list entry) :=
  fun st => (list_loop C aoi (rev (kv st)) 0 [], st).

(** /repo/pkg/data_model/store/store.go:378-380 List *)
Definition List_ (st : state) : list node := tree st.

(** The zero ExtendedEntry. *)
Definition zero_ext : ext := (Entry [] [] [] [] 0 0, []).

Fixpoint query_loop (C : cfg) (ns : list node) : M (list ext) :=
  match ns with
  | [] => ret []
  | n :: ns' =>
      let* v := gets (fun st => mget (kv st) (EncodeKey (node_pos n) (c_pp C))) in
      match v with
      | None => fail
      | Some b =>
          let* w := lift (DecodeValues b) in
          let* r := query_loop C ns' in
          ret ((Entry (c_ns C) (n_sub n) (v_digest w) (n_path n) (n_time n) (v_length w), v_auth w) :: r)
      end
  end.

(** /repo/pkg/data_model/entry_driver/entry_driver.go:135-164 Query: the result
    is appended to a slice that already has one zero entry per node (137). *)
Definition driver_Query (C : cfg) (r : range3d) : M (list ext) :=
  let* t := gets tree in
  let ns := query t r in
  let* xs := query_loop C ns in
  ret (repeat zero_ext (length ns) ++ xs).

(** /repo/pkg/data_model/datamodeltypes/entryDriverTypes.go:165-183 xorStrings *)
Definition xorStrings (a b : bytes) : res bytes :=
  if negb (len a =? len b) then Fatal
  else Ok (map (fun p => N.lxor (fst p) (snd p)) (combine a b)).

(** entryDriverTypes.go:112-130 Summarise: fingerprint and size. *)
Fixpoint summarise_loop (ns : list node) (fp : bytes) (size : N) : res (bytes * N) :=
  match ns with
  | [] => Ok (fp, size)
  | n :: ns' => do fp' <- xorStrings fp (n_fp n); summarise_loop ns' fp' (add64 size 1)
  end.
Definition Summarise (t : list node) (r : range3d) : res (bytes * N) := summarise_loop (query t r) [] 0.

(** sort.Slice by timestamp (135-137); only the timestamps are used. *)
Fixpoint insert_time (x : N) (l : list N) : list N :=
  match l with [] => [x] | y :: l' => if x <=? y then x :: l else y :: insert_time x l' end.
Definition sort_times (l : list N) : list N := fold_right insert_time [] l.

(** entryDriverTypes.go:133-163 SplitRange; an empty range makes entries[mid]
    panic (141). *)
Definition SplitRange (t : list node) (r : range3d) : res (range3d * range3d) :=
  let times := sort_times (map n_time (query t r)) in
  do median <- index times (len times / 2);
  Ok (Range3d (subspace_range r) (path_range r) (Range (r_start (time_range r)) median false),
      Range3d (subspace_range r) (path_range r) (Range median (r_end (time_range r)) (r_open (time_range r)))).
