(** The functions of /repo/utils/successor.go, PrefixedBy, AreaTo3dRange and
    EncodeEntry on byte slices in memory: a path is a list of slices, and [append]
    writes into the array of its first argument when the capacity allows it
    (successor.go:72 and 80, entries.go:35-46). Elsewhere in the model a path is a
    list of byte strings, and M_Successor.v, M_Store.v ([reshare], [clobber]) say
    what of these writes is seen by others; Prop_Mem.v compares. *)
From Verif Require Import Base M_Order M_Encoding M_Paths M_Successor M_Ranges M_Areas M_Entry.
Local Open Scope N_scope.

(** The arrays that were allocated. A slice starts at [s_off] of one of them, has
    [s_len] bytes and capacity [s_cap]. *)
Definition heap := list bytes.
Record sl := Sl { s_buf : nat; s_off : nat; s_len : nat; s_cap : nat }.
Definition rd (h : heap) (s : sl) : bytes := firstn (s_len s) (skipn (s_off s) (nth (s_buf s) h [])).
Definition rdp (h : heap) (p : list sl) : path := map (rd h) p.
Definition none : sl := Sl 0 0 0 0.

(** [b[i] = x] for the array number [b]. *)
Definition write (h : heap) (b i : nat) (x : N) : heap := update_nth b (update_nth i x (nth b h [])) h.
Fixpoint write_all (h : heap) (b i : nat) (xs : bytes) : heap :=
  match xs with [] => h | x :: r => write_all (write h b i x) b (S i) r end.

Section Alloc.
(** What an allocation adds to the [n] bytes that are needed. *)
Context (extra : nat -> nat).

Definition new (h : heap) (b : bytes) : sl * heap :=
  (Sl (length h) 0 (length b) (length b + extra (length b)), h ++ [b ++ repeat 0 (extra (length b))]).

(** [append(s, xs...)] *)
Definition append (h : heap) (s : sl) (xs : bytes) : sl * heap :=
  if Nat.leb (s_len s + length xs) (s_cap s)
  then (Sl (s_buf s) (s_off s) (s_len s + length xs) (s_cap s), write_all h (s_buf s) (s_off s + s_len s) xs)
  else new h (rd h s ++ xs).

Section Params.
Context (pp : path_params).

(** /repo/utils/successor.go:52-65 PathAppend. The slice of components it
    appends to is the copy its callers made (12-13, 36-37). *)
Definition PathAppend_mem (p : list sl) (c : sl) : res (list sl) :=
  if max_component_count pp <? toT pp (len p + 1) then Fatal
  else if max_path_length pp <? toT pp (N.of_nat (s_len c) + fold_right (fun c n => N.of_nat (s_len c) + n) 0 p) then Fatal
  else Ok (p ++ [c]).

(** /repo/utils/successor.go:68-74 TryAppendZeroByte *)
Definition TryAppendZeroByte_mem (h : heap) (c : sl) : option sl * heap :=
  if toT pp (N.of_nat (s_len c)) =? max_component_length pp then (None, h)
  else let '(d, h') := append h c [0] in (Some d, h').

(** /repo/utils/successor.go:77-85 PrefixSuccessor; [n] is i+1. *)
Fixpoint prefix_successor_loop (h : heap) (c : sl) (n : nat) : option sl * heap :=
  match n with
  | O => (None, h)
  | S i =>
      let x := nth i (rd h c) 0 in
      if x =? 255 then prefix_successor_loop h c i
      else let '(d, h') := append h (Sl (s_buf c) (s_off c) i (s_cap c)) [x + 1] in (Some d, h')
  end.
Definition PrefixSuccessor_mem (h : heap) (c : sl) : option sl * heap := prefix_successor_loop h c (s_len c).

(** Loop of SuccessorPath, /repo/utils/successor.go:21-30. SuccessorBytesFixedWidth
    (88-114) works on a copy. *)
Fixpoint path_loop_mem (h : heap) (p : list sl) (n : nat) : res (option (list sl)) * heap :=
  match n with
  | O => (Ok None, h)
  | S i =>
      let c := nth i p none in
      match TryAppendZeroByte_mem h c with
      | (Some d, h') => (do q <- PathAppend_mem (firstn i p) d; Ok (Some q), h')
      | (None, _) =>
          match SuccessorBytesFixedWidth (rd h c) with
          | Some b => let '(d, h') := new h b in (do q <- PathAppend_mem p d; Ok (Some q), h')
          | None => path_loop_mem h p i
          end
      end
  end.
(** /repo/utils/successor.go:11-32 SuccessorPath *)
Definition SuccessorPath_mem (h : heap) (p : list sl) : res (option (list sl)) * heap :=
  match p with
  | [] => let '(c, h') := new h [] in (Ok (Some [c]), h')
  | _ =>
      if toT pp (len p) <? max_component_count pp
      then let '(c, h') := new h [] in (do q <- PathAppend_mem p c; Ok (Some q), h')
      else path_loop_mem h p (length p)
  end.

(** /repo/utils/successor.go:35-49 SuccessorPrefix *)
Fixpoint prefix_loop_mem (h : heap) (p : list sl) (n : nat) : res (option (list sl)) * heap :=
  match n with
  | O => (Ok None, h)
  | S i =>
      let c := nth i p none in
      match TryAppendZeroByte_mem h c with
      | (Some d, h') => (do q <- PathAppend_mem (firstn i p) d; Ok (Some q), h')
      | (None, _) =>
          match PrefixSuccessor_mem h c with
          | (Some d, h') => (do q <- PathAppend_mem (firstn i p) d; Ok (Some q), h')
          | (None, _) => prefix_loop_mem h p i
          end
      end
  end.
Definition SuccessorPrefix_mem (h : heap) (p : list sl) : res (option (list sl)) * heap := prefix_loop_mem h p (length p).

(** /repo/pkg/data_model/kv_driver/prefix_driver.go:60-64: the path range of
    PrefixedBy; its ends, and the memory when both are there. *)
Definition prefixed_range_mem (h : heap) (p : list sl) : res (option (list sl) * option (list sl)) * heap :=
  let '(a, h1) := SuccessorPath_mem h p in
  match a with
  | Ok a => let '(e, h2) := SuccessorPrefix_mem h1 p in (do e <- e; Ok (a, e), h2)
  | Err => (Err, h1) | Panic => (Panic, h1) | Fatal => (Fatal, h1) | Hang => (Hang, h1)
  end.

(** /repo/utils/areas.go:152-198 AreaTo3dRange of an area of one subspace: the
    start of the subspace range is the slice of the area (158), its end another
    (SuccessorSubspaceId copies, successor.go:116-123), the start path the slices
    of the area's path (175-176). *)
Record area_mem := AreaMem { am_sub : sl; am_path : list sl; am_times : range N }.
Record range_mem := RangeMem { rm_sub : sl; rm_sub_end : sl; rm_start : list sl; rm_end : list sl; rm_open : bool; rm_times : range N }.
Definition AreaTo3dRange_mem (h : heap) (a : area_mem) : res range_mem * heap :=
  let '(se, h1) := new h (SuccessorSubspaceId (rd h (am_sub a))) in
  let '(e, h2) := SuccessorPrefix_mem h1 (am_path a) in
  (do e <- e;
   Ok (match e with
       | None | Some [] => RangeMem (am_sub a) se (am_path a) [] true (am_times a)
       | Some q => RangeMem (am_sub a) se (am_path a) q false (am_times a)
       end), h2).
(** What the caller reads. *)
Definition seen_range (h : heap) (r : range_mem) : range3d :=
  Range3d (Range (rd h (rm_sub r)) (rd h (rm_sub_end r)) false) (Range (rdp h (rm_start r)) (rdp h (rm_end r)) (rm_open r)) (rm_times r).
Definition seen_area (h : heap) (a : area_mem) : area := Area (rd h (am_sub a)) (rdp h (am_path a)) (am_times a) false.

(** /repo/utils/entries.go:26-49 EncodeEntry with the shipped schemes for
    namespaces and subspaces (/repo/PinaGoladaStore/StoreSchemes.go:15-18, 38-41),
    which return their argument: the first append writes behind the namespace.
    EncodePath is called when that is done. *)
Record entry_mem := EntryMem { em_ns : sl; em_sub : sl; em_digest : bytes; em_path : list sl; em_time : N; em_length : N }.
Definition seen_entry (h : heap) (e : entry_mem) : entry :=
  Entry (rd h (em_ns e)) (rd h (em_sub e)) (em_digest e) (rdp h (em_path e)) (em_time e) (em_length e).
Definition EncodeEntry_mem (ds : bytes -> bytes) (h : heap) (e : entry_mem) : sl * heap :=
  let '(a, h) := append h (em_ns e) (rd h (em_sub e)) in
  let '(a, h) := append h a (EncodePath pp (rdp h (em_path e))) in
  let '(a, h) := append h a (BigIntToBytes (em_time e)) in
  let '(a, h) := append h a (BigIntToBytes (em_length e)) in
  append h a (ds (em_digest e)).
End Params.
End Alloc.
