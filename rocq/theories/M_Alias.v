(** The memory effect of Go's [append] on a shared backing array, for
    /repo/utils/paths.go:187-206 DecodeRelativePath. *)
From Verif Require Import Base M_Encoding M_Paths.
Local Open Scope N_scope.

(** A slice of components seen with the whole backing array it starts in:
    [backing] runs from the start of the slice up to its capacity, [vis] is its
    length. *)
Record go_slice := GoSlice { backing : path; vis : nat }.
Definition contents (s : go_slice) : path := firstn (vis s) (backing s).

(** [append(s[0:k], suffix...)]: result and the backing array afterwards. If
    the capacity suffices Go writes into the array, otherwise it copies. *)
Definition go_append (s : go_slice) (k : nat) (suffix : path) : path * path :=
  (firstn k (backing s) ++ suffix,
   if Nat.leb (k + length suffix) (length (backing s))
   then firstn k (backing s) ++ suffix ++ skipn (k + length suffix) (backing s)
   else backing s).

(** /repo/utils/paths.go:187-206 DecodeRelativePath with the reference as a
    slice in memory: the decoded path and the reference's array afterwards. The
    reference is cut up to its capacity (199). *)
Definition DecodeRelativePath_mem (pp : path_params) (enc : bytes) (reference : go_slice)
  : res (path * go_slice) :=
  let w := GetWidthMax32Int (max_component_count pp) in
  do pb <- slice enc 0 w;
  do n <- match DecodeIntMax32 pb (max_component_count pp) with Ok n => Ok n | _ => Fatal end;
  do _ <- slice (backing reference) 0 n;
  do rest <- slice_from enc w;
  match DecodePath pp rest with
  | Ok (_, suffix) =>
      let '(r, b) := go_append reference (N.to_nat n) suffix in
      Ok (r, GoSlice b (vis reference))
  | Err => Fatal
  | Panic => Panic
  | Fatal => Fatal
  | Hang => Hang
  end.
