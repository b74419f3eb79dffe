(** Model of /repo/utils/areas.go:73-198 (the codecs are in M_Rel.v). *)
From Verif Require Import Base M_Order M_Paths M_Successor M_Ranges.
Local Open Scope Z_scope.

(** /repo/utils/areas.go:74-76 FullArea *)
Definition FullArea : area := Area [] [] (Range 0%N 0%N true) true.

(** /repo/utils/areas.go:79-81 SubspaceArea *)
Definition SubspaceArea (s : bytes) : area := Area s [] (Range 0%N 0%N true) false.

(** /repo/utils/areas.go:84-90 IsSubspaceIncludedInArea *)
Definition IsSubspaceIncludedInArea (orderSubspace : bytes -> bytes -> rel) (a : area) (s : bytes) : bool :=
  if area_any a then true else orderSubspace (area_subspace a) s =? 0.

(** /repo/utils/areas.go:93-102 IsIncludedArea *)
Definition IsIncludedArea (orderSubspace : bytes -> bytes -> rel) (a : area) (p : position) : bool :=
  if negb (IsSubspaceIncludedInArea orderSubspace a (pos_subspace p)) then false
  else if negb (IsIncludedRange OrderTimestamp (area_times a) (pos_time p)) then false
  else IsPathPrefixed (area_path a) (pos_path p).

(** /repo/utils/areas.go:107-122 AreaIsIncluded *)
Definition AreaIsIncluded (orderSubspace : bytes -> bytes -> rel) (inner outer : area) : bool :=
  if negb (area_any outer) && area_any inner then false
  else if negb (area_any outer) && negb (area_any inner)
          && negb (orderSubspace (area_subspace outer) (area_subspace inner) =? 0) then false
  else if negb (IsPathPrefixed (area_path outer) (area_path inner)) then false
  else if negb (RangeIsIncluded OrderTimestamp (area_times outer) (area_times inner)) then false
  else true.

(** /repo/utils/areas.go:125-148 IntersectArea; None is nil. The result leaves
    Any_subspace at its zero value false. *)
Definition IntersectArea (orderSubspace : bytes -> bytes -> rel) (a b : area) : option area :=
  if negb (area_any a) && negb (area_any b)
     && negb (orderSubspace (area_subspace a) (area_subspace b) =? 0) then None
  else
    let isPrefixA := IsPathPrefixed (area_path a) (area_path b) in
    let isPrefixB := IsPathPrefixed (area_path b) (area_path a) in
    if negb isPrefixA && negb isPrefixB then None
    else
      match IntersectRange OrderTimestamp 0%N (area_times a) (area_times b) with
      | None => None
      | Some t =>
          if isPrefixA then Some (Area (area_subspace a) (area_path b) t false)
          else Some (Area (area_subspace a) (area_path a) t false)
      end.

(** /repo/utils/areas.go:152-198 AreaTo3dRange. The test at 156 compares a
    types.SubspaceId with a []byte by reflect.DeepEqual, which is never equal
    since the types differ, so the closed branch 157-161 is always taken. The
    start path (175-176) is a shallow copy, so a write of SuccessorPrefix into
    the components of area.Path shows in it. *)
Definition AreaTo3dRange (minimal : bytes) (successorSubspace : bytes -> bytes)
  (pp : path_params) (a : area) : res range3d :=
  let srange := if negb (area_any a)
                then Range (area_subspace a) (successorSubspace (area_subspace a)) false
                else Range minimal [] true in
  let '(end_, start) := SuccessorPrefix_full (area_path a) pp in
  do e <- end_;
  let prange := match e with
                | None => Range start [] true
                | Some [] => Range start [] true
                | Some q => Range start q false
                end in
  Ok (Range3d srange prange (area_times a)).
