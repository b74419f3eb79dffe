(** Model of /repo/utils/ranges.go:11-207 (the relative codec is in
    M_Rel.v). *)
From Verif Require Import Base M_Order.
Local Open Scope Z_scope.

Section Generic.
Context {A : Type}.
(** The order function passed as argument, and the zero value of the type. *)
Variable order : A -> A -> rel.
Variable zero : A.

(** /repo/utils/ranges.go:12-19 OrderRangePair *)
Definition OrderRangePair (a b : range A) : range A * range A :=
  if (negb (r_open a) && negb (r_open b))
     || (r_open a && r_open b)
     || (r_open a && negb (r_open b))
  then (a, b) else (b, a).

(** /repo/utils/ranges.go:22-29 IsValidRange *)
Definition IsValidRange (r : range A) : bool :=
  if r_open r then true else order (r_start r) (r_end r) <? 0.

(** /repo/utils/ranges.go:31-38 IsIncludedRange *)
Definition IsIncludedRange (r : range A) (value : A) : bool :=
  let gteStart := order value (r_start r) >=? 0 in
  if r_open r || negb gteStart then gteStart
  else order value (r_end r) =? -1.

(** /repo/utils/ranges.go:40-107 IntersectRange. [None] is the result
    (false, zero range). Invalid arguments only cause a message (41-43). *)
Definition IntersectRange (a0 b0 : range A) : option (range A) :=
  let '(a, b) := OrderRangePair a0 b0 in
  if r_open a && r_open b then
    let start := if order (r_start a) (r_start b) <=? 0 then r_start b else r_start a in
    Some (Range start zero true)
  else if r_open a && negb (r_open b) then
    let aStartBStart := order (r_start a) (r_start b) in
    let aStartBEnd := order (r_start a) (r_end b) in
    if aStartBStart <=? 0 then Some b
    else if (aStartBStart >? 0) && (aStartBEnd <? 0)
         then Some (Range (r_start a) (r_end b) false)
         else None
  else if negb (r_open a) && negb (r_open b) then
    let '(mn, mx) := if order (r_start a) (r_start b) >=? 0 then (b, a) else (a, b) in
    if order (r_end mn) (r_start mx) <=? 0 then None
    else Some (Range (r_start mx)
                 (if order (r_end mn) (r_end mx) <? 0 then r_end mn else r_end mx) false)
  else None.

(** /repo/utils/ranges.go:109-123 RangeIsIncluded *)
Definition RangeIsIncluded (parent child : range A) : bool :=
  if r_open child && negb (r_open parent) then false
  else
    let gteStart := order (r_start child) (r_start parent) >=? 0 in
    if r_open parent then gteStart
    else if negb gteStart then false
    else order (r_end child) (r_end parent) <=? 0.

(** /repo/utils/ranges.go:173-198 IsEqualRangeValue *)
Definition IsEqualRangeValue (a : range A) (isStartA : bool) (b : range A) (isStartB : bool) : bool :=
  if r_open a && r_open b then true
  else
    let x := if isStartA then r_start a else r_end a in
    let y := if isStartB then r_start b else r_end b in
    negb (r_open a) && negb (r_open b) && (order x y =? 0).
End Generic.

(** /repo/utils/ranges.go:125-136 IsValidRange3d *)
Definition IsValidRange3d (orderSubspace : bytes -> bytes -> rel) (r : range3d) : bool :=
  if negb (IsValidRange OrderTimestamp (time_range r)) then false
  else if negb (IsValidRange OrderPath (path_range r)) then false
  else if negb (IsValidRange orderSubspace (subspace_range r)) then false
  else true.

(** /repo/utils/ranges.go:138-150 IsIncluded3d *)
Definition IsIncluded3d (orderSubspace : bytes -> bytes -> rel) (r : range3d) (p : position) : bool :=
  if negb (IsIncludedRange OrderTimestamp (time_range r) (pos_time p)) then false
  else if negb (IsIncludedRange OrderPath (path_range r) (pos_path p)) then false
  else if negb (IsIncludedRange orderSubspace (subspace_range r) (pos_subspace p)) then false
  else true.

(** /repo/utils/ranges.go:152-171 IntersectRange3d *)
Definition IntersectRange3d (orderSubspace : bytes -> bytes -> rel) (a b : range3d) : option range3d :=
  match IntersectRange OrderTimestamp 0%N (time_range a) (time_range b) with
  | None => None
  | Some t =>
      match @IntersectRange bytes orderSubspace [] (subspace_range a) (subspace_range b) with
      | None => None
      | Some s =>
          match @IntersectRange path OrderPath [] (path_range a) (path_range b) with
          | None => None
          | Some p => Some (Range3d s p t)
          end
      end
  end.

(** /repo/utils/ranges.go:200-207 AbsDiffuint64 *)
Definition AbsDiffuint64 (a b : N) : N := if (a <? b)%N then (b - a)%N else (a - b)%N.
