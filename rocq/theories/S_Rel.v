(** Specification vocabulary for the relative codecs. *)
From Verif Require Import Base M_Encoding M_Paths M_Ranges M_Areas M_Entry M_Wire M_Rel S_Order.
Local Open Scope N_scope.

(** Ranges with the same start and, unless open, the same end. *)
Definition same_range {A} (a b : range A) : Prop :=
  r_start a = r_start b /\ r_open a = r_open b /\ (r_open b = false -> r_end a = r_end b).

(** The paths share their first component. *)
Definition share_first (p q : path) : Prop := exists c p' q', p = c :: p' /\ q = c :: q'.

(** The inner times, as far as DecodeAreaInArea can recover them. *)
Definition times_ok (inner outer : range N) : Prop :=
  let outerEnd := if r_open outer then REALLY_BIG_INT else r_end outer in
  r_start outer <= r_start inner /\ r_start inner < 2 ^ 64 /\ outerEnd < 2 ^ 64
  /\ (r_open outer = false -> r_open inner = false /\ r_end inner <= r_end outer)
  /\ (r_open inner = false -> r_start inner <= r_end inner /\ r_end inner < 2 ^ 64)
  /\ 2 * r_start inner <= r_start outer + outerEnd
  /\ (r_open outer = true -> r_open inner = false -> 2 * r_end inner <= r_start inner + REALLY_BIG_INT).

(** Areas that contain the same positions. *)
Definition same_area (a b : area) : Prop :=
  area_any a = area_any b /\ (area_any b = false -> area_subspace a = area_subspace b)
  /\ area_path a = area_path b /\ same_range (area_times a) (area_times b).

(** The Willow encoding of an entry relative to an area that contains it
    (EncodeEntryInNamespaceArea of the specification): a header byte of flags and
    widths, the subspace if the area has any, the path relative to the area's,
    the time difference, the payload length, the digest. *)
Definition spec_entry_in_area (ss ds : bytes -> bytes) (pp : path_params) (e : entry) (a : area) (path_bytes : bytes) : bytes :=
  let t := area_times a in
  let from_start := r_open t || (e_time e - r_start t <=? r_end t - e_time e) in
  let diff := if from_start then e_time e - r_start t else r_end t - e_time e in
  let code n := N.log2 (GetWidthMax64Int n) in
  [(if area_any a then 128 else 0) + (if from_start then 64 else 0) + 16 * code diff + 4 * code (e_length e)]
  ++ (if area_any a then ss (e_subspace e) else []) ++ path_bytes
  ++ EncodeIntMax64 diff ++ EncodeIntMax64 (e_length e) ++ ds (e_digest e).
