(** Specification vocabulary for listing, querying and splitting. *)
From Verif Require Import Base M_Store M_KdTree S_Order S_Store.
Local Open Scope N_scope.

(** [res] is the longest prefix of [all] that satisfies [ok]. *)
Definition longest_prefix {A} (ok : list A -> Prop) (all res : list A) : Prop :=
  exists rest, all = res ++ rest /\ ok res
    /\ (rest = [] \/ exists x rest', rest = x :: rest' /\ ~ ok (res ++ [x])).

Definition sum_lengths (l : list entry) : N := fold_right (fun e n => e_length e + n) 0 l.

(** The limits of an area of interest; 0 means no limit. *)
Definition respects (aoi : area_of_interest) (l : list entry) : Prop :=
  (aoi_max_count aoi = 0 \/ len l <= aoi_max_count aoi)
  /\ (aoi_max_size aoi = 0 \/ sum_lengths l <= aoi_max_size aoi).

(** The same, total size strictly below the limit. *)
Definition respects_strictly (aoi : area_of_interest) (l : list entry) : Prop :=
  (aoi_max_count aoi = 0 \/ len l <= aoi_max_count aoi)
  /\ (aoi_max_size aoi = 0 \/ sum_lengths l < aoi_max_size aoi).

(** Newest first. *)
Fixpoint newest_first (l : list entry) : Prop :=
  match l with
  | [] => True
  | x :: l' => (forall y, In y l' -> e_time y <= e_time x) /\ newest_first l'
  end.

(** An area whose time interval includes its end. *)
Definition with_end (a : area) : area :=
  Area (area_subspace a) (area_path a)
       (Range (r_start (area_times a)) (r_end (area_times a) + 1) (r_open (area_times a))) (area_any a).

Definition pos_of (e : entry) : position := Position (e_subspace e) (e_path e) (e_time e).

(** ** k-d trees *)

(** Positions before each other when compared from dimension [dim] on,
    cyclically: 0 time, 1 subspace, 2 path. *)
Definition coord_lt (dim : nat) (a b : node) : Prop :=
  match dim with
  | 0%nat => n_time a < n_time b
  | 1%nat => bytes_lt (n_sub a) (n_sub b)
  | _ => path_lt (n_path a) (n_path b)
  end.
Definition coord_eq (dim : nat) (a b : node) : Prop :=
  match dim with
  | 0%nat => n_time a = n_time b
  | 1%nat => n_sub a = n_sub b
  | _ => n_path a = n_path b
  end.
Definition next (d : nat) : nat := Nat.modulo (d + 1) 3.
Definition cyclic_lt (dim : nat) (a b : node) : Prop :=
  coord_lt dim a b
  \/ (coord_eq dim a b
      /\ (coord_lt (next dim) a b \/ (coord_eq (next dim) a b /\ coord_lt (next (next dim)) a b))).

(** A k-d tree built with Key.Order: nothing on the left is after the node,
    nothing on the right is before it. *)
Fixpoint kd_ordered (t : kdtree) (dim : nat) : Prop :=
  match t with
  | Leaf => True
  | Tree l v r =>
      (forall x, In x (kd_nodes l) -> ~ cyclic_lt dim v x)
      /\ (forall x, In x (kd_nodes r) -> ~ cyclic_lt dim x v)
      /\ kd_ordered l (next dim) /\ kd_ordered r (next dim)
  end.
