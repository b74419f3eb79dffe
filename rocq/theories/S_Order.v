(** Specification vocabulary: orders, intervals, prefixes. Nothing here refers
    to the model functions. *)
From Verif Require Import Base.
Local Open Scope N_scope.

(** Lexicographic order on lists; a proper prefix comes first. *)
Inductive lex {A} (lt : A -> A -> Prop) : list A -> list A -> Prop :=
| lex_nil : forall y b, lex lt [] (y :: b)
| lex_head : forall x y a b, lt x y -> lex lt (x :: a) (y :: b)
| lex_tail : forall x a b, lex lt a b -> lex lt (x :: a) (x :: b).

Definition bytes_lt : bytes -> bytes -> Prop := lex N.lt.
Definition path_lt : path -> path -> Prop := lex bytes_lt.
Definition bytes_le (a b : bytes) : Prop := bytes_lt a b \/ a = b.
Definition path_le (a b : path) : Prop := path_lt a b \/ a = b.

(** [lt] is a strict total order. *)
Record strict_total_order {A} (lt : A -> A -> Prop) : Prop := {
  sto_irrefl : forall a, ~ lt a a;
  sto_trans : forall a b c, lt a b -> lt b c -> lt a c;
  sto_total : forall a b, lt a b \/ a = b \/ lt b a
}.

(** The comparison function [order] decides [lt]: it answers -1, 0 or 1
    according to whether the first argument is less, equal, or greater. *)
Definition decides {A} (lt : A -> A -> Prop) (order : A -> A -> Z) : Prop :=
  forall a b,
    (order a b = -1 /\ lt a b)%Z \/ (order a b = 0 /\ a = b)%Z \/ (order a b = 1 /\ lt b a)%Z.

Definition total_order {A} (lt : A -> A -> Prop) (order : A -> A -> Z) : Prop :=
  strict_total_order lt /\ decides lt order.

(** The set of values of a range under an order. *)
Definition in_range {A} (lt : A -> A -> Prop) (r : range A) (v : A) : Prop :=
  ~ lt v (r_start r) /\ (r_open r = true \/ lt v (r_end r)).

Definition valid_range {A} (lt : A -> A -> Prop) (r : range A) : Prop :=
  r_open r = true \/ lt (r_start r) (r_end r).

(** The set of positions of a 3d range. *)
Definition in_range3d (r : range3d) (p : position) : Prop :=
  in_range bytes_lt (subspace_range r) (pos_subspace p)
  /\ in_range path_lt (path_range r) (pos_path p)
  /\ in_range N.lt (time_range r) (pos_time p).

Definition valid_range3d (r : range3d) : Prop :=
  valid_range bytes_lt (subspace_range r)
  /\ valid_range path_lt (path_range r)
  /\ valid_range N.lt (time_range r).

(** [p] is a prefix of [q]. *)
Definition prefix_of {A} (p q : list A) : Prop := exists s, q = p ++ s.
Definition proper_prefix_of {A} (p q : list A) : Prop := exists x s, q = p ++ x :: s.

(** The set of positions of an area. *)
Definition in_area (a : area) (p : position) : Prop :=
  (area_any a = true \/ area_subspace a = pos_subspace p)
  /\ in_range N.lt (area_times a) (pos_time p)
  /\ prefix_of (area_path a) (pos_path p).

(** A path within the limits of the path parameters. *)
Definition within_limits (pp : path_params) (p : path) : Prop :=
  len p <= max_component_count pp
  /\ Forall (fun c => len c <= max_component_length pp) p
  /\ total_length p <= max_path_length pp.

(** Path parameters that fit their type: the maxima are values of a type of
    [pp_bits] bits. *)
Definition params_ok (pp : path_params) : Prop :=
  max_component_count pp < 2 ^ pp_bits pp
  /\ max_component_length pp < 2 ^ pp_bits pp
  /\ max_path_length pp < 2 ^ pp_bits pp.
