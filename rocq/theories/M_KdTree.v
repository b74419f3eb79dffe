(** Model of /repo/pkg/data_model/kdnode: the order of keys, the range test, and
    the traversal of the k-d tree library (github.com/rishitc/go-kd-tree, not in
    /repo) with which they are used. *)
From Verif Require Import Base M_Order M_Ranges M_Store.
Local Open Scope Z_scope.

(** willowkdtreenode.go:22-48: one dimension of Order. *)
Definition order_dim (a b : node) (dim : nat) : Z :=
  match dim with
  | 0%nat => OrderTimestamp (n_time a) (n_time b)
  | 1%nat => OrderBytes (n_sub a) (n_sub b)
  | _ => OrderPath (n_path a) (n_path b)
  end.

(** willowkdtreenode.go:18-52 Order: the three dimensions in turn, starting with
    [dim]; -1 Lesser, 0 Equal, 1 Greater. *)
Fixpoint order_loop (i : nat) (a b : node) (dim : nat) : Z :=
  match i with
  | O => 0
  | S i' =>
      let c := order_dim a b dim in
      if c =? -1 then -1 else if c =? 1 then 1 else order_loop i' a b (Nat.modulo (dim + 1) 3)
  end.
Definition Key_Order (a b : node) (dim : nat) : Z := order_loop 3 a b dim.

(** kdtree.RelativePosition *)
Inductive relative_position := BeforeRange | InRange | AfterRange.

Definition position_in {A} (order : A -> A -> Z) (r : range A) (v : A) : relative_position :=
  if order v (r_start r) >=? 0 then
    if r_open r || (order v (r_end r) <? 0) then InRange else AfterRange
  else BeforeRange.

(** wrapper.go:13-58 isInRange; None stands for d = -1. Other dimensions panic;
    the library calls it with -1, 0, 1, 2 only. *)
Definition isInRange (r : range3d) (k : node) (d : option nat) : relative_position :=
  match d with
  | None => if IsIncluded3d OrderSubspace r (node_pos k) then InRange else BeforeRange
  | Some 0%nat => position_in OrderTimestamp (time_range r) (n_time k)
  | Some 1%nat => position_in OrderBytes (subspace_range r) (n_sub k)
  | Some _ => position_in OrderPath (path_range r) (n_path k)
  end.

(** The library's tree and query, by its documentation: the dimension of a level
    is its depth modulo 3; a node before the range sends the search to the
    right, one after it to the left, one in range to both sides, and the node
    itself is tested with dimension -1. Not in /repo: an assumption. *)
Inductive kdtree := Leaf | Tree (l : kdtree) (v : node) (r : kdtree).

Fixpoint kd_nodes (t : kdtree) : list node :=
  match t with Leaf => [] | Tree l v r => kd_nodes l ++ v :: kd_nodes r end.

Fixpoint kd_query (rel : node -> option nat -> relative_position) (t : kdtree) (dim : nat) : list node :=
  match t with
  | Leaf => []
  | Tree l v r =>
      let d' := Nat.modulo (dim + 1) 3 in
      match rel v (Some dim) with
      | BeforeRange => kd_query rel r d'
      | AfterRange => kd_query rel l d'
      | InRange =>
          kd_query rel l d'
          ++ (match rel v None with InRange => [v] | _ => [] end)
          ++ kd_query rel r d'
      end
  end.

(** wrapper.go:12-61 Query on such a tree. *)
Definition kd_Query (t : kdtree) (r : range3d) : list node := kd_query (isInRange r) t 0.
