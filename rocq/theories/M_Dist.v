(** Model of the distances between keys of the k-d tree,
    /repo/pkg/data_model/kdnode/willowkdtreenode.go:54-90. No code in /repo calls
    them; the interface of the library requires them. *)
From Verif Require Import Base M_Order M_Store M_Book M_Data.
Local Open Scope Z_scope.

(** willowkdtreenode.go:57 and 75: the square of the difference, in uint64 *)
Definition squared (a b : N) : N := u64 (sub64 a b * sub64 a b).

(** willowkdtreenode.go:54-71 DistDim *)
Definition DistDim (a b : node) (dim : nat) : Z :=
  match dim with 0%nat => to_int (squared (n_time a) (n_time b)) | _ => 1 end.

(** willowkdtreenode.go:73-90 Dist *)
Definition Dist (a b : node) : Z :=
  let subspaceDist := if OrderBytes (n_sub a) (n_sub b) =? 0 then 0%N else 1%N in
  let pathDist := if OrderPath (n_path a) (n_path b) =? 0 then 0%N else 1%N in
  to_int (add64 (squared (n_time a) (n_time b)) (subspaceDist + pathDist)%N).
