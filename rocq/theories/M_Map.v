(** Byte-keyed maps: the model of a pebble database and of a directory of files.
    A database is the list of its key-value pairs in ascending byte order of the
    keys, which is the order of pebble's iterators (default comparer). *)
From Verif Require Import Base M_Order.
Local Open Scope N_scope.

Definition bmap (V : Type) := list (bytes * V).

Definition beqb (a b : bytes) : bool := (OrderBytes a b =? 0)%Z.

(** pebble DB.Get / os.Lstat+ReadFile: None is "not found". *)
Fixpoint mget {V} (m : bmap V) (k : bytes) : option V :=
  match m with
  | [] => None
  | (k', v) :: m' => if beqb k k' then Some v else mget m' k
  end.

(** pebble DB.Set / os.WriteFile *)
Fixpoint mset {V} (m : bmap V) (k : bytes) (v : V) : bmap V :=
  match m with
  | [] => [(k, v)]
  | (k', v') :: m' =>
      if (OrderBytes k k' <? 0)%Z then (k, v) :: m
      else if beqb k k' then (k, v) :: m'
      else (k', v') :: mset m' k v
  end.

(** pebble DB.Delete / os.Remove *)
Definition mdel {V} (m : bmap V) (k : bytes) : bmap V :=
  filter (fun kv => negb (beqb k (fst kv))) m.

Definition mkeys {V} (m : bmap V) : list bytes := map fst m.

(** /repo/pkg/data_model/kv_driver/kv_driver_pebble.go:151-161 GetMultipleValues;
    an absent key is pebble's "not found" error (Get, 70-77). *)
Fixpoint GetMultipleValues {V} (m : bmap V) (keys : list bytes) : res (list V) :=
  match keys with
  | [] => Ok []
  | k :: ks =>
      match mget m k with
      | None => Err
      | Some v => do vs <- GetMultipleValues m ks; Ok (v :: vs)
      end
  end.
