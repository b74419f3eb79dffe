(** Model of /repo/utils/successor.go. *)
From Verif Require Import Base M_Order.
Local Open Scope N_scope.

(** /repo/utils/successor.go:52-65 PathAppend *)
Definition PathAppend (p : path) (c : bytes) (pp : path_params) : res path :=
  if max_component_count pp <? toT pp (len p + 1) then Fatal
  else if max_path_length pp <? toT pp (len c + total_length p) then Fatal
  else Ok (p ++ [c]).

(** /repo/utils/successor.go:68-74 TryAppendZeroByte; None is nil. *)
Definition TryAppendZeroByte (c : bytes) (pp : path_params) : option bytes :=
  if toT pp (len c) =? max_component_length pp then None else Some (c ++ [0]).

(** /repo/utils/successor.go:77-85 PrefixSuccessor. The Go loop runs from the
    last byte to the first; the recursion returns what the loop finds in the
    tail first. [append(component[:i], component[i]+1)] writes into the backing
    array of the argument: the second result is what the argument's bytes are
    after the call. *)
Fixpoint PrefixSuccessor (c : bytes) : option bytes * bytes :=
  match c with
  | [] => (None, [])
  | x :: c' =>
      match PrefixSuccessor c' with
      | (Some r, m) => (Some (x :: r), x :: m)
      | (None, m) =>
          if x =? 255 then (None, x :: m) else (Some [x + 1], (x + 1) :: m)
      end
  end.

(** /repo/utils/successor.go:88-114 SuccessorBytesFixedWidth (works on a copy). *)
Fixpoint SuccessorBytesFixedWidth (b : bytes) : option bytes :=
  match b with
  | [] => None
  | x :: b' =>
      match SuccessorBytesFixedWidth b' with
      | Some r => Some (x :: r)
      | None => if 255 <=? x then None else Some ((x + 1) :: map (fun _ => 0) b')
      end
  end.

(** /repo/utils/successor.go:116-123 SuccessorSubspaceId *)
Definition SuccessorSubspaceId (s : bytes) : bytes := s ++ [0].

(** Loop of SuccessorPath, /repo/utils/successor.go:21-30; [n] is i+1. Note
    line 28 appends to the whole path, not to path[:i]. *)
Fixpoint successor_path_loop (pp : path_params) (p : path) (n : nat) : res (option path) :=
  match n with
  | O => Ok None
  | S i =>
      let c := nth i p [] in
      match TryAppendZeroByte c pp with
      | Some c' => do q <- PathAppend (firstn i p) c' pp; Ok (Some q)
      | None =>
          match SuccessorBytesFixedWidth c with
          | Some c' => do q <- PathAppend p c' pp; Ok (Some q)
          | None => successor_path_loop pp p i
          end
      end
  end.

(** /repo/utils/successor.go:11-32 SuccessorPath; [Ok None] is nil. *)
Definition SuccessorPath (p : path) (pp : path_params) : res (option path) :=
  match p with
  | [] => Ok (Some [[]])
  | _ =>
      if toT pp (len p) <? max_component_count pp
      then do q <- PathAppend p [] pp; Ok (Some q)
      else successor_path_loop pp p (length p)
  end.

Definition update_nth {A} (i : nat) (a : A) (l : list A) : list A :=
  firstn i l ++ a :: skipn (S i) l.

(** Loop of SuccessorPrefix, /repo/utils/successor.go:38-47; [n] is i+1. The
    second result is the caller's path after the call: the components are
    shared with the caller (the copy at 36-37 is shallow), so the write done by
    PrefixSuccessor is visible there. *)
Fixpoint successor_prefix_loop (pp : path_params) (p : path) (n : nat)
  : res (option path) * path :=
  match n with
  | O => (Ok None, p)
  | S i =>
      let c := nth i p [] in
      match TryAppendZeroByte c pp with
      | Some c' => (do q <- PathAppend (firstn i p) c' pp; Ok (Some q), p)
      | None =>
          match PrefixSuccessor c with
          | (Some c', m) =>
              (do q <- PathAppend (firstn i p) c' pp; Ok (Some q), update_nth i m p)
          | (None, m) => successor_prefix_loop pp (update_nth i m p) i
          end
      end
  end.

(** /repo/utils/successor.go:35-49 SuccessorPrefix: result, and the caller's
    path afterwards. *)
Definition SuccessorPrefix_full (p : path) (pp : path_params) : res (option path) * path :=
  successor_prefix_loop pp p (length p).

Definition SuccessorPrefix (p : path) (pp : path_params) : res (option path) :=
  fst (SuccessorPrefix_full p pp).
Definition SuccessorPrefix_caller (p : path) (pp : path_params) : path :=
  snd (SuccessorPrefix_full p pp).
