(** Model of /repo/utils/growing_bytes.go with any number of readers, each calling
    NextAbsolute, NextRelative and Prune. The goroutine is that of M_Growing.v,
    and so are the steps of a reader; what is added is that readers share the
    lock, the deferred request and its resolver (82-85 are there for them), and
    NextRelative (67-70). /repo itself gives every GrowingBytes one reader.

    Not modelled: closing of Incoming (M_Close.v), torn reads of the slice header,
    lengths beyond the range of int. *)
From Verif Require Import Base M_Growing.
Local Open Scope N_scope.

(** Where a reader is: outside; at 69 with the target computed at 68; the rest as in
    [reader_pc]: after the test at 75; at 82 with the lock; at 93 with the lock; at
    96; at 84, still with the lock. *)
Inductive rpc :=
| RIdle | RTarget (n : N) | RChecked (n : N) | RLocked (n : N) | RToken (n : N) (id : nat) | RWait (n : N) (id : nat)
| RWaitOld (n : N) (id : nat).

(** As [gstate]; the program counters are per reader. What is put into a resolver
    carries, for stating properties only, what was pruned by then; returns carry
    the reader. *)
Record rstate := RState {
  r_in : list bytes;
  r_array : bytes;
  r_held : bool;
  r_deferred : option (nat * N);
  r_token : bool;
  r_boxes : list (nat * (bytes * bytes));
  r_next : nat;
  r_p : producer_pc;
  r_c : nat -> rpc;
  r_sent : bytes;
  r_gone : bytes;
  r_returned : list (nat * N * bytes * bytes)
}.

Definition upd (c : nat -> rpc) (i : nat) (x : rpc) : nat -> rpc := fun j => if Nat.eqb j i then x else c j.

(** Receiving from resolver [id]. *)
Fixpoint take (id : nat) (bs : list (nat * (bytes * bytes))) : option (bytes * bytes * list (nat * (bytes * bytes))) :=
  match bs with
  | [] => None
  | (i, b) :: bs' =>
      if Nat.eqb i id then Some (b, bs')
      else match take id bs' with Some (r, q) => Some (r, (i, b) :: q) | None => None end
  end.

(** What can happen next: the network, the goroutine, or reader [i]. *)
Inductive rlabel :=
| SSend (chunk : bytes)           (* the network puts a chunk into Incoming *)
| STakeToken                      (* 37 *)
| STakeChunk                      (* 39 *)
| SProducer                       (* the goroutine goes on *)
| SCall (i : nat) (n : N)         (* reader i calls NextAbsolute(n), 75-77 *)
| SRelative (i : nat) (k : N)     (* reader i calls NextRelative(k), 68 *)
| SPrune (i : nat) (k : N)        (* reader i calls Prune(k), 100-109 *)
| SReader (i : nat).              (* reader i goes on *)

(** 75-77 *)
Definition rcall (i : nat) (n : N) (s : rstate) : rstate :=
  if n <=? len (r_array s)
  then RState (r_in s) (r_array s) (r_held s) (r_deferred s) (r_token s) (r_boxes s) (r_next s) (r_p s)
         (upd (r_c s) i RIdle) (r_sent s) (r_gone s) (r_returned s ++ [(i, n, r_gone s, r_array s)])
  else RState (r_in s) (r_array s) (r_held s) (r_deferred s) (r_token s) (r_boxes s) (r_next s) (r_p s)
         (upd (r_c s) i (RChecked n)) (r_sent s) (r_gone s) (r_returned s).

(** One step; None when it is blocked or not possible. *)
Definition rstep (l : rlabel) (s : rstate) : option rstate :=
  let 'RState inn arr held def tok boxes nxt p c sent gone ret := s in
  match l with
  | SSend ch => Some (RState (inn ++ [ch]) arr held def tok boxes nxt p c (sent ++ ch) gone ret)
  | STakeToken =>
      match p with PSelect => if tok then Some (RState inn arr held def false boxes nxt p c sent gone ret) else None | _ => None end
  | STakeChunk =>
      match p, inn with PSelect, ch :: r => Some (RState r arr held def tok boxes nxt (PGot ch) c sent gone ret) | _, _ => None end
  | SProducer =>
      match p with
      | PSelect => None
      | PGot ch => (* 45-48 *)
          if held then None else Some (RState inn (arr ++ ch) held def tok boxes nxt PCheck c sent gone ret)
      | PCheck => (* 50 *)
          match def with
          | Some (_, n) => Some (RState inn arr held def tok boxes nxt (if n <=? len arr then PSend else PSelect) c sent gone ret)
          | None => Some (RState inn arr held def tok boxes nxt PSelect c sent gone ret)
          end
      | PSend => (* 51: the resolver is read again *)
          match def with
          | Some (id, _) => Some (RState inn arr held def tok (boxes ++ [(id, (gone, arr))]) nxt PClear c sent gone ret)
          | None => None
          end
      | PClear => Some (RState inn arr held None tok boxes nxt PToken c sent gone ret) (* 52 *)
      | PToken => if tok then None else Some (RState inn arr held def true boxes nxt PSelect c sent gone ret) (* 53 *)
      end
  | SCall i n => match c i with RIdle => Some (rcall i n s) | _ => None end
  | SRelative i k =>
      match c i with
      | RIdle => Some (RState inn arr held def tok boxes nxt p (upd c i (RTarget (len arr + k))) sent gone ret)
      | _ => None
      end
  | SPrune i k =>
      match c i with
      | RIdle =>
          if held then None
          else let cut := if len arr <=? k then length arr else N.to_nat k in
               Some (RState inn (skipn cut arr) held def tok boxes nxt p c sent (gone ++ firstn cut arr) ret)
      | _ => None
      end
  | SReader i =>
      match c i with
      | RIdle => None
      | RTarget n => Some (rcall i n s) (* 69, 75-77 *)
      | RChecked n => (* 79 *)
          if held then None else Some (RState inn arr true def tok boxes nxt p (upd c i (RLocked n)) sent gone ret)
      | RLocked n => (* 82-91 *)
          let fresh := RState inn arr held (Some (nxt, n)) tok boxes (S nxt) p (upd c i (RToken n nxt)) sent gone ret in
          match def with
          | Some (id, m) =>
              if m =? n then Some (RState inn arr held def tok boxes nxt p (upd c i (RWaitOld n id)) sent gone ret)
              else Some fresh
          | None => Some fresh
          end
      | RToken n id => (* 93-94 *)
          if tok then None else Some (RState inn arr false def true boxes nxt p (upd c i (RWait n id)) sent gone ret)
      | RWait n id | RWaitOld n id => (* 96, 84 *)
          match take id boxes with
          | Some (g, b, bs) =>
              Some (RState inn arr held def tok bs nxt p (upd c i RIdle) sent gone (ret ++ [(i, n, g, b)]))
          | None => None
          end
      end
  end.

(** 26-31 *)
Definition rinit : rstate := RState [] [] false None false [] 0 PSelect (fun _ => RIdle) [] [] [].

(** A schedule. *)
Fixpoint rruns (ls : list rlabel) (s : rstate) : option rstate :=
  match ls with
  | [] => Some s
  | l :: ls' => match rstep l s with Some s' => rruns ls' s' | None => None end
  end.
