(** Model of /repo/utils/growing_bytes.go as two processes: the goroutine of
    NewGrowingBytes (the producer) and one reader calling NextAbsolute and Prune.
    Every line that touches shared state is one step; any schedule is possible.

    Not modelled here: closing of Incoming (41-43; see M_Close.v). Not modelled:
    torn reads of the slice
    header at 75 and 76, which are data races; several readers (see M_Readers.v). *)
From Verif Require Import Base.
Local Open Scope N_scope.

(** Where the goroutine is: growing_bytes.go:36 select; 45 with a chunk in hand;
    50; 51; 52; 53. *)
Inductive producer_pc := PSelect | PGot (chunk : bytes) | PCheck | PSend | PClear | PToken.

(** Where the reader is: outside; after the test at 75; at 82 with the lock; at 93
    with the lock; at 96; at 84, where it still holds the lock. A request is named
    by its length and the number of its resolver channel. *)
Inductive reader_pc :=
| CIdle | CChecked (n : N) | CLocked (n : N) | CToken (n : N) (id : nat) | CWait (n : N) (id : nat)
| CWaitOld (n : N) (id : nat).

Record gstate := GState {
  g_in : list bytes;                    (* chunks in Incoming *)
  g_array : bytes;                      (* Array *)
  g_held : bool;                        (* Mu *)
  g_deferred : option (nat * N);        (* DeferredUntilLength: resolver, length *)
  g_token : bool;                       (* HasUnfulfilledRequests, capacity 1 *)
  g_boxes : list (nat * bytes);         (* what has been put into resolvers *)
  g_next : nat;                         (* number of the next resolver *)
  g_p : producer_pc;
  g_c : reader_pc;
  (* for stating properties only: *)
  g_sent : bytes;                       (* everything ever put into Incoming *)
  g_gone : bytes;                       (* everything pruned *)
  g_returned : list (N * bytes * bytes) (* per return of NextAbsolute: the argument,
                                           what was pruned by then, the result *)
}.

Definition with_p (p : producer_pc) (s : gstate) : gstate :=
  GState (g_in s) (g_array s) (g_held s) (g_deferred s) (g_token s) (g_boxes s) (g_next s) p (g_c s)
         (g_sent s) (g_gone s) (g_returned s).
Definition with_c (c : reader_pc) (s : gstate) : gstate :=
  GState (g_in s) (g_array s) (g_held s) (g_deferred s) (g_token s) (g_boxes s) (g_next s) (g_p s) c
         (g_sent s) (g_gone s) (g_returned s).
Definition with_held (b : bool) (s : gstate) : gstate :=
  GState (g_in s) (g_array s) b (g_deferred s) (g_token s) (g_boxes s) (g_next s) (g_p s) (g_c s)
         (g_sent s) (g_gone s) (g_returned s).
Definition with_deferred (d : option (nat * N)) (s : gstate) : gstate :=
  GState (g_in s) (g_array s) (g_held s) d (g_token s) (g_boxes s) (g_next s) (g_p s) (g_c s)
         (g_sent s) (g_gone s) (g_returned s).
Definition with_token (b : bool) (s : gstate) : gstate :=
  GState (g_in s) (g_array s) (g_held s) (g_deferred s) b (g_boxes s) (g_next s) (g_p s) (g_c s)
         (g_sent s) (g_gone s) (g_returned s).
(** NextAbsolute(n) returns [b] and takes it out of the resolvers. *)
Definition return_ (n : N) (b : bytes) (boxes : list (nat * bytes)) (s : gstate) : gstate :=
  GState (g_in s) (g_array s) (g_held s) (g_deferred s) (g_token s) boxes (g_next s) (g_p s) CIdle
         (g_sent s) (g_gone s) (g_returned s ++ [(n, g_gone s, b)]).

(** Receiving from resolver [id]. *)
Fixpoint take_box (id : nat) (bs : list (nat * bytes)) : option (bytes * list (nat * bytes)) :=
  match bs with
  | [] => None
  | (i, b) :: bs' =>
      if Nat.eqb i id then Some (b, bs')
      else match take_box id bs' with Some (r, q) => Some (r, (i, b) :: q) | None => None end
  end.

(** What can happen next. *)
Inductive label :=
| LSend (chunk : bytes)   (* the network puts a chunk into Incoming *)
| LTakeToken              (* 37 *)
| LTakeChunk              (* 39 *)
| LProducer               (* the goroutine goes on *)
| LCall (n : N)           (* the reader calls NextAbsolute(n), 75-77 *)
| LPrune (n : N)          (* the reader calls Prune(n), 100-109 *)
| LReader.                (* the reader goes on *)

(** One step; None when it is blocked or not possible. *)
Definition gstep (l : label) (s : gstate) : option gstate :=
  match l with
  | LSend c =>
      Some (GState (g_in s ++ [c]) (g_array s) (g_held s) (g_deferred s) (g_token s) (g_boxes s) (g_next s)
              (g_p s) (g_c s) (g_sent s ++ c) (g_gone s) (g_returned s))
  | LTakeToken =>
      match g_p s with PSelect => if g_token s then Some (with_token false s) else None | _ => None end
  | LTakeChunk =>
      match g_p s, g_in s with
      | PSelect, c :: r =>
          Some (GState r (g_array s) (g_held s) (g_deferred s) (g_token s) (g_boxes s) (g_next s)
                  (PGot c) (g_c s) (g_sent s) (g_gone s) (g_returned s))
      | _, _ => None
      end
  | LProducer =>
      match g_p s with
      | PSelect => None
      | PGot c => (* 45-48 *)
          if g_held s then None
          else Some (GState (g_in s) (g_array s ++ c) (g_held s) (g_deferred s) (g_token s) (g_boxes s) (g_next s)
                       PCheck (g_c s) (g_sent s) (g_gone s) (g_returned s))
      | PCheck => (* 50 *)
          match g_deferred s with
          | Some (_, n) => Some (with_p (if n <=? len (g_array s) then PSend else PSelect) s)
          | None => Some (with_p PSelect s)
          end
      | PSend => (* 51; a nil DeferredUntilLength would panic *)
          match g_deferred s with
          | Some (id, _) =>
              Some (GState (g_in s) (g_array s) (g_held s) (g_deferred s) (g_token s)
                      (g_boxes s ++ [(id, g_array s)]) (g_next s) PClear (g_c s) (g_sent s) (g_gone s) (g_returned s))
          | None => None
          end
      | PClear => Some (with_p PToken (with_deferred None s)) (* 52 *)
      | PToken => if g_token s then None else Some (with_p PSelect (with_token true s)) (* 53 *)
      end
  | LCall n =>
      match g_c s with
      | CIdle => if n <=? len (g_array s) then Some (return_ n (g_array s) (g_boxes s) s) else Some (with_c (CChecked n) s)
      | _ => None
      end
  | LPrune k =>
      match g_c s with
      | CIdle =>
          if g_held s then None
          else
            let cut := if len (g_array s) <=? k then length (g_array s) else N.to_nat k in
            Some (GState (g_in s) (skipn cut (g_array s)) (g_held s) (g_deferred s) (g_token s) (g_boxes s) (g_next s)
                    (g_p s) (g_c s) (g_sent s) (g_gone s ++ firstn cut (g_array s)) (g_returned s))
      | _ => None
      end
  | LReader =>
      match g_c s with
      | CIdle => None
      | CChecked n => if g_held s then None else Some (with_c (CLocked n) (with_held true s)) (* 79 *)
      | CLocked n => (* 82-91 *)
          match g_deferred s with
          | Some (id, m) =>
              if m =? n then Some (with_c (CWaitOld n id) s)
              else Some (with_c (CToken n (g_next s)) (with_deferred (Some (g_next s, n))
                     (GState (g_in s) (g_array s) (g_held s) (g_deferred s) (g_token s) (g_boxes s) (S (g_next s))
                        (g_p s) (g_c s) (g_sent s) (g_gone s) (g_returned s))))
          | None =>
              Some (with_c (CToken n (g_next s)) (with_deferred (Some (g_next s, n))
                     (GState (g_in s) (g_array s) (g_held s) (g_deferred s) (g_token s) (g_boxes s) (S (g_next s))
                        (g_p s) (g_c s) (g_sent s) (g_gone s) (g_returned s))))
          end
      | CToken n id => (* 93-94 *)
          if g_token s then None else Some (with_c (CWait n id) (with_held false (with_token true s)))
      | CWait n id | CWaitOld n id => (* 96, 84 *)
          match take_box id (g_boxes s) with
          | Some (b, bs) => Some (return_ n b bs s)
          | None => None
          end
      end
  end.

(** 26-31 *)
Definition ginit : gstate := GState [] [] false None false [] 0 PSelect CIdle [] [] [].

(** A schedule. *)
Fixpoint gruns (ls : list label) (s : gstate) : option gstate :=
  match ls with
  | [] => Some s
  | l :: ls' => match gstep l s with Some s' => gruns ls' s' | None => None end
  end.
