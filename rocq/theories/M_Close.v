(** Model of the end of a stream in /repo/utils/growing_bytes.go: the channel
    Incoming is closed. The processes are those of M_Growing.v; what is added is
    lines 34 and 39-43 and the send at 93 on a channel that has been closed.

    Nothing in /repo closes the channel outside the tests: it is for the
    application that made it. A reader whose call panics is taken to recover. *)
From Verif Require Import Base M_Growing.
Local Open Scope N_scope.

(** [c_closed]: Incoming is closed; [c_over]: the goroutine has returned and so
    HasUnfulfilledRequests is closed (34); [c_panicked]: a call has panicked. *)
Record cstate := CState { c_g : gstate; c_closed : bool; c_over : bool; c_panicked : bool }.

(** [Close]: the application closes Incoming. [Finish]: the goroutine finds
    Incoming closed and empty (39-43). [Step l]: a step of M_Growing.v. *)
Inductive clabel := Close | Finish | Step (l : label).

Definition cstep (l : clabel) (s : cstate) : option cstate :=
  let g := c_g s in
  let go g' := CState g' (c_closed s) (c_over s) (c_panicked s) in
  match l with
  | Close => if c_closed s then None (* panics in the application *) else Some (CState g true (c_over s) (c_panicked s))
  | Finish =>
      match g_p g, g_in g with
      | PSelect, [] => if c_closed s && negb (c_over s) then Some (CState g true true (c_panicked s)) else None
      | _, _ => None
      end
  | Step (LSend c) => if c_closed s then None (* panics in the application *) else option_map go (gstep (LSend c) g)
  | Step LTakeToken => if c_over s then None else option_map go (gstep LTakeToken g)
  | Step LTakeChunk => if c_over s then None else option_map go (gstep LTakeChunk g)
  | Step LProducer => if c_over s then None else option_map go (gstep LProducer g)
  | Step LReader =>
      match g_c g with
      | CToken _ _ =>
          (* 93: sending on a closed channel panics; the lock taken at 79 is not released *)
          if c_over s then Some (CState (with_c CIdle g) (c_closed s) (c_over s) true) else option_map go (gstep LReader g)
      | _ => option_map go (gstep LReader g)
      end
  | Step l' => option_map go (gstep l' g)
  end.

Definition cinit : cstate := CState ginit false false false.
Fixpoint cruns (ls : list clabel) (s : cstate) : option cstate :=
  match ls with
  | [] => Some s
  | l :: ls' => match cstep l s with Some s' => cruns ls' s' | None => None end
  end.
