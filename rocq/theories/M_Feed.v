(** Model of the functions that turn a queue into a channel: the five of
    /repo/pkg/wgps/pai/pai_finder.go:450-550 (FragmentBinds, FragmentReplies,
    Intersections, SubspaceCapRequests, SubspaceCaReplies), Intersections of
    /repo/pkg/wgps/reconciliation/aoi_intersection_finder.go:143-169,
    FetchOutgoingBytes of /repo/pkg/wgps/guaranteed_queue.go:53-69 and
    announcements of /repo/pkg/wgps/reconciliation/reconciler.go:212-231.

    All but the last have the same shape: the call makes an unbuffered channel
    and a goroutine that ranges over a slice and closes the channel. Go evaluates
    the slice once, when the goroutine reaches the loop, and takes its length
    then. The first five read element [bind] again from the field at every turn,
    the others copy it from the slice; the field is only ever appended to
    (pai_finder.go:112, 230, 272, 295, 346, 353, 390;
    aoi_intersection_finder.go:118), so that both read the same. *)
From Verif Require Import Base.

Section Feed.
Context {A : Type}.

(** Where a goroutine is: before the loop; in the loop, about to send element
    [i] of [n] ([i = n]: about to leave it); done, with the channel closed. *)
Inductive place := Before | Sending (i n : nat) | Closed.

(** A channel made by a call. [f_given] is the argument of FetchOutgoingBytes,
    which is a parameter and so fixed by the call; the other functions read the
    queue of their receiver. *)
Record feed := Feed { f_given : option (list A); f_place : place }.
Record world := World { w_queue : list A; w_feeds : list feed }.

(** [Append]: a method of the finder queues an element. [Call]: one of the
    functions is called. [Go k]: the [k]-th goroutine reaches its loop, or leaves
    it. [Receive k]: someone receives from the [k]-th channel. [Cancel k]: the
    select of FetchOutgoingBytes takes ctx.Done() (guaranteed_queue.go:60-61). *)
Inductive event := Append (x : A) | Call (given : option (list A)) | Go (k : nat) | Receive (k : nat) | Cancel (k : nat).

(** What is received: a value, or that the channel is closed. *)
Definition received := (nat * option A)%type.

(** the slice a goroutine ranges over, as it is now *)
Definition slice_of (w : world) (f : feed) : list A := match f_given f with Some l => l | None => w_queue w end.

Fixpoint set_nth (k : nat) (f : feed) (l : list feed) : list feed :=
  match l, k with
  | [], _ => []
  | _ :: r, O => f :: r
  | g :: r, S j => g :: set_nth j f r
  end.
Definition move (w : world) (k : nat) (f : feed) (p : place) : world :=
  World (w_queue w) (set_nth k (Feed (f_given f) p) (w_feeds w)).

(** One step; [None] when it cannot happen. Receiving before the goroutine is in
    its loop, or when it has sent everything and not yet closed, waits. *)
Definition fstep (e : event) (w : world) : option (list received * world) :=
  match e with
  | Append x => Some ([], World (w_queue w ++ [x]) (w_feeds w))
  | Call g => Some ([], World (w_queue w) (w_feeds w ++ [Feed g Before]))
  | Go k =>
      match nth_error (w_feeds w) k with
      | Some f =>
          match f_place f with
          | Before => Some ([], move w k f (Sending 0 (length (slice_of w f))))
          | Sending i n => if (i =? n)%nat then Some ([], move w k f Closed) else None
          | Closed => None
          end
      | None => None
      end
  | Receive k =>
      match nth_error (w_feeds w) k with
      | Some f =>
          match f_place f with
          | Before => None
          | Sending i n =>
              if (i <? n)%nat
              then match nth_error (slice_of w f) i with
                   | Some x => Some ([(k, Some x)], move w k f (Sending (S i) n))
                   | None => None (* an index out of range; the queue does not shrink *)
                   end
              else None
          | Closed => Some ([(k, None)], w)
          end
      | None => None
      end
  | Cancel k =>
      match nth_error (w_feeds w) k with
      | Some f =>
          match f_given f, f_place f with
          | Some _, Sending i n => if (i <? n)%nat then Some ([], move w k f Closed) else None
          | _, _ => None
          end
      | None => None
      end
  end.

Fixpoint fruns (es : list event) (w : world) : option (list received * world) :=
  match es with
  | [] => Some ([], w)
  | e :: r =>
      match fstep e w with
      | Some (o, w') => match fruns r w' with Some (o', w2) => Some (o ++ o', w2) | None => None end
      | None => None
      end
  end.

(** reconciler.go:212-231 announcements, called any number of times. The
    goroutine takes an announcement from AnnounceQueue, a channel that holds
    SEND_ENTRIES_THRESHOLD = 8 (reconciler.go:28, 63-68) and is never closed, and
    passes it on. [None]: the goroutine waits at the queue. *)
Record relay := Relay { r_buffer : list A; r_held : list (option A) }.
Inductive revent := Announce (x : A) | Listen | Take (k : nat) | Pass (k : nat).
Fixpoint set_held (k : nat) (h : option A) (l : list (option A)) : list (option A) :=
  match l, k with
  | [], _ => []
  | _ :: r, O => h :: r
  | g :: r, S j => g :: set_held j h r
  end.
Definition rstep (e : revent) (s : relay) : option (list (nat * A) * relay) :=
  match e with
  | Announce x => if (length (r_buffer s) <? 8)%nat then Some ([], Relay (r_buffer s ++ [x]) (r_held s)) else None
  | Listen => Some ([], Relay (r_buffer s) (r_held s ++ [None]))
  | Take k =>
      match nth_error (r_held s) k, r_buffer s with
      | Some None, x :: b => Some ([], Relay b (set_held k (Some x) (r_held s)))
      | _, _ => None
      end
  | Pass k =>
      match nth_error (r_held s) k with
      | Some (Some x) => Some ([(k, x)], Relay (r_buffer s) (set_held k None (r_held s)))
      | _ => None
      end
  end.
Fixpoint rruns (es : list revent) (s : relay) : option (list (nat * A) * relay) :=
  match es with
  | [] => Some ([], s)
  | e :: r =>
      match rstep e s with
      | Some (o, s') => match rruns r s' with Some (o', s2) => Some (o ++ o', s2) | None => None end
      | None => None
      end
  end.
End Feed.
