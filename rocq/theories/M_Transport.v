(** Model of /repo/pkg/wgps/transport/quic.go. A QUIC stream is taken to deliver
    the bytes written to it, in order, cut into arbitrary fragments; the i-th
    stream accepted is the i-th opened. Connection set-up, TLS and errors of the
    connection are not modelled. *)
From Verif Require Import Base M_Encoding.
Local Open Scope N_scope.

(** quic.go:23-28 QuicTransport, as one end sees it: per channel the bytes it has
    written so far; None is a nil stream. *)
Record transport := Transport { t_accepted : list (option bytes); t_initiated : list (option bytes); t_closed : bool }.

(** quic.go:30-65 NewQuicTransport: eight nil streams each; a connection that
    comes in replaces the accepted ones. *)
Definition NewQuicTransport : transport := Transport (repeat None 8) (repeat None 8) false.
Definition accept (t : transport) : transport := Transport (repeat (Some []) 8) (t_initiated t) (t_closed t).

(** quic.go:86-89: what Initiate writes on stream [i] after opening it.
    len(string(i)) is 1: the number is taken for a rune, below 128. *)
Definition init_bytes (i : N) : bytes := BigIntToBytes 1 ++ [i].

(** quic.go:67-95 Initiate *)
Definition Initiate (t : transport) : transport :=
  Transport (t_accepted t) (map (fun i => Some (init_bytes (N.of_nat i))) (seq 0 8)) (t_closed t).

Fixpoint update {A} (l : list A) (i : nat) (v : A) : list A :=
  match l, i with
  | [], _ => []
  | _ :: l', O => v :: l'
  | x :: l', S i' => x :: update l' i' v
  end.

(** Write on a stream; calling a method of a nil stream panics. *)
Definition write (streams : list (option bytes)) (channel : N) (data : bytes) : res (list (option bytes)) :=
  do s <- index streams channel;
  match s with
  | None => Panic
  | Some w => Ok (update streams (N.to_nat channel) (Some (w ++ data)))
  end.

(** quic.go:97-115 Send; [alfie] is IsAlfie(role). *)
Definition Send (t : transport) (data : bytes) (channel : N) (alfie : bool) : res transport :=
  if t_closed t then Err
  else if alfie then do s <- write (t_initiated t) channel data; Ok (Transport (t_accepted t) s (t_closed t))
  else do s <- write (t_accepted t) channel data; Ok (Transport s (t_initiated t) (t_closed t)).

(** quic.go:117-134 Close *)
Definition Close (t : transport) : res transport :=
  if forallb (fun s => match s with Some _ => true | None => false end) (t_accepted t ++ t_initiated t)
  then Ok (Transport (t_accepted t) (t_initiated t) true)
  else Panic.

(** io.ReadFull for [n] bytes on a stream of which the given fragments arrive;
    None: not enough bytes arrive. Reading nothing does not wait. *)
Fixpoint read_full (n : nat) (frags : list bytes) : option (bytes * list bytes) :=
  match n with
  | O => Some ([], frags)
  | _ =>
      match frags with
      | [] => None
      | f :: fs =>
          if (n <=? length f)%nat then Some (firstn n f, skipn n f :: fs)
          else match read_full (n - length f) fs with
               | Some (b, fs') => Some (f ++ b, fs')
               | None => None
               end
      end
  end.

(** quic.go:142-194: the loop of Recv; what has been written to the channel when
    the given fragments have arrived, and whether the process panicked. make with
    a length of 2^63 or more panics (155, 180); lengths that are smaller but
    exceed the memory of the machine are not modelled. [fuel] bounds the number
    of messages. *)
Fixpoint recv_loop (fuel : nat) (frags : list bytes) : list bytes * bool :=
  match fuel with
  | O => ([], false)
  | S fuel' =>
      match read_full 8 frags with
      | None => ([], false)
      | Some (header, fs) =>
          let n := be_decode header in
          if 2 ^ 63 <=? n then ([], true)
          else if N.of_nat (length (concat fs)) <? n then ([], false)
          else
            match read_full (N.to_nat n) fs with
            | None => ([], false)
            | Some (m, fs') => let r := recv_loop fuel' fs' in (m :: fst r, snd r)
            end
      end
  end.
(** Every message takes eight bytes at least. The test on the length of what is
    there only keeps [N.to_nat] small; it changes nothing (C55 proofs). *)
Definition Recv (frags : list bytes) : list bytes * bool := recv_loop (S (length (concat frags))) frags.

(** ** Two listeners on one stream

    /repo/pkg/wgps/wgps_messenger.go:839-843 starts two Recv loops on the same
    stream. [None] is a listener about to read a length, [Some n] one about to
    read n bytes; each turn of a listener is one ReadFull. *)
Record listeners := Listeners { ls_frags : list bytes; ls_a : option N; ls_b : option N; ls_got_a : list bytes; ls_got_b : list bytes }.

Definition listen (frags : list bytes) (s : option N) : option (list bytes * option N * list bytes) :=
  match s with
  | None => match read_full 8 frags with
            | Some (h, fs) => Some (fs, Some (be_decode h), [])
            | None => None
            end
  | Some n => if N.of_nat (length (concat frags)) <? n then None
              else match read_full (N.to_nat n) frags with
                   | Some (m, fs) => Some (fs, None, [m])
                   | None => None
                   end
  end.
(** [true]: the first listener takes a turn; a turn that has to wait does
    nothing. *)
Definition listen_step (l : listeners) (a : bool) : listeners :=
  if a then match listen (ls_frags l) (ls_a l) with
            | Some (fs, s, m) => Listeners fs s (ls_b l) (ls_got_a l ++ m) (ls_got_b l)
            | None => l
            end
  else match listen (ls_frags l) (ls_b l) with
       | Some (fs, s, m) => Listeners fs (ls_a l) s (ls_got_a l) (ls_got_b l ++ m)
       | None => l
       end.
Definition listen_run (sched : list bool) (frags : list bytes) : listeners :=
  fold_left listen_step sched (Listeners frags None None [] []).
