(** Specification vocabulary for stream decoders. *)
From Verif Require Import Base M_Stream M_Wire.
Local Open Scope N_scope.

(** All bytes of a stream, arrived or not. *)
Definition total (s : stream) : bytes := g_array s ++ g_future s.

(** The decoder returns [a] and consumes exactly [b], whatever follows and
    however the bytes arrive. *)
Definition decodes {A} (d : stream -> res (A * stream)) (b : bytes) (a : A) : Prop :=
  forall s rest, total s = b ++ rest -> exists s', d s = Ok (a, s') /\ total s' = rest.

(** The same when all bytes have arrived before the decoder is called, and at
    least [need] bytes follow. *)
Definition decodes_arrived {A} (d : stream -> res (A * stream)) (b : bytes) (a : A) (need : N) : Prop :=
  forall rest sched, need <= len rest ->
  exists sched', d (Stream (b ++ rest) [] sched) = Ok (a, Stream rest [] sched').

Definition codec_ok {A} (c : codec A) (a : A) : Prop := decodes (c_dec c) (c_enc c a) a.

(** A scheme whose decoder returns the value when all bytes have arrived. *)
Definition codec_arrived {A} (c : codec A) (a : A) : Prop := decodes_arrived (c_dec c) (c_enc c a) a 0.

(** A codec of [w]-byte strings, for the examples. *)
Definition fixed_codec (w : N) : codec bytes :=
  Codec (fun b => b) (fun s => do (a, s1) <- NextAbsolute w s; do b <- slice a 0 w; Ok (b, Prune w s1)).
