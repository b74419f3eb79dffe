(** Specification vocabulary for the messages that carry an entry or a 3d range. *)
From Verif Require Import Base M_Order M_Encoding M_Paths M_Ranges M_Entry M_Stream M_Wire M_Rel M_Wire2 S_Order S_Wire S_Rel P_Paths S_Rel.
Local Open Scope N_scope.

(** The conditions of C20: an entry that can be encoded relative to another. *)
Definition entry_ok (ns ss ds : codec bytes) (pp : path_params) (e ref : entry) : Prop :=
  codec_path pp (e_path e) /\ share_first (e_path e) (e_path ref)
  /\ codec_arrived ns (e_namespace e) /\ codec_arrived ss (e_subspace e) /\ codec_arrived ds (e_digest e)
  /\ e_time e < 2 ^ 64 /\ e_time ref < 2 ^ 64 /\ e_length e < 2 ^ 64.

(** How many bytes must follow the entry: none, unless components may be long. *)
Definition entry_need (ds : codec bytes) (pp : path_params) (e : entry) : N :=
  GetWidthMax32Int (max_component_length pp) - 2 - len (c_enc ds (e_digest e)).

(** A message [pre ++ r] that ends in a 3d range: the decoder hands exactly the
    bytes of the range and what follows to the range decoder, and builds the
    message from its result or, if it fails, from the zero range. *)
Definition fields_decode {M} (ss : codec bytes) (pp : path_params) (ref : range3d)
  (d : stream -> res (M * stream)) (pre r : bytes) (build : range3d -> M) : Prop :=
  forall s rest, total s = (pre ++ r) ++ rest ->
  exists s', total s' = r ++ rest
    /\ d s = do (o, s2) <- range_stream ss pp ref s';
             Ok (build (match o with Some x => x | None => Range3d (Range [] [] false) (Range [] [] false) (Range 0 0 false) end), s2).
