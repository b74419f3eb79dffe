(** The decoders on input that is a slice of a larger array. Go bounds
    [s[from:to]] by the capacity of [s] and [s[from:]] by its length, so a
    decoder given the bytes [b] in an array that goes on with [spare] may read
    some of [spare]. Elsewhere in the model there is no spare capacity
    ([slice] in Base.v). *)
From Verif Require Import Base M_Encoding M_Paths M_Order M_Keys M_Stream.
Local Open Scope N_scope.

(** [s[from:to]] where [s] holds [b] and its array goes on with [spare]. *)
Definition cslice (b spare : bytes) (from to : N) : res bytes :=
  if (from <=? to) && (to <=? len b + len spare)
  then Ok (firstn (N.to_nat (to - from)) (skipn (N.to_nat from) (b ++ spare)))
  else Panic.

(** The component loop of DecodePath, /repo/utils/paths.go:117-127. *)
Fixpoint decode_components_cap (pp : path_params) (b spare : bytes) (pos : N) (count : nat) : res (N * path) :=
  match count with
  | O => Ok (pos, [])
  | S count' =>
      let w := GetWidthMax32Int (max_component_length pp) in
      do lb <- cslice b spare pos (pos + w);
      do l <- match DecodeIntMax32 lb (max_component_length pp) with
              | Ok l => Ok l | _ => Fatal end;
      do c <- cslice b spare (pos + w) (pos + w + l);
      do (pos', p) <- decode_components_cap pp b spare (pos + w + l) count';
      Ok (pos', c :: p)
  end.

(** /repo/utils/paths.go:104-129 DecodePath *)
Definition DecodePath_cap (pp : path_params) (b spare : bytes) : res (N * path) :=
  let cw := GetWidthMax32Int (max_component_count pp) in
  do cb <- cslice b spare 0 cw;
  do count <- DecodeIntMax32 cb (max_component_count pp);
  decode_components_cap pp b spare cw (N.to_nat count).

(** /repo/pkg/data_model/kv_driver/key_utilities.go:36-53 DecodeKey; a slice
    [encodedKey[8:]] keeps the capacity. *)
Definition DecodeKey_cap (k spare : bytes) (pp : path_params) : res position :=
  do tb <- cslice k spare 0 8;
  do t <- be_uint64 tb;
  do rest <- slice_from k 8;
  do (n, p) <- DecodePath_cap pp rest spare;
  do s <- slice_from k (8 + n);
  Ok (Position s p t).

(** /repo/pkg/data_model/kv_driver/key_utilities.go:113-117 bytesToString *)
Definition bytesToString_cap (b spare : bytes) : res (bytes * bytes) :=
  do h <- cslice b spare 0 8;
  do l <- be_uint64 h;
  do s <- cslice b spare 8 (add64 8 l);
  do rest <- slice_from b (add64 8 l);
  Ok (s, rest).

(** /repo/pkg/data_model/kv_driver/key_utilities.go:79-103 DecodeValues *)
Definition DecodeValues_cap (b spare : bytes) : res values :=
  do h <- cslice b spare 0 8;
  do l <- be_uint64 h;
  do r <- slice_from b 8;
  do (d, r2) <- bytesToString_cap r spare;
  do (a, _) <- bytesToString_cap r2 spare;
  Ok (Values l d a).

(** The component loop of DecodePathStream, /repo/utils/paths.go:167-183, with
    what the array of the GrowingBytes has beyond its length when a component
    is cut out of it: [slack] zero bytes (one number for each component; append
    leaves the capacity it adds zeroed). Prune of more than the array empties
    it, /repo/utils/growing_bytes.go:100-109. *)
Fixpoint path_stream_loop_cap (pp : path_params) (count : nat) (slack : list nat) (s : stream) : res (path * stream) :=
  match count with
  | O => Ok ([], s)
  | S count' =>
      let w := GetWidthMax32Int (max_component_length pp) in
      do (acc, s1) <- NextAbsolute w s;
      do lb <- slice acc 0 w;
      do l <- decode_or_zero lb (max_component_length pp);
      do (acc2, s2) <- NextAbsolute (w + w) s1;
      do c <- cslice acc2 (repeat 0 (hd O slack)) w (w + l);
      do (p, s3) <- path_stream_loop_cap pp count' (tl slack) (Prune (w + l) s2);
      Ok (c :: p, s3)
  end.

(** /repo/utils/paths.go:158-185 DecodePathStream *)
Definition DecodePathStream_cap (pp : path_params) (slack : list nat) (s : stream) : res (path * stream) :=
  let cw := GetWidthMax32Int (max_component_count pp) in
  do (acc, s1) <- NextAbsolute cw s;
  do cb <- slice acc 0 cw;
  do count <- decode_or_zero cb (max_component_count pp);
  path_stream_loop_cap pp (N.to_nat count) slack (Prune cw s1).
