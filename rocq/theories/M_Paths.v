(** Model of /repo/utils/paths.go (absolute and relative paths; the stream
    decoders are in M_Stream.v). *)
From Verif Require Import Base M_Order M_Encoding.
Local Open Scope N_scope.

(** /repo/utils/paths.go:12-18 PrefixesOf *)
Definition PrefixesOf (p : path) : list path :=
  [] :: map (fun i => firstn (S i) p) (seq 0 (length p)).

(** /repo/utils/paths.go:20-41 IsValidPath (the error accompanying [false] is
    dropped: it is non-nil exactly when the result is false). The limits are
    converted to int; the lengths are ints in Go, and their sum is taken not to
    exceed an int, since the components are all in memory. *)
Definition IsValidPath (p : path) (pp : path_params) : bool :=
  if (to_int (max_component_count pp) <? Z.of_N (len p))%Z then false
  else if existsb (fun c => (to_int (max_component_length pp) <? Z.of_N (len c))%Z) p then false
  else if (to_int (max_path_length pp) <? Z.of_N (total_length p))%Z then false
  else true.

(** /repo/utils/paths.go:43-58 IsPathPrefixed (error non-nil exactly when
    false; the recursion merges the length test and the loop). *)
Fixpoint IsPathPrefixed (prefix p : path) : bool :=
  match prefix, p with
  | [], _ => true
  | _ :: _, [] => false
  | c :: prefix', d :: p' =>
      if (OrderBytes c d =? 0)%Z then IsPathPrefixed prefix' p' else false
  end.

(** The counting loop of CommonPrefix, /repo/utils/paths.go:65-72. *)
Fixpoint common_count (first second : path) : nat :=
  match first, second with
  | c :: first', d :: second' =>
      if (OrderBytes c d =? 0)%Z then S (common_count first' second') else O
  | _, _ => O
  end.

(** /repo/utils/paths.go:60-77 CommonPrefix *)
Definition CommonPrefix (first second : path) : res path :=
  let i := common_count first second in
  match i with O => Err | _ => Ok (firstn i first) end.

(** /repo/utils/paths.go:84-93 EncodePath *)
Definition EncodePath (pp : path_params) (p : path) : bytes :=
  EncodeIntMax32 (toT pp (len p)) (max_component_count pp)
  ++ flat_map (fun c => EncodeIntMax32 (toT pp (len c)) (max_component_length pp) ++ c) p.

(** The component loop of DecodePath, /repo/utils/paths.go:117-127: [count]
    components starting at offset [pos] of [enc]. *)
Fixpoint decode_components (pp : path_params) (enc : bytes) (pos : N) (count : nat)
  : res (N * path) :=
  match count with
  | O => Ok (pos, [])
  | S count' =>
      let w := GetWidthMax32Int (max_component_length pp) in
      do lb <- slice enc pos (pos + w);
      do l <- match DecodeIntMax32 lb (max_component_length pp) with
              | Ok l => Ok l | _ => Fatal end;
      do c <- slice enc (pos + w) (pos + w + l);
      do (pos', p) <- decode_components pp enc (pos + w + l) count';
      Ok (pos', c :: p)
  end.

(** /repo/utils/paths.go:104-129 DecodePath: bytes consumed and path. *)
Definition DecodePath (pp : path_params) (enc : bytes) : res (N * path) :=
  let cw := GetWidthMax32Int (max_component_count pp) in
  do cb <- slice enc 0 cw;
  do count <- DecodeIntMax32 cb (max_component_count pp);
  decode_components pp enc cw (N.to_nat count).

(** /repo/utils/paths.go:131-143 EncodePathLength *)
Definition EncodePathLength (pp : path_params) (p : path) : N :=
  fold_left (fun acc c => acc + GetWidthMax32Int (max_component_length pp) + len c)
    p (GetWidthMax32Int (max_component_count pp)).

(** /repo/utils/paths.go:145-156 EncodeRelativePath *)
Definition EncodeRelativePath (pp : path_params) (toEncode reference : path) : res bytes :=
  match CommonPrefix toEncode reference with
  | Ok longest =>
      let n := len longest in
      Ok (EncodeIntMax32 (toT pp n) (max_component_count pp)
          ++ EncodePath pp (skipn (N.to_nat n) toEncode))
  | _ => Fatal
  end.

(** /repo/utils/paths.go:187-206 DecodeRelativePath (value level; the sharing
    of the backing array by [append] is in M_Alias.v). *)
Definition DecodeRelativePath (pp : path_params) (enc : bytes) (reference : path) : res path :=
  let w := GetWidthMax32Int (max_component_count pp) in
  do pb <- slice enc 0 w;
  do n <- match DecodeIntMax32 pb (max_component_count pp) with Ok n => Ok n | _ => Fatal end;
  do prefix <- slice reference 0 n;
  do rest <- slice_from enc w;
  match DecodePath pp rest with
  | Ok (_, suffix) => Ok (prefix ++ suffix)
  | Err => Fatal
  | Panic => Panic
  | Fatal => Fatal
  | Hang => Hang
  end.

(** /repo/utils/paths.go:225-235 EncodePathRelativeLength *)
Definition EncodePathRelativeLength (pp : path_params) (primary reference : path) : res N :=
  match CommonPrefix primary reference with
  | Ok longest =>
      let suffix := skipn (length longest) primary in
      Ok (GetWidthMax32Int (max_component_count pp) + len suffix)
  | _ => Fatal
  end.

(** Inner loop of PathDistance, /repo/utils/paths.go:264-281: missing bytes
    count as zero. *)
Fixpoint bytes_distance (a b : bytes) : Z :=
  match a, b with
  | x :: a', y :: b' => ((Z.of_N x - Z.of_N y) * (Z.of_N x - Z.of_N y) + bytes_distance a' b')%Z
  | x :: a', [] => (Z.of_N x * Z.of_N x + bytes_distance a' [])%Z
  | [], y :: b' => (Z.of_N y * Z.of_N y + (fix rest b := match b with [] => 0 | y :: b => Z.of_N y * Z.of_N y + rest b end) b')%Z
  | [], [] => 0%Z
  end.

(** /repo/utils/paths.go:238-286 PathDistance, over unbounded integers (Go's
    int would overflow only for paths of 2^47 bytes). *)
Fixpoint PathDistance (a b : path) : Z :=
  match a, b with
  | x :: a', y :: b' => (bytes_distance x y + PathDistance a' b')%Z
  | x :: a', [] => (bytes_distance x [] + PathDistance a' [])%Z
  | [], y :: b' => (bytes_distance [] y + (fix rest b := match b with [] => 0 | y :: b => bytes_distance [] y + rest b end) b')%Z
  | [], [] => 0%Z
  end.
