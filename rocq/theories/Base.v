(** Shared vocabulary of the model: bytes, byte strings, paths, results of Go
    calls, and the few Go slice operations the code base uses. *)
From Coq Require Export List NArith ZArith Lia Bool.
From Coq Require Export ZifyBool ZifyNat ZifyN.
Export ListNotations.
Local Open Scope N_scope.

(** A Go [byte] is an [N]; [wf_bytes] says that the values are really bytes.
    Types: /repo/types/paths.go:4-10 (types.Path, types.SubspaceId,
    types.NamespaceId are byte slices, types.PayloadDigest is a string). *)
Definition bytes := list N.
Definition path := list bytes.

Definition wf_bytes (b : bytes) : Prop := Forall (fun x => x < 256) b.
Definition wf_path (p : path) : Prop := Forall wf_bytes p.

(** Go [len], as an unsigned number. *)
Definition len {A} (l : list A) : N := N.of_nat (length l).

(** What a Go call can do: return a value, return an error, panic at run time,
    end the process through [log.Fatal], or block forever (a lock that is never
    released, a channel nobody serves). *)
Inductive res (A : Type) : Type :=
| Ok (a : A)
| Err
| Panic
| Fatal
| Hang.
Arguments Ok {A} _.
Arguments Err {A}.
Arguments Panic {A}.
Arguments Fatal {A}.
Arguments Hang {A}.

Definition bind {A B} (r : res A) (f : A -> res B) : res B :=
  match r with
  | Ok a => f a
  | Err => Err
  | Panic => Panic
  | Fatal => Fatal
  | Hang => Hang
  end.
Notation "'do' x <- r ; k" := (bind r (fun x => k))
  (at level 200, x pattern, r at level 100, k at level 200, right associativity).

(** [s[from:to]] on a slice of length [len s]; out of range is a panic.
    (Simplification: Go would allow [to] up to the capacity.) *)
Definition slice {A} (s : list A) (from to : N) : res (list A) :=
  if (from <=? to) && (to <=? len s)
  then Ok (firstn (N.to_nat (to - from)) (skipn (N.to_nat from) s))
  else Panic.

(** [s[from:]] *)
Definition slice_from {A} (s : list A) (from : N) : res (list A) :=
  if from <=? len s then Ok (skipn (N.to_nat from) s) else Panic.

(** [s[i]] *)
Definition index {A} (s : list A) (i : N) : res A :=
  match nth_error s (N.to_nat i) with Some a => Ok a | None => Panic end.

Definition two64 : N := 2 ^ 64.
(** Conversions [byte(x)], [uint64(x)], and 64-bit addition and subtraction. *)
Definition u8 (x : N) : N := x mod 256.
Definition u64 (x : N) : N := x mod two64.
Definition add64 (a b : N) : N := (a + b) mod two64.
Definition sub64 (a b : N) : N := (a + two64 - b mod two64) mod two64.

(** A Go int, of 64 bits, and the conversion int(x) of an unsigned number. *)
Definition int64 (z : Z) : Z := ((z + 2 ^ 63) mod 2 ^ 64 - 2 ^ 63)%Z.
Definition to_int (n : N) : Z := int64 (Z.of_N n).

(** /repo/types/parameters.go:5-14 PathParams[T]; [pp_bits] is the width of the
    type parameter T (8, 16, 32 or 64). *)
Record path_params := PathParams {
  pp_bits : N;
  max_component_count : N;
  max_component_length : N;
  max_path_length : N
}.

(** Conversion [T(x)] to the parameter type of the path parameters. *)
Definition toT (pp : path_params) (x : N) : N := x mod 2 ^ pp_bits pp.

(** /repo/types/ranges.go:5-20 *)
Record range (A : Type) := Range { r_start : A; r_end : A; r_open : bool }.
Arguments Range {A} _ _ _.
Arguments r_start {A} _.
Arguments r_end {A} _.
Arguments r_open {A} _.

Record range3d := Range3d {
  subspace_range : range bytes;
  path_range : range path;
  time_range : range N
}.

Record position := Position { pos_subspace : bytes; pos_path : path; pos_time : N }.

(** /repo/types/areas.go:3-14 *)
Record area := Area {
  area_subspace : bytes;
  area_path : path;
  area_times : range N;
  area_any : bool
}.

Record area_of_interest := AOI { aoi_area : area; aoi_max_count : N; aoi_max_size : N }.

(** /repo/types/entry.go:4-17 *)
Record entry := Entry {
  e_namespace : bytes;
  e_subspace : bytes;
  e_digest : bytes;
  e_path : path;
  e_time : N;
  e_length : N
}.

(** /repo/types/order.go:5-16 Less = -1, Equal = 0, Greater = 1. *)
Definition rel := Z.
Definition Less : rel := (-1)%Z.
Definition Equal : rel := 0%Z.
Definition Greater : rel := 1%Z.

(** Sum of the component lengths of a path. *)
Fixpoint total_length (p : path) : N :=
  match p with [] => 0 | c :: p' => len c + total_length p' end.
