(** Sequential model of reading from a GrowingBytes (/repo/utils/growing_bytes.go)
    and of the decoders that use it: DecodePathStream, DecodeRelPathStream
    (/repo/utils/paths.go). The goroutine behind GrowingBytes, with its races, is
    modelled in M_Growing.v; here a reader always gets woken, and a schedule says
    how many bytes have arrived at each call. *)
From Verif Require Import Base M_Order M_Encoding M_Paths.
Local Open Scope N_scope.

(** [g_array] is GrowingBytes.Array, [g_future] the bytes the sender will still
    deliver. Each NextAbsolute call consumes one pair (before, after) of the
    schedule: [before] further bytes have arrived when the call starts, and if
    it has to wait, the chunk that wakes it brings [after] bytes more than
    asked for. *)
Record stream := Stream { g_array : bytes; g_future : bytes; g_sched : list (nat * nat) }.

Definition arrive (n : nat) (s : stream) : stream :=
  Stream (g_array s ++ firstn n (g_future s)) (skipn n (g_future s)) (g_sched s).

(** /repo/utils/growing_bytes.go:73-97 NextAbsolute *)
Definition NextAbsolute (n : N) (s : stream) : res (bytes * stream) :=
  let '(before, after) := match g_sched s with [] => (O, O) | x :: _ => x end in
  let s1 := arrive before (Stream (g_array s) (g_future s) (tl (g_sched s))) in
  if n <=? len (g_array s1) then Ok (g_array s1, s1)
  else if len (g_array s1) + len (g_future s1) <? n then Hang
  else let s2 := arrive (N.to_nat (n - len (g_array s1)) + after) s1 in
       Ok (g_array s2, s2).

(** /repo/utils/growing_bytes.go:100-109 Prune *)
Definition Prune (n : N) (s : stream) : stream :=
  Stream (skipn (N.to_nat n) (g_array s)) (g_future s) (g_sched s).

(** [x, _ := DecodeIntMax32(...)]: the error is dropped and x is 0. *)
Definition decode_or_zero (b : bytes) (max : N) : res N :=
  match DecodeIntMax32 b max with Ok x => Ok x | Err => Ok 0 | Panic => Panic | Fatal => Fatal | Hang => Hang end.

(** The loop of DecodePathStream, /repo/utils/paths.go:170-183. Line 176 waits
    for twice the width of the length instead of for the component. Line 178
    slices beyond the bytes that have arrived when the component is longer: Go
    panics when the capacity does not suffice, and otherwise exposes bytes that
    have not arrived; the model panics in both cases. *)
Fixpoint path_stream_loop (pp : path_params) (count : nat) (s : stream) : res (path * stream) :=
  match count with
  | O => Ok ([], s)
  | S count' =>
      let w := GetWidthMax32Int (max_component_length pp) in
      do (acc, s1) <- NextAbsolute w s;
      do lb <- slice acc 0 w;
      do l <- decode_or_zero lb (max_component_length pp);
      do (acc2, s2) <- NextAbsolute (w + w) s1;
      do c <- slice acc2 w (w + l);
      do (p, s3) <- path_stream_loop pp count' (Prune (w + l) s2);
      Ok (c :: p, s3)
  end.

(** /repo/utils/paths.go:158-185 DecodePathStream *)
Definition DecodePathStream (pp : path_params) (s : stream) : res (path * stream) :=
  let cw := GetWidthMax32Int (max_component_count pp) in
  do (acc, s1) <- NextAbsolute cw s;
  do cb <- slice acc 0 cw;
  do count <- decode_or_zero cb (max_component_count pp);
  path_stream_loop pp (N.to_nat count) (Prune cw s1).

(** /repo/utils/paths.go:208-223 DecodeRelPathStream (value level; the append
    shares the reference's memory exactly as in M_Alias.v). *)
Definition DecodeRelPathStream (pp : path_params) (s : stream) (reference : path) : res (path * stream) :=
  let w := GetWidthMax32Int (max_component_count pp) in
  do (acc, s1) <- NextAbsolute w s;
  do pb <- slice acc 0 w;
  do n <- decode_or_zero pb (max_component_count pp);
  do prefix <- slice reference 0 n;
  do (suffix, s2) <- DecodePathStream pp (Prune w s1);
  Ok (prefix ++ suffix, s2).
