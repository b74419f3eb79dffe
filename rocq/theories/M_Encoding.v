(** Model of /repo/utils/encoding.go. *)
From Verif Require Import Base.
Local Open Scope N_scope.

(** encoding/binary BigEndian.PutUintXX: the [w] low bytes of [x], most
    significant first (higher bits are cut off, as by the conversions
    uint8/uint16/uint32 in the callers). *)
Fixpoint be_encode (w : nat) (x : N) : bytes :=
  match w with
  | O => []
  | S w' => be_encode w' (x / 256) ++ [x mod 256]
  end.

(** encoding/binary BigEndian.UintXX on exactly the given bytes. *)
Definition be_decode (b : bytes) : N := fold_left (fun acc x => acc * 256 + x) b 0.

(** BigEndian.Uint64(b): reads the first 8 bytes, panics if there are fewer. *)
Definition be_uint64 (b : bytes) : res N :=
  do h <- slice b 0 8; Ok (be_decode h).

(** /repo/utils/encoding.go:11-15 BigIntToBytes *)
Definition BigIntToBytes (x : N) : bytes := be_encode 8 x.

(** /repo/utils/encoding.go:21-32 GetWidthMax32Int *)
Definition GetWidthMax32Int (num : N) : N :=
  if num <? 2 ^ 8 then 1
  else if num <? 2 ^ 16 then 2
  else if num <? 2 ^ 24 then 3
  else 4.

(** /repo/utils/encoding.go:39-57 EncodeIntMax32. Width 3 writes the byte
    num>>16 and then the low 16 bits. *)
Definition EncodeIntMax32 (num max : N) : bytes :=
  let width := GetWidthMax32Int max in
  if width =? 1 then be_encode 1 num
  else if width =? 2 then be_encode 2 num
  else if width =? 3 then u8 (num / 2 ^ 16) :: be_encode 2 num
  else be_encode 4 num.

(** /repo/utils/encoding.go:63-89 DecodeIntMax32 (the test at 69-71 can never
    be true). *)
Definition DecodeIntMax32 (b : bytes) (max : N) : res N :=
  let w := GetWidthMax32Int max in
  if negb (len b =? w) then Err
  else if w =? 1 then Ok (be_decode b)
  else if w =? 2 then Ok (be_decode b)
  else if w =? 4 then Ok (be_decode b)
  else do a <- slice b 0 2; do c <- index b 2;
       Ok (be_decode a * 2 ^ 8 + c).

(** /repo/utils/encoding.go:93-104 GetWidthMax64Int *)
Definition GetWidthMax64Int (num : N) : N :=
  if num <? 2 ^ 8 then 1
  else if num <? 2 ^ 16 then 2
  else if num <? 2 ^ 32 then 4
  else 8.

(** /repo/utils/encoding.go:107-123 EncodeIntMax64 *)
Definition EncodeIntMax64 (num : N) : bytes :=
  let width := GetWidthMax64Int num in
  if width =? 1 then be_encode 1 num
  else if width =? 2 then be_encode 2 num
  else if width =? 4 then be_encode 4 num
  else be_encode 8 num.

(** /repo/utils/encoding.go:127-143 DecodeIntMax64 *)
Definition DecodeIntMax64 (b : bytes) : res N :=
  if (len b =? 1) || (len b =? 2) || (len b =? 4) || (len b =? 8)
  then Ok (be_decode b)
  else Err.
