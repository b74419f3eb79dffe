(** Model of /repo/pkg/data_model/kv_driver/key_utilities.go and of the key
    helpers of kv_driver_pebble.go. *)
From Verif Require Import Base M_Order M_Encoding M_Paths.
Local Open Scope N_scope.

(** /repo/pkg/data_model/kv_driver/key_utilities.go:21-33 EncodeKey *)
Definition EncodeKey (p : position) (pp : path_params) : bytes :=
  BigIntToBytes (pos_time p) ++ EncodePath pp (pos_path p) ++ pos_subspace p.

(** /repo/pkg/data_model/kv_driver/key_utilities.go:36-53 DecodeKey *)
Definition DecodeKey (k : bytes) (pp : path_params) : res position :=
  do tb <- slice k 0 8;
  do t <- be_uint64 tb;
  do rest <- slice_from k 8;
  do (n, p) <- DecodePath pp rest;
  do s <- slice_from k (8 + n);
  Ok (Position s p t).

(** The anonymous struct of EncodeValues/DecodeValues. *)
Record values := Values { v_length : N; v_digest : bytes; v_auth : bytes }.

(** /repo/pkg/data_model/kv_driver/key_utilities.go:106-110 stringToBytes *)
Definition stringToBytes (s : bytes) : bytes := BigIntToBytes (len s) ++ s.

(** /repo/pkg/data_model/kv_driver/key_utilities.go:113-117 bytesToString; the
    additions 8+length are in uint64. *)
Definition bytesToString (b : bytes) : res (bytes * bytes) :=
  do h <- slice b 0 8;
  do l <- be_uint64 h;
  do s <- slice b 8 (add64 8 l);
  do rest <- slice_from b (add64 8 l);
  Ok (s, rest).

(** /repo/pkg/data_model/kv_driver/key_utilities.go:56-76 EncodeValues *)
Definition EncodeValues (v : values) : bytes :=
  BigIntToBytes (v_length v) ++ stringToBytes (v_digest v) ++ stringToBytes (v_auth v).

(** /repo/pkg/data_model/kv_driver/key_utilities.go:79-103 DecodeValues *)
Definition DecodeValues (b : bytes) : res values :=
  do h <- slice b 0 8;
  do l <- be_uint64 h;
  do r <- slice_from b 8;
  do (d, r2) <- bytesToString r;
  do (a, _) <- bytesToString r2;
  Ok (Values l d a).

(** /repo/pkg/data_model/kv_driver/kv_driver_pebble.go:33-41 CompareTwoKeyParts *)
Definition CompareTwoKeyParts (a b : N) : rel :=
  if b <? a then Greater else if a <? b then Less else Equal.

(** Loop of IsFirstPrefixOfSecond, kv_driver_pebble.go:21-29. *)
Fixpoint prefix_loop (a b : bytes) : res bool :=
  match a with
  | [] => Ok true
  | x :: a' =>
      match b with
      | [] => Panic
      | y :: b' => if negb (CompareTwoKeyParts x y =? 0)%Z then Ok false else prefix_loop a' b'
      end
  end.

(** /repo/pkg/data_model/kv_driver/kv_driver_pebble.go:17-31 IsFirstPrefixOfSecond *)
Definition IsFirstPrefixOfSecond (a b : bytes) : res bool :=
  if len b <? len a then Ok false else prefix_loop a b.

(** Loop of CompareKeys, kv_driver_pebble.go:49-57. *)
Fixpoint compare_loop (a b : bytes) : res rel :=
  match a with
  | [] => Ok Equal
  | x :: a' =>
      match b with
      | [] => Panic
      | y :: b' =>
          let r := CompareTwoKeyParts x y in
          if negb (r =? 0)%Z then Ok r else compare_loop a' b'
      end
  end.

(** /repo/pkg/data_model/kv_driver/kv_driver_pebble.go:43-60 CompareKeys *)
Definition CompareKeys (a b : bytes) : res rel :=
  if len b <? len a then Ok Greater
  else if len a <? len b then Ok Less
  else compare_loop a b.
