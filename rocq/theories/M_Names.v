(** Names of payload files and keys of the capability map: encoding/base32 and
    encoding/base64 (StdEncoding.EncodeToString) as the code uses them. *)
From Verif Require Import Base M_Order M_Encoding M_Entry M_Map M_Store.
Local Open Scope N_scope.

(** The alphabet of base32.StdEncoding: A-Z, 2-7; padding is '='. *)
Definition b32_char (v : N) : N := if v <? 26 then 65 + v else 24 + v.
Definition pad_char : N := 61.

(** base32.StdEncoding.EncodeToString, filesystem.go:25 and 172: five bytes make
    eight characters; a shorter rest is filled with zero bits and padded. *)
Fixpoint base32 (b : bytes) : bytes :=
  match b with
  | [] => []
  | [a] => map b32_char [a / 8; a mod 8 * 4] ++ repeat pad_char 6
  | [a; b] => map b32_char [a / 8; a mod 8 * 4 + b / 64; b / 2 mod 32; b mod 2 * 16] ++ repeat pad_char 4
  | [a; b; c] => map b32_char [a / 8; a mod 8 * 4 + b / 64; b / 2 mod 32; b mod 2 * 16 + c / 16; c mod 16 * 2] ++ repeat pad_char 3
  | [a; b; c; d] =>
      map b32_char [a / 8; a mod 8 * 4 + b / 64; b / 2 mod 32; b mod 2 * 16 + c / 16; c mod 16 * 2 + d / 128; d / 4 mod 32; d mod 4 * 8]
      ++ repeat pad_char 1
  | a :: b :: c :: d :: e :: r =>
      map b32_char [a / 8; a mod 8 * 4 + b / 64; b / 2 mod 32; b mod 2 * 16 + c / 16; c mod 16 * 2 + d / 128; d / 4 mod 32; d mod 4 * 8 + e / 32; e mod 32]
      ++ base32 r
  end.

(** The alphabet of base64.StdEncoding: A-Z, a-z, 0-9, '+', '/'. *)
Definition b64_char (v : N) : N :=
  if v <? 26 then 65 + v else if v <? 52 then 71 + v else if v <? 62 then v - 4 else if v =? 62 then 43 else 47.

(** base64.StdEncoding.EncodeToString, cap_finder.go:54 *)
Fixpoint base64 (b : bytes) : bytes :=
  match b with
  | [] => []
  | [a] => map b64_char [a / 4; a mod 4 * 16] ++ repeat pad_char 2
  | [a; b] => map b64_char [a / 4; a mod 4 * 16 + b / 16; b mod 16 * 4] ++ repeat pad_char 1
  | a :: b :: c :: r => map b64_char [a / 4; a mod 4 * 16 + b / 16; b mod 16 * 4 + c / 64; c mod 64] ++ base64 r
  end.

(** /repo/pkg/data_model/payload_kv_driver/filesystem.go:23-26 GetKey; [encode] is
    PayloadScheme.EncodingScheme.Encode. *)
Definition GetKey (encode : bytes -> bytes) (d : bytes) : bytes := base32 (encode d).

(** /repo/pkg/wgps/cap_finder.go:52-55 GetNamespaceKey; [encode] is
    Namespace.EncodingScheme.Encode. *)
Definition GetNamespaceKey (encode : bytes -> bytes) (ns : bytes) : bytes := base64 (encode ns).

(** The configurations of M_Store.v with files named as on disk. *)
Definition named (C : cfg) : cfg := Cfg (c_pp C) (c_ns C) (c_hash C) (GetKey (c_fname C)).
