(** Reading base32 and base64 text, after RFC 4648. *)
From Verif Require Import Base.
Local Open Scope N_scope.

(** Reading characters back: the bits of eight characters, in order, are those of
    five bytes; padding ends the text. *)
Definition b32_value (c : N) : N := if 65 <=? c then c - 65 else c - 24.
Fixpoint unbase32 (s : bytes) : bytes :=
  match s with
  | c0 :: c1 :: c2 :: c3 :: c4 :: c5 :: c6 :: c7 :: r =>
      let v := b32_value in
      let x0 := v c0 * 8 + v c1 / 4 in
      let x1 := v c1 mod 4 * 64 + v c2 * 2 + v c3 / 16 in
      let x2 := v c3 mod 16 * 16 + v c4 / 2 in
      let x3 := v c4 mod 2 * 128 + v c5 * 4 + v c6 / 8 in
      let x4 := v c6 mod 8 * 32 + v c7 in
      if c2 =? 61 then [x0]
      else if c4 =? 61 then [x0; x1]
      else if c5 =? 61 then [x0; x1; x2]
      else if c7 =? 61 then [x0; x1; x2; x3]
      else x0 :: x1 :: x2 :: x3 :: x4 :: unbase32 r
  | _ => []
  end.

Definition b64_value (c : N) : N :=
  if c =? 43 then 62 else if c =? 47 then 63 else if c <? 65 then c + 4 else if c <? 97 then c - 65 else c - 71.
Fixpoint unbase64 (s : bytes) : bytes :=
  match s with
  | c0 :: c1 :: c2 :: c3 :: r =>
      let v := b64_value in
      let x0 := v c0 * 4 + v c1 / 16 in
      let x1 := v c1 mod 16 * 16 + v c2 / 4 in
      let x2 := v c2 mod 4 * 64 + v c3 in
      if c2 =? 61 then [x0]
      else if c3 =? 61 then [x0; x1]
      else x0 :: x1 :: x2 :: unbase64 r
  | _ => []
  end.
