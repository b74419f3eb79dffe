(** Model of /repo/utils/order.go. *)
From Verif Require Import Base.
Local Open Scope N_scope.

(** /repo/utils/order.go:10-31 OrderBytes. The index loop over the common
    length and the final length comparison are merged into one recursion. *)
Fixpoint OrderBytes (a b : bytes) : rel :=
  match a, b with
  | x :: a', y :: b' =>
      if x <? y then Less else if y <? x then Greater else OrderBytes a' b'
  | [], [] => Equal
  | [], _ :: _ => Less
  | _ :: _, [] => Greater
  end.

(** /repo/utils/order.go:35-42 OrderTimestamp *)
Definition OrderTimestamp (a b : N) : rel :=
  if a <? b then Less else if b <? a then Greater else Equal.

(** /repo/utils/order.go:45-64 OrderPath (same merging as OrderBytes). *)
Fixpoint OrderPath (a b : path) : rel :=
  match a, b with
  | x :: a', y :: b' =>
      let order := OrderBytes x y in
      if negb (order =? 0)%Z then order else OrderPath a' b'
  | [], [] => Equal
  | [], _ :: _ => Less
  | _ :: _, [] => Greater
  end.

(** One digit of Go's encoding/hex (lower case), as a character code. *)
Definition hex_digit (d : N) : N := if d <? 10 then 48 + d else 87 + d.

(** encoding/hex.EncodeToString *)
Definition hex_encode (b : bytes) : bytes :=
  flat_map (fun x => [hex_digit (x / 16); hex_digit (x mod 16)]) b.

(** Go's [<] on strings: bytewise lexicographic. *)
Fixpoint go_string_lt (a b : bytes) : bool :=
  match a, b with
  | _, [] => false
  | [], _ :: _ => true
  | x :: a', y :: b' => (x <? y) || ((x =? y) && go_string_lt a' b')
  end.

(** /repo/utils/order.go:66-73 OrderSubspace: compares hex renderings. *)
Definition OrderSubspace (a b : bytes) : rel :=
  if go_string_lt (hex_encode a) (hex_encode b) then Less
  else if go_string_lt (hex_encode b) (hex_encode a) then Greater
  else Equal.
