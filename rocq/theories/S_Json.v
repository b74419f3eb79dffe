(** Reading entries.json: a reader of JSON texts made of arrays, objects, strings,
    numbers and null, written without regard to how the file is produced, and
    what a text says about entries. *)
From Coq Require Import Ascii String.
From Verif Require Import Base S_Names.
Local Open Scope N_scope.
Local Open Scope list_scope.

Inductive json := JNull | JNum (n : N) | JStr (s : bytes) | JArr (l : list json) | JObj (l : list (bytes * json)).

Definition is_digit (c : N) : bool := (48 <=? c) && (c <=? 57).
Fixpoint number (acc : N) (s : bytes) : N * bytes :=
  match s with
  | c :: r => if is_digit c then number (acc * 10 + (c - 48)) r else (acc, s)
  | [] => (acc, [])
  end.

Definition hex_val (c : N) : N := if c <? 58 then c - 48 else if c <? 71 then c - 55 else c - 87.

(** UTF-8 of a code point, and texts that are UTF-8 of some. *)
Definition utf8 (v : N) : bytes :=
  if v <? 128 then [v]
  else if v <? 2048 then [192 + v / 64; 128 + v mod 64]
  else if v <? 65536 then [224 + v / 4096; 128 + v / 64 mod 64; 128 + v mod 64]
  else [240 + v / 262144; 128 + v / 4096 mod 64; 128 + v / 64 mod 64; 128 + v mod 64].
Definition utf8_text (s : bytes) : Prop :=
  exists vs, s = flat_map utf8 vs /\ Forall (fun v => v < 1114112 /\ ~ 55296 <= v < 57344) vs.

Definition unescape (c : N) : N :=
  if c =? 98 then 8 else if c =? 102 then 12 else if c =? 110 then 10 else if c =? 114 then 13 else if c =? 116 then 9 else c.

(** The rest of a string after its opening quote. *)
Fixpoint string_rest (s : bytes) : option (bytes * bytes) :=
  match s with
  | [] => None
  | c :: r =>
      if c =? 34 then Some ([], r)
      else if c =? 92 then
        match r with
        | e :: r' =>
            if e =? 117 then
              match r' with
              | h3 :: h2 :: h1 :: h0 :: r'' =>
                  match string_rest r'' with
                  | Some (x, y) => Some (utf8 (((hex_val h3 * 16 + hex_val h2) * 16 + hex_val h1) * 16 + hex_val h0) ++ x, y)
                  | None => None
                  end
              | _ => None
              end
            else match string_rest r' with Some (x, y) => Some (unescape e :: x, y) | None => None end
        | [] => None
        end
      else match string_rest r with Some (x, y) => Some (c :: x, y) | None => None end
  end.

(** What follows [p] in [s]. *)
Fixpoint after (p s : bytes) : option bytes :=
  match p, s with
  | [], _ => Some s
  | a :: p', b :: s' => if a =? b then after p' s' else None
  | _, [] => None
  end.

(** A value, with what follows it. *)
Fixpoint value (fuel : nat) (s : bytes) : option (json * bytes) :=
  match fuel, s with
  | S f, c :: r =>
      if c =? 110 then match after [117; 108; 108] r with Some y => Some (JNull, y) | None => None end
      else if c =? 34 then match string_rest r with Some (x, y) => Some (JStr x, y) | None => None end
      else if c =? 91 then
        match after [93] r with
        | Some y => Some (JArr [], y)
        | None => match items f r with Some (l, y) => Some (JArr l, y) | None => None end
        end
      else if c =? 123 then match fields f r with Some (l, y) => Some (JObj l, y) | None => None end
      else if is_digit c then let '(n, y) := number 0 s in Some (JNum n, y)
      else None
  | _, _ => None
  end
with items (fuel : nat) (s : bytes) : option (list json * bytes) :=
  match fuel with
  | O => None
  | S f =>
      match value f s with
      | Some (v, c :: r) =>
          if c =? 93 then Some ([v], r)
          else if c =? 44 then match items f r with Some (l, y) => Some (v :: l, y) | None => None end
          else None
      | _ => None
      end
  end
with fields (fuel : nat) (s : bytes) : option (list (bytes * json) * bytes) :=
  match fuel, after [34] s with
  | S f, Some r =>
      match string_rest r with
      | Some (name, r0) =>
          match after [58] r0 with
          | Some r1 =>
              match value f r1 with
              | Some (v, c :: r2) =>
                  if c =? 125 then Some ([(name, v)], r2)
                  else if c =? 44 then match fields f r2 with Some (l, y) => Some ((name, v) :: l, y) | None => None end
                  else None
              | _ => None
              end
          | None => None
          end
      | None => None
      end
  | _, _ => None
  end.

(** A whole text. *)
Definition read_json (s : bytes) : option json :=
  match value (S (List.length s)) s with Some (v, []) => Some v | _ => None end.

(** What the parts say: null is an empty slice or array. *)
Definition as_bytes (j : json) : option bytes :=
  match j with JNull => Some [] | JStr s => Some (unbase64 s) | _ => None end.
Fixpoint all {A B} (f : A -> option B) (l : list A) : option (list B) :=
  match l with
  | [] => Some []
  | a :: r => match f a, all f r with Some b, Some t => Some (b :: t) | _, _ => None end
  end.
Definition as_list {B} (f : json -> option B) (j : json) : option (list B) :=
  match j with JNull => Some [] | JArr l => all f l | _ => None end.

(** The field of an object that has the name. *)
Definition named_field (name : string) (l : list (bytes * json)) : option json :=
  option_map snd (find (fun p => if list_eq_dec N.eq_dec (map N_of_ascii (list_ascii_of_string name)) (fst p) then true else false) l).

(** The row of an entry: time, subspace, path, fingerprint. *)
Definition as_row (j : json) : option (N * bytes * list bytes * bytes) :=
  match j with
  | JObj l =>
      match named_field "Timestamp"%string l, named_field "Subspace"%string l, named_field "Path"%string l, named_field "Fingerprint"%string l with
      | Some (JNum t), Some s, Some p, Some (JStr f) =>
          match as_bytes s, as_list as_bytes p with Some s, Some p => Some (t, s, p, f) | _, _ => None end
      | _, _, _, _ => None
      end
  | _ => None
  end.

Definition read_entries (s : bytes) : option (list (N * bytes * list bytes * bytes)) :=
  match read_json s with Some j => as_list as_row j | None => None end.
