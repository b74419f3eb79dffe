(** The text of entries.json: json.Marshal of the keys of the k-d tree, as
    /repo/main.go:142-152 writeEntriesToFile calls it. *)
From Verif Require Import Base M_Order M_Encoding M_Entry M_Map M_Store M_Names.
Local Open Scope N_scope.

(** /repo/pkg/data_model/kdnode/willowkdtreenode.go:11-16 Key. Slices that are nil
    are [None]: json.Marshal tells them from empty ones. *)
Record key := Key { k_time : N; k_sub : option bytes; k_path : option (list (option bytes)); k_fp : bytes }.

(** The node of M_Store.v that a Key of willowkdtreenode.go:11-16 stands for. *)
Definition opt_bytes (o : option bytes) : bytes := match o with Some b => b | None => [] end.
Definition opt_path (o : option (list (option bytes))) : list bytes := match o with Some p => map opt_bytes p | None => [] end.
Definition key_is (k : key) (n : node) : Prop :=
  n_time n = k_time k /\ n_sub n = opt_bytes (k_sub k) /\ n_path n = opt_path (k_path k) /\ n_fp n = k_fp k.

(** strconv.AppendUint(_, n, 10), the Timestamp of willowkdtreenode.go:12 *)
Fixpoint digits (fuel : nat) (n : N) (acc : bytes) : bytes :=
  match fuel with
  | O => acc
  | S f => let acc' := 48 + n mod 10 :: acc in if n / 10 =? 0 then acc' else digits f (n / 10) acc'
  end.
Definition decimal (n : N) : bytes := digits (S (N.size_nat n)) n [].

(** The width of the first rune, as utf8.DecodeRune finds it; 1 when it is not
    valid UTF-8 (Fingerprint, willowkdtreenode.go:15, is a string of any bytes). *)
Definition cont (lo hi c : N) : bool := (lo <=? c) && (c <=? hi).
Definition rune_width (s : bytes) : nat :=
  match s with
  | c0 :: c1 :: r =>
      if cont 194 223 c0 then if cont 128 191 c1 then 2%nat else 1%nat
      else if cont 224 239 c0 then
        match r with
        | c2 :: _ =>
            if cont (if c0 =? 224 then 160 else 128) (if c0 =? 237 then 159 else 191) c1 && cont 128 191 c2 then 3%nat else 1%nat
        | [] => 1%nat
        end
      else if cont 240 244 c0 then
        match r with
        | c2 :: c3 :: _ =>
            if cont (if c0 =? 240 then 144 else 128) (if c0 =? 244 then 143 else 191) c1 && cont 128 191 c2 && cont 128 191 c3
            then 4%nat else 1%nat
        | _ => 1%nat
        end
      else 1%nat
  | _ => 1%nat
  end.

(** encoding/json of Go 1.22 (go.mod:3), appendString with escapeHTML, for the
    Fingerprint of willowkdtreenode.go:15: what a byte below 128 becomes. *)
Definition hex_char (v : N) : N := if v <? 10 then 48 + v else 87 + v.
Definition escape (c : N) : bytes :=
  if (c =? 34) || (c =? 92) then [92; c]
  else if c =? 8 then [92; 98]
  else if c =? 12 then [92; 102]
  else if c =? 10 then [92; 110]
  else if c =? 13 then [92; 114]
  else if c =? 9 then [92; 116]
  else if (c <? 32) || (c =? 60) || (c =? 62) || (c =? 38) then [92; 117; 48; 48; hex_char (c / 16); hex_char (c mod 16)]
  else [c].

(** The rest of appendString (willowkdtreenode.go:15, main.go:143): bytes that are
    not UTF-8 become the escape of U+FFFD, U+2028 and U+2029 are escaped, other runes copied.
    [copy] and [skip] count the bytes of the current rune that are left. *)
Fixpoint string_body (copy skip : nat) (s : bytes) : bytes :=
  match s with
  | [] => []
  | c :: r =>
      match copy, skip with
      | S k, _ => c :: string_body k 0 r
      | O, S k => string_body 0 k r
      | O, O =>
          if c <? 128 then escape c ++ string_body 0 0 r
          else match rune_width s with
               | S (S k) =>
                   match r with
                   | 128 :: c2 :: _ =>
                       if (c =? 226) && ((c2 =? 168) || (c2 =? 169)) then [92; 117; 50; 48; 50; c2 - 112] ++ string_body 0 2 r
                       else c :: string_body (S k) 0 r
                   | _ => c :: string_body (S k) 0 r
                   end
               | _ => [92; 117; 102; 102; 102; 100] ++ string_body 0 0 r
               end
      end
  end.
Definition json_string (s : bytes) : bytes := 34 :: string_body 0 0 s ++ [34].

(** "null"; a []byte is base64 text, or null when nil (willowkdtreenode.go:13) *)
Definition t_null : bytes := [110; 117; 108; 108].
Definition json_bytes (o : option bytes) : bytes :=
  match o with Some b => 34 :: base64 b ++ [34] | None => t_null end.

(** An array: the elements between brackets, with commas; null when nil
    (willowkdtreenode.go:14, main.go:143). *)
Fixpoint commas (l : list bytes) : bytes :=
  match l with [] => [] | [a] => a | a :: r => a ++ 44 :: commas r end.
Definition json_array {A} (f : A -> bytes) (o : option (list A)) : bytes :=
  match o with Some l => 91 :: commas (map f l) ++ [93] | None => t_null end.

(** The fields of a Key in the order of willowkdtreenode.go:12-15, under their names. *)
Definition t_time : bytes := [123; 34; 84; 105; 109; 101; 115; 116; 97; 109; 112; 34; 58].                 (* {"Timestamp": *)
Definition t_sub : bytes := [44; 34; 83; 117; 98; 115; 112; 97; 99; 101; 34; 58].                          (* ,"Subspace": *)
Definition t_path : bytes := [44; 34; 80; 97; 116; 104; 34; 58].                                           (* ,"Path": *)
Definition t_fp : bytes := [44; 34; 70; 105; 110; 103; 101; 114; 112; 114; 105; 110; 116; 34; 58].         (* ,"Fingerprint": *)
Definition json_key (k : key) : bytes :=
  t_time ++ decimal (k_time k) ++ t_sub ++ json_bytes (k_sub k) ++ t_path ++ json_array json_bytes (k_path k)
  ++ t_fp ++ json_string (k_fp k) ++ [125].

(** main.go:143 json.Marshal(entries); a nil slice is [None]. It does not fail. *)
Definition entries_json (o : option (list key)) : bytes := json_array json_key o.
