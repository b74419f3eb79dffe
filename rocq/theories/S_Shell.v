(** Specification vocabulary for the interactive program: the lines a user
    types, told apart by their words, not by the program's parser. *)
From Coq Require Import Permutation Sorted.
From Verif Require Import Base M_Order M_Encoding M_Paths M_Keys M_Entry M_Map M_Store M_Cli M_Shell S_Order S_Store.
Local Open Scope N_scope.

Definition blank (c : N) : Prop := c = 32 \/ 9 <= c <= 13.

(** Words with one space between them. *)
Fixpoint spaced (ws : list bytes) : bytes :=
  match ws with
  | [] => []
  | [w] => w
  | w :: ws' => w ++ 32 :: spaced ws'
  end.

(** [l] is [x] with blanks around it, and [x] neither begins nor ends with one. *)
Definition trimmed (l x : bytes) : Prop :=
  exists a b, l = a ++ x ++ b /\ Forall blank a /\ Forall blank b
    /\ (forall c r, x = c :: r -> ~ blank c) /\ (forall r c, x = r ++ [c] -> ~ blank c).

(** The line consists of the words [ws]. *)
Definition words (l : bytes) (ws : list bytes) : Prop :=
  ws <> [] /\ Forall (fun w => ~ In 32 w) ws /\ trimmed l (spaced ws).

(** The line asks for an entry to be set: "set <subspace> <path> <file>", with a
    time of the day or without (then the time is taken from the clock), and the
    file can be read. Paths and times are written as C53 says. *)
Inductive asks (l : bytes) (fs : bytes -> file) : input -> Prop :=
| asks_now s p f b :
    words l [w_set; s; p; f] -> fs f = Contents b -> asks l fs (Input s (parse_path p) b 0)
| asks_at s p f t b :
    words l [w_set; s; p; f; t] -> fs f = Contents b -> parseTimeStampToMicroSeconds t <> 0 ->
    asks l fs (Input s (parse_path p) b (parseTimeStampToMicroSeconds t)).

(** A "set" line that makes the program leave the namespace without closing it:
    the file can be opened but not read, or the time is not one. *)
Inductive gives_up (l : bytes) (fs : bytes -> file) : Prop :=
| gives_up_file s p f r :
    words l (w_set :: s :: p :: f :: r) -> (length r <= 1)%nat -> fs f = Unreadable -> gives_up l fs
| gives_up_time s p f t b :
    words l [w_set; s; p; f; t] -> fs f = Contents b -> parseTimeStampToMicroSeconds t = 0 -> gives_up l fs.

Definition tidy (it : item) : Prop :=
  match it with Line l _ fs => ~ gives_up l fs | _ => True end.

(** The paths of "get" lines stay below the limits. *)
Definition gets_ok (pp : path_params) (it : item) : Prop :=
  match it with Line l _ _ => forall s p, words l [w_get; s; p] -> strict_path pp (parse_path p) | _ => True end.

Section Shell.
Context (pp : path_params) (hash : bytes -> bytes) (fname : bytes -> bytes) (sort : list node -> list node).
Notation cfg_of := (cfg_of pp hash fname).
Notation shell_run := (shell_run pp hash fname sort).

(** What sort.Slice promises: the same elements, in order of the subspaces. *)
Definition sorts : Prop := forall l,
  Permutation (sort l) l /\ Sorted (fun a b => (OrderBytes (n_sub a) (n_sub b) <= 0)%Z) (sort l).

(** [e] was set by a line typed inside the namespace. *)
Definition typed (ns : bytes) (items : list item) (e : entry) : Prop :=
  exists before l now fs after i,
    items = before ++ Line l now fs :: after
    /\ w_mode (shell_run before new_world) = Inside ns
    /\ asks l fs i /\ e = set_entry (cfg_of ns) i now.

(** Inputs whose "set" lines stay strictly below the path limits and whose file
    contents and subspaces are in [U]. *)
Definition item_ok (U : bytes -> Prop) (it : item) : Prop :=
  match it with
  | Line l now fs => forall i ns, asks l fs i -> op_ok (cfg_of ns) U (OpSet i (i_sub i) now)
  | _ => True
  end.

Definition items_ok (U : bytes -> Prop) (items : list item) : Prop :=
  store_params pp /\ universe (cfg_of []) U /\ Forall (item_ok U) items /\ len items + 2 < 2 ^ 64.

(** The live entries of a namespace. *)
Definition holds (w : world) (ns : bytes) (e : entry) : Prop :=
  exists sp, mget (w_spaces w) ns = Some sp /\ live (cfg_of ns) (s_store sp) e.
End Shell.
