(** Model of the interactive program /repo/main.go:44-313 (main, writeEntriesToFile
    and NameSpaceInteraction), line by line.

    Simplified: a line is what scanner.Text returns; strings.TrimSpace trims
    ASCII white space only; most fixed messages are one output [OText]; names of
    namespaces are taken for directory names (no '/', not "." or ".."); the
    directory "willow" can be read; writing entries.json succeeds. *)
From Verif Require Import Base M_Order M_Encoding M_Paths M_Keys M_Entry M_Map M_Store M_Query M_Payload M_Cli.
Local Open Scope N_scope.

(** What os.Open and io.ReadFull make of the file named on the line of "set"
    (main.go:195-215). *)
Inductive file :=
| NoFile                  (* cannot be opened: message, go on (196-203) *)
| Unreadable              (* opened but not read, e.g. a directory (212-215) *)
| Contents (b : bytes).

(** A namespace directory "willow/<name>": its store, and whether the directory
    "payload" in it exists (filesystem.go:107 makes it). *)
Record space := Space { s_store : state; s_dir : bool }.

(** What the program is waiting for: a line at the first prompt (70-138), the
    confirmation of "new" (90-93), a line inside a namespace (162-310); or it has
    returned from main, or ended otherwise (panic, log.Fatal, blocked). *)
Inductive mode :=
| Top
| Confirm (ns : bytes)
| Inside (ns : bytes)
| Ended
| Died.

(** The program and the directory it works in.
    - [w_known]: the map nameSpaces (48-63), made when the program starts;
    - [w_spaces]: the directory "willow";
    - [w_open]: the namespaces whose databases this process has open;
    - [w_json]: what entries.json was made of (142-152). *)
Record world := World {
  w_known : list bytes;
  w_spaces : bmap space;
  w_open : list bytes;
  w_json : option (list node);
  w_mode : mode
}.

Inductive output :=
| OText                                       (* a fixed message *)
| OFail                                       (* 237: error setting entry *)
| ONonePruned                                 (* 244 *)
| OPruned (l : list (bytes * bytes * N))      (* 247-250: subspace, path, time *)
| OPayload (b : bytes)                        (* 279 *)
| OTable (l : list (bytes * N * bytes))       (* 295-297: subspace, time, path *)
| ONames (l : list bytes).                    (* 109-111 *)

(** One input to the program: a line, typed at time [now] (microseconds), when
    the file system is [fs]; the end of the input; or the program is started
    (again). *)
Inductive item :=
| Line (l : bytes) (now : N) (fs : bytes -> file)
| EndOfInput
| Start.

(** strings.ToLower, as far as the comparison with "exit" (main.go:168) can see:
    ASCII letters, and U+0130 (bytes 196 176), which Go lowers to "i". *)
Fixpoint to_lower (s : bytes) : bytes :=
  match s with
  | [] => []
  | c :: s' =>
      match s' with
      | d :: s'' => if (c =? 196) && (d =? 176) then 105 :: to_lower s''
                    else (if (65 <=? c) && (c <=? 90) then c + 32 else c) :: to_lower s'
      | [] => [if (65 <=? c) && (c <=? 90) then c + 32 else c]
      end
  end.

(** strings.TrimSpace on ASCII white space *)
Definition white (c : N) : bool := (c =? 32) || ((9 <=? c) && (c <=? 13)).
Fixpoint trim_left (s : bytes) : bytes :=
  match s with [] => [] | c :: s' => if white c then trim_left s' else s end.
Definition TrimSpace (s : bytes) : bytes := rev (trim_left (rev (trim_left s))).

(** The words of the program. *)
Definition w_exit : bytes := [101; 120; 105; 116].
Definition w_help : bytes := [104; 101; 108; 112].
Definition w_new : bytes := [110; 101; 119].
Definition w_list : bytes := [108; 105; 115; 116].
Definition w_enter : bytes := [101; 110; 116; 101; 114].
Definition w_back : bytes := [98; 97; 99; 107].
Definition w_set : bytes := [115; 101; 116].
Definition w_get : bytes := [103; 101; 116].
Definition w_clear : bytes := [99; 108; 101; 97; 114].

Definition map_res {A B} (f : A -> res B) : list A -> res (list B) :=
  fix go l := match l with [] => Ok [] | x :: l' => do y <- f x; do r <- go l'; Ok (y :: r) end.

Section Shell.
(** Path parameters and payload scheme of StoreSchemes.go, and sort.Slice with
    the comparison of main.go:286-288 (an unstable sort). *)
Context (pp : path_params) (hash : bytes -> bytes) (fname : bytes -> bytes) (sort : list node -> list node).

Definition cfg_of (ns : bytes) : cfg := Cfg pp ns hash fname.

Definition set_mode (m : mode) (w : world) : world := World (w_known w) (w_spaces w) (w_open w) (w_json w) m.
Definition put_space (ns : bytes) (s : space) (w : world) : world :=
  World (w_known w) (mset (w_spaces w) ns s) (w_open w) (w_json w) (w_mode w).
Definition put_json (l : list node) (w : world) : world :=
  World (w_known w) (w_spaces w) (w_open w) (Some l) (w_mode w).

(** main.go:48-63: one key for each directory in "willow". *)
Definition start (w : world) : world := World (map fst (w_spaces w)) (w_spaces w) [] (w_json w) Top.

(** main.go:154-159: InitStorage, InitKDTree, List and writeEntriesToFile. Opening
    a database that the process has already open fails (pebble locks it), which
    ends the process (StoreDriver.go:20-23, 30-33). *)
Definition enter (ns : bytes) (w : world) : world * list output :=
  if existsb (beqb ns) (w_open w) then (set_mode Died w, [])
  else
    let s := match mget (w_spaces w) ns with Some s => s | None => Space empty_store false end in
    match reopen (cfg_of ns) (s_store s) with
    | Ok st => (World (w_known w) (mset (w_spaces w) ns (Space st (s_dir s))) (ns :: w_open w) (Some (List_ st)) (Inside ns), [])
    | _ => (World (w_known w) (mset (w_spaces w) ns s) (ns :: w_open w) (w_json w) Died, [])
    end.

(** main.go:311-312: the databases are closed; back in the loop of main. *)
Definition close (ns : bytes) (w : world) : world :=
  World (w_known w) (w_spaces w) (filter (fun x => negb (beqb ns x)) (w_open w)) (w_json w) Top.

(** main.go:70-138, one line at the first prompt. *)
Definition top_line (l : bytes) (w : world) : world * list output :=
  let objects := split_on 32 l in
  let o := hd [] objects in
  if beqb o w_help then (w, [OText])
  else if beqb o w_new then
    if existsb (beqb l) (w_known w) then enter l w
    else
      match nth_error objects 1 with
      | None => (set_mode Died w, [])                       (* objects[1], 88 *)
      | Some ns => (set_mode (Confirm ns) w, [OText])
      end
  else if beqb o w_list then
    match w_known w with [] => (w, [OText]) | ks => (w, [ONames ks]) end
  else if beqb o w_exit then (set_mode Ended w, [OText])
  else if beqb o w_enter then
    match objects with
    | [_; ns] => if existsb (beqb ns) (w_known w) then enter ns w else (w, [OText])
    | _ => (w, [OText])
    end
  else (w, [OText]).

(** main.go:93-101, the answer to the question. *)
Definition confirm_line (ns : bytes) (l : bytes) (w : world) : world * list output :=
  if beqb l [121] then enter ns (set_mode Top w) else (set_mode Top w, [OText]).

(** main.go:225-250: the call of Set and what is printed afterwards. *)
Definition do_set (ns : bytes) (sp : space) (sub arg payload : bytes) (t now : N) (w : world) : world * list output :=
  match Set_ (cfg_of ns) (Input sub (parse_path arg) payload t) sub now (s_store sp) with
  | (Ok pruned, st) =>
      let w1 := put_json (List_ st) (put_space ns (Space st true) w) in
      match map_res (fun e => do p <- makePath (e_path e); Ok (e_subspace e, p, e_time e)) pruned with
      | Ok [] => (w1, [ONonePruned])
      | Ok rows => (w1, [OPruned rows])
      | _ => (set_mode Died w1, [])
      end
  | (Err, st) => (put_space ns (Space st true) w, [OFail])
  | (_, st) => (set_mode Died (put_space ns (Space st true) w), [])
  end.

(** main.go:186-224 "set": the arguments. The two [return]s (214 and 222) leave
    the namespace without closing its databases. *)
Definition set_line_step (ns : bytes) (sp : space) (objects : list bytes) (now : N) (fs : bytes -> file) (w : world)
  : world * list output :=
  match objects with
  | [_; sub; arg; f] =>
      match fs f with
      | NoFile => (w, [OText])
      | Unreadable => (set_mode Top w, [OText])
      | Contents b => do_set ns sp sub arg b 0 now w
      end
  | [_; sub; arg; f; t] =>
      match fs f with
      | NoFile => (w, [OText])
      | Unreadable => (set_mode Top w, [OText])
      | Contents b =>
          let ts := parseTimeStampToMicroSeconds t in
          if ts =? 0 then (set_mode Top w, [OText]) else do_set ns sp sub arg b ts now w
      end
  | _ => (w, [OText])
  end.

(** main.go:281-297 "list"; [sort] sorts the slice that List returned. *)
Definition list_rows (st : state) : res (list (bytes * N * bytes)) :=
  map_res (fun n => do p <- makePath (n_path n); Ok (n_sub n, n_time n, p)) (sort (List_ st)).

(** main.go:162-310, one line inside a namespace. *)
Definition inside_line (ns : bytes) (l : bytes) (now : N) (fs : bytes -> file) (w : world) : world * list output :=
  let sp := match mget (w_spaces w) ns with Some s => s | None => Space empty_store false end in
  if beqb (to_lower l) w_exit then (close ns w, [OText])
  else
    let objects := split_on 32 (TrimSpace l) in
    let o := hd [] objects in
    if beqb o w_back then (close ns w, [OText])
    else if beqb o w_help then (w, [OText])
    else if beqb o w_set then set_line_step ns sp objects now fs w
    else if beqb o w_get then
      match objects with
      | [_; sub; arg] =>
          match cli_get (cfg_of ns) (s_dir sp) sub arg (s_store sp) with
          | Ok b => (w, [OPayload b])
          | _ => (set_mode Died w, [])
          end
      | _ => (w, [OText])
      end
    else if beqb o w_list then
      match list_rows (s_store sp) with
      | Ok rows => (w, (match objects with [_] => [] | _ => [OText] end) ++ [OTable rows])
      | _ => (set_mode Died w, [])
      end
    else if beqb o w_clear then (w, [OText])
    else (w, [OText]).

(** One input. At the end of the input both loops end (73-75 and 164-166); a
    namespace is closed. [Start] is a new process: the old one, if any, is gone
    and so are its locks. *)
Definition shell_step (i : item) (w : world) : world * list output :=
  match i with
  | Start => (start w, [OText])
  | EndOfInput =>
      match w_mode w with
      | Inside ns => (set_mode Ended (close ns w), [])
      | Top | Confirm _ => (set_mode Ended w, [])
      | Ended | Died => (w, [])
      end
  | Line l now fs =>
      match w_mode w with
      | Top => top_line l w
      | Confirm ns => confirm_line ns l w
      | Inside ns => inside_line ns l now fs w
      | Ended | Died => (w, [])
      end
  end.

Definition shell_run (items : list item) (w : world) : world :=
  fold_left (fun w i => fst (shell_step i w)) items w.
End Shell.

(** Before the program was ever started. *)
Definition new_world : world := World [] [] [] None Ended.
