(** The interactive program of M_Shell.v when calls of pebble and of the file system may fail: what
    /repo/main.go:44-313 does with the errors of the store (M_Fault.v) and of its own calls.

    Simplified: the directory of a namespace and the payload directory in it can be made; closing a database releases
    it even when it reports an error (311-312 drop that error); a file named on a line of "set" that cannot be opened
    or read is [NoFile] or [Unreadable], as in M_Shell.v; reading lines does not fail. *)
From Verif Require Import Base M_Order M_Encoding M_Paths M_Successor M_Ranges M_Keys M_Entry M_Map M_Store M_Query M_Payload M_Cli M_Shell M_Fault.
Local Open Scope N_scope.

(** One input, and how the calls made for it go; calls beyond the list go as they should. *)
Definition fitem : Type := item * list outcome.

Section ShellFault.
Context (pp : path_params) (hash : bytes -> bytes) (fname : bytes -> bytes) (sort : list node -> list node).
Notation cfg_of := (cfg_of pp hash fname).

(** The next call and those after it. *)
Definition next (os : list outcome) : outcome := hd Fine os.

(** main.go:142-152 writeEntriesToFile: an error is printed. Of a file that was written in part it is only known that
    it is no list of entries any more. *)
Definition f_writeEntriesToFile (l : list node) (os : list outcome) (w : world) : world * list output :=
  match next os with
  | Fine => (put_json l w, [])
  | Fails => (w, [OText])
  | Torn _ => (World (w_known w) (w_spaces w) (w_open w) None (w_mode w), [OText])
  end.

(** main.go:46-63: an error of opening or of reading the directory "willow" ends the program. A directory that does not
    exist is not read. *)
Definition f_start (os : list outcome) (w : world) : world * list output :=
  match next os, w_spaces w, next (tl os) with
  | Fine, [], _ | Fine, _, Fine => (start w, [OText])
  | _, _, _ => (set_mode Ended (start w), [OText])
  end.

(** main.go:154-159 *)
Definition f_enter (ns : bytes) (os : list outcome) (w : world) : world * list output :=
  if existsb (beqb ns) (w_open w) then (set_mode Died w, [])
  else
    let s := match mget (w_spaces w) ns with Some s => s | None => Space empty_store false end in
    match f_reopen (cfg_of ns) (s_store s, os) with
    | (Ok _, (st, os')) =>
        f_writeEntriesToFile (List_ st) os'
          (World (w_known w) (mset (w_spaces w) ns (Space st (s_dir s))) (ns :: w_open w) (w_json w) (Inside ns))
    | (_, (st, _)) => (World (w_known w) (mset (w_spaces w) ns (Space st (s_dir s))) (ns :: w_open w) (w_json w) Died, [])
    end.

(** main.go:70-138 *)
Definition f_top_line (l : bytes) (os : list outcome) (w : world) : world * list output :=
  let objects := split_on 32 l in
  let o := hd [] objects in
  if beqb o w_help then (w, [OText])
  else if beqb o w_new then
    if existsb (beqb l) (w_known w) then f_enter l os w
    else
      match nth_error objects 1 with
      | None => (set_mode Died w, [])
      | Some ns => (set_mode (Confirm ns) w, [OText])
      end
  else if beqb o w_list then
    match w_known w with [] => (w, [OText]) | ks => (w, [ONames ks]) end
  else if beqb o w_exit then (set_mode Ended w, [OText])
  else if beqb o w_enter then
    match objects with
    | [_; ns] => if existsb (beqb ns) (w_known w) then f_enter ns os w else (w, [OText])
    | _ => (w, [OText])
    end
  else (w, [OText]).

(** main.go:93-101 *)
Definition f_confirm_line (ns l : bytes) (os : list outcome) (w : world) : world * list output :=
  if beqb l [121] then f_enter ns os (set_mode Top w) else (set_mode Top w, [OText]).

(** main.go:205-250: an error of Stat ends the process (207); then the call of Set and what is printed afterwards. *)
Definition f_do_set (ns : bytes) (sp : space) (sub arg payload : bytes) (t now : N) (os : list outcome) (w : world)
  : world * list output :=
  match f_Set (cfg_of ns) (Input sub (parse_path arg) payload t) sub now (s_store sp, os) with
  | (Ok pruned, (st, os')) =>
      let '(w1, out) := f_writeEntriesToFile (List_ st) os' (put_space ns (Space st true) w) in
      match map_res (fun e => do p <- makePath (e_path e); Ok (e_subspace e, p, e_time e)) pruned with
      | Ok [] => (w1, out ++ [ONonePruned])
      | Ok rows => (w1, out ++ [OPruned rows])
      | _ => (set_mode Died w1, out)
      end
  | (Err, (st, _)) => (put_space ns (Space st true) w, [OFail])
  | (_, (st, _)) => (set_mode Died (put_space ns (Space st true) w), [])
  end.

(** main.go:186-224 *)
Definition f_set_line_step (ns : bytes) (sp : space) (objects : list bytes) (now : N) (fs : bytes -> file) (os : list outcome) (w : world)
  : world * list output :=
  match objects with
  | [_; sub; arg; f] =>
      match fs f with
      | NoFile => (w, [OText])
      | file =>
          match next os with
          | Fine =>
              match file with
              | Contents b => f_do_set ns sp sub arg b 0 now (tl os) w
              | _ => (set_mode Top w, [OText])
              end
          | _ => (set_mode Died w, [])
          end
      end
  | [_; sub; arg; f; t] =>
      match fs f with
      | NoFile => (w, [OText])
      | file =>
          match next os with
          | Fine =>
              match file with
              | Contents b =>
                  let ts := parseTimeStampToMicroSeconds t in
                  if ts =? 0 then (set_mode Top w, [OText]) else f_do_set ns sp sub arg b ts now (tl os) w
              | _ => (set_mode Top w, [OText])
              end
          | _ => (set_mode Died w, [])
          end
      end
  | _ => (w, [OText])
  end.

(** main.go:272-279: filesystem.go:74-85 Get, and Bytes (32-35) of what it returned; when it returned an error the nil
    function Bytes of the zero Payload is called. *)
Definition f_show (C : cfg) (dir_exists : bool) (d : bytes) (st : state) (os : list outcome) : res bytes :=
  match next os with
  | Fine =>
      match (if dir_exists then pd_Get (c_fname C) d (PDir (files st) [] []) else Err) with
      | Ok k =>
          let b := pl_Bytes k (PDir (files st) [] []) in
          Ok (match next (tl os) with Fine => b | Fails => [] | Torn n => firstn n b end)
      | _ => Panic
      end
  | _ => Panic
  end.

(** main.go:252-279: an error of EntryDriver.Get is printed, and the program goes on with the zero entry (268-271). *)
Definition f_cli_get (C : cfg) (dir_exists : bool) (sub arg : bytes) (st : state) (os : list outcome) : res bytes :=
  match f_driver_Get_at C sub (SuccessorSubspaceId sub) (parse_path arg) (st, os) with
  | (Ok o, (_, os')) => f_show C dir_exists (match o with Some (e, _) => e_digest e | None => [] end) st os'
  | (Err, (_, os')) => f_show C dir_exists [] st os'
  | (Panic, _) => Panic
  | (Fatal, _) => Fatal
  | (Hang, _) => Hang
  end.

(** main.go:162-310 *)
Definition f_inside_line (ns : bytes) (l : bytes) (now : N) (fs : bytes -> file) (os : list outcome) (w : world) : world * list output :=
  let sp := match mget (w_spaces w) ns with Some s => s | None => Space empty_store false end in
  if beqb (to_lower l) w_exit then (close ns w, [OText])
  else
    let objects := split_on 32 (TrimSpace l) in
    let o := hd [] objects in
    if beqb o w_back then (close ns w, [OText])
    else if beqb o w_help then (w, [OText])
    else if beqb o w_set then f_set_line_step ns sp objects now fs os w
    else if beqb o w_get then
      match objects with
      | [_; sub; arg] =>
          match f_cli_get (cfg_of ns) (s_dir sp) sub arg (s_store sp) os with
          | Ok b => (w, [OPayload b])
          | _ => (set_mode Died w, [])
          end
      | _ => (w, [OText])
      end
    else if beqb o w_list then
      match list_rows sort (s_store sp) with
      | Ok rows => (w, (match objects with [_] => [] | _ => [OText] end) ++ [OTable rows])
      | _ => (set_mode Died w, [])
      end
    else if beqb o w_clear then (w, [OText])
    else (w, [OText]).

(** One input, as in M_Shell.v. *)
Definition f_shell_step (x : fitem) (w : world) : world * list output :=
  let '(i, os) := x in
  match i with
  | Start => f_start os w
  | EndOfInput =>
      match w_mode w with
      | Inside ns => (set_mode Ended (close ns w), [])
      | Top | Confirm _ => (set_mode Ended w, [])
      | Ended | Died => (w, [])
      end
  | Line l now fs =>
      match w_mode w with
      | Top => f_top_line l os w
      | Confirm ns => f_confirm_line ns l os w
      | Inside ns => f_inside_line ns l now fs os w
      | Ended | Died => (w, [])
      end
  end.

Definition f_shell_run (items : list fitem) (w : world) : world :=
  fold_left (fun w i => fst (f_shell_step i w)) items w.
End ShellFault.
