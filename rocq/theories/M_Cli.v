(** Model of the argument handling of /repo/main.go and of
    /repo/PinaGoladaStore/StoreDriver.go:90-96, and of the "get" command. *)
From Verif Require Import Base M_Order M_Keys M_Entry M_Map M_Store M_Payload.
Local Open Scope N_scope.

(** strings.Split(s, sep) for a separator of one byte. *)
Fixpoint split_on (sep : N) (s : bytes) : list bytes :=
  match s with
  | [] => [[]]
  | c :: s' =>
      match split_on sep s' with
      | [] => [[c]]
      | w :: ws => if c =? sep then [] :: w :: ws else (c :: w) :: ws
      end
  end.

(** strconv.ParseUint(s, 10, 64): None is an error (empty, not a digit, or above
    2^64-1). *)
Definition digit (c : N) : option N := if (48 <=? c) && (c <=? 57) then Some (c - 48) else None.
Fixpoint parse_digits (s : bytes) (acc : N) : option N :=
  match s with
  | [] => Some acc
  | c :: s' =>
      match digit c with
      | None => None
      | Some d => let v := acc * 10 + d in if two64 <=? v then None else parse_digits s' v
      end
  end.
Definition ParseUint (s : bytes) : option N := match s with [] => None | _ => parse_digits s 0 end.

(** main.go:315-329 parseTimeStampToMicroSeconds; arithmetic in uint64. *)
Definition parseTimeStampToMicroSeconds (s : bytes) : N :=
  match split_on 58 s with
  | [h; m] =>
      match ParseUint h with
      | None => 0
      | Some hours =>
          match ParseUint m with
          | None => 0
          | Some minutes => add64 (u64 (hours * 3600000000)) (u64 (minutes * 60000000))
          end
      end
  | _ => 0
  end.

(** main.go:331-337 makePath; path[0] of an empty path panics. *)
Definition makePath (p : path) : res bytes :=
  match p with
  | [] => Panic
  | c :: p' => Ok (fold_left (fun acc d => acc ++ 47 :: d) p' c)
  end.

(** main.go:192, 225 and 259-260 with ConvertToByteSlices: the path argument. *)
Definition parse_path (s : bytes) : path := split_on 47 s.

(** main.go:252-279, the "get" command: what is printed on the last line. [None]
    is the run-time panic of calling the nil function Bytes of the zero Payload.
    An entry that is not found leaves the zero entry, whose digest is empty
    (GetKey of it is empty: the payload directory itself, if it exists). *)
Definition cli_get (C : cfg) (dir_exists : bool) (sub : bytes) (arg : bytes) (st : state) : res bytes :=
  let p := parse_path arg in
  match driver_Get C sub p st with
  | (Ok o, _) =>
      let d := match o with Some (e, _) => e_digest e | None => [] end in
      match (if dir_exists then pd_Get (c_fname C) d (PDir (files st) [] []) else Err) with
      | Ok k => Ok (pl_Bytes k (PDir (files st) [] []))
      | _ => Panic
      end
  | (Err, _) =>
      match (if dir_exists then pd_Get (c_fname C) [] (PDir (files st) [] []) else Err) with
      | Ok k => Ok (pl_Bytes k (PDir (files st) [] []))
      | _ => Panic
      end
  | (Panic, _) => Panic
  | (Fatal, _) => Fatal
  | (Hang, _) => Hang
  end.
