(** The payload driver of M_Payload.v, one system call at a time: which directories exist, what each function of
    /repo/pkg/data_model/payload_kv_driver/filesystem.go does when a call of the operating system fails or stops in the
    middle, and what it prints. Names of files are as in M_Payload.v. The lock of the driver (75-76, 89-90, 103-104, 159-160,
    230-231, 257-258) is released at the end of every function, also by a panic, so that each function is one step. *)
From Verif Require Import Base M_Order M_Encoding M_Paths M_Keys M_Map M_Store M_Payload M_Fault.
Local Open Scope N_scope.

(** Whether the payload directory and its subdirectories exist, and the files. *)
Record disk := Disk { has_root : bool; has_partial : bool; has_staging : bool; on_disk : pdir }.
Definition with_files (f : bmap bytes -> bmap bytes) (s : disk) : disk :=
  Disk (has_root s) (has_partial s) (has_staging s)
    (PDir (f (p_files (on_disk s))) (p_partial (on_disk s)) (p_staging (on_disk s))).
Definition with_partial (f : bmap bytes -> bmap bytes) (s : disk) : disk :=
  Disk (has_root s) (has_partial s) (has_staging s)
    (PDir (p_files (on_disk s)) (f (p_partial (on_disk s))) (p_staging (on_disk s))).
Definition with_staging (f : bmap bytes -> bmap bytes) (s : disk) : disk :=
  Disk (has_root s) (has_partial s) (has_staging s)
    (PDir (p_files (on_disk s)) (p_partial (on_disk s)) (f (p_staging (on_disk s)))).

(** Programs over the disk and the outcomes of the calls still to come; calls beyond the list go as they should. Every
    system call takes one outcome. *)
Definition D (A : Type) := disk * list outcome -> res A * (disk * list outcome).
Definition retD {A} (a : A) : D A := fun s => (Ok a, s).
Definition failD {A} : D A := fun s => (Err, s).
Definition panicD {A} : D A := fun s => (Panic, s).
Definition bindD {A B} (m : D A) (f : A -> D B) : D B :=
  fun s =>
    match m s with
    | (Ok a, s') => f a s'
    | (Err, s') => (Err, s')
    | (Panic, s') => (Panic, s')
    | (Fatal, s') => (Fatal, s')
    | (Hang, s') => (Hang, s')
    end.
Notation "'let^' x := m 'in' k" := (bindD m (fun x => k))
  (at level 200, x pattern, m at level 100, k at level 200, right associativity).
Definition call : D outcome :=
  fun s => match snd s with [] => (Ok Fine, s) | o :: os => (Ok o, (fst s, os)) end.
Definition here {A} (f : disk -> A) : D A := fun s => (Ok (f (fst s)), s).
Definition change (f : disk -> disk) : D unit := fun s => (Ok tt, (f (fst s), snd s)).
(** A call that has no effect on the disk. *)
Definition plain : D unit := let^ o := call in match o with Fine => retD tt | _ => failD end.
(** [if err != nil { panic(...) }] *)
Definition or_panic {A} (m : D A) : D A :=
  fun s => match m s with (Err, s') => (Panic, s') | x => x end.
(** Whether a call returned no error. *)
Definition went {A} (m : D A) : D bool :=
  fun s =>
    match m s with
    | (Ok _, s') => (Ok true, s')
    | (Err, s') => (Ok false, s')
    | (Panic, s') => (Panic, s')
    | (Fatal, s') => (Fatal, s')
    | (Hang, s') => (Hang, s')
    end.

(** internal/poll maxRW: one os.File.Read asks for no more than this. *)
Definition read_max : N := 2 ^ 30.
(** runtime maxAlloc: make([]byte, n) panics for a greater n, as for a negative one. *)
Definition alloc_max : Z := (2 ^ 48)%Z.

Section Disk.
Variable hash : bytes -> bytes.    (* PayloadScheme.FromBytes *)
Variable fname : bytes -> bytes.   (* PayloadScheme.EncodingScheme.Encode *)
Variable dirsize : N.              (* what Stat gives for the size of a directory *)

(** The argument of EnsureDir. *)
Inductive sub := Staging | Partials.
Definition mkdir (d : option sub) (s : disk) : disk :=
  Disk true
    (match d with Some Partials => true | _ => has_partial s end)
    (match d with Some Staging => true | _ => has_staging s end) (on_disk s).
(** filesystem.go:115-124 EnsureDir. MkdirAll may make the payload directory and fail to make the other. *)
Definition d_EnsureDir (d : option sub) : D unit :=
  let^ o := call in
  match o with
  | Fine => change (mkdir d)
  | Fails => failD
  | Torn _ => let^ _ := match d with Some _ => change (mkdir None) | None => retD tt end in failD
  end.

(** os.WriteFile in the payload directory, filesystem.go:109; it begins by emptying the file. *)
Definition d_WriteFile (k b : bytes) : D unit :=
  let^ o := call in
  let^ r := here has_root in
  match r, k with
  | true, _ :: _ =>
      match o with
      | Fine => change (with_files (fun m => mset m k b))
      | Fails => failD
      | Torn n => let^ _ := change (with_files (fun m => mset m k (firstn n b))) in failD
      end
  | _, _ => failD
  end.
(** filesystem.go:102-112 Set: the errors of EnsureDir (107) and of WriteFile (109) are dropped. *)
Definition d_Set (b : bytes) : D (bytes * N) :=
  let^ _ := went (d_EnsureDir None) in
  let^ _ := went (d_WriteFile (fname (hash b)) b) in
  retD (hash b, len b).

(** The file or directory with the name [k]: no such; the payload directory; a file. *)
Inductive found := Nothing | Directory | File (b : bytes).
Definition look (k : bytes) (s : disk) : found :=
  if has_root s then
    match k with
    | [] => Directory
    | _ => match mget (p_files (on_disk s)) k with Some b => File b | None => Nothing end
    end
  else Nothing.
(** os.Lstat and os.Open in the payload directory. *)
Definition d_open (k : bytes) : D found :=
  let^ o := call in
  let^ f := here (look k) in
  match o, f with Fine, Nothing => failD | Fine, _ => retD f | _, _ => failD end.

(** filesystem.go:74-85 Get; the result is the name, with which the closures of GetPayload (29-71) read. *)
Definition d_Get (d : bytes) : D bytes := let^ _ := d_open (fname d) in retD (fname d).
(** filesystem.go:32-35 Bytes: what was read before an error, which is dropped. *)
Definition d_Bytes (k : bytes) : D bytes :=
  let^ o := call in
  let^ f := here (look k) in
  match f, o with
  | File b, Fine => retD b
  | File b, Torn n => retD (firstn n b)
  | _, _ => retD []
  end.
(** file.Stat() and Size(), filesystem.go:44-45, 65-66: the error is dropped, and the FileInfo is nil. *)
Definition d_size (f : found) : D N :=
  let^ o := call in
  match o with
  | Fine => retD (match f with File b => len b | _ => dirsize end)
  | _ => panicD
  end.
(** filesystem.go:37-56 BytesWithOffset. ReadAt of a directory is an error, as at a negative offset; it reads until the
    buffer is full. *)
Definition d_BytesWithOffset (k : bytes) (offset : Z) : D bytes :=
  let^ f := d_open k in
  let^ size := d_size f in
  if (Z.of_N size <=? offset)%Z then failD
  else if (alloc_max <? Z.of_N size - offset)%Z then panicD
  else
    let^ o := call in
    match f, o with
    | File b, Fine => if (offset <? 0)%Z then failD else retD (skipn (Z.to_nat offset) b)
    | _, _ => failD
    end.
(** filesystem.go:58-68 Length *)
Definition d_Length (k : bytes) : D N := let^ f := d_open k in d_size f.

(** filesystem.go:88-99 Erase. os.Remove removes a directory when it is empty. *)
Definition d_Erase (d : bytes) : D bool :=
  let^ o := call in
  let^ f := here (look (fname d)) in
  match o, f with
  | Fine, File _ => let^ _ := change (with_files (fun m => mdel m (fname d))) in retD true
  | Fine, Directory =>
      let^ s := here (fun s => s) in
      if has_partial s || has_staging s then failD
      else match p_files (on_disk s) with
           | [] => let^ _ := change (fun s => Disk false false false (on_disk s)) in retD true
           | _ => failD
           end
  | _, _ => failD
  end.

(** os.OpenFile with O_CREATE and O_TRUNC of a file in "staging" (filesystem.go:188, 190), and os.Create (145). *)
Definition d_create_staging (tmp : bytes) : D unit :=
  let^ o := call in
  let^ r := here has_staging in
  match o, r with
  | Fine, true => change (with_staging (fun m => mset m tmp []))
  | _, _ => failD
  end.
(** The write of filesystem.go:213 to the file with the contents [front], at its end. *)
Definition d_write_staging (tmp front payload : bytes) : D unit :=
  let^ o := call in
  match o with
  | Fine => change (with_staging (fun m => mset m tmp (front ++ payload)))
  | Fails => failD
  | Torn n => let^ _ := change (with_staging (fun m => mset m tmp (front ++ firstn n payload))) in failD
  end.

(** copyFile (filesystem.go:137-155) at 179, from "partial" to "staging"; the name may be that of the directory "partial",
    which can be opened but not read. *)
Definition d_copy_to_staging (k tmp : bytes) : D unit :=
  let^ o := call in
  let^ f := here (fun s => if has_partial s then
                             match k with
                             | [] => Directory
                             | _ => match mget (p_partial (on_disk s)) k with Some b => File b | None => Nothing end
                             end
                           else Nothing) in
  match o, f with
  | Fine, Nothing => failD
  | Fine, _ =>
      let^ _ := d_create_staging tmp in
      match f with
      | File b => d_write_staging tmp [] b
      | _ => let^ _ := call in failD
      end
  | _, _ => failD
  end.
(** copyFile at filesystem.go:245, from "staging" to "partial". *)
Definition d_copy_to_partial (tmp k : bytes) : D unit :=
  let^ o := call in
  let^ f := here (fun s => if has_staging s then mget (p_staging (on_disk s)) tmp else None) in
  match o, f with
  | Fine, Some b =>
      let^ o := call in
      let^ r := here has_partial in
      match o, r, k with
      | Fine, true, _ :: _ =>
          let^ _ := change (with_partial (fun m => mset m k [])) in
          let^ o := call in
          match o with
          | Fine => change (with_partial (fun m => mset m k b))
          | Fails => failD
          | Torn n => let^ _ := change (with_partial (fun m => mset m k (firstn n b))) in failD
          end
      | _, _, _ => failD
      end
  | _, _ => failD
  end.

(** filesystem.go:220 Read into a buffer of [size] bytes from the file with the contents [b], at the place [pos]: the
    buffer, which began as zeros. One read may give fewer bytes than there are ([Torn]); none at all for a buffer that is
    not empty is io.EOF. *)
Definition d_Read (b : bytes) (pos size : N) : D bytes :=
  let^ o := call in
  let want := N.min size read_max in
  let there := firstn (N.to_nat want) (skipn (N.to_nat pos) b) in
  let got := match o with Torn n => firstn n there | _ => there end in
  match o with
  | Fails => failD
  | _ => match size, got with
         | 0, _ => retD []
         | _, [] => failD
         | _, _ => retD (got ++ repeat 0 (N.to_nat (size - len got)))
         end
  end.

(** filesystem.go:158-226, 268 Receive, with the random file name [tmp] (127-134, 168-172): every error is a panic, but for
    that of the Seek at 218, which is dropped and leaves the place at the end. *)
Definition d_Receive (tmp payload : bytes) (offset : Z) (d : bytes) : D (bytes * N) :=
  let^ _ := or_panic (d_EnsureDir (Some Staging)) in
  let^ _ := or_panic plain in
  let^ _ := (if (0 <? offset)%Z then or_panic (d_copy_to_staging (fname d) tmp) else retD tt) in
  let^ _ := or_panic (d_create_staging tmp) in
  let front := repeat 0 (Z.to_nat offset) in
  let^ _ := (if (0 <? offset)%Z then
               let^ _ := or_panic plain in
               let^ _ := change (with_staging (fun m => mset m tmp front)) in
               or_panic plain
             else retD tt) in
  let^ _ := or_panic (d_write_staging tmp front payload) in
  let received := (offset + Z.of_N (len payload))%Z in
  let^ back := went plain in
  if (received <? 0)%Z || (alloc_max <? received)%Z then panicD
  else
    let content := front ++ payload in
    let^ data := or_panic (d_Read content (if back then 0 else len content) (Z.to_N received)) in
    retD (hash data, Z.to_N received).

(** os.Remove of a file in "staging" (filesystem.go:246, 260) *)
Definition d_remove_staging (tmp : bytes) : D unit :=
  let^ o := call in
  let^ f := here (fun s => mget (p_staging (on_disk s)) tmp) in
  match o, f with Fine, Some _ => change (with_staging (fun m => mdel m tmp)) | _, _ => failD end.
(** os.Rename at filesystem.go:241: onto a directory it is an error. *)
Definition d_rename (tmp k : bytes) : D unit :=
  let^ o := call in
  let^ f := here (fun s => mget (p_staging (on_disk s)) tmp) in
  match o, f, k with
  | Fine, Some b, _ :: _ =>
      let^ _ := change (with_files (fun m => mset m k b)) in change (with_staging (fun m => mdel m tmp))
  | _, _, _ => failD
  end.
(** filesystem.go:229-253 commit. The result is what it prints: true is "File committed successfully". The error of
    copyFile (245) is overwritten by that of Remove (246). *)
Definition d_commit (tmp d : bytes) (complete : bool) : D bool :=
  let^ _ := went (d_EnsureDir (Some Partials)) in
  if complete then went (d_rename tmp (fname d))
  else
    let^ _ := went (d_EnsureDir (Some Partials)) in
    let^ _ := went (d_copy_to_partial tmp (fname d)) in
    went (d_remove_staging tmp).
(** filesystem.go:256-266 reject: true is "Staging file removed successfully". *)
Definition d_reject (tmp : bytes) : D bool := went (d_remove_staging tmp).

(** The calls of the driver. *)
Inductive d_op :=
| DSet (b : bytes)
| DErase (d : bytes)
| DReceive (tmp payload : bytes) (offset : Z) (d : bytes)
| DCommit (tmp d : bytes) (complete : bool)
| DReject (tmp : bytes).
Definition d_step (o : d_op) (s : disk * list outcome) : disk * list outcome :=
  match o with
  | DSet b => snd (d_Set b s)
  | DErase d => snd (d_Erase d s)
  | DReceive tmp payload offset d => snd (d_Receive tmp payload offset d s)
  | DCommit tmp d complete => snd (d_commit tmp d complete s)
  | DReject tmp => snd (d_reject tmp s)
  end.
Definition d_run (ops : list d_op) (s : disk * list outcome) : disk * list outcome :=
  fold_left (fun s o => d_step o s) ops s.
End Disk.
(** Before the first run: not even the payload directory. *)
Definition no_disk : disk := Disk false false false (PDir [] [] []).
