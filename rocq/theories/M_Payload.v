(** Model of the payload driver, /repo/pkg/data_model/payload_kv_driver/filesystem.go,
    with its three directories, and of IngestPayload
    (/repo/pkg/data_model/store/store.go:281-346).

    A file is named by the encoded digest (GetKey, filesystem.go:23-26, without
    the base32 rendering, which is injective and cannot produce the names
    "staging" and "partial": C80_distinct, C80_inside). The empty name is the payload directory itself.
    I/O errors other than those shown are in M_Disk.v; os.File.Read is taken here to
    fill the buffer when the file is long enough. *)
From Verif Require Import Base M_Order M_Encoding M_Paths M_Keys M_Map M_Store.
Local Open Scope N_scope.

(** The payload directory, and its subdirectories "partial" and "staging". *)
Record pdir := PDir { p_files : bmap bytes; p_partial : bmap bytes; p_staging : bmap bytes }.

Section Driver.
Variable hash : bytes -> bytes.    (* PayloadScheme.FromBytes *)
Variable fname : bytes -> bytes.   (* PayloadScheme.EncodingScheme.Encode *)

(** filesystem.go:102-112 Set: digest and length. WriteFile on the directory
    fails; the error is dropped (109). *)
Definition pd_Set (b : bytes) (st : pdir) : (bytes * N) * pdir :=
  let k := fname (hash b) in
  ((hash b, len b),
   match k with [] => st | _ => PDir (mset (p_files st) k b) (p_partial st) (p_staging st) end).

(** filesystem.go:74-85 Get; the result is the path of the file, in which the
    closures of GetPayload (29-71) read. *)
Definition pd_Get (d : bytes) (st : pdir) : res bytes :=
  let k := fname d in
  match k with
  | [] => Ok k
  | _ => match mget (p_files st) k with Some _ => Ok k | None => Err end
  end.

(** filesystem.go:32-35 Bytes: a failing read gives nil. *)
Definition pl_Bytes (k : bytes) (st : pdir) : bytes :=
  match k with [] => [] | _ => match mget (p_files st) k with Some b => b | None => [] end end.

(** filesystem.go:37-56 BytesWithOffset (reading a directory is an error). *)
Definition pl_BytesWithOffset (k : bytes) (offset : Z) (st : pdir) : res bytes :=
  match k with
  | [] => Err
  | _ =>
      match mget (p_files st) k with
      | None => Err
      | Some b =>
          if (Z.of_N (len b) <=? offset)%Z then Err
          else if (offset <? 0)%Z then Err
          else slice_from b (Z.to_N offset)
      end
  end.

(** filesystem.go:58-68 Length of a file *)
Definition pl_Length (k : bytes) (st : pdir) : res N :=
  match mget (p_files st) k with Some b => Ok (len b) | None => Err end.

(** filesystem.go:88-99 Erase. os.Remove on the directory fails, or removes it
    when it is empty, which the next Set repairs. *)
Definition pd_Erase (d : bytes) (st : pdir) : res bool * pdir :=
  let k := fname d in
  match k with
  | [] => (Err, st)
  | _ => match mget (p_files st) k with
         | Some _ => (Ok true, PDir (mdel (p_files st) k) (p_partial st) (p_staging st))
         | None => (Err, st)
         end
  end.

(** filesystem.go:158-226 Receive with the random file name [tmp]: digest and
    length of what has been received. O_TRUNC (190) empties the copy of the
    partial file; Truncate(offset) (199) then fills it with zeros. A buffer of
    negative length panics (219). Simplified: copying the partial file of the empty
    name, which is the directory "partial", also panics, and here leaves no empty
    staging file behind (145). *)
Definition pd_Receive (tmp : bytes) (payload : bytes) (offset : Z) (d : bytes) (st : pdir)
  : res (bytes * N) * pdir :=
  if (0 <? offset)%Z && match mget (p_partial st) (fname d) with None => true | _ => false end then (Panic, st)
  else
    let content := repeat 0 (Z.to_nat offset) ++ payload in
    let st' := PDir (p_files st) (p_partial st) (mset (p_staging st) tmp content) in
    let received := (offset + Z.of_N (len payload))%Z in
    if (received <? 0)%Z then (Panic, st')
    else
      let data := firstn (Z.to_nat received) content in
      (Ok (hash data, Z.to_N received), st').

(** filesystem.go:229-253: the commit function returned by Receive. *)
Definition pd_commit (tmp d : bytes) (complete : bool) (st : pdir) : pdir :=
  match mget (p_staging st) tmp with
  | None => st
  | Some b =>
      if complete then
        match fname d with
        | [] => st
        | k => PDir (mset (p_files st) k b) (p_partial st) (mdel (p_staging st) tmp)
        end
      else
        match fname d with
        | [] => PDir (p_files st) (p_partial st) (mdel (p_staging st) tmp)
        | k => PDir (p_files st) (mset (p_partial st) k b) (mdel (p_staging st) tmp)
        end
  end.

(** filesystem.go:256-266: the reject function returned by Receive. *)
Definition pd_reject (tmp : bytes) (st : pdir) : pdir :=
  PDir (p_files st) (p_partial st) (mdel (p_staging st) tmp).

(** The three things a caller does with the driver. *)
Inductive verdict := Complete | Partial | Rejected.
Inductive pd_op :=
| PdSet (b : bytes)
| PdErase (d : bytes)
| PdReceive (tmp payload : bytes) (offset : Z) (d : bytes) (v : verdict).

(** One operation; a panic in Receive (deferred Unlock runs) ends the request but
    leaves the directories as they are. *)
Definition pd_step (o : pd_op) (st : pdir) : pdir :=
  match o with
  | PdSet b => snd (pd_Set b st)
  | PdErase d => snd (pd_Erase d st)
  | PdReceive tmp payload offset d v =>
      match pd_Receive tmp payload offset d st with
      | (Ok _, st') =>
          match v with
          | Complete => pd_commit tmp d true st'
          | Partial => pd_commit tmp d false st'
          | Rejected => pd_reject tmp st'
          end
      | (_, st') => st'
      end
  end.
Definition pd_run (ops : list pd_op) (st : pdir) : pdir := fold_left (fun s o => pd_step o s) ops st.
Definition pd_empty : pdir := PDir [] [] [].
End Driver.

(** ** IngestPayload *)

(** store.go:272-279 Status *)
Inductive status := Failure | No_Op | Success.

(** reflect.DeepEqual(payload, Payload{}) for a payload returned by Get: its
    fields are non-nil functions, which are never deeply equal. *)
Definition is_zero_payload (k : bytes) : bool := false.

(** store.go:316-345: receiving the payload of an entry with the value [w], with the byte
    order for PayloadScheme.Order (which is nil in the shipped scheme,
    StoreSchemes.go:103-122). The boolean is "error is nil". *)
Definition ingest_received (C : cfg) (tmp : bytes) (w : values) (payload : bytes) (allowPartial : bool) (offset : Z)
  (st : pdir) : res (status * bool) * pdir :=
  match pd_Receive (c_hash C) (c_fname C) tmp payload offset (v_digest w) st with
  | (Ok (d, n), st') =>
      let same := (OrderBytes d (v_digest w) =? 0)%Z in
      if (v_length w <? n) || (negb allowPartial && negb (v_length w =? n))
         || ((n =? v_length w) && negb same)
      then (Ok (Failure, false), pd_reject tmp st')
      else
        let st2 := pd_commit (c_fname C) tmp (v_digest w) (n =? v_length w) st' in
        if (n =? v_length w) && same then
          match pd_Get (c_fname C) (v_digest w) st2, pd_Get (c_fname C) (v_auth w) st2 with
          | Ok k1, Ok k2 =>
              if is_zero_payload k1 || is_zero_payload k2 then (Ok (No_Op, false), st2)
              else (Ok (Success, true), st2)
          | _, _ => (Ok (No_Op, false), st2)
          end
        else (Ok (Success, true), st2)
  | (Err, st') => (Ok (No_Op, false), st')
  | (Panic, st') => (Panic, st') | (Fatal, st') => (Fatal, st') | (Hang, st') => (Hang, st')
  end.

(** store.go:303-345: the part after the entry lookup. *)
Definition ingest_payload_rest (C : cfg) (tmp : bytes) (value payload : bytes) (allowPartial : bool) (offset : Z)
  (st : pdir) : res (status * bool) * pdir :=
  match DecodeValues value with
  | Ok w =>
      match pd_Get (c_fname C) (v_digest w) st with
      | Ok k =>
          if negb (is_zero_payload k) then (Ok (No_Op, false), st)
          else ingest_received C tmp w payload allowPartial offset st
      | _ => (Ok (No_Op, false), st)
      end
  | Err => (Err, st) | Panic => (Panic, st) | Fatal => (Fatal, st) | Hang => (Hang, st)
  end.

(** store.go:281-346 IngestPayload. Status 0 is No_Op. A stored value is never
    empty, so the test at 299 ([getEntry != nil]) is true for every entry found. *)
Definition IngestPayload (C : cfg) (tmp : bytes) (p : position) (payload : bytes) (allowPartial : bool) (offset : Z)
  (db : bmap bytes) (st : pdir) : res (status * bool) * pdir :=
  match mget db (EncodeKey p (c_pp C)) with
  | None => (Ok (No_Op, false), st)
  | Some [] => ingest_payload_rest C tmp [] payload allowPartial offset st
  | Some _ => (Ok (Failure, false), st)
  end.
