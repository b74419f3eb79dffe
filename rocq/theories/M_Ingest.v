(** IngestPayload of M_Payload.v, one call of pebble or of the operating system at a time, any of which may fail. *)
From Verif Require Import Base M_Order M_Encoding M_Paths M_Keys M_Map M_Store M_Payload M_Fault M_Disk.
Local Open Scope N_scope.

(** store.go:316-346: receiving the payload of an entry with the value [w]. The error of Receive is always nil; commit (325)
    and reject (321) return nothing; Get (328, 336) is an error when Lstat is. The boolean is "error is nil". *)
Definition d_ingest_received (C : cfg) (tmp : bytes) (w : values) (payload : bytes) (allowPartial : bool) (offset : Z) : D (status * bool) :=
  let^ r := d_Receive (c_hash C) (c_fname C) tmp payload offset (v_digest w) in
  let '(d, n) := r in
  let same := (OrderBytes d (v_digest w) =? 0)%Z in
  if (v_length w <? n) || (negb allowPartial && negb (v_length w =? n)) || ((n =? v_length w) && negb same)
  then let^ _ := d_reject tmp in retD (Failure, false)
  else
    let^ _ := d_commit (c_fname C) tmp (v_digest w) (n =? v_length w) in
    if (n =? v_length w) && same then
      let^ complete := went (d_Get (c_fname C) (v_digest w)) in
      if negb complete then retD (No_Op, false)
      else
        let^ token := went (d_Get (c_fname C) (v_auth w)) in
        if negb token then retD (No_Op, false) else retD (Success, true)
    else retD (Success, true).

(** store.go:303-346: the part after the entry lookup; a payload that Get returns is never the zero one (312). *)
Definition d_ingest_rest (C : cfg) (tmp : bytes) (value payload : bytes) (allowPartial : bool) (offset : Z) : D (status * bool) :=
  match DecodeValues value with
  | Ok w =>
      let^ found := went (d_Get (c_fname C) (v_digest w)) in
      if found then
        if negb (is_zero_payload (c_fname C (v_digest w))) then retD (No_Op, false)
        else d_ingest_received C tmp w payload allowPartial offset
      else retD (No_Op, false)
  | Err => failD | Panic => panicD
  | Fatal => fun s => (Fatal, s) | Hang => fun s => (Hang, s)
  end.

(** store.go:281-347 IngestPayload: an error of the database and a key it does not have give the same result (295-298). *)
Definition d_IngestPayload (C : cfg) (tmp : bytes) (p : position) (payload : bytes) (allowPartial : bool) (offset : Z)
  (db : bmap bytes) : D (status * bool) :=
  let^ o := call in
  match o, mget db (EncodeKey p (c_pp C)) with
  | Fine, Some [] => d_ingest_rest C tmp [] payload allowPartial offset
  | Fine, Some _ => retD (Failure, false)
  | _, _ => retD (No_Op, false)
  end.
