(** The remaining two relative decoders of entries with paths as slices in memory,
    as in M_RelMem.v: relative to a range and relative to an area, which stay in
    use for the entries that follow. *)
From Verif Require Import Base M_Order M_Encoding M_Paths M_Successor M_Ranges M_Areas M_Entry M_Stream M_Wire M_Rel M_RelMem.
Local Open Scope N_scope.

Section Alloc.
Context (extra : nat -> nat).

(** /repo/utils/entries.go:412-504 DecodeStreamEntryRelativeRange3d
    ([path_range outer] is not used). *)
Definition DecodeStreamEntryRelativeRange3d_at (ss ds : codec bytes) (pp : path_params) (h : pheap) (outer : range3d) (fp : mrange)
  (namespace : bytes) (s : stream) : res (mentry * pheap * stream) :=
  let t := time_range outer in
  do (b, s1) <- NextAbsolute 1 s;
  do header <- index b 0;
  let s2 := Prune 1 s1 in
  do (u, s3) <- (if has header 128 then c_dec ss s2 else Ok (r_start (subspace_range outer), s2));
  do (ph, s4) <- (if has header 64 then DecodeRelPathStream_at extra pp s3 h (m_start fp)
                  else if m_open fp then Panic else DecodeRelPathStream_at extra pp s3 h (m_end fp));
  do (d, s5) <- stream_int (pow2 (N.shiftr (N.land header 12) 2)) s4;
  do time <- (if has header 32 then Ok (if has header 16 then add64 (r_start t) d else sub64 (r_start t) d)
              else if r_open t then Err
              else Ok (if has header 16 then add64 (r_end t) d else sub64 (r_end t) d));
  do (l, s6) <- stream_int (pow2 (N.land header 3)) s5;
  do (dg, s7) <- c_dec ds s6;
  Ok ((Entry namespace u dg [] time l, fst ph), snd ph, s7).

(** /repo/utils/areas.go:607-659 DecodeStreamEntryInNamespaceArea
    ([area_path outer] is not used). *)
Definition DecodeStreamEntryInNamespaceArea_at (ss ds : codec bytes) (pp : path_params) (h : pheap) (outer : area) (op : pslice)
  (namespace : bytes) (s : stream) : res (mentry * pheap * stream) :=
  let ot := area_times outer in
  do (b, s1) <- NextAbsolute 1 s;
  do header <- index b 0;
  let tw := pow2 (N.shiftr (N.land header 48) 4) in
  let lw := pow2 (N.shiftr (N.land header 12) 2) in
  let s2 := Prune 1 s1 in
  do (u, s3) <- (if has header 128 then c_dec ss s2
                 else if negb (area_any outer) then Ok (area_subspace outer, s2) else Err);
  do (ph, s4) <- DecodeRelPathStream_at extra pp s3 h op;
  do (b1, s5) <- NextAbsolute tw s4;
  do a <- slice b1 0 tw;
  do d <- DecodeIntMax64 a;
  do (b2, s6) <- NextAbsolute tw s5;
  do c <- slice b2 tw (tw + lw);
  do l <- DecodeIntMax64 c;
  let s7 := Prune (tw + lw) s6 in
  do (dg, s8) <- c_dec ds s7;
  do t <- (if has header 64 then Ok (add64 (r_start ot) d)
           else if negb (r_open ot) then Ok (sub64 (r_end ot) d) else Err);
  Ok ((Entry namespace u dg [] t l, fst ph), snd ph, s8).

(** [n] entries sent one after the other in the area of one pair of handles:
    DecodeDataSendEntry (/repo/pkg/wgps/decoding/data.go:86-115), which asks for
    the area of the handles each time and gets the same slice. The other fields of
    the messages are left out. *)
Fixpoint decode_in_area_at (ss ds : codec bytes) (pp : path_params) (outer : area) (op : pslice) (namespace : bytes)
  (n : nat) (h : pheap) (s : stream) : res (list mentry * pheap * stream) :=
  match n with
  | O => Ok ([], h, s)
  | S n =>
      do (eh, s) <- DecodeStreamEntryInNamespaceArea_at ss ds pp h outer op namespace s;
      let '(e, h) := eh in
      do (lh, s) <- decode_in_area_at ss ds pp outer op namespace n h s;
      let '(l, h) := lh in
      Ok (e :: l, h, s)
  end.
End Alloc.

(** The same with values, by DecodeStreamEntryInNamespaceArea of M_Rel.v. *)
Fixpoint decode_in_area (ss ds : codec bytes) (pp : path_params) (outer : area) (namespace : bytes) (n : nat) (s : stream)
  : res (list entry * stream) :=
  match n with
  | O => Ok ([], s)
  | S n =>
      do (e, s) <- DecodeStreamEntryInNamespaceArea ss ds pp outer namespace s;
      do (l, s) <- decode_in_area ss ds pp outer namespace n s;
      Ok (e :: l, s)
  end.
