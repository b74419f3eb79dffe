(** The decoders that are relative to a reference, with paths as slices in memory.
    DecodeRelativePath and DecodeRelPathStream (/repo/utils/paths.go:187-223) end
    with [append(reference[0:n], suffix...)], which writes into the array of the
    reference when there is room, and cut [reference] up to its capacity, not its
    length. M_Alias.v has one call of the first; here is the second, and the
    functions of ranges.go, areas.go and entries.go that call them, once or twice.
    Components are not written to; byte slices and all else stay values. *)
From Verif Require Import Base M_Order M_Encoding M_Paths M_Successor M_Ranges M_Areas M_Entry M_Stream M_Wire M_Rel.
Local Open Scope N_scope.

(** The arrays of components that were allocated. A path is a slice from the
    start of one of them, and its capacity is the rest of the array. *)
Definition pheap := list path.
Record pslice := Ps { p_arr : nat; p_len : nat }.
Definition array (h : pheap) (s : pslice) : path := nth (p_arr s) h [].
Definition seen (h : pheap) (s : pslice) : path := firstn (p_len s) (array h s).

(** A range of paths and an entry as they lie in memory; the path of an entry
    without one is kept beside it. *)
Record mrange := MRange { m_start : pslice; m_end : pslice; m_open : bool }.
Definition mpaths (h : pheap) (r : mrange) : range path := Range (seen h (m_start r)) (seen h (m_end r)) (m_open r).

Section Alloc.
(** What an allocation for [n] components adds. *)
Context (extra : nat -> nat).

(** [append(s[0:k], suffix...)] *)
Definition append_at (h : pheap) (s : pslice) (k : nat) (suffix : path) : pslice * pheap :=
  let a := array h s in
  let n := (k + length suffix)%nat in
  if Nat.leb n (length a)
  then (Ps (p_arr s) n, update_nth (p_arr s) (firstn k a ++ suffix ++ skipn n a) h)
  else (Ps (length h) n, h ++ [firstn k a ++ suffix ++ repeat [] (extra n)]).

(** /repo/utils/paths.go:187-206 DecodeRelativePath *)
Definition DecodeRelativePath_at (pp : path_params) (enc : bytes) (h : pheap) (reference : pslice) : res (pslice * pheap) :=
  let w := GetWidthMax32Int (max_component_count pp) in
  do pb <- slice enc 0 w;
  do n <- match DecodeIntMax32 pb (max_component_count pp) with Ok n => Ok n | _ => Fatal end;
  do _ <- slice (array h reference) 0 n;
  do rest <- slice_from enc w;
  match DecodePath pp rest with
  | Ok (_, suffix) => Ok (append_at h reference (N.to_nat n) suffix)
  | Err => Fatal
  | Panic => Panic
  | Fatal => Fatal
  | Hang => Hang
  end.

(** /repo/utils/paths.go:208-223 DecodeRelPathStream *)
Definition DecodeRelPathStream_at (pp : path_params) (s : stream) (h : pheap) (reference : pslice)
  : res (pslice * pheap * stream) :=
  let w := GetWidthMax32Int (max_component_count pp) in
  do (acc, s1) <- NextAbsolute w s;
  do pb <- slice acc 0 w;
  do n <- decode_or_zero pb (max_component_count pp);
  do _ <- slice (array h reference) 0 n;
  do (suffix, s2) <- DecodePathStream pp (Prune w s1);
  Ok (append_at h reference (N.to_nat n) suffix, s2).

(** /repo/utils/ranges.go:375-569 DecodeStreamRange3dRelative: the path range as
    slices beside the other two ranges ([path_range ref] is not used). *)
Definition DecodeStreamRange3dRelative_at (ss : codec bytes) (pp : path_params) (h : pheap) (ref : range3d) (fp : mrange) (s : stream)
  : res (range bytes * mrange * range N * pheap * stream) :=
  let fs := subspace_range ref in let ft := time_range ref in
  do (b, s1) <- NextAbsolute 2 s;
  do b1 <- index b 0;
  do b2 <- index b 1;
  do _ <- match start_code b1 with CNone => Err | _ => Ok tt end;
  let s2 := Prune 2 s1 in
  do (sStart, s3) <- match end_code b1 with
    | CRefStart => Ok (r_start fs, s2)
    | CRefEnd => if r_open fs then Err else Ok (r_end fs, s2)
    | CYes => c_dec ss s2
    | CNone => Ok ([], s2)
    end;
  do (ph, s4) <- (if has b1 8 then DecodeRelPathStream_at pp s3 h (m_start fp)
                  else if m_open fp then Err else DecodeRelPathStream_at pp s3 h (m_end fp));
  let '(pStart, h) := ph in
  do (ph, s5) <- (if N.land b1 4 =? 64 then Ok (Ps 0 0, h, s4)
                  else if has b1 2 then DecodeRelPathStream_at pp s4 h (m_start fp)
                  else if m_open fp then Err else DecodeRelPathStream_at pp s4 h (m_end fp));
  let '(pEnd, h) := ph in
  let pOpen := N.land b1 4 =? 64 in
  do (sd, s6) <- stream_int (pow2 (N.shiftr (N.land b2 48) 4)) s5;
  do tStart <- (if has b2 128 then Ok (if has b2 64 then add64 (r_start ft) sd else sub64 (r_start ft) sd)
                else if r_open ft then Err
                else Ok (if has b2 64 then add64 (r_end ft) sd else sub64 (r_end ft) sd));
  if has b1 1 then Ok (Range sStart [] false, MRange pStart pEnd pOpen, Range tStart tStart true, h, s6)
  else
    let w := pow2 (N.land b2 3) in
    do (c, s7) <- NextAbsolute w s6;
    do a <- slice c 0 w;
    do ed <- DecodeIntMax64 a;
    do tEnd <- (if has b2 8 then Ok (if has b2 4 then add64 (r_end ft) ed else sub64 (r_end ft) ed)
                else if r_open ft then Err
                else Ok (if has b2 4 then add64 (r_end ft) ed else sub64 (r_end ft) ed));
    Ok (Range sStart [] false, MRange pStart pEnd pOpen, Range tStart tEnd false, h, s7).

(** One path of /repo/utils/ranges.go:683-747. EncodePathRelativeLength looks at
    the reference after the write. *)
Definition dec_path_at_at (pp : path_params) (enc : bytes) (pos : N) (h : pheap) (ref : pslice) : res (pslice * pheap * N) :=
  do b <- slice_from enc pos;
  do (p, h') <- DecodeRelativePath_at pp b h ref;
  do l <- EncodePathRelativeLength pp (seen h' p) (seen h' ref);
  Ok (p, h', pos + l).

(** /repo/utils/ranges.go:572-823 DecodeRange3dRelative *)
Definition DecodeRange3dRelative_at (ss : encoding_scheme) (pp : path_params) (enc : bytes) (h : pheap) (ref : range3d) (fp : mrange)
  : res (range bytes * mrange * range N * pheap) :=
  let fs := subspace_range ref in let ft := time_range ref in
  do b1 <- index enc 0;
  do b2 <- index enc 1;
  do _ <- match start_code b1 with CNone => Err | _ => Ok tt end;
  do (sStart, pos) <- match start_code b1 with
    | CRefStart => Ok (r_start fs, 2)
    | CRefEnd => if r_open fs then Err else Ok (r_end fs, 2)
    | CYes => do b <- slice_from enc 2; do x <- dec ss b; Ok (x, 2 + enc_length ss x)
    | CNone => Ok ([], 2)
    end;
  do (sEnd, pos) <- match end_code b1 with
    | CNone => Ok ([], pos)
    | CRefStart => Ok (r_start fs, pos)
    | CRefEnd => Ok (r_end fs, pos)
    | CYes => do b <- slice_from enc pos; do x <- dec ss b; Ok (x, pos + enc_length ss x)
    end;
  let sOpen := match end_code b1 with CNone => true | _ => false end in
  do (ph, pos) <- (if has b1 8 then dec_path_at_at pp enc pos h (m_start fp)
                   else if m_open fp then Err else dec_path_at_at pp enc pos h (m_end fp));
  let '(pStart, h) := ph in
  do (ph, pos) <- (if has b1 4 then Ok (Ps 0 0, h, pos)
                   else if has b1 2 then dec_path_at_at pp enc pos h (m_start fp)
                   else if m_open fp then Err else dec_path_at_at pp enc pos h (m_end fp));
  let '(pEnd, h) := ph in
  let w := pow2 (N.shiftr (N.land b2 48) 4) in
  do a <- slice enc pos (pos + w);
  do sd <- DecodeIntMax64 a;
  let pos := pos + w in
  do tStart <- (if has b2 128 then Ok (if has b2 64 then add64 (r_start ft) sd else sub64 (r_start ft) sd)
                else if r_open ft then Err
                else Ok (if has b2 64 then add64 (r_end ft) sd else sub64 (r_end ft) sd));
  do tStart <- (if has b1 1 then Ok tStart else
    let w := pow2 (N.land b2 3) in
    do a <- slice enc pos (pos + w);
    do ed <- DecodeIntMax64 a;
    if has b2 8 then Ok (if has b2 4 then add64 (r_start ft) ed else sub64 (r_start ft) ed)
    else if r_open ft then Err
    else Ok (if has b2 4 then add64 (r_end ft) ed else sub64 (r_end ft) ed));
  Ok (Range sStart sEnd sOpen, MRange pStart pEnd (has b1 4), Range tStart 0 (has b1 1), h).

(** /repo/utils/areas.go:359-426 DecodeAreaInArea: subspace, path and times. *)
Definition dec_area_rest_at (dec_ss : bytes -> res bytes) (pp : path_params) (enc : bytes) (pathPos : N)
  (encoded : bool) (h : pheap) (outer : area) (op : pslice) : res (pslice * pheap * bytes) :=
  do b <- slice_from enc pathPos;
  do (p, h') <- DecodeRelativePath_at pp b h op;
  do l <- EncodePathRelativeLength pp (seen h' p) (seen h' op);
  if encoded then
    do c <- slice_from enc (pathPos + l);
    match dec_ss c with
    | Ok x => Ok (p, h', x) | Err => Ok (p, h', []) | Panic => Panic | Fatal => Fatal | Hang => Hang
    end
  else Ok (p, h', area_subspace outer).
Definition DecodeAreaInArea_at (dec_ss : bytes -> res bytes) (pp : path_params) (enc : bytes) (h : pheap) (outer : area) (op : pslice)
  : res (bytes * pslice * range N * pheap) :=
  do flags <- index enc 0;
  let ot := area_times outer in
  let sw := pow2 (N.land 3 (N.shiftr flags 2)) in
  let ew := pow2 (N.land 3 flags) in
  if has flags 64 then
    do a <- slice enc 1 (1 + sw);
    do sd <- DecodeIntMax64 a;
    do (ph, u) <- dec_area_rest_at dec_ss pp enc (1 + sw) (has flags 128) h outer op;
    let start := if has flags 32 then add64 (r_start ot) sd else sub64 (r_start ot) sd in
    Ok (u, fst ph, Range start REALLY_BIG_INT true, snd ph)
  else
    do a <- slice enc 1 (1 + sw);
    do sd <- DecodeIntMax64 a;
    do b <- slice enc (1 + sw) (1 + sw + ew);
    do ed <- DecodeIntMax64 b;
    do (ph, u) <- dec_area_rest_at dec_ss pp enc (1 + sw + ew) (has flags 128) h outer op;
    let start := if has flags 32 then add64 (r_start ot) sd else sub64 (r_start ot) sd in
    let end_ := if has flags 16 then add64 start ed else sub64 (r_end ot) ed in
    Ok (u, fst ph, Range start end_ false, snd ph).

(** /repo/utils/areas.go:435-533 DecodeStreamAreaInArea: subspace, path and times. *)
Definition DecodeStreamAreaInArea_at (ss : codec bytes) (pp : path_params) (h : pheap) (outer : area) (op : pslice) (s : stream)
  : res (bytes * pslice * range N * pheap * stream) :=
  do (b, s1) <- NextAbsolute 1 s;
  do flags <- index b 0;
  let ot := area_times outer in
  let sw := pow2 (N.shiftr (N.land 3 flags) 2) in
  let ew := pow2 (N.land 3 flags) in
  do (sd, s2) <- stream_int sw (Prune 1 s1);
  do (ed, s3) <- (if has flags 64 then Ok (0, s2) else stream_int ew s2);
  do (ph, s4) <- DecodeRelPathStream_at pp s3 h op;
  do (u, s5) <- (if has flags 128
                 then do (x, s5) <- c_dec ss s4; match x with [] => Err | _ => Ok (x, s5) end
                 else Ok (area_subspace outer, s4));
  let start := if has flags 32 then add64 (r_start ot) sd else sub64 (r_start ot) sd in
  let times := if has flags 64 then Range start 0 true
               else Range start (if has flags 16 then add64 start ed else sub64 (r_end ot) ed) false in
  Ok (u, fst ph, times, snd ph, s5).

(** An entry with its path as a slice; [e_path] of the record is not used. *)
Definition mentry : Type := entry * pslice.
Definition entry_seen (h : pheap) (e : mentry) : entry :=
  let (x, p) := e in Entry (e_namespace x) (e_subspace x) (e_digest x) (seen h p) (e_time x) (e_length x).

(** /repo/utils/entries.go:216-304 DecodeStreamEntryRelativeEntry *)
Definition DecodeStreamEntryRelativeEntry_at (ns ss ds : codec bytes) (pp : path_params) (h : pheap) (mref : mentry) (s : stream)
  : res (mentry * pheap * stream) :=
  let (ref, rp) := mref in
  do (b, s1) <- NextAbsolute 1 s;
  do header <- index b 0;
  let s2 := Prune 1 s1 in
  do (n, s3) <- (if has header 128 then c_dec ns s2 else Ok (e_namespace ref, s2));
  do (u, s4) <- (if has header 64 then c_dec ss s3 else Ok (e_subspace ref, s3));
  do (ph, s5) <- DecodeRelPathStream_at pp s4 h rp;
  do (d, s6) <- stream_int (pow2 (N.shiftr (N.land header 12) 2)) s5;
  do (l, s7) <- stream_int (pow2 (N.land header 3)) s6;
  do (dg, s8) <- c_dec ds s7;
  let t := if has header 32 then add64 (e_time ref) d else sub64 (e_time ref) d in
  Ok ((Entry n u dg [] t l, fst ph), snd ph, s8).

(** Entries sent one after the other, each decoded relative to the one before it:
    DecodeReconciliationSendEntry (/repo/pkg/wgps/decoding/reconciliation.go:284-296)
    with the entry the tracker keeps in between
    (/repo/pkg/wgps/reconciliation/reconcile_msg_tracker.go:60-65). [n] entries; the
    other fields of the messages are left out. *)
Fixpoint decode_entries_at (ns ss ds : codec bytes) (pp : path_params) (n : nat) (h : pheap) (prev : mentry) (s : stream)
  : res (list mentry * pheap * stream) :=
  match n with
  | O => Ok ([], h, s)
  | S n =>
      do (eh, s) <- DecodeStreamEntryRelativeEntry_at ns ss ds pp h prev s;
      let '(e, h) := eh in
      do (lh, s) <- decode_entries_at ns ss ds pp n h e s;
      let '(l, h) := lh in
      Ok (e :: l, h, s)
  end.
End Alloc.

(** The same with values, by DecodeStreamEntryRelativeEntry of M_Rel.v. *)
Fixpoint decode_entries (ns ss ds : codec bytes) (pp : path_params) (n : nat) (prev : entry) (s : stream)
  : res (list entry * stream) :=
  match n with
  | O => Ok ([], s)
  | S n =>
      do (e, s) <- DecodeStreamEntryRelativeEntry ns ss ds pp prev s;
      do (l, s) <- decode_entries ns ss ds pp n e s;
      Ok (e :: l, s)
  end.
