(** Model of the relative codecs: entries relative to entries and 3d ranges
    (/repo/utils/entries.go:117-510), 3d ranges relative to 3d ranges
    (/repo/utils/ranges.go:209-823), areas in areas and entries in areas
    (/repo/utils/areas.go:200-659). Stream decoders read through M_Stream.v; the
    goroutine and result channel around them are left out. The schemes given by
    the caller are the codecs of M_Wire.v. *)
From Verif Require Import Base M_Order M_Encoding M_Paths M_Ranges M_Areas M_Entry M_Stream M_Wire.
Local Open Scope N_scope.

(** A header bit or two. *)
Definition flag (v : N) (b : bool) : N := if b then v else 0.
(** [int(math.Pow(2, float64(x)))] *)
Definition pow2 (x : N) : N := 2 ^ x.

(** NextAbsolute(w), DecodeIntMax64 of the first w bytes, Prune(w): the common
    sequence of the decoders below, e.g. /repo/utils/entries.go:264-271. *)
Definition stream_int (w : N) (s : stream) : res (N * stream) :=
  do (b, s1) <- NextAbsolute w s;
  do a <- slice b 0 w;
  do x <- DecodeIntMax64 a;
  Ok (x, Prune w s1).

(** ** Entries relative to entries *)

(** /repo/utils/entries.go:119-200 EncodeEntryRelativeEntry *)
Definition EncodeEntryRelativeEntry (ns ss ds : codec bytes) (isEqualNamespace : bytes -> bytes -> bool)
  (orderSubspace : bytes -> bytes -> rel) (pp : path_params) (e ref : entry) : res bytes :=
  let timeDiff := AbsDiffuint64 (e_time e) (e_time ref) in
  let encNs := negb (isEqualNamespace (e_namespace e) (e_namespace ref)) in
  let encSs := negb (orderSubspace (e_subspace e) (e_subspace ref) =? 0)%Z in
  let add := e_time ref <? e_time e in
  do p <- EncodeRelativePath pp (e_path e) (e_path ref);
  let header := N.lor (N.lor (N.lor (N.lor (flag 128 encNs) (flag 64 encSs)) (flag 32 add))
    (CompactWidthEndMasks (GetWidthMax64Int (e_length e))))
    (N.shiftl (CompactWidthEndMasks (GetWidthMax64Int timeDiff)) 2) in
  Ok ([u8 header]
      ++ (if encNs then c_enc ns (e_namespace e) else [])
      ++ (if encSs then c_enc ss (e_subspace e) else [])
      ++ p ++ EncodeIntMax64 timeDiff ++ EncodeIntMax64 (e_length e) ++ c_enc ds (e_digest e)).

(** /repo/utils/entries.go:216-304 DecodeStreamEntryRelativeEntry *)
Definition DecodeStreamEntryRelativeEntry (ns ss ds : codec bytes) (pp : path_params) (ref : entry)
  (s : stream) : res (entry * stream) :=
  do (b, s1) <- NextAbsolute 1 s;
  do header <- index b 0;
  let s2 := Prune 1 s1 in
  do (n, s3) <- (if has header 128 then c_dec ns s2 else Ok (e_namespace ref, s2));
  do (u, s4) <- (if has header 64 then c_dec ss s3 else Ok (e_subspace ref, s3));
  do (p, s5) <- DecodeRelPathStream pp s4 (e_path ref);
  do (d, s6) <- stream_int (pow2 (N.shiftr (N.land header 12) 2)) s5;
  do (l, s7) <- stream_int (pow2 (N.land header 3)) s6;
  do (dg, s8) <- c_dec ds s7;
  let t := if has header 32 then add64 (e_time ref) d else sub64 (e_time ref) d in
  Ok (Entry n u dg p t l, s8).

(** ** Entries relative to 3d ranges *)

(** /repo/utils/entries.go:307-407 EncodeEntryRelativeRange3d *)
Definition EncodeEntryRelativeRange3d (ss ds : codec bytes) (orderSubspace : bytes -> bytes -> rel)
  (pp : path_params) (e : entry) (outer : range3d) : res bytes :=
  let t := time_range outer in
  let p := path_range outer in
  let toStart := AbsDiffuint64 (e_time e) (r_start t) in
  let timeDiff := if r_open t then toStart else N.min toStart (AbsDiffuint64 (e_time e) (r_end t)) in
  let encSs := negb (orderSubspace (e_subspace e) (r_start (subspace_range outer)) =? 0)%Z in
  do (relStart, encPath) <-
    (if r_open p then do x <- EncodeRelativePath pp (e_path e) (r_start p); Ok (true, x)
     else do cs <- CommonPrefix (e_path e) (r_start p);
          do ce <- CommonPrefix (e_path e) (r_end p);
          if len ce <=? len cs
          then do x <- EncodeRelativePath pp (e_path e) (r_start p); Ok (true, x)
          else do x <- EncodeRelativePath pp (e_path e) (r_end p); Ok (false, x));
  let fromStart := timeDiff =? toStart in
  let add := if negb (r_open t)
             then (fromStart && (r_start t <=? e_time e)) || (negb fromStart && (r_end t <=? e_time e))
             else fromStart && (r_start t <=? e_time e) in
  let header := N.lor (N.lor (N.lor (N.lor (N.lor (flag 128 encSs) (flag 64 relStart)) (flag 32 fromStart))
    (flag 16 add)) (N.shiftl (CompactWidthEndMasks (GetWidthMax64Int timeDiff)) 2))
    (CompactWidthEndMasks (GetWidthMax64Int (e_length e))) in
  Ok ([u8 header] ++ (if encSs then c_enc ss (e_subspace e) else []) ++ encPath
      ++ EncodeIntMax64 timeDiff ++ EncodeIntMax64 (e_length e) ++ c_enc ds (e_digest e)).

(** /repo/utils/entries.go:409-504 DecodeStreamEntryRelativeRange3d. The two
    errors for an open end come before the payload length is read. *)
Definition DecodeStreamEntryRelativeRange3d (ss ds : codec bytes) (pp : path_params) (outer : range3d)
  (namespace : bytes) (s : stream) : res (entry * stream) :=
  let t := time_range outer in
  let p := path_range outer in
  do (b, s1) <- NextAbsolute 1 s;
  do header <- index b 0;
  let s2 := Prune 1 s1 in
  do (u, s3) <- (if has header 128 then c_dec ss s2 else Ok (r_start (subspace_range outer), s2));
  do (q, s4) <- (if has header 64 then DecodeRelPathStream pp s3 (r_start p)
                 else if r_open p then Panic else DecodeRelPathStream pp s3 (r_end p));
  do (d, s5) <- stream_int (pow2 (N.shiftr (N.land header 12) 2)) s4;
  do time <- (if has header 32 then Ok (if has header 16 then add64 (r_start t) d else sub64 (r_start t) d)
              else if r_open t then Err
              else Ok (if has header 16 then add64 (r_end t) d else sub64 (r_end t) d));
  do (l, s6) <- stream_int (pow2 (N.land header 3)) s5;
  do (dg, s7) <- c_dec ds s6;
  Ok (Entry namespace u dg q time l, s7).

(** ** 3d ranges relative to 3d ranges *)

(** [p, _ := CommonPrefix(a, b)]; [len(p)]: the error is dropped and the
    prefix nil. *)
Definition common_len (a b : path) : N := match CommonPrefix a b with Ok c => len c | _ => 0 end.

(** The switch of /repo/utils/ranges.go:318-327 and 345-352: nothing for width 1. *)
Definition width_code (w : N) : N := if w =? 2 then 1 else if w =? 4 then 2 else if w =? 8 then 3 else 0.

(** /repo/utils/ranges.go:209-373 EncodeRange3dRelative. Line 257 combines
    encoding2, which is zero there, so that the bits set so far are lost. The
    paths are encoded, and the process ended when there is no common prefix,
    even where the end is open. *)
Definition EncodeRange3dRelative (ss : bytes -> bytes) (orderSubspace : bytes -> bytes -> rel) (pp : path_params)
  (r ref : range3d) : res bytes :=
  let rs := subspace_range r in let fs := subspace_range ref in
  let rp := path_range r in let fp := path_range ref in
  let rt := time_range r in let ft := time_range ref in
  let refEnd := if r_open ft then two64 - 1 else r_end ft in
  let rEnd := if r_open ft && r_open rt then two64 - 1 else r_end rt in
  let start_to_start := AbsDiffuint64 (r_start rt) (r_start ft) in
  let start_to_end := AbsDiffuint64 (r_start rt) refEnd in
  let end_to_start := AbsDiffuint64 rEnd (r_start ft) in
  let end_to_end := AbsDiffuint64 rEnd refEnd in
  let start_diff := N.min start_to_start start_to_end in
  let end_diff := N.min end_to_start end_to_end in
  let '(e1, sStart) :=
    if IsEqualRangeValue orderSubspace rs true fs true then (64, [])
    else if IsEqualRangeValue orderSubspace rs true fs false then (128, [])
    else (192, ss (r_start rs)) in
  let '(e1, sEnd) :=
    if r_open rs then (e1, [])
    else if IsEqualRangeValue orderSubspace rs false fs true then (16, [])
    else if IsEqualRangeValue orderSubspace rs false fs false then (N.lor e1 32, [])
    else (N.lor e1 48, ss (r_end rs)) in
  let relStart := common_len (r_start rp) (r_end fp) <=? common_len (r_start rp) (r_start fp) in
  do pStart <- EncodeRelativePath pp (r_start rp) (if relStart then r_start fp else r_end fp);
  let endRelStart := common_len (r_end rp) (r_end fp) <=? common_len (r_end rp) (r_start fp) in
  do pEnd <- EncodeRelativePath pp (r_end rp) (if endRelStart then r_start fp else r_end fp);
  let e1 := N.lor (N.lor (N.lor (N.lor e1 (flag 8 relStart)) (flag 4 (r_open rp)))
                 (flag 2 (endRelStart && negb (r_open rp)))) (flag 1 (r_open rt)) in
  let fromStart := start_to_start <=? start_to_end in
  let addStart := if fromStart then r_start ft <=? r_start rt else refEnd <=? r_start rt in
  let endFromStart := end_to_start <=? end_to_end in
  let addEnd := if endFromStart then r_start ft <=? rEnd else refEnd <=? rEnd in
  let e2 := N.lor (N.lor (N.lor (N.lor (N.lor (flag 128 fromStart) (flag 64 addStart))
              (N.shiftl (width_code (GetWidthMax64Int start_diff)) 4))
              (flag 8 endFromStart)) (flag 4 addEnd)) (width_code (GetWidthMax64Int end_diff)) in
  let endBytes := if negb (r_open rt) && r_open ft then EncodeIntMax64 end_diff else EncodeIntMax64 end_to_start in
  Ok ([e1; e2] ++ sStart ++ sEnd ++ pStart ++ pEnd ++ EncodeIntMax64 start_diff ++ endBytes).

(** How a subspace bound is given: the switches of /repo/utils/ranges.go:384-411
    and 583-616. *)
Inductive bound_code := CYes | CRefEnd | CRefStart | CNone.
Definition start_code (b : N) : bound_code :=
  if has b 192 then CYes else if has b 128 then CRefEnd else if has b 64 then CRefStart else CNone.
Definition end_code (b : N) : bound_code :=
  if has b 48 then CYes else if has b 32 then CRefEnd else if has b 16 then CRefStart else CNone.

(** /repo/utils/ranges.go:375-569 DecodeStreamRange3dRelative. The second switch
    (402-411) assigns the variable of the first, so that the end of the subspace
    range is decoded by no case (its zero value, closed) and the start by the
    code of the end; line 415 tests a masked bit against 0x40, which it never
    equals; lines 534-539 add to the end of the reference range also where the
    start is meant; the end time difference is not pruned. *)
Definition DecodeStreamRange3dRelative (ss : codec bytes) (pp : path_params) (ref : range3d) (s : stream)
  : res (range3d * stream) :=
  let fs := subspace_range ref in let fp := path_range ref in let ft := time_range ref in
  do (b, s1) <- NextAbsolute 2 s;
  do b1 <- index b 0;
  do b2 <- index b 1;
  do _ <- match start_code b1 with CNone => Err | _ => Ok tt end;
  let s2 := Prune 2 s1 in
  do (sStart, s3) <- match end_code b1 with
    | CRefStart => Ok (r_start fs, s2)
    | CRefEnd => if r_open fs then Err else Ok (r_end fs, s2)
    | CYes => c_dec ss s2
    | CNone => Ok ([], s2)
    end;
  do (pStart, s4) <- (if has b1 8 then DecodeRelPathStream pp s3 (r_start fp)
                      else if r_open fp then Err else DecodeRelPathStream pp s3 (r_end fp));
  do (pEnd, s5) <- (if N.land b1 4 =? 64 then Ok ([], s4)
                    else if has b1 2 then DecodeRelPathStream pp s4 (r_start fp)
                    else if r_open fp then Err else DecodeRelPathStream pp s4 (r_end fp));
  let pOpen := N.land b1 4 =? 64 in
  do (sd, s6) <- stream_int (pow2 (N.shiftr (N.land b2 48) 4)) s5;
  do tStart <- (if has b2 128 then Ok (if has b2 64 then add64 (r_start ft) sd else sub64 (r_start ft) sd)
                else if r_open ft then Err
                else Ok (if has b2 64 then add64 (r_end ft) sd else sub64 (r_end ft) sd));
  if has b1 1 then Ok (Range3d (Range sStart [] false) (Range pStart pEnd pOpen) (Range tStart tStart true), s6)
  else
    let w := pow2 (N.land b2 3) in
    do (c, s7) <- NextAbsolute w s6;
    do a <- slice c 0 w;
    do ed <- DecodeIntMax64 a;
    do tEnd <- (if has b2 8 then Ok (if has b2 4 then add64 (r_end ft) ed else sub64 (r_end ft) ed)
                else if r_open ft then Err
                else Ok (if has b2 4 then add64 (r_end ft) ed else sub64 (r_end ft) ed));
    Ok (Range3d (Range sStart [] false) (Range pStart pEnd pOpen) (Range tStart tEnd false), s7).

(** The same function, /repo/utils/ranges.go:375-569, with the stream as it is when an error is returned (397, 444, 474, 489,
    512, 545): [None] is the error. DecodeStreamSubspaceId (447) cannot return one in Go; of a [c_dec] that does, the error is passed on.
    P_RangeCodec.v shows that both definitions agree. *)
Definition or_stop {A B} (r : res (option A * stream)) (k : A -> stream -> res (option B * stream)) : res (option B * stream) :=
  do (o, s) <- r; match o with Some a => k a s | None => Ok (None, s) end.
Definition some_of {A} (r : res (A * stream)) : res (option A * stream) := do (a, s) <- r; Ok (Some a, s).
Definition range_stream (ss : codec bytes) (pp : path_params) (ref : range3d) (s : stream) : res (option range3d * stream) :=
  let fs := subspace_range ref in let fp := path_range ref in let ft := time_range ref in
  do (b, s1) <- NextAbsolute 2 s;
  do b1 <- index b 0;
  do b2 <- index b 1;
  if match start_code b1 with CNone => true | _ => false end then Ok (None, s1)
  else
    or_stop (match end_code b1 with
      | CRefStart => Ok (Some (r_start fs), Prune 2 s1)
      | CRefEnd => Ok (if r_open fs then None else Some (r_end fs), Prune 2 s1)
      | CYes => some_of (c_dec ss (Prune 2 s1))
      | CNone => Ok (Some [], Prune 2 s1)
      end) (fun sStart s3 =>
    or_stop (if has b1 8 then some_of (DecodeRelPathStream pp s3 (r_start fp))
             else if r_open fp then Ok (None, s3) else some_of (DecodeRelPathStream pp s3 (r_end fp))) (fun pStart s4 =>
    or_stop (if N.land b1 4 =? 64 then Ok (Some [], s4)
             else if has b1 2 then some_of (DecodeRelPathStream pp s4 (r_start fp))
             else if r_open fp then Ok (None, s4) else some_of (DecodeRelPathStream pp s4 (r_end fp))) (fun pEnd s5 =>
    let pOpen := N.land b1 4 =? 64 in
    do (sd, s6) <- stream_int (pow2 (N.shiftr (N.land b2 48) 4)) s5;
    if negb (has b2 128) && r_open ft then Ok (None, s6)
    else
      let base := if has b2 128 then r_start ft else r_end ft in
      let tStart := if has b2 64 then add64 base sd else sub64 base sd in
      if has b1 1 then Ok (Some (Range3d (Range sStart [] false) (Range pStart pEnd pOpen) (Range tStart tStart true)), s6)
      else
        let w := pow2 (N.land b2 3) in
        do (c, s7) <- NextAbsolute w s6;
        do a <- slice c 0 w;
        do ed <- DecodeIntMax64 a;
        if negb (has b2 8) && r_open ft then Ok (None, s7)
        else
          let tEnd := if has b2 4 then add64 (r_end ft) ed else sub64 (r_end ft) ed in
          Ok (Some (Range3d (Range sStart [] false) (Range pStart pEnd pOpen) (Range tStart tEnd false)), s7)))).

(** One path of /repo/utils/ranges.go:683-747: decode at the position and advance
    by EncodePathRelativeLength. *)
Definition dec_path_at (pp : path_params) (enc : bytes) (pos : N) (ref : path) : res (path * N) :=
  do b <- slice_from enc pos;
  do p <- DecodeRelativePath pp b ref;
  do l <- EncodePathRelativeLength pp p ref;
  Ok (p, pos + l).

(** /repo/utils/ranges.go:572-823 DecodeRange3dRelative. Lines 788-803 assign
    the end of the time range to its start. Positions are of the parameter type
    T in Go; here they do not wrap (encodings shorter than 2^bits). *)
Definition DecodeRange3dRelative (ss : encoding_scheme) (pp : path_params) (enc : bytes) (ref : range3d)
  : res range3d :=
  let fs := subspace_range ref in let fp := path_range ref in let ft := time_range ref in
  do b1 <- index enc 0;
  do b2 <- index enc 1;
  do _ <- match start_code b1 with CNone => Err | _ => Ok tt end;
  do (sStart, pos) <- match start_code b1 with
    | CRefStart => Ok (r_start fs, 2)
    | CRefEnd => if r_open fs then Err else Ok (r_end fs, 2)
    | CYes => do b <- slice_from enc 2; do x <- dec ss b; Ok (x, 2 + enc_length ss x)
    | CNone => Ok ([], 2)
    end;
  do (sEnd, pos) <- match end_code b1 with
    | CNone => Ok ([], pos)
    | CRefStart => Ok (r_start fs, pos)
    | CRefEnd => Ok (r_end fs, pos)
    | CYes => do b <- slice_from enc pos; do x <- dec ss b; Ok (x, pos + enc_length ss x)
    end;
  let sOpen := match end_code b1 with CNone => true | _ => false end in
  do (pStart, pos) <- (if has b1 8 then dec_path_at pp enc pos (r_start fp)
                       else if r_open fp then Err else dec_path_at pp enc pos (r_end fp));
  do (pEnd, pos) <- (if has b1 4 then Ok ([], pos)
                     else if has b1 2 then dec_path_at pp enc pos (r_start fp)
                     else if r_open fp then Err else dec_path_at pp enc pos (r_end fp));
  let w := pow2 (N.shiftr (N.land b2 48) 4) in
  do a <- slice enc pos (pos + w);
  do sd <- DecodeIntMax64 a;
  let pos := pos + w in
  do tStart <- (if has b2 128 then Ok (if has b2 64 then add64 (r_start ft) sd else sub64 (r_start ft) sd)
                else if r_open ft then Err
                else Ok (if has b2 64 then add64 (r_end ft) sd else sub64 (r_end ft) sd));
  do tStart <- (if has b1 1 then Ok tStart else
    let w := pow2 (N.land b2 3) in
    do a <- slice enc pos (pos + w);
    do ed <- DecodeIntMax64 a;
    if has b2 8 then Ok (if has b2 4 then add64 (r_start ft) ed else sub64 (r_start ft) ed)
    else if r_open ft then Err
    else Ok (if has b2 4 then add64 (r_end ft) ed else sub64 (r_end ft) ed));
  Ok (Range3d (Range sStart sEnd sOpen) (Range pStart pEnd (has b1 4)) (Range tStart 0 (has b1 1))).

(** ** Areas in areas *)

(** /repo/utils/areas.go:201 *)
Definition REALLY_BIG_INT : N := 18446744073709551601.

Definition same_subspace (orderSubspace : bytes -> bytes -> rel) (inner outer : area) : bool :=
  (area_any inner && area_any outer)
  || (negb (area_any inner) && negb (area_any outer)
      && (orderSubspace (area_subspace inner) (area_subspace outer) =? 0)%Z).

(** /repo/utils/areas.go:216-307 EncodeAreaInArea. That the inner area is not
    included only causes a message (217-219). *)
Definition EncodeAreaInArea (ss : bytes -> bytes) (orderSubspace : bytes -> bytes -> rel) (pp : path_params)
  (inner outer : area) : res bytes :=
  let it := area_times inner in let ot := area_times outer in
  let innerEnd := if r_open it then REALLY_BIG_INT else r_end it in
  let outerEnd := if r_open ot then REALLY_BIG_INT else r_end ot in
  let d1 := sub64 (r_start it) (r_start ot) in
  let startDiff := N.min d1 (sub64 outerEnd (r_start it)) in
  let d2 := sub64 innerEnd (r_start it) in
  let endDiff := N.min d2 (sub64 outerEnd innerEnd) in
  let same := same_subspace orderSubspace inner outer in
  let flags := N.lor (N.lor (N.lor (N.lor (N.lor (flag 128 (negb same)) (flag 64 (r_open it)))
    (flag 32 (startDiff =? d1))) (flag 16 (endDiff =? d2)))
    (N.shiftl (width_code (GetWidthMax64Int startDiff)) 2)) (width_code (GetWidthMax64Int endDiff)) in
  do p <- EncodeRelativePath pp (area_path inner) (area_path outer);
  Ok ([flags] ++ EncodeIntMax64 startDiff ++ (if r_open it then [] else EncodeIntMax64 endDiff) ++ p
      ++ (if same then [] else ss (area_subspace inner))).

(** /repo/utils/areas.go:310-357 EncodeAreaInAreaLength; the tests of OpenEnd at
    324 and 332 are the wrong way round, and the length of a subspace is that of
    the name, not of its encoding (317). *)
Definition EncodeAreaInAreaLength (orderSubspace : bytes -> bytes -> rel) (pp : path_params)
  (inner outer : area) : res N :=
  let it := area_times inner in let ot := area_times outer in
  let same := same_subspace orderSubspace inner outer in
  do pathLen <- EncodePathRelativeLength pp (area_path inner) (area_path outer);
  let innerEnd := if negb (r_open it) then REALLY_BIG_INT else r_end it in
  let outerEnd := if negb (r_open ot) then REALLY_BIG_INT else r_end ot in
  let startDiff := N.min (sub64 (r_start it) (r_start ot)) (sub64 outerEnd (r_start it)) in
  let endDiff := N.min (sub64 innerEnd (r_start it)) (sub64 outerEnd innerEnd) in
  Ok (1 + (if same then 0 else len (area_subspace inner)) + pathLen + GetWidthMax64Int startDiff
      + (if r_open it then 0 else GetWidthMax64Int endDiff)).

(** The path and the subspace of /repo/utils/areas.go:377-384 and 404-411; an
    error of the subspace decoder is dropped (then the subspace is nil). *)
Definition dec_area_rest (dec_ss : bytes -> res bytes) (pp : path_params) (enc : bytes) (pathPos : N)
  (encoded : bool) (outer : area) : res (path * bytes) :=
  do b <- slice_from enc pathPos;
  do p <- DecodeRelativePath pp b (area_path outer);
  do l <- EncodePathRelativeLength pp p (area_path outer);
  if encoded then
    do c <- slice_from enc (pathPos + l);
    match dec_ss c with Ok x => Ok (p, x) | Err => Ok (p, []) | Panic => Panic | Fatal => Fatal | Hang => Hang end
  else Ok (p, area_subspace outer).

(** /repo/utils/areas.go:359-426 DecodeAreaInArea. Where the difference is not
    added it is subtracted from the start of the outer range (389, 416). *)
Definition DecodeAreaInArea (dec_ss : bytes -> res bytes) (pp : path_params) (enc : bytes) (outer : area) : res area :=
  do flags <- index enc 0;
  let ot := area_times outer in
  let sw := pow2 (N.land 3 (N.shiftr flags 2)) in
  let ew := pow2 (N.land 3 flags) in
  if has flags 64 then
    do a <- slice enc 1 (1 + sw);
    do sd <- DecodeIntMax64 a;
    do (p, u) <- dec_area_rest dec_ss pp enc (1 + sw) (has flags 128) outer;
    let start := if has flags 32 then add64 (r_start ot) sd else sub64 (r_start ot) sd in
    Ok (Area u p (Range start REALLY_BIG_INT true) false)
  else
    do a <- slice enc 1 (1 + sw);
    do sd <- DecodeIntMax64 a;
    do b <- slice enc (1 + sw) (1 + sw + ew);
    do ed <- DecodeIntMax64 b;
    do (p, u) <- dec_area_rest dec_ss pp enc (1 + sw + ew) (has flags 128) outer;
    let start := if has flags 32 then add64 (r_start ot) sd else sub64 (r_start ot) sd in
    let end_ := if has flags 16 then add64 start ed else sub64 (r_end ot) ed in
    Ok (Area u p (Range start end_ false) false).

(** /repo/utils/areas.go:435-533 DecodeStreamAreaInArea. In Go [0x3 & flags >> 2]
    (447) is [(0x3 & flags) >> 2], which is 0, so the start difference is always
    read as one byte. A subspace decoded as nil is an error (465-467, 505-507). *)
Definition DecodeStreamAreaInArea (ss : codec bytes) (pp : path_params) (outer : area) (s : stream)
  : res (area * stream) :=
  do (b, s1) <- NextAbsolute 1 s;
  do flags <- index b 0;
  let ot := area_times outer in
  let sw := pow2 (N.shiftr (N.land 3 flags) 2) in
  let ew := pow2 (N.land 3 flags) in
  do (sd, s2) <- stream_int sw (Prune 1 s1);
  do (ed, s3) <- (if has flags 64 then Ok (0, s2) else stream_int ew s2);
  do (p, s4) <- DecodeRelPathStream pp s3 (area_path outer);
  do (u, s5) <- (if has flags 128
                 then do (x, s5) <- c_dec ss s4; match x with [] => Err | _ => Ok (x, s5) end
                 else Ok (area_subspace outer, s4));
  let start := if has flags 32 then add64 (r_start ot) sd else sub64 (r_start ot) sd in
  let times := if has flags 64 then Range start 0 true
               else Range start (if has flags 16 then add64 start ed else sub64 (r_end ot) ed) false in
  Ok (Area u p times false, s5).

(** ** Entries in areas *)

(** strconv.Itoa of a number below 1000 *)
Definition itoa (n : N) : bytes :=
  if n <? 10 then [48 + n]
  else if n <? 100 then [48 + n / 10; 48 + n mod 10]
  else [48 + n / 100; 48 + n / 10 mod 10; 48 + n mod 10].

(** /repo/utils/areas.go:537-604 EncodeEntryInNamespaceArea. The header and the
    widths are written as decimal text (573, 586, 590); the time difference and
    the payload length are not written; the flag says that the
    subspace is encoded exactly when it is not (550-554, 575-580). *)
Definition EncodeEntryInNamespaceArea (ss ds : bytes -> bytes) (pp : path_params) (e : entry) (outer : area)
  : res bytes :=
  let ot := area_times outer in
  let d := sub64 (e_time e) (r_start ot) in
  let timeDiff := if r_open ot then d else N.min d (sub64 (r_end ot) (e_time e)) in
  let header := N.lor (N.lor (N.lor (flag 128 (area_any outer))
    (flag 64 (r_open ot || (d <=? r_end ot))))
    (N.shiftl (CompactWidthEndMasks (GetWidthMax64Int timeDiff)) 4))
    (N.shiftl (CompactWidthEndMasks (GetWidthMax64Int (e_length e))) 2) in
  do p <- EncodeRelativePath pp (e_path e) (area_path outer);
  Ok (itoa header ++ (if area_any outer then [] else ss (e_subspace e)) ++ p
      ++ itoa (GetWidthMax64Int timeDiff) ++ itoa (GetWidthMax64Int (e_length e)) ++ ds (e_digest e)).

(** /repo/utils/areas.go:607-659 DecodeStreamEntryInNamespaceArea; the payload
    length is sliced out of what arrived with the time difference (634-635). *)
Definition DecodeStreamEntryInNamespaceArea (ss ds : codec bytes) (pp : path_params) (outer : area)
  (namespace : bytes) (s : stream) : res (entry * stream) :=
  let ot := area_times outer in
  do (b, s1) <- NextAbsolute 1 s;
  do header <- index b 0;
  let tw := pow2 (N.shiftr (N.land header 48) 4) in
  let lw := pow2 (N.shiftr (N.land header 12) 2) in
  let s2 := Prune 1 s1 in
  do (u, s3) <- (if has header 128 then c_dec ss s2
                 else if negb (area_any outer) then Ok (area_subspace outer, s2) else Err);
  do (p, s4) <- DecodeRelPathStream pp s3 (area_path outer);
  do (b1, s5) <- NextAbsolute tw s4;
  do a <- slice b1 0 tw;
  do d <- DecodeIntMax64 a;
  do (b2, s6) <- NextAbsolute tw s5;
  do c <- slice b2 tw (tw + lw);
  do l <- DecodeIntMax64 c;
  let s7 := Prune (tw + lw) s6 in
  do (dg, s8) <- c_dec ds s7;
  do t <- (if has header 64 then Ok (add64 (r_start ot) d)
           else if negb (r_open ot) then Ok (sub64 (r_end ot) d) else Err);
  Ok (Entry namespace u dg p t l, s8).
