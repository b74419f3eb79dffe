(** Model of the messages that carry an entry, an area or a 3d range:
    /repo/pkg/wgps/encoding/{data,setup,reconciliation}.go and
    /repo/pkg/wgps/decoding/{data,setup,reconciliation}.go. Conversions to
    ValueType, of [bits] bits, truncate. *)
From Verif Require Import Base M_Order M_Encoding M_Paths M_Ranges M_Areas M_Entry M_Stream M_Wire M_Rel.
Local Open Scope N_scope.

(** ** Data messages, /repo/pkg/wgps/wgpstypes/types.go:318-327, 352-361 *)
Section Data.
Context {T : Type}.
Record msg_data_entry := MsgDataEntry { de_entry : entry; de_static : N; de_dynamic : T; de_offset : N }.
Record msg_request_payload := MsgRequestPayload { rp_entry : entry; rp_offset : N; rp_capability : N }.

Variables (ns ss ds : codec bytes) (isEqualNamespace : bytes -> bytes -> bool)
  (orderSubspace : bytes -> bytes -> rel) (pp : path_params).
(** AoiHandlesToArea, AoiHandlesToNamespace *)
Variables (handles_area : N -> N -> area) (handles_namespace : N -> N -> bytes).

(** /repo/pkg/wgps/encoding/data.go:10-78 EncodeDataSendEntry. Line 24 looks up the
    handle itself, not its width, in CompactWidthEndMasks; line 39 looks up the
    width shifted by 5, which is no key of the map; the offset is never appended
    (56, 77). *)
Definition EncodeDataSendEntry (tok : codec T) (current : entry) (m : msg_data_entry) : res bytes :=
  let first := N.lor 96 (CompactWidthOr 0 (de_static m)) in
  let o := de_offset m in
  let l := e_length (de_entry m) in
  let second := N.lor (N.lor (flag 128 (negb (o =? 0) && negb (o =? l)))
    (if o =? 0 then 0 else if o =? l then 32 else CompactWidthOr 0 (N.shiftl (GetWidthMax64Int o) 5))) 16 in
  do e <- EncodeEntryRelativeEntry ns ss ds isEqualNamespace orderSubspace pp (de_entry m) current;
  Ok ([u8 first; u8 second] ++ EncodeIntMax64 (de_static m) ++ c_enc tok (de_dynamic m) ++ e).

(** An entry relative to the current one, or in the area of two handles:
    /repo/pkg/wgps/decoding/data.go:86-115 and 252-281. An error of
    DecodeStreamEntryRelativeEntry is dropped with a zero entry in Go and kept
    here. The third case of the Go code (no handles) is not reachable, as the
    widths are never 0. *)
Definition decode_sent_entry (current : entry) (second : N) (sw rw : N) (s : stream) : res (entry * stream) :=
  if has second 16 then DecodeStreamEntryRelativeEntry ns ss ds pp current s
  else
    do (b, s1) <- NextAbsolute (sw + rw) s;
    do a <- slice b 0 sw;
    do c <- slice b sw (sw + rw);
    let sh := int64_or_zero a in let rh := int64_or_zero c in
    DecodeStreamEntryInNamespaceArea ss ds pp (handles_area sh rh) (handles_namespace sh rh) (Prune (sw + rw) s1).

(** /repo/pkg/wgps/decoding/data.go:23-134 DecodeDataSendEntry *)
Definition DecodeDataSendEntry (tok : codec T) (current : entry) (s : stream) : res (msg_data_entry * stream) :=
  do (b, s1) <- NextAbsolute 2 s;
  do first <- index b 0;
  do second <- index b 1;
  let cw := CompactWidthFromEndOfByte first in
  let encoded := has second 128 in
  let whole := negb encoded && has second 32 in
  let ow := CompactWidthFromEndOfByte (N.shiftr (N.land second 96) 5) in
  let sw := CompactWidthFromEndOfByte (N.shiftr (N.land second 12) 2) in
  let rw := CompactWidthFromEndOfByte second in
  do (h, s3) <- stream_int cw (Prune 2 s1);
  do (t, s4) <- c_dec tok s3;
  do (o, s5) <- (if encoded then stream_int ow s4 else Ok (0, s4));
  do (e, s6) <- decode_sent_entry current second sw rw s5;
  Ok (MsgDataEntry e h t (if encoded then o else if whole then e_length e else 0), s6).

(** /repo/pkg/wgps/encoding/data.go:105-178 EncodeDataBindPayloadRequest *)
Definition EncodeDataBindPayloadRequest (current : entry) (m : msg_request_payload) : res bytes :=
  let o := rp_offset m in
  let first := CompactWidthOr 108 (GetWidthMax64Int (rp_capability m)) in
  let second := N.lor (N.lor (flag 128 (negb (o =? 0)))
    (if o =? 0 then 0 else N.shiftl (CompactWidthOr 0 (GetWidthMax64Int o)) 5)) 16 in
  do e <- EncodeEntryRelativeEntry ns ss ds isEqualNamespace orderSubspace pp (rp_entry m) current;
  Ok ([u8 first; u8 second] ++ EncodeIntMax64 (rp_capability m)
      ++ (if o =? 0 then [] else EncodeIntMax64 o) ++ e).

(** /repo/pkg/wgps/decoding/data.go:202-290 DecodeDataBindPayloadRequest. The offset
    is sliced out of what arrived with the capability (242, no wait). *)
Definition DecodeDataBindPayloadRequest (current : entry) (s : stream) : res (msg_request_payload * stream) :=
  do (b, s1) <- NextAbsolute 2 s;
  do first <- index b 0;
  do second <- index b 1;
  let cw := CompactWidthFromEndOfByte first in
  let encoded := has second 128 in
  let ow := if encoded then CompactWidthFromEndOfByte (N.shiftr (N.land second 96) 5) else 0 in
  let sw := CompactWidthFromEndOfByte (N.shiftr second 2) in
  let rw := CompactWidthFromEndOfByte second in
  do (b1, s2) <- NextAbsolute (cw + 2) s1;
  do a <- slice b1 2 (2 + cw);
  do o <- (if encoded then do c <- slice b1 (2 + cw) (2 + cw + ow); Ok (int64_or_zero c) else Ok 0);
  do (e, s3) <- decode_sent_entry current second sw rw (Prune (2 + cw + ow) s2);
  Ok (MsgRequestPayload e o (int64_or_zero a), s3).
End Data.
Arguments msg_data_entry : clear implicits.

(** ** Binding an area of interest, /repo/pkg/wgps/wgpstypes/types.go:244-251 *)
Record msg_bind_aoi := MsgBindAoi { ba_aoi : area_of_interest; ba_authorisation : N }.

(** /repo/pkg/wgps/encoding/setup.go:30-83. Line 40 looks at the lowest byte of the
    limits only; line 46 joins the flag with the width before it is looked up in
    the map of widths. *)
Definition EncodeSetupBindAreaOfInterest (bits : N) (ss : bytes -> bytes) (orderSubspace : bytes -> bytes -> rel)
  (pp : path_params) (outer : area) (m : msg_bind_aoi) : res bytes :=
  let aoi := ba_aoi m in
  let v t := t mod 2 ^ bits in
  let value := if negb (u8 (aoi_max_count aoi) =? 0) || negb (u8 (aoi_max_size aoi) =? 0) then 4 else 0 in
  let auth := v (ba_authorisation m) in
  let header := CompactWidthOr 40 (N.lor (u8 (GetWidthMax64Int auth)) value) in
  do a <- EncodeAreaInArea ss orderSubspace pp (aoi_area aoi) outer;
  if (aoi_max_count aoi =? 0) && (aoi_max_size aoi =? 0)
  then Ok ([u8 header] ++ EncodeIntMax64 auth ++ a)
  else
    let shifted := u8 (N.shiftl (CompactWidthOr 0 (GetWidthMax64Int (v (aoi_max_count aoi)))) 2) in
    let lengths := u8 (N.shiftl (CompactWidthOr shifted (GetWidthMax64Int (v (aoi_max_size aoi)))) 4) in
    Ok ([u8 header] ++ EncodeIntMax64 auth ++ a ++ [lengths]
        ++ EncodeIntMax64 (v (aoi_max_count aoi)) ++ EncodeIntMax64 (v (aoi_max_size aoi))).

(** The empty encoding scheme of line 51 of decoding/setup.go: calling its nil
    DecodeStream panics. *)
Definition nil_codec : codec bytes := Codec (fun _ => []) (fun _ => Panic).

(** /repo/pkg/wgps/decoding/setup.go:35-94; [granted] is getPrivy. *)
Definition DecodeSetupBindAreaOfInterest (pp : path_params) (granted : N -> area) (s : stream)
  : res (msg_bind_aoi * stream) :=
  do (_, s1) <- NextAbsolute 1 s;
  do h <- index (g_array s1) 0;
  let cw := CompactWidthFromEndOfByte h in
  do (_, s2) <- NextAbsolute (1 + cw) s1;
  do a <- slice (g_array s2) 1 (1 + cw);
  let auth := int64_or_zero a in
  do (ar, s3) <- DecodeStreamAreaInArea nil_codec pp (granted auth) (Prune (1 + cw) s2);
  if negb (has h 4) then Ok (MsgBindAoi (AOI ar 0 0) auth, s3)
  else
    do (_, s4) <- NextAbsolute 1 s3;
    do m <- index (g_array s4) 0;
    let cc := CompactWidthFromEndOfByte (N.shiftr m 6) in
    let cs := CompactWidthFromEndOfByte (N.shiftr m 4) in
    do (_, s5) <- NextAbsolute (1 + cc + cs) s4;
    do c <- slice (g_array s5) 1 (1 + cc);
    do z <- slice (g_array s5) (1 + cc) (1 + cc + cs);
    Ok (MsgBindAoi (AOI ar (int64_or_zero c) (int64_or_zero z)) auth, Prune (1 + cc + cs) s5).

(** ** Reconciliation messages, /repo/pkg/wgps/wgpstypes/types.go:261-301 *)
Record msg_fingerprint (F : Type) := MsgFingerprint { fm_range : range3d; fm_fingerprint : F; fm_sender : N; fm_receiver : N;
                                           fm_covers : N; fm_does_cover : bool }.
Arguments MsgFingerprint {F}. Arguments fm_range {F}. Arguments fm_fingerprint {F}. Arguments fm_sender {F}.
Arguments fm_receiver {F}. Arguments fm_covers {F}. Arguments fm_does_cover {F}.
Record msg_announce := MsgAnnounce { an_range : range3d; an_count : N; an_want : bool; an_sort : bool;
                                     an_sender : N; an_receiver : N; an_covers : N; an_does_cover : bool }.
Record msg_lengthy_entry (T : Type) := MsgLengthyEntry { le_entry : entry; le_available : N; le_static : N; le_dynamic : T }.
Arguments MsgLengthyEntry {T}. Arguments le_entry {T}. Arguments le_available {T}. Arguments le_static {T}. Arguments le_dynamic {T}.

(** /repo/pkg/wgps/wgpstypes/types.go ReconciliationPrivy: the fields used by the
    encoders and the decoders of encoded messages *)
Record privy := Privy { pv_sender : N; pv_receiver : N; pv_range : range3d; pv_static : N; pv_entry : entry }.

Definition zero_range3d : range3d := Range3d (Range [] [] false) (Range [] [] false) (Range 0 0 false).
(** [Range, _ := DecodeStreamRange3dRelative(...)], decoding/reconciliation.go:97 and 205: the error is dropped and the
    range is zero; what has been read from the stream until then is gone. *)
Definition range_or_zero (ss : codec bytes) (pp : path_params) (ref : range3d) (s : stream)
  : res (range3d * stream) :=
  do (o, s') <- range_stream ss pp ref s; Ok (match o with Some r => r | None => zero_range3d end, s').

Section Reconciliation.
Context {F T : Type}.
Variables (bits : N) (ss : codec bytes) (orderSubspace : bytes -> bytes -> rel) (pp : path_params) (pv : privy).
(** AoiHandlesToRange3d *)
Variable handles_range : N -> N -> range3d.

(** /repo/pkg/wgps/encoding/reconciliation.go:10-124. The bits of the sender's width
    (57-61) are those of the receiver's handle and conversely (63-67). *)
Definition EncodeReconciliationSendFingerprint (neutral : F -> bool) (fp : F -> bytes) (m : msg_fingerprint F) : res bytes :=
  let v t := t mod 2 ^ bits in
  let sameS := fm_sender m =? pv_sender pv in
  let sameR := fm_receiver m =? pv_receiver pv in
  let none := fm_covers m =? 1 in
  let header := N.lor (N.lor (N.lor (N.lor 64 (flag 8 (neutral (fm_fingerprint m)))) 4) (flag 2 sameS)) (flag 1 sameR) in
  let widths := N.lor
    (if sameS then 0 else u8 (N.shiftl (CompactWidthOr 0 (GetWidthMax64Int (v (fm_receiver m)))) 6))
    (if sameR then 0 else u8 (N.shiftl (CompactWidthOr 0 (GetWidthMax64Int (v (fm_sender m)))) 4)) in
  let widths := if none then widths
                else u8 (CompactWidthOr (N.lor widths 8) (GetWidthMax64Int (v (fm_covers m)))) in
  do r <- EncodeRange3dRelative (c_enc ss) orderSubspace pp (fm_range m) (pv_range pv);
  Ok ([header; widths]
      ++ (if none then [] else EncodeIntMax64 (v (fm_covers m)))
      ++ (if sameS then [] else EncodeIntMax64 (v (fm_sender m)))
      ++ (if sameR then [] else EncodeIntMax64 (v (fm_receiver m)))
      ++ (if neutral (fm_fingerprint m) then [] else fp (fm_fingerprint m))
      ++ r).

(** /repo/pkg/wgps/decoding/reconciliation.go:22-110; COVERS_NONE is 0 here (43) and
    1 in the encoder (27). *)
Definition DecodeReconciliationSendFingerprint (neutral : F) (dec_fp : stream -> res (F * stream)) (s : stream)
  : res (msg_fingerprint F * stream) :=
  do (b, s1) <- NextAbsolute 2 s;
  do first <- index b 0;
  do second <- index b 1;
  do (covers, s3) <- (if has second 8 then stream_int (pow2 (N.land second 3)) (Prune 2 s1) else Ok (0, Prune 2 s1));
  do (sender, s4) <- (if has first 2 then Ok (pv_sender pv, s3) else stream_int (pow2 (N.shiftr second 6)) s3);
  do (receiver, s5) <- (if has first 1 then Ok (pv_receiver pv, s4)
                        else stream_int (pow2 (N.land (N.shiftr second 4) 3)) s4);
  do (f, s6) <- (if has first 8 then Ok (neutral, s5) else dec_fp s5);
  do (r, s7) <- range_or_zero ss pp (if has first 4 then pv_range pv else handles_range sender receiver) s6;
  Ok (MsgFingerprint r f sender receiver covers true, s7).

(** /repo/pkg/wgps/encoding/reconciliation.go:126-257 *)
Definition EncodeReconciliationAnnounceEntries (m : msg_announce) : res bytes :=
  let v t := t mod 2 ^ bits in
  let sameS := an_sender m =? pv_sender pv in
  let sameR := an_receiver m =? pv_receiver pv in
  let none := an_covers m =? 1 in
  let code t := CompactWidthOr 0 (GetWidthMax64Int (v t)) in
  let first := N.lor (N.lor (N.lor (N.lor 80 (flag 8 (an_want m))) 4) (flag 2 sameS)) (flag 1 sameR) in
  let handles :=
    if negb sameS && negb sameR then u8 (N.shiftl (N.lor (u8 (N.shiftl (code (an_sender m)) 2)) (code (an_receiver m))) 4)
    else if negb sameS && sameR then u8 (N.shiftl (code (an_sender m)) 6)
    else if sameS && negb sameR then u8 (N.shiftl (code (an_receiver m)) 4)
    else 0 in
  let second := N.lor (N.lor (N.lor handles (N.shiftl (code (an_count m)) 2)) (flag 2 (an_sort m))) (flag 1 (negb none)) in
  do r <- EncodeRange3dRelative (c_enc ss) orderSubspace pp (an_range m) (pv_range pv);
  Ok ([first; second]
      ++ (if none then [] else if 252 <=? an_covers m
          then [u8 (CompactWidthOr 252 (GetWidthMax64Int (v (an_covers m))))] ++ EncodeIntMax64 (v (an_covers m))
          else [an_covers m])
      ++ (if sameS then [] else EncodeIntMax64 (v (an_sender m)))
      ++ (if sameR then [] else EncodeIntMax64 (v (an_receiver m)))
      ++ EncodeIntMax64 (v (an_count m))
      ++ r).

(** /repo/pkg/wgps/decoding/reconciliation.go:119-220. Lines 151-155 take the width of
    the covers from the last bits of the second byte and wait for one byte too
    few. *)
Definition DecodeReconciliationAnnounceEntries (s : stream) : res (msg_announce * stream) :=
  do (b, s1) <- NextAbsolute 2 s;
  do first <- index b 0;
  do second <- index b 1;
  let s2 := Prune 2 s1 in
  do (covers, s3) <- (if has second 1
    then do (c, s3) <- NextAbsolute 1 s2;
         do l <- index c 0;
         if has l 252
         then let w := pow2 (N.land second 3) in
              do (c2, s4) <- NextAbsolute w s3;
              do a <- slice c2 1 (1 + w);
              Ok (int64_or_zero a, Prune (1 + w) s4)
         else Ok (l, Prune 1 s3)
    else Ok (0, s2));
  do (sender, s4) <- (if has first 2 then Ok (pv_sender pv, s3) else stream_int (pow2 (N.shiftr second 6)) s3);
  do (receiver, s5) <- (if has first 1 then Ok (pv_receiver pv, s4)
                        else stream_int (pow2 (N.land (N.shiftr second 4) 3)) s4);
  do (count, s6) <- stream_int (pow2 (N.shiftr (N.land second 12) 2)) s5;
  do (r, s7) <- range_or_zero ss pp (if has first 4 then pv_range pv else handles_range sender receiver) s6;
  Ok (MsgAnnounce r count (has first 8) (has second 2) sender receiver covers true, s7).

Variables (ns ds : codec bytes) (isEqualNamespace : bytes -> bytes -> bool).

(** /repo/pkg/wgps/encoding/reconciliation.go:259-346 *)
Definition EncodeReconciliationSendEntry (tok : codec T) (m : msg_lengthy_entry T) : res bytes :=
  let v t := t mod 2 ^ bits in
  let same := le_static m =? pv_static pv in
  let header := N.lor (N.lor (N.lor 80 (flag 8 same)) 4) (CompactWidthOr 0 (GetWidthMax64Int (v (le_available m)))) in
  let w := GetWidthMax64Int (v (le_static m)) in
  do e <- EncodeEntryRelativeEntry ns ss ds isEqualNamespace orderSubspace pp (le_entry m) (pv_entry pv);
  Ok ([header]
      ++ (if same then [] else if le_static m <? 63 then [le_static m]
          else if w =? 1 then [63] else if w =? 2 then [127] else if w =? 4 then [191] else [255])
      ++ (if negb same && (63 <? le_static m) then EncodeIntMax64 (v (le_static m)) else [])
      ++ EncodeIntMax64 (v (le_available m))
      ++ c_enc tok (le_dynamic m)
      ++ e).

Definition zero_entry : entry := Entry [] [] [] [] 0 0.

(** /repo/pkg/wgps/decoding/reconciliation.go:231-324. The token is decoded by a
    goroutine of its scheme whose result is only awaited at the end (279, 320),
    the entry by another: [token_first] says which of the two reads the stream
    first (finer interleavings are left out). For an entry relative to a range
    (299-311, never encoded) the result is not awaited; the goroutine that would
    decode it is left out. *)
Definition DecodeReconciliationSendEntry (token_first : bool) (tok : codec T) (s : stream)
  : res (msg_lengthy_entry T * stream) :=
  do (b, s1) <- NextAbsolute 1 s;
  do header <- index b 0;
  do (h, s2) <- (if has header 8 then Ok (pv_static pv, Prune 1 s1)
    else do (b1, s2) <- NextAbsolute 2 s1;
         do z <- index b1 1;
         let w := if has z 255 then 8 else if has z 191 then 4 else if has z 127 then 2 else 1 in
         do (b2, s3) <- NextAbsolute (2 + w) s2;
         do h <- (if z <? 63 then Ok z else do a <- slice b2 2 (2 + w); Ok (int64_or_zero a));
         Ok (h, Prune (2 + w) s3));
  do (av, s3) <- stream_int (pow2 (N.land header 3)) s2;
  let entry_of s := if has header 4 then DecodeStreamEntryRelativeEntry ns ss ds pp (pv_entry pv) s else Ok (zero_entry, s) in
  if token_first
  then do (t, s4) <- c_dec tok s3; do (e, s5) <- entry_of s4; Ok (MsgLengthyEntry e av h t, s5)
  else do (e, s4) <- entry_of s3; do (t, s5) <- c_dec tok s4; Ok (MsgLengthyEntry e av h t, s5).
End Reconciliation.
