(** Model of /repo/utils/entries.go:13-115 (absolute entries) and of the
    identifier codecs of /repo/PinaGoladaStore/StoreSchemes.go. *)
From Verif Require Import Base M_Order M_Encoding M_Paths M_Stream.
Local Open Scope N_scope.

(** /repo/utils/encoding_types.go:13-18 EncodingScheme (DecodeStream left out:
    no caller modelled here uses it). A nil function is one that panics. *)
Record encoding_scheme := Scheme {
  enc : bytes -> bytes;
  dec : bytes -> res bytes;
  enc_length : bytes -> N
}.

(** /repo/utils/entries.go:13-19 EntryPosition *)
Definition EntryPosition (e : entry) : position := Position (e_subspace e) (e_path e) (e_time e).

(** /repo/utils/entries.go:26-49 EncodeEntry *)
Definition EncodeEntry (ns ss ds : encoding_scheme) (pp : path_params) (e : entry) : bytes :=
  enc ns (e_namespace e) ++ enc ss (e_subspace e) ++ EncodePath pp (e_path e)
  ++ BigIntToBytes (e_time e) ++ BigIntToBytes (e_length e) ++ enc ds (e_digest e).

(** /repo/utils/entries.go:55-115 DecodeEntry. The path is read from a
    GrowingBytes to which a goroutine feeds the rest of the input byte by byte
    (84-90); [sched] is the schedule of that goroutine. *)
Definition DecodeEntry (ns ss ds : encoding_scheme) (pp : path_params)
  (sched : list (nat * nat)) (b : bytes) : res entry :=
  do n <- dec ns b;
  let subspacePos := enc_length ns n in
  do b1 <- slice_from b subspacePos;
  do s <- dec ss b1;
  let pathPos := subspacePos + enc_length ss s in
  do encPath <- slice_from b pathPos;
  do (p, _) <- DecodePathStream pp (Stream [] encPath sched);
  let timestampPos := pathPos + EncodePathLength pp p in
  do bt <- slice_from b timestampPos;
  do t <- be_uint64 bt;
  do bl <- slice_from b (timestampPos + 8);
  do l <- be_uint64 bl;
  do bd <- slice_from b (timestampPos + 16);
  do d <- dec ds bd;
  Ok (Entry n s d p t l).

(** /repo/PinaGoladaStore/StoreSchemes.go:15-29 NameSpaceEncoding and 38-52
    SubspaceEncoding: both are the identity. *)
Definition shipped_id_scheme : encoding_scheme := Scheme (fun b => b) (fun b => Ok b) (fun b => len b).

Definition hex_digit (c : N) : option N :=
  if (48 <=? c) && (c <=? 57) then Some (c - 48)
  else if (97 <=? c) && (c <=? 102) then Some (c - 87)
  else if (65 <=? c) && (c <=? 70) then Some (c - 55)
  else None.

(** encoding/hex DecodeString: None is an error. *)
Fixpoint hex_decode (b : bytes) : option bytes :=
  match b with
  | [] => Some []
  | [_] => None
  | x :: y :: r =>
      match hex_digit x, hex_digit y, hex_decode r with
      | Some h, Some l, Some t => Some (h * 16 + l :: t)
      | _, _, _ => None
      end
  end.

(** /repo/PinaGoladaStore/StoreSchemes.go:103-112 TestPayloadScheme: Encode is
    hex decoding (empty on error), Decode and EncodedLength are nil. *)
Definition shipped_digest_scheme : encoding_scheme :=
  Scheme (fun b => match hex_decode b with Some r => r | None => [] end) (fun _ => Panic) (fun _ => 0).

(** A fixed-width scheme: [w] bytes, copied. Not in the repository; it is what
    the entry codec is written for. *)
Definition fixed_scheme (w : N) : encoding_scheme :=
  Scheme (fun b => b) (fun b => slice b 0 w) (fun _ => w).
