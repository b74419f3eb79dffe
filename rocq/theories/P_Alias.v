(** Proofs about M_Alias. *)
From Verif Require Import Base M_Order M_Encoding M_Paths M_Alias S_Order P_Order P_Encoding P_Paths.
Local Open Scope N_scope.

Lemma firstn_contents s n :
  (vis s <= length (backing s))%nat -> (n <= vis s)%nat -> firstn n (backing s) = firstn n (contents s).
Proof. intros H1 H2. unfold contents. rewrite firstn_firstn. f_equal. lia. Qed.

Lemma contents_len s : (vis s <= length (backing s))%nat -> len (contents s) = N.of_nat (vis s).
Proof. intros H. unfold contents, len. rewrite firstn_length_le; lia. Qed.

(** The decoded value is the one of the whole array, which differs only where the
    reference is too short, and when the capacity is too small for the result
    memory is unchanged. *)
Lemma DecodeRelativePath_mem_spec pp enc s :
  (vis s <= length (backing s))%nat ->
  match DecodeRelativePath_mem pp enc s with
  | Ok (p, s') => DecodeRelativePath pp enc (backing s) = Ok p
                  /\ (DecodeRelativePath pp enc (contents s) = Ok p \/ DecodeRelativePath pp enc (contents s) = Panic)
                  /\ ((length (backing s) < length p)%nat -> s' = s)
  | Err => DecodeRelativePath pp enc (backing s) = Err
  | Panic => DecodeRelativePath pp enc (backing s) = Panic
  | Fatal => DecodeRelativePath pp enc (backing s) = Fatal
  | Hang => DecodeRelativePath pp enc (backing s) = Hang
  end.
Proof.
  intros Hv. unfold DecodeRelativePath_mem, DecodeRelativePath.
  destruct (slice enc 0 _) as [pb| | | |]; cbn [bind]; auto.
  destruct (match DecodeIntMax32 _ _ with Ok n => Ok n | _ => Fatal end) as [n| | | |]; cbn [bind]; auto.
  unfold slice. rewrite contents_len by auto. rewrite !N.sub_0_r.
  destruct (N.leb_spec 0 n), (N.leb_spec n (len (backing s))) as [L|L]; cbn [andb bind]; auto; try lia.
  destruct (slice_from enc _) as [rest| | | |]; cbn [bind]; auto.
  destruct (DecodePath pp rest) as [[k suffix]| | | |]; auto.
  unfold go_append. cbn [skipn N.to_nat]. split; [reflexivity|]. split.
  - destruct (N.leb_spec n (N.of_nat (vis s))) as [K|K]; cbn [bind]; [left|right; reflexivity].
    rewrite firstn_contents by lia. reflexivity.
  - unfold len in L. rewrite app_length, firstn_length_le by lia.
    intros H2. destruct (Nat.leb_spec (N.to_nat n + length suffix) (length (backing s))); [lia|].
    destruct s; reflexivity.
Qed.

(** When the result fits, the array afterwards starts with the result. *)
Lemma DecodeRelativePath_mem_overwrites pp enc s p s' :
  (vis s <= length (backing s))%nat ->
  DecodeRelativePath_mem pp enc s = Ok (p, s') ->
  (length p <= length (backing s))%nat ->
  backing s' = p ++ skipn (length p) (backing s).
Proof.
  intros Hv. unfold DecodeRelativePath_mem.
  destruct (slice enc 0 _) as [pb| | | |]; cbn [bind]; try discriminate.
  destruct (match DecodeIntMax32 _ _ with Ok n => Ok n | _ => Fatal end) as [n| | | |]; cbn [bind]; try discriminate.
  destruct (slice (backing s) 0 n) as [pre| | | |] eqn:E; cbn [bind]; try discriminate.
  destruct (slice_from enc _) as [rest| | | |]; cbn [bind]; try discriminate.
  destruct (DecodePath pp rest) as [[k suffix]| | | |]; try discriminate.
  unfold slice in E.
  destruct (N.leb_spec 0 n), (N.leb_spec n (len (backing s))) as [L|L]; cbn in E; try discriminate; try lia. unfold len in L.
  unfold go_append. intros K; inversion K; subst; clear K. cbn [backing].
  rewrite app_length, firstn_length_le by lia.
  intros H2. destruct (Nat.leb_spec (N.to_nat n + length suffix) (length (backing s))); [|lia].
  rewrite app_assoc. reflexivity.
Qed.
