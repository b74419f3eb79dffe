(** C80: names of payload files and keys of the capability map. *)
From Verif Require Import Base M_Order M_Encoding M_Paths M_Entry M_Ranges M_Areas M_Successor M_Keys M_Map M_Store M_Book M_Names S_Names
  P_Order P_Encoding P_Map P_Demo P_Names.
Local Open Scope N_scope.

(** A name or key can be read back, so different bytes have different names and different keys. *)
Theorem C80_read_back b : wf_bytes b -> unbase32 (base32 b) = b /\ unbase64 (base64 b) = b.
Proof. intros H. split; [apply unbase32_spec|apply unbase64_spec]; exact H. Qed.
Print Assumptions C80_read_back.

Theorem C80_distinct a b : wf_bytes a -> wf_bytes b -> (base32 a = base32 b \/ base64 a = base64 b) -> a = b.
Proof.
  intros A B [E|E].
  - rewrite <- (unbase32_spec a A), <- (unbase32_spec b B), E. reflexivity.
  - rewrite <- (unbase64_spec a A), <- (unbase64_spec b B), E. reflexivity.
Qed.
Print Assumptions C80_distinct.

(** "foobar" and its rests, as in RFC 4648. *)
Example C80_instance_text :
  map base32 [[102]; [102; 111]; [102; 111; 111]; [102; 111; 111; 98]; [102; 111; 111; 98; 97]; [102; 111; 111; 98; 97; 114]]
  = [[77; 89; 61; 61; 61; 61; 61; 61]; [77; 90; 88; 81; 61; 61; 61; 61]; [77; 90; 88; 87; 54; 61; 61; 61]; [77; 90; 88; 87; 54; 89; 81; 61];
     [77; 90; 88; 87; 54; 89; 84; 66]; [77; 90; 88; 87; 54; 89; 84; 66; 79; 73; 61; 61; 61; 61; 61; 61]]
  /\ map base64 [[102]; [102; 111]; [102; 111; 111]; [255; 239; 190]]
  = [[90; 103; 61; 61]; [90; 109; 56; 61]; [90; 109; 57; 118]; [47; 43; 43; 43]].
Proof. split; vm_compute; reflexivity. Qed.

Lemma hex_digit_lt c v : M_Entry.hex_digit c = Some v -> v < 16.
Proof.
  unfold M_Entry.hex_digit. repeat match goal with |- context [if ?b then _ else _] => destruct b eqn:? end; intros [= <-]; lia.
Qed.
Lemma hex_decode_wf d b : hex_decode d = Some b -> wf_bytes b.
Proof.
  remember (length d) as n eqn:E. assert (L : (length d <= n)%nat) by lia. clear E. revert d b L.
  induction n as [|n IH]; intros [|x [|y r]] b L; cbn [hex_decode]; try discriminate; try (intros [= <-]; constructor);
    cbn [length] in L; try lia.
  destruct (M_Entry.hex_digit x) as [u|] eqn:EU, (M_Entry.hex_digit y) as [v|] eqn:EV; try discriminate.
  destruct (hex_decode r) as [q|] eqn:ER; try discriminate. intros [= <-]. constructor.
  - pose proof (hex_digit_lt _ _ EU). pose proof (hex_digit_lt _ _ EV). lia.
  - apply (IH r q); [lia|exact ER].
Qed.
Lemma shipped_fname_wf d : wf_bytes (shipped_fname d).
Proof. unfold shipped_fname. destruct (hex_decode d) eqn:E; [eapply hex_decode_wf; eauto|constructor]. Qed.

(** Whatever digest a peer sends, the file stays inside the payload directory, and is none of its
    subdirectories: no '/' and no '.', neither "partial" nor "staging". *)
Theorem C80_inside d : let name := GetKey shipped_fname d in
  Forall (fun c => 65 <= c <= 90 \/ 50 <= c <= 55 \/ c = 61) name
  /\ ~ In 47 name /\ ~ In 46 name
  /\ name <> [112; 97; 114; 116; 105; 97; 108] /\ name <> [115; 116; 97; 103; 105; 110; 103].
Proof.
  cbv zeta. assert (A := base32_alphabet _ (shipped_fname_wf d)). fold (GetKey shipped_fname d) in A.
  split; [exact A|]. rewrite Forall_forall in A.
  assert (N : forall c, (c = 47 \/ c = 46 \/ c = 112 \/ c = 115) -> ~ In c (GetKey shipped_fname d)).
  { intros c Hc H. apply A in H. lia. }
  split; [apply N; auto|]. split; [apply N; auto|].
  split; intros E; [apply (N 112)|apply (N 115)]; auto; rewrite E; left; reflexivity.
Qed.
Print Assumptions C80_inside.

(** Digests made by hashing have different names when they differ; the name of a digest of 32
    bytes has 56 characters. *)
Theorem C80_digests a b : wf_bytes a -> wf_bytes b ->
  (GetKey shipped_fname (hex_encode a) = GetKey shipped_fname (hex_encode b) -> a = b)
  /\ (len a = 32 -> len (GetKey shipped_fname (hex_encode a)) = 56).
Proof.
  intros A B. unfold GetKey, shipped_fname. rewrite !hex_decode_encode by assumption. split.
  - intros E. apply C80_distinct; auto.
  - intros E. rewrite base32_length, E. reflexivity.
Qed.
Print Assumptions C80_digests.

Example C80_instance_digests : wf_bytes (repeat 171 32) /\ len (repeat 171 32) = 32
  /\ GetKey shipped_fname (hex_encode [0; 171]) = [65; 67; 86; 81; 61; 61; 61; 61].
Proof. split; [repeat constructor|]. vm_compute. auto. Qed.

(** Digests from elsewhere may share a name: the letter case of the digest does not matter, and
    all that are not hexadecimal name the payload directory itself. *)
Theorem C80_shared_refuted :
  exists d d' d'', d <> d' /\ GetKey shipped_fname d = GetKey shipped_fname d' /\ GetKey shipped_fname d <> []
    /\ d <> d'' /\ d'' <> [] /\ GetKey shipped_fname d'' = [].
Proof. exists [97; 98], [65; 66], [104; 105]. repeat split; vm_compute; try reflexivity; discriminate. Qed.
Print Assumptions C80_shared_refuted.

(** A store that names its files as on disk does what the store of M_Store.v does, which names
    them by the encoded digests: after any history both are still running or neither is, the
    entries, the tree and the counts are the same, each operation has the same result, each
    position reads as the same payload, and the files are the same under their names. *)
Theorem C80_store C ops : (forall d, wf_bytes (c_fname C d)) ->
  match run C ops empty_store, run (named C) ops empty_store with
  | Some st, Some st' =>
      kv st' = kv st /\ tree st' = tree st /\ refs st' = refs st
      /\ (forall o, fst (step (named C) o st') = fst (step C o st))
      /\ (forall p, fst (GetPayload (named C) p st') = fst (GetPayload C p st))
      /\ (forall d, M_Map.mget (files st') (GetKey (c_fname C) d) = M_Map.mget (files st) (c_fname C d))
      /\ (forall x v, M_Map.mget (files st') x = Some v -> exists d, x = GetKey (c_fname C) d /\ M_Map.mget (files st) (c_fname C d) = Some v)
  | None, None => True
  | _, _ => False
  end.
Proof.
  intros W. assert (K : forall d d', base32 (c_fname C d) = base32 (c_fname C d') -> c_fname C d = c_fname C d').
  { intros d d' E. apply C80_distinct; auto. }
  pose proof (sim_run C base32 K ops empty_store empty_store (same_empty C base32)) as H.
  change (renamed C base32) with (named C) in H.
  destruct (run C ops empty_store) as [st|], (run (named C) ops empty_store) as [st'|]; try exact H.
  split; [apply (same_kv _ _ _ _ H)|]. split; [apply (same_tree _ _ _ _ H)|]. split; [apply (same_refs _ _ _ _ H)|].
  split; [intros o; apply (sim_step C base32 K o st st' H)|]. split; [intros p; apply (sim_GetPayload C base32 p st st' H)|].
  split; [apply (same_files _ _ _ _ H)|]. intros x v E. destruct (same_names' _ _ _ _ H x v E) as (d & ->). exists d.
  split; [reflexivity|]. rewrite <- (same_files _ _ _ _ H). exact E.
Qed.
Print Assumptions C80_store.

(** The shipped schemes meet the hypothesis; a history with a file. *)
Example C80_instance_store : (forall d, wf_bytes (c_fname demo d))
  /\ exists st, run (named demo) [OpSet (Input [115] [[97]] [7; 8] 5) [115] 0] empty_store = Some st
     /\ mkeys (files st) = [[65; 52; 69; 65; 61; 61; 61; 61]; [79; 77; 61; 61; 61; 61; 61; 61]].
Proof. split; [exact shipped_fname_wf|]. eexists. split; vm_compute; reflexivity. Qed.

(** ** The capability map *)
Definition rekeyed (c : cap_finder) : cap_finder := map (fun kv => (base64 (fst kv), snd kv)) c.

Lemma bytes_eqb_spec a b : Bool.reflect (a = b) (bytes_eqb a b).
Proof. apply (beqb_spec a b). Qed.
Lemma b64_eqb a b : wf_bytes a -> wf_bytes b -> bytes_eqb (base64 a) (base64 b) = bytes_eqb a b.
Proof.
  intros A B. destruct (bytes_eqb_spec a b) as [H|N].
  - subst. destruct (bytes_eqb_spec (base64 b) (base64 b)); congruence.
  - destruct (bytes_eqb_spec (base64 a) (base64 b)) as [E|N']; auto. destruct N. apply C80_distinct; auto.
Qed.
Lemma rekeyed_get c x : wf_bytes x -> Forall (fun kv => wf_bytes (fst kv)) c ->
  M_Book.mget bytes_eqb (rekeyed c) (base64 x) = M_Book.mget bytes_eqb c x.
Proof.
  intros X. induction c as [|[y v] c IH]; intros H; cbn [rekeyed map M_Book.mget fst snd]; [reflexivity|].
  inversion H; subst. rewrite b64_eqb by assumption. destruct (bytes_eqb x y); [reflexivity|]. apply IH; assumption.
Qed.

(** With the keys in base64, as in the code, capabilities are added and found as with the encoded
    namespaces for keys. *)
Theorem C80_capabilities {Cap} encode (granted_namespace : Cap -> bytes) granted_area cap_of iter c h e :
  (forall ns, wf_bytes (encode ns)) -> Forall (fun kv => wf_bytes (fst kv)) c ->
  FindCapHandle (GetNamespaceKey encode) granted_area cap_of iter (rekeyed c) e = FindCapHandle encode granted_area cap_of iter c e
  /\ AddCap (GetNamespaceKey encode) granted_namespace cap_of (rekeyed c) h
     = (do c' <- AddCap encode granted_namespace cap_of c h; Ok (rekeyed c')).
Proof.
  intros W H. unfold FindCapHandle, AddCap, GetNamespaceKey. cbv zeta. rewrite !rekeyed_get by auto. split; [reflexivity|].
  destruct (M_Book.mget bytes_eqb c _) as [set|]; [|reflexivity]. cbn [bind]. f_equal. unfold M_Book.mput.
  cbn [rekeyed map fst snd]. f_equal. unfold M_Book.mdel, rekeyed. specialize (W (granted_namespace (cap_of h))).
  induction c as [|[y v] c IH]; [reflexivity|]. inversion H; subst. cbn [map filter fst snd].
  rewrite b64_eqb by assumption. destruct (bytes_eqb _ y); cbn [negb map fst snd]; rewrite IH by assumption; reflexivity.
Qed.
Print Assumptions C80_capabilities.

Example C80_instance_capabilities :
  FindCapHandle (C := area) (GetNamespaceKey (fun ns => ns)) (fun a => a) (fun _ => Area [] [] (Range 0 0 true) true) (fun l => l)
    (rekeyed [([110], [3; 4])]) (Entry [110] [115] [] [[97]] 1 0) = 3.
Proof. vm_compute. reflexivity. Qed.
