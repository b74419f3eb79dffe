(** C35, C36: the payload driver and payload ingestion. *)
From Verif Require Import Base M_Order M_Encoding M_Paths M_Keys M_Entry M_Map M_Store M_Payload S_Order S_Store
  P_Order P_Map P_Payload P_Demo Prop_Store.
Local Open Scope N_scope.

(** * C35 *)

(** What is stored stays readable under its digest, whole, through any later
    operations that neither erase that digest, nor complete a received payload
    under it, nor store different bytes whose digest has the same name. *)
Theorem C35_get_after_set hash fname b st ops :
  fname (hash b) <> [] ->
  (forall o, In o ops ->
     match o with
     | PdSet b' => fname (hash b') = fname (hash b) -> b' = b
     | PdErase d | PdReceive _ _ _ d Complete => fname d <> fname (hash b)
     | PdReceive _ _ _ _ _ => True
     end) ->
  let '((d, n), st1) := pd_Set hash fname b st in
  let st2 := pd_run hash fname ops st1 in
  d = hash b /\ n = len b
  /\ exists k, pd_Get fname d st2 = Ok k /\ pl_Bytes k st2 = b /\ pl_Length k st2 = Ok (len b).
Proof.
  intros Hn HO. unfold pd_Set. split; auto. split; auto. set (st1 := match fname (hash b) with [] => _ | _ => _ end).
  assert (H1 : mget (p_files st1) (fname (hash b)) = Some b).
  { unfold st1. destruct (fname (hash b)) eqn:E; [congruence|]. cbn [p_files]. rewrite mget_mset, beqb_refl; auto. }
  assert (H2 : mget (p_files (pd_run hash fname ops st1)) (fname (hash b)) = Some b).
  { apply run_keeps; auto. intros o Ho. specialize (HO o Ho). destruct o as [b'|d|tmp p off d v]; cbn [touches].
    - destruct (beqb_spec (fname (hash b')) (fname (hash b))) as [E|E]; [right; f_equal; auto|left; auto].
    - left; auto.
    - left. destruct v; auto. }
  exists (fname (hash b)). unfold pd_Get, pl_Bytes, pl_Length. rewrite H2. destruct (fname (hash b)); [congruence|auto].
Qed.
Print Assumptions C35_get_after_set.

(** Operations on one name leave what is read under another as it is. *)
Theorem C35_separate hash fname o d st :
  match o with
  | PdSet b => fname (hash b) <> fname d
  | PdErase d' | PdReceive _ _ _ d' Complete => fname d' <> fname d
  | PdReceive _ _ _ _ _ => True
  end ->
  pd_Get fname d (pd_step hash fname o st) = pd_Get fname d st
  /\ forall k, pd_Get fname d st = Ok k -> pl_Bytes k (pd_step hash fname o st) = pl_Bytes k st.
Proof.
  intros H. assert (E : mget (p_files (pd_step hash fname o st)) (fname d) = mget (p_files st) (fname d)).
  { apply step_other. destruct o as [b|d'|? ? ? d' v]; cbn [touches]; auto. destruct v; auto. }
  unfold pd_Get. rewrite E. split; auto.
  intros k Hk. assert (k = fname d).
  { clear E. destruct (fname d) as [|x f]; [congruence|]. destruct (mget (p_files st) (x :: f)); congruence. }
  subst k. unfold pl_Bytes. rewrite E. auto.
Qed.
Print Assumptions C35_separate.

(** After Erase the digest is gone; Erase succeeds where there is something to erase and is an
    error where there is nothing, or no name. A payload got before gives nothing any more. *)
Theorem C35_erased hash fname d st :
  (fname d <> [] -> pd_Get fname d (pd_step hash fname (PdErase d) st) = Err
     /\ fst (pd_Erase fname d st) = match pd_Get fname d st with Ok _ => Ok true | _ => Err end
     /\ (forall k, pd_Get fname d st = Ok k ->
           let st' := pd_step hash fname (PdErase d) st in
           pl_Bytes k st' = [] /\ pl_Length k st' = Err /\ forall offset, pl_BytesWithOffset k offset st' = Err))
  /\ (fname d = [] -> pd_Erase fname d st = (Err, st)).
Proof.
  split; intros H; cbn [pd_step]; unfold pd_Erase, pd_Get; [|rewrite H; auto]. destruct (fname d) as [|x r] eqn:E; [congruence|].
  destruct (mget (p_files st) (x :: r)) eqn:E2; cbn [snd p_files fst]; [|rewrite E2; repeat split; discriminate].
  rewrite mget_mdel, beqb_refl. repeat split; auto; injection H0 as <-; cbv zeta; unfold pl_Bytes, pl_Length, pl_BytesWithOffset;
    cbn [p_files]; rewrite mget_mdel, beqb_refl; reflexivity.
Qed.
Print Assumptions C35_erased.

(** Reading from an offset inside the payload: the bytes from there on. *)
Theorem C35_offset_partial k b st front rest :
  k <> [] -> mget (p_files st) k = Some b -> b = front ++ rest -> rest <> [] ->
  pl_BytesWithOffset k (Z.of_nat (length front)) st = Ok rest.
Proof.
  intros Hk Hm Hb Hr. unfold pl_BytesWithOffset. destruct k; [congruence|]. rewrite Hm.
  assert (HL : (length front < length b)%nat).
  { subst b. rewrite app_length. destruct rest; [congruence|cbn; lia]. }
  unfold len. destruct (Z.leb_spec (Z.of_N (N.of_nat (length b))) (Z.of_nat (length front))); [lia|].
  destruct (Z.ltb_spec (Z.of_nat (length front)) 0); [lia|].
  replace (Z.to_N (Z.of_nat (length front))) with (N.of_nat (length front)) by lia.
  rewrite skipn_slice_from by lia. subst b. rewrite skipn_app, skipn_all, Nat.sub_diag. auto.
Qed.
Print Assumptions C35_offset_partial.

(** Every offset and every name: bytes exactly for offsets inside an existing file, otherwise an error. *)
Theorem C35_offset_exact k offset st out :
  pl_BytesWithOffset k offset st = out <->
  (exists b front, k <> [] /\ mget (p_files st) k = Some (front ++ b) /\ b <> [] /\ offset = Z.of_nat (length front) /\ out = Ok b)
  \/ (out = Err /\ (k = [] \/ mget (p_files st) k = None \/ exists b, mget (p_files st) k = Some b /\ (offset < 0 \/ Z.of_nat (length b) <= offset)%Z)).
Proof.
  split.
  - intros <-. destruct k as [|c k]; [right; cbn; auto|]. destruct (mget (p_files st) (c :: k)) as [b|] eqn:E; [|right; cbn; rewrite E; auto].
    destruct (Z_lt_le_dec offset 0) as [L|L]; [right|destruct (Z_lt_le_dec offset (Z.of_nat (length b))) as [U|U]; [left|right]].
    + split; [|right; right; exists b; auto]. unfold pl_BytesWithOffset. rewrite E. unfold len. destruct (Z.leb_spec (Z.of_N (N.of_nat (length b))) offset); [reflexivity|].
      destruct (Z.ltb_spec offset 0); [reflexivity|lia].
    + set (n := Z.to_nat offset). assert (HL : length (firstn n b) = n) by (rewrite firstn_length; lia). assert (HS : skipn n b <> []).
      { intros X. apply (f_equal (@length N)) in X. rewrite skipn_length in X. cbn in X. lia. }
      exists (skipn n b), (firstn n b). rewrite firstn_skipn. split; [discriminate|]. split; [reflexivity|]. split; [exact HS|]. split; [rewrite HL; lia|].
      replace offset with (Z.of_nat (length (firstn n b))) by lia. eapply C35_offset_partial; [discriminate|exact E|symmetry; apply firstn_skipn|exact HS].
    + split; [|right; right; exists b; auto]. unfold pl_BytesWithOffset. rewrite E. unfold len. destruct (Z.leb_spec (Z.of_N (N.of_nat (length b))) offset); [reflexivity|lia].
  - intros [(b & front & Hk & E & Hb & -> & ->)|(-> & H)]; [eapply C35_offset_partial; eauto|].
    destruct k as [|c k]; [reflexivity|]. unfold pl_BytesWithOffset. destruct H as [H|[->|(b & -> & H)]]; [discriminate H|reflexivity|].
    unfold len. destruct (Z.leb_spec (Z.of_N (N.of_nat (length b))) offset); [reflexivity|]. destruct (Z.ltb_spec offset 0); [reflexivity|lia].
Qed.
Print Assumptions C35_offset_exact.

(** At the end of the payload, and so for the whole of an empty payload, the code
    reports an error instead of no bytes. *)
Theorem C35_offset_refuted :
  exists b st, mget (p_files st) [1] = Some b /\ pl_BytesWithOffset [1] (Z.of_N (len b)) st = Err
    /\ exists st', mget (p_files st') [1] = Some [] /\ pl_BytesWithOffset [1] 0 st' = Err.
Proof. exists [7; 8], (PDir [([1], [7; 8])] [] []). repeat split. exists (PDir [([1], [])] [] []). split; reflexivity. Qed.
Print Assumptions C35_offset_refuted.

(** The shipped digest names: different hash values have different names. *)
Theorem C35_shipped_names h h' : wf_bytes h -> wf_bytes h' ->
  shipped_fname (hex_encode h) = shipped_fname (hex_encode h') -> h = h'.
Proof. intros H H'. unfold shipped_fname. rewrite !hex_decode_encode by auto. auto. Qed.
Print Assumptions C35_shipped_names.

(** Digests coming from elsewhere need not be in that form: two different digests
    can share a file, and a digest that is not hexadecimal is always found. *)
Theorem C35_foreign_digest_refuted :
  (exists st d d', d <> d' /\ pd_Get shipped_fname d st <> Err
     /\ pd_Get shipped_fname d (pd_step hex_encode shipped_fname (PdErase d') st) = Err)
  /\ exists d, pd_Get shipped_fname d pd_empty <> Err.
Proof.
  split; [|exists [122]; discriminate].
  exists (PDir [([171], [1])] [] []), [97; 98], [65; 66]. split; [discriminate|]. vm_compute. split; [discriminate|reflexivity].
Qed.
Print Assumptions C35_foreign_digest_refuted.

(** A history on the shipped scheme (with the identity for SHA-256). *)
Example C35_instance :
  let ops := [PdSet [9]; PdReceive [200] [3] 0 (hex_encode [8]) Complete; PdErase (hex_encode [9]);
              PdReceive [201] [4] 0 (hex_encode [7; 7]) Partial] in
  let st := pd_run hex_encode shipped_fname (PdSet [7; 7] :: ops) pd_empty in
  shipped_fname (hex_encode [7; 7]) <> []
  /\ pd_Get shipped_fname (hex_encode [7; 7]) st = Ok [7; 7] /\ pl_Bytes [7; 7] st = [7; 7]
  /\ pl_BytesWithOffset [7; 7] 1 st = Ok [7] /\ pd_Get shipped_fname (hex_encode [9]) st = Err.
Proof. vm_compute. repeat split; try discriminate; reflexivity. Qed.

(** What is read under a name after any history from an empty directory is what the last operation that stored under this
    name has left there. A received payload is stored when it is completed and the call did not panic: for an offset above
    zero there must have been a part of it from the start. *)
Definition part_received fname (before : list pd_op) (k : bytes) : Prop :=
  exists tmp payload offset d, In (PdReceive tmp payload offset d Partial) before
    /\ fname d = k /\ (offset <= 0 <= offset + Z.of_nat (length payload))%Z.
Definition pd_writes hash fname (before : list pd_op) (o : pd_op) (k : bytes) (now : option bytes) : Prop :=
  match o with
  | PdSet b => fname (hash b) = k /\ now = Some b
  | PdErase d => fname d = k /\ now = None
  | PdReceive _ payload offset d Complete =>
      fname d = k /\ ((offset <= 0)%Z \/ part_received fname before k) /\ (0 <= offset + Z.of_nat (length payload))%Z
      /\ now = Some (repeat 0 (Z.to_nat offset) ++ payload)
  | PdReceive _ _ _ _ _ => False
  end.
Lemma partial_history hash fname k ops : k <> [] ->
  mget (p_partial (pd_run hash fname ops pd_empty)) k <> None <-> part_received fname ops k.
Proof.
  intros Hk. induction ops as [|o ops IH] using rev_ind.
  - cbn. split; [congruence|]. intros (? & ? & ? & ? & [] & _).
  - rewrite run_snoc. set (st := pd_run hash fname ops pd_empty) in *.
    assert (S : part_received fname (ops ++ [o]) k <-> part_received fname ops k \/
      exists tmp payload offset d, o = PdReceive tmp payload offset d Partial /\ fname d = k /\ (offset <= 0 <= offset + Z.of_nat (length payload))%Z).
    { unfold part_received. split.
      - intros (t & p & f & d & H & R). apply in_app_iff in H as [H|[H|[]]]; [left|right]; exists t, p, f, d; auto.
      - intros [(t & p & f & d & H & R)|(t & p & f & d & -> & R)]; exists t, p, f, d; split; auto; apply in_app_iff; cbn; auto. }
    rewrite S. destruct o as [b|d|tmp payload offset d v].
    + cbn [pd_step]. unfold pd_Set. cbn [snd]. replace (p_partial _) with (p_partial st) by (destruct (fname (hash b)); auto).
      rewrite IH. split; auto. intros [H|(? & ? & ? & ? & H & _)]; [auto|discriminate].
    + cbn [pd_step]. replace (p_partial _) with (p_partial st).
      2:{ unfold pd_Erase. destruct (fname d); auto. destruct (mget (p_files st) (n :: b)); auto. }
      rewrite IH. split; auto. intros [H|(? & ? & ? & ? & H & _)]; [auto|discriminate].
    + destruct (receive_step hash fname tmp payload offset d v st k Hk) as (_ & _ & P1 & P2).
      set (ok := (_ \/ _) /\ _) in *.
      assert (D : (ok /\ fname d = k /\ v = Partial) \/ ~ (ok /\ fname d = k /\ v = Partial)).
      { assert (DO : ok \/ ~ ok).
        { unfold ok. destruct (Z_le_gt_dec offset 0), (Z_le_gt_dec 0 (offset + Z.of_nat (length payload))), (mget (p_partial st) (fname d)); try (left; split; [auto|lia]; fail); try (left; split; [right; discriminate|lia]); right; intros [[H|H] H']; try lia; congruence. }
        destruct DO as [HO|HO]; [|right; tauto]. destruct (beqb_spec (fname d) k) as [Ek|Nk]; [|right; tauto].
        destruct v; [right; intros (_ & _ & H); discriminate|left; auto|right; intros (_ & _ & H); discriminate]. }
      destruct D as [D|D].
      * split; intros _; [|apply P1, D]. destruct D as ([O1 O2] & Ek & ->). subst k.
        destruct (Z_le_gt_dec offset 0); [right; exists tmp, payload, offset, d; repeat split; auto|].
        left. apply IH. destruct O1; [lia|auto].
      * rewrite (P2 D), IH. split; auto. intros [H|(? & ? & ? & ? & [= <- <- <- <- ->] & Ek & R)]; auto.
        exfalso. apply D. unfold ok. repeat split; auto; lia.
Qed.

Lemma history_files hash fname k ops b : k <> [] ->
  mget (p_files (pd_run hash fname ops pd_empty)) k = Some b <->
  exists before o after, ops = before ++ o :: after /\ pd_writes hash fname before o k (Some b)
    /\ forall l o' r now, after = l ++ o' :: r -> ~ pd_writes hash fname (before ++ o :: l) o' k now.
Proof.
  intros Hk. induction ops as [|o ops IH] using rev_ind.
  - cbn. split; [discriminate|]. intros (l & o & r & H & _). destruct l; discriminate.
  - rewrite run_snoc. set (st := pd_run hash fname ops pd_empty) in *.
    assert (K : (exists now, pd_writes hash fname ops o k now /\ mget (p_files (pd_step hash fname o st)) k = now)
             \/ (forall now, ~ pd_writes hash fname ops o k now) /\ mget (p_files (pd_step hash fname o st)) k = mget (p_files st) k).
    { destruct o as [b'|d|tmp payload offset d v].
      - destruct (beqb_spec (fname (hash b')) k) as [Ek|Nk].
        + left. exists (Some b'). split; [split; auto|]. cbn [pd_step]. unfold pd_Set. cbn [snd]. rewrite Ek. destruct k; [congruence|].
          cbn [p_files]. rewrite mget_mset, beqb_refl. auto.
        + right. split; [intros now [H _]; auto|]. apply step_other. auto.
      - destruct (beqb_spec (fname d) k) as [Ek|Nk].
        + left. exists None. split; [split; auto|]. cbn [pd_step]. unfold pd_Erase. rewrite Ek. destruct k as [|x f]; [congruence|].
          destruct (mget (p_files st) (x :: f)) eqn:G; cbn [snd p_files]; auto. rewrite mget_mdel, beqb_refl. auto.
        + right. split; [intros now [H _]; auto|]. apply step_other. auto.
      - destruct (receive_step hash fname tmp payload offset d v st k Hk) as (F1 & F2 & _ & _).
        set (ok := (_ \/ _) /\ _) in *.
        assert (EO : fname d = k -> (ok <-> ((offset <= 0)%Z \/ part_received fname ops k) /\ (0 <= offset + Z.of_nat (length payload))%Z)).
        { intros <-. unfold ok. rewrite <- (partial_history hash fname (fname d) ops Hk). fold st. tauto. }
        assert (D : (ok /\ fname d = k /\ v = Complete) \/ ~ (ok /\ fname d = k /\ v = Complete)).
        { assert (DO : ok \/ ~ ok).
          { unfold ok. destruct (Z_le_gt_dec offset 0), (Z_le_gt_dec 0 (offset + Z.of_nat (length payload))), (mget (p_partial st) (fname d)); try (left; split; [auto|lia]; fail); try (left; split; [right; discriminate|lia]); right; intros [[H|H] H']; try lia; congruence. }
          destruct DO as [HO|HO]; [|right; tauto]. destruct (beqb_spec (fname d) k) as [Ek|Nk]; [|right; tauto].
          destruct v; [left; auto|right; intros (_ & _ & H); discriminate|right; intros (_ & _ & H); discriminate]. }
        destruct D as [(D1 & D2 & ->)|D].
        + left. eexists. split; [|apply F1; auto]. apply (EO D2) in D1 as [D1 D3]. cbn [pd_writes]. auto.
        + right. split; [|apply F2, D]. intros now W. destruct v; try exact W. destruct W as (W1 & W2 & W3 & _).
          apply D. split; [apply (EO W1); auto|auto]. }
    split.
    + intros G. destruct K as [(now & W & E)|[NW E]].
      * exists ops, o, []. split; auto. split; [congruence|]. intros l o' r now' H. destruct l; discriminate.
      * rewrite E in G. apply IH in G as (l & o1 & r & -> & W & NL). exists l, o1, (r ++ [o]).
        split; [rewrite <- app_assoc; reflexivity|]. split; auto. intros l' o' r' now H.
        destruct r' as [|x r' _] using rev_ind.
        -- apply app_inj_tail in H as [-> ->]. apply NW.
        -- rewrite app_comm_cons, app_assoc in H. apply app_inj_tail in H as [-> ->]. eapply NL. reflexivity.
    + intros (l & o1 & r & H & W & NL). destruct r as [|x r _] using rev_ind.
      * apply app_inj_tail in H as [<- <-]. destruct K as [(now & W' & E)|[NW E]]; [|destruct (NW _ W)].
        rewrite E. clear - W W'. destruct o as [b'|d|tmp payload offset d v]; cbn [pd_writes] in *.
        -- destruct W, W'. congruence.
        -- destruct W as [_ W]. discriminate.
        -- destruct v; try contradiction. destruct W as (_ & _ & _ & W), W' as (_ & _ & _ & W'). congruence.
      * rewrite app_comm_cons, app_assoc in H. apply app_inj_tail in H as [-> ->].
        destruct K as [(now & W' & _)|[NW E]]; [exfalso; eapply NL; [reflexivity|exact W']|].
        rewrite E. apply IH. exists l, o1, r. split; auto. split; auto. intros l' o' r' now ->. eapply NL.
        rewrite <- app_assoc. reflexivity.
Qed.

Theorem C35_history hash fname ops d b :
  fname d <> [] ->
  let st := pd_run hash fname ops pd_empty in
  (pd_Get fname d st = Ok (fname d) /\ pl_Bytes (fname d) st = b) <->
  exists before o after, ops = before ++ o :: after /\ pd_writes hash fname before o (fname d) (Some b)
    /\ forall l o' r now, after = l ++ o' :: r -> ~ pd_writes hash fname (before ++ o :: l) o' (fname d) now.
Proof.
  intros Hk st.
  assert (E : (pd_Get fname d st = Ok (fname d) /\ pl_Bytes (fname d) st = b) <-> mget (p_files st) (fname d) = Some b).
  { unfold pd_Get, pl_Bytes. destruct (fname d) as [|x f]; [congruence|].
    destruct (mget (p_files st) (x :: f)); split; [intros [_ ->]; auto|intros [= ->]; auto|intros [H _]; discriminate|discriminate]. }
  rewrite E. clear E. apply history_files; auto.
Qed.
Print Assumptions C35_history.

Example C35_instance_history :
  let h := [PdSet [1]; PdReceive [200] [5] 0 (hex_encode [7; 7]) Partial; PdSet [7; 7]; PdReceive [201] [4] 1 (hex_encode [7; 7]) Complete;
            PdErase (hex_encode [1]); PdReceive [202] [8] 3 (hex_encode [1]) Complete] in
  let st := pd_run hex_encode shipped_fname h pd_empty in
  shipped_fname (hex_encode [7; 7]) <> []
  /\ pd_Get shipped_fname (hex_encode [7; 7]) st = Ok [7; 7] /\ pl_Bytes [7; 7] st = [0; 4]
  /\ pd_Get shipped_fname (hex_encode [1]) st = Err.
Proof. vm_compute. repeat split; try discriminate; reflexivity. Qed.

(** * C36 *)

(** Receiving a whole payload and completing it stores exactly these bytes under
    the digest, reports their digest and length, and touches nothing else. *)
Theorem C36_whole_partial hash fname tmp payload d st :
  fname d <> [] -> mget (p_staging st) tmp = None ->
  let '(r, st1) := pd_Receive hash fname tmp payload 0 d st in
  let st2 := pd_commit fname tmp d true st1 in
  r = Ok (hash payload, len payload)
  /\ (exists k, pd_Get fname d st2 = Ok k /\ pl_Bytes k st2 = payload)
  /\ (forall d', fname d' <> fname d -> pd_Get fname d' st2 = pd_Get fname d' st)
  /\ (forall k, k <> fname d -> pl_Bytes k st2 = pl_Bytes k st)
  /\ p_partial st2 = p_partial st /\ (forall k, mget (p_staging st2) k = mget (p_staging st) k).
Proof.
  intros Hd Ht. unfold pd_Receive. cbn [andb Z.ltb Z.compare]. cbn [Z.to_nat repeat app Z.add].
  destruct (Z.ltb_spec (Z.of_N (len payload)) 0); [lia|].
  unfold pd_commit. cbn [p_staging]. rewrite mget_mset, beqb_refl. cbn [p_files p_partial].
  destruct (fname d) as [|x f] eqn:E; [congruence|].
  split; [|split; [|split; [|split; [|split]]]].
  - rewrite N2Z.id. unfold len. replace (Z.to_nat (Z.of_N (N.of_nat (length payload)))) with (length payload) by lia.
    rewrite firstn_all. auto.
  - exists (x :: f). unfold pd_Get, pl_Bytes. rewrite E. cbn [p_files]. rewrite mget_mset, beqb_refl. auto.
  - intros d' H'. unfold pd_Get. destruct (fname d') as [|y g]; auto. cbn [p_files]. rewrite mget_mset, beqb_neq; auto.
  - intros k Hk. unfold pl_Bytes. destruct k as [|y g]; auto. cbn [p_files]. rewrite mget_mset, beqb_neq; auto.
  - auto.
  - intros k. cbn [p_staging]. rewrite mget_mdel, mget_mset. destruct (beqb_spec k tmp) as [->|]; auto.
Qed.
Print Assumptions C36_whole_partial.

(** Rejecting leaves nothing behind, whatever was received. *)
Theorem C36_rejected_partial hash fname tmp payload offset d st :
  mget (p_staging st) tmp = None ->
  let '(r, st1) := pd_Receive hash fname tmp payload offset d st in
  let st2 := pd_reject tmp st1 in
  p_files st2 = p_files st /\ p_partial st2 = p_partial st /\ (forall k, mget (p_staging st2) k = mget (p_staging st) k).
Proof.
  intros Ht. destruct (pd_Receive hash fname tmp payload offset d st) as [r st1] eqn:E.
  destruct (Receive_files _ _ _ _ _ _ _ _ _ E) as [F G]. unfold pd_reject. cbn [p_files p_partial p_staging].
  split; auto. split; auto. intros k. rewrite mget_mdel. destruct (beqb_spec k tmp) as [->|Hk]; auto.
  unfold pd_Receive in E. destruct (_ && _); [injection E as <- <-; auto|].
  destruct (_ <? 0)%Z; injection E as <- <-; cbn [p_staging]; rewrite mget_mset, beqb_neq; auto.
Qed.
Print Assumptions C36_rejected_partial.

Example C36_instance :
  pd_Receive hex_encode shipped_fname [200] [1; 2; 3] 0 (hex_encode [1; 2; 3]) pd_empty
    = (Ok (hex_encode [1; 2; 3], 3), PDir [] [] [([200], [1; 2; 3])])
  /\ shipped_fname (hex_encode [1; 2; 3]) <> [].
Proof. split; [vm_compute; reflexivity|discriminate]. Qed.

(** A payload in two parts: whatever the first part was, what is hashed and kept
    after the second is zeros followed by the second part. *)
Theorem C36_second_part hash fname tmp first second_ d st :
  mget (p_partial st) (fname d) = Some first -> fname d <> [] -> first <> [] ->
  let '(r, st1) := pd_Receive hash fname tmp second_ (Z.of_nat (length first)) d st in
  let kept := repeat 0 (length first) ++ second_ in
  r = Ok (hash kept, len kept)
  /\ pl_Bytes (fname d) (pd_commit fname tmp d true st1) = kept.
Proof.
  intros Hp Hd Hf. unfold pd_Receive. rewrite Hp, andb_false_r.
  set (kept := repeat 0 (Z.to_nat (Z.of_nat (length first))) ++ second_).
  assert (EK : kept = repeat 0 (length first) ++ second_) by (unfold kept; rewrite Nat2Z.id; auto).
  assert (EL : (Z.of_nat (length first) + Z.of_N (len second_))%Z = Z.of_N (len kept)).
  { rewrite EK. unfold len. rewrite app_length, repeat_length. lia. }
  rewrite EL. destruct (Z.ltb_spec (Z.of_N (len kept)) 0); [lia|]. cbn zeta. rewrite <- EK.
  split.
  - rewrite N2Z.id. unfold len. replace (Z.to_nat (Z.of_N (N.of_nat (length kept)))) with (length kept) by lia.
    rewrite firstn_all. auto.
  - unfold pd_commit. cbn [p_staging]. rewrite mget_mset, beqb_refl. destruct (fname d) as [|x f] eqn:E; [congruence|].
    unfold pl_Bytes. cbn [p_files]. rewrite mget_mset, beqb_refl. auto.
Qed.
Print Assumptions C36_second_part.

(** So two parts are not assembled. *)
Theorem C36_two_parts_refuted :
  exists first second_ d st1 st2 st3,
    d = hex_encode (first ++ second_)
    /\ pd_Receive hex_encode shipped_fname [200] first 0 d pd_empty = (Ok (hex_encode first, len first), st1)
    /\ pd_commit shipped_fname [200] d false st1 = st2
    /\ pd_Receive hex_encode shipped_fname [201] second_ (Z.of_N (len first)) d st2 = (Ok (hex_encode [0; 0; 3], 3), st3)
    /\ hex_encode [0; 0; 3] <> d.
Proof.
  exists [1; 2], [3], (hex_encode [1; 2; 3]). do 3 eexists.
  split; [reflexivity|]. split; [vm_compute; reflexivity|]. split; [vm_compute; reflexivity|].
  split; [vm_compute; reflexivity|]. vm_compute. discriminate.
Qed.
Print Assumptions C36_two_parts_refuted.

(** IngestPayload never stores anything, for any database of entries and any
    arguments. *)
Theorem C36_never_stores C tmp p payload partial_ offset (db : bmap bytes) st :
  (forall k (v : bytes), In (k, v) db -> v <> []) ->
  exists s, IngestPayload C tmp p payload partial_ offset db st = (Ok (s, false), st) /\ s <> Success.
Proof.
  intros H. unfold IngestPayload. destruct (mget db (EncodeKey p (c_pp C))) as [[|x v]|] eqn:E.
  - exfalso. apply mget_In in E. eapply H; eauto.
  - exists Failure. split; [reflexivity|discriminate].
  - exists No_Op. split; [reflexivity|discriminate].
Qed.
Print Assumptions C36_never_stores.

(** Repairing the test of store.go:299 would not be enough: the part after it
    never stores either, because an absent payload is an error (308-310) and a
    present one ends the call (312-314). *)
Theorem C36_rest_never_stores C tmp v payload partial_ offset st w :
  DecodeValues v = Ok w ->
  ingest_payload_rest C tmp v payload partial_ offset st = (Ok (No_Op, false), st).
Proof. intros H. unfold ingest_payload_rest. rewrite H. cbn. destruct (pd_Get _ _ _); auto. Qed.
Print Assumptions C36_rest_never_stores.

(** What comes behind both tests would do as it should for a payload in one piece: the right
    bytes are stored, with success if the authorisation token is there; wrong bytes, and a part
    where no part is allowed, are rejected and leave nothing behind. *)
Theorem C36_received C tmp w payload allowPartial st :
  mget (p_staging st) tmp = None -> c_fname C (v_digest w) <> [] ->
  let '(r, st2) := ingest_received C tmp w payload allowPartial 0 st in
  let right := v_length w = len payload /\ c_hash C payload = v_digest w in
  let part := allowPartial = true /\ len payload < v_length w in
  (right -> (exists k, pd_Get (c_fname C) (v_digest w) st2 = Ok k /\ pl_Bytes k st2 = payload)
     /\ (pd_Get (c_fname C) (v_auth w) st <> Err -> r = Ok (Success, true))
     /\ (pd_Get (c_fname C) (v_auth w) st = Err -> r = Ok (if beqb (c_fname C (v_auth w)) (c_fname C (v_digest w)) then (Success, true) else (No_Op, false)))
     /\ (forall k, k <> c_fname C (v_digest w) -> pl_Bytes k st2 = pl_Bytes k st) /\ p_partial st2 = p_partial st)
  /\ (part -> r = Ok (Success, true) /\ p_files st2 = p_files st
     /\ forall k, mget (p_partial st2) k = if beqb k (c_fname C (v_digest w)) then Some payload else mget (p_partial st) k)
  /\ (~ right -> ~ part -> r = Ok (Failure, false) /\ p_files st2 = p_files st /\ p_partial st2 = p_partial st)
  /\ (forall k, mget (p_staging st2) k = mget (p_staging st) k).
Proof.
  intros HT HF. unfold ingest_received.
  pose proof (C36_whole_partial (c_hash C) (c_fname C) tmp payload (v_digest w) st HF HT) as W.
  pose proof (C36_rejected_partial (c_hash C) (c_fname C) tmp payload 0 (v_digest w) st HT) as J.
  destruct (pd_Receive (c_hash C) (c_fname C) tmp payload 0 (v_digest w) st) as [r st1] eqn:ER. cbn zeta in W, J.
  destruct W as (-> & (k & W1 & W2) & W3 & W4 & W5 & W6). destruct J as (J1 & J2 & J3).
  assert (S1 : mget (p_staging st1) tmp = Some payload /\ p_files st1 = p_files st /\ p_partial st1 = p_partial st
     /\ forall k, k <> tmp -> mget (p_staging st1) k = mget (p_staging st) k).
  { unfold pd_Receive in ER. cbn [andb Z.ltb Z.compare Z.to_nat repeat app] in ER.
    destruct (_ <? 0)%Z; [discriminate ER|]. injection ER; intros <- _ _. cbn [p_staging p_files p_partial]. rewrite mget_mset, beqb_refl. repeat split; auto.
    intros k' N. rewrite mget_mset, beqb_neq; auto. }
  destruct S1 as (S1 & S2 & S3 & S4).
  assert (OB : (OrderBytes (c_hash C payload) (v_digest w) =? 0)%Z = true <-> c_hash C payload = v_digest w).
  { rewrite Z.eqb_eq. destruct (OrderBytes_decides (c_hash C payload) (v_digest w)) as [[Q L]|[[Q L]|[Q L]]]; rewrite Q; split; intros X; auto; try discriminate X;
      rewrite X in L; exfalso; eapply (sto_irrefl _ bytes_sto); exact L. }
  destruct (N.ltb_spec (v_length w) (len payload)) as [L|L]; cbn [orb].
  { cbn zeta. split; [intros [? _]; lia|]. split; [intros [_ ?]; lia|]. split; auto. }
  destruct (N.eqb_spec (v_length w) (len payload)) as [E|E].
  - rewrite E, N.eqb_refl in *. cbn [negb andb]. rewrite andb_false_r. cbn [orb].
    destruct (OrderBytes (c_hash C payload) (v_digest w) =? 0)%Z; cbn [negb]; cbn zeta.
    + assert (EH : c_hash C payload = v_digest w) by (apply OB; reflexivity). rewrite W1. cbn [is_zero_payload orb].
      assert (WA : pd_Get (c_fname C) (v_auth w) st <> Err -> exists k2, pd_Get (c_fname C) (v_auth w) (pd_commit (c_fname C) tmp (v_digest w) true st1) = Ok k2).
      { intros HA. destruct (beqb_spec (c_fname C (v_auth w)) (c_fname C (v_digest w))) as [Q|Q].
        - exists k. unfold pd_Get in *. rewrite Q. exact W1.
        - rewrite (W3 _ Q). unfold pd_Get in *. destruct (c_fname C (v_auth w)); [eauto|]. destruct (mget (p_files st) (n :: b)); [eauto|congruence]. }
      assert (WB : pd_Get (c_fname C) (v_auth w) st = Err -> pd_Get (c_fname C) (v_auth w) (pd_commit (c_fname C) tmp (v_digest w) true st1)
                    = if beqb (c_fname C (v_auth w)) (c_fname C (v_digest w)) then Ok k else Err).
      { intros HA. destruct (beqb_spec (c_fname C (v_auth w)) (c_fname C (v_digest w))) as [Q|Q].
        - unfold pd_Get in *. rewrite Q. exact W1.
        - rewrite (W3 _ Q). exact HA. }
      destruct (pd_Get (c_fname C) (v_auth w) (pd_commit (c_fname C) tmp (v_digest w) true st1)) as [k2| | | |] eqn:EA;
        (split; [intros _; split; [exists k; auto|split; [intros HA; try reflexivity; destruct (WA HA) as [? X]; discriminate X
          |split; [intros HA; pose proof (WB HA) as X; destruct (beqb _ _) in X |- *; try discriminate X; reflexivity|auto]]]|]);
        (split; [intros [_ ?]; lia|split; [intros NR; exfalso; apply NR; auto|auto]]).
    + split; [intros [_ X]; apply OB in X; discriminate X|]. split; [intros [_ ?]; lia|]. split; auto.
  - assert (E' : (len payload =? v_length w) = false) by (apply N.eqb_neq; congruence). rewrite E'. cbn [andb negb orb].
    rewrite andb_true_r, orb_false_r. destruct allowPartial; cbn [negb]; cbn zeta.
    + split; [intros [? _]; congruence|]. unfold pd_commit. rewrite S1. destruct (c_fname C (v_digest w)) as [|x f] eqn:EF; [congruence|].
      cbn [p_files p_partial p_staging]. split; [intros _; split; auto; split; auto; intros k'; rewrite mget_mset, S3; reflexivity|].
      split; [intros _ NP; exfalso; apply NP; split; auto; lia|].
      intros k'. rewrite mget_mdel. destruct (beqb_spec k' tmp) as [->|Nk]; auto.
    + split; [intros [? _]; congruence|]. split; [intros [? _]; discriminate|]. split; auto.
Qed.
Print Assumptions C36_received.

Example C36_received_instance :
  let w := Values 2 (hex_encode [1; 2]) (hex_encode [5]) in let st := PDir [([5], [5])] [] [] in
  ingest_received demo [200] w [1; 2] false 0 st = (Ok (Success, true), PDir [([1; 2], [1; 2]); ([5], [5])] [] [])
  /\ fst (ingest_received demo [200] w [1; 3] false 0 st) = Ok (Failure, false)
  /\ fst (ingest_received demo [200] w [1] true 0 st) = Ok (Success, true).
Proof. vm_compute. auto. Qed.

(** The live entry of a reached store, its payload absent, the right bytes. *)
Definition absent_e : entry := Entry [110] [115] (hex_encode [1; 2]) [[97]] 5 2.
Definition absent_ops : list op := [OpIngest absent_e [115]].

Theorem C36_ingest_refuted :
  exists st, reached demo small absent_ops st /\ live demo st absent_e
    /\ mget (files st) (c_fname demo (e_digest absent_e)) = None
    /\ c_hash demo [1; 2] = e_digest absent_e
    /\ IngestPayload demo [200] (Position [115] [[97]] 5) [1; 2] false 0 (kv st) (PDir (files st) [] [])
       = (Ok (Failure, false), PDir (files st) [] []).
Proof.
  exists (after_ops absent_ops).
  split; [split; [apply demo_history; vm_compute; reflexivity|vm_compute; reflexivity]|].
  split; [apply liveb_spec; vm_compute; reflexivity|]. repeat split; vm_compute; reflexivity.
Qed.
Print Assumptions C36_ingest_refuted.
