(** C81: reading while an operation runs.

    [moment C o st n] is the store when the operation [o] has done [n] durable writes. A reader
    looks at the store twice or three times, at any of these moments. *)
From Coq Require Import Sorting.Permutation.
From Verif Require Import Base M_Order M_Encoding M_Paths M_Successor M_Ranges M_Keys M_Entry M_Map M_Store M_Query M_Watch
  S_Order S_Store S_Query P_Order P_Encoding P_Paths P_Ranges P_Successor P_Areas P_Keys P_Map P_Store P_History P_Auth P_Crash
  P_Demo P_Watch Prop_Store Prop_Crash.
Local Open Scope N_scope.

(** What an operation offering [e] may take away. *)
Definition touched (C : cfg) (st : state) (e : entry) (token : bytes) (x : entry) : Prop :=
  acceptable C (live C st) e token /\ (same_place x e \/ prunes e x).

(** In a store that stands still the readings are those of Get, Query and GetPayload. *)
Theorem C81_still C st :
  (forall s p, watch_Get C s p st st = fst (driver_Get C s p st))
  /\ (forall r, watch_Query C r st (fun _ => st) = fst (driver_Query C r st))
  /\ (forall p, watch_GetPayload C p st st st = fst (GetPayload C p st)).
Proof.
  split; [|split].
  - intros s p. unfold watch_Get, driver_Get, driver_Get_at, bindM.
    assert (Q : snd (storage_Get C s (SuccessorSubspaceId s) p st) = st).
    { unfold storage_Get, bindM, lift, gets, ret. destruct (SuccessorPath p (c_pp C)); auto.
      destruct (query _ _) as [|? [|? ?]]; reflexivity. }
    destruct (storage_Get C s (SuccessorSubspaceId s) p st) as [r s0]. cbn in Q |- *. subst s0.
    destruct r as [[n|]| | | |]; try reflexivity. cbn [bind]. unfold watch_value, gets.
    destruct (mget (kv st) _) as [v|]; [|reflexivity]. unfold lift. destruct (DecodeValues v); reflexivity.
  - intros r. unfold watch_Query, driver_Query, bindM, gets.
    assert (Q : forall ns k, watch_values C ns k (fun _ => st) = fst (query_loop C ns st) /\ snd (query_loop C ns st) = st).
    { induction ns as [|n ns IH]; intros k; [split; reflexivity|]. cbn [watch_values query_loop]. unfold watch_value, bindM, gets.
      destruct (mget (kv st) _) as [v|]; [|split; reflexivity]. unfold lift. destruct (DecodeValues v); try (split; reflexivity).
      cbn [bind]. destruct (IH (S k)) as [-> Q2]. destruct (query_loop C ns st) as [r' s']. cbn in Q2. subst s'.
      destruct r'; split; reflexivity. }
    destruct (Q (query (tree st) r) 0%nat) as [-> Q2]. destruct (query_loop C _ st) as [r' s']. destruct r'; reflexivity.
  - intros p. unfold watch_GetPayload, GetPayload, bindM, gets. destruct (mget (kv st) _) as [v|]; [|reflexivity].
    unfold lift. destruct (DecodeValues v) as [w| | | |]; try reflexivity. cbn [bind]. unfold payload_Get, bindM, gets.
    destruct (mget (files st) _); reflexivity.
Qed.
Print Assumptions C81_still.

(** Get during an operation: an entry of the place asked for that was live before or is the one
    being written; nothing, or an error, only where the operation takes something away or writes
    the entry. It never panics, hangs or ends the process. *)
Theorem C81_get C U ops st o e token s p i j :
  survived C U ops st -> op_ok C U o -> offer C o = Some (e, token) -> strict_path (c_pp C) p ->
  match watch_Get C s p (moment C o st i) (moment C o st j) with
  | Ok (Some (x, a)) =>
      e_subspace x = s /\ e_path x = p /\ a = c_hash C s
      /\ (live C st x \/ (x = e /\ acceptable C (live C st) e token))
  | Ok None => forall x, live C st x -> e_subspace x = s -> e_path x = p -> touched C st e token x
  | Err => acceptable C (live C st) e token
      /\ ((s = e_subspace e /\ p = e_path e)
          \/ exists x, live C st x /\ e_subspace x = s /\ e_path x = p /\ prunes e x)
  | _ => False
  end.
Proof.
  intros (PP & HU & HO & HL) Oo Ho HS. destruct (lives_Rep C U PP HU ops st HL HO) as (xs & R).
  pose proof (fun x => Rep_live C U PP HU xs st x R) as LX.
  assert (AX : acceptable C (fun x => In x xs) e token <-> acceptable C (live C st) e token).
  { unfold acceptable. split; intros (A1 & A2 & A3 & A4); repeat split; auto; intros x Hx; [apply A3|apply A4|apply A3|apply A4]; apply LX; auto. }
  destruct (moment_around C U PP HU xs st o e token i R Oo Ho) as (ys & Ry & Ay).
  destruct (moment_around C U PP HU xs st o e token j R Oo Ho) as (zs & Rz & Az).
  destruct (watch_Get_spec C U PP HU xs st e token ys zs _ _ s p R Ry Rz Ay Az HS) as [[-> H]|(x & Hx & X1 & X2 & [[Hz ->]|[Hz ->]])].
  - intros x Hx X1 X2. unfold touched. rewrite <- AX.
    destruct (acceptable_dec C xs e token) as [A|A].
    + split; auto. destruct (same_place_dec x e) as [|N1]; auto. destruct (prunes_dec e x) as [|N2]; auto.
      exfalso. apply (H x); auto. apply (proj2 Ay); [apply LX; auto|tauto].
    + exfalso. apply (H x); auto. apply (proj2 Ay); [apply LX; auto|tauto].
  - split; auto. split; auto. split; [congruence|]. rewrite LX, <- AX. apply (proj1 Ay); auto.
  - rewrite <- AX. destruct (proj1 Ay x Hx) as [Hin|[-> A]]; [|split; auto].
    destruct (acceptable_dec C xs e token) as [A|A]; [|exfalso; apply Hz, (proj2 Az); tauto].
    split; auto. destruct (same_place_dec x e) as [[N1 N1']|N1]; [left; split; congruence|].
    destruct (prunes_dec e x) as [|N2]; [right; exists x; rewrite LX; auto|].
    exfalso. apply Hz, (proj2 Az); tauto.
Qed.
Print Assumptions C81_get.

(** An entry the operation does not touch is read at every moment, and a place that is empty and
    is not written reads as empty. A refused operation touches nothing. *)
Theorem C81_untouched C U ops st o e token i j :
  survived C U ops st -> op_ok C U o -> offer C o = Some (e, token) ->
  (forall x, live C st x -> ~ touched C st e token x ->
     watch_Get C (e_subspace x) (e_path x) (moment C o st i) (moment C o st j) = Ok (Some (x, c_hash C (e_subspace x))))
  /\ (forall s p, strict_path (c_pp C) p -> (forall x, live C st x -> e_subspace x = s -> e_path x <> p) ->
     (acceptable C (live C st) e token -> e_subspace e = s -> e_path e <> p) ->
     watch_Get C s p (moment C o st i) (moment C o st j) = Ok None).
Proof.
  intros (PP & HU & HO & HL) Oo Ho. destruct (lives_Rep C U PP HU ops st HL HO) as (xs & R).
  pose proof (fun x => Rep_live C U PP HU xs st x R) as LX.
  assert (AX : acceptable C (fun x => In x xs) e token <-> acceptable C (live C st) e token).
  { unfold acceptable. split; intros (A1 & A2 & A3 & A4); repeat split; auto; intros x Hx; [apply A3|apply A4|apply A3|apply A4]; apply LX; auto. }
  destruct (moment_around C U PP HU xs st o e token i R Oo Ho) as (ys & Ry & Ay).
  destruct (moment_around C U PP HU xs st o e token j R Oo Ho) as (zs & Rz & Az).
  split.
  - intros x Hx N. apply LX in Hx.
    assert (N' : acceptable C (fun x => In x xs) e token -> ~ same_place x e /\ ~ prunes e x).
    { intros A. apply AX in A. unfold touched in N. split; intros X; apply N; auto. }
    assert (HS : strict_path (c_pp C) (e_path x)) by apply (Rep_In_ok C U _ _ _ R Hx).
    destruct (watch_Get_spec C U PP HU xs st e token ys zs _ _ (e_subspace x) (e_path x) R Ry Rz Ay Az HS) as [[-> H]|(y & Hy & X1 & X2 & H)].
    + exfalso. apply (H x); auto. apply (proj2 Ay); auto.
    + assert (y = x); [|subst y].
      { eapply place_inj; [apply (rep_place _ _ _ _ Ry)| | | |]; auto. apply (proj2 Ay); auto. }
      destruct H as [[_ ->]|[H _]]; [auto|]. exfalso. apply H, (proj2 Az); auto.
  - intros s p HS N1 N2.
    destruct (watch_Get_spec C U PP HU xs st e token ys zs _ _ s p R Ry Rz Ay Az HS) as [[-> H]|(y & Hy & X1 & X2 & _)]; auto.
    exfalso. destruct (proj1 Ay y Hy) as [Y|[-> Y]]; [apply LX in Y; apply (N1 y); auto|apply AX in Y; apply N2; auto].
Qed.
Print Assumptions C81_untouched.

(** Query during an operation, each node looked up at a moment of its own: every entry returned
    (after the empty ones) is in the range and was live before or is the one being written, none
    twice; every entry of the range that is not touched is returned. An error only if the
    operation is accepted. *)
Theorem C81_query C U ops st o e token r i (js : nat -> nat) :
  survived C U ops st -> op_ok C U o -> offer C o = Some (e, token) ->
  match watch_Query C r (moment C o st i) (fun k => moment C o st (js k)) with
  | Ok l => exists xs, l = repeat (Entry [] [] [] [] 0 0, [] : bytes) (length xs) ++ xs
      /\ NoDup (map fst xs)
      /\ (forall x a, In (x, a) xs -> a = c_hash C (e_subspace x) /\ in_range3d r (pos_of x)
            /\ (live C st x \/ (x = e /\ acceptable C (live C st) e token)))
      /\ (forall x, live C st x -> in_range3d r (pos_of x) -> ~ touched C st e token x -> In x (map fst xs))
  | Err => acceptable C (live C st) e token
      /\ (in_range3d r (pos_of e) \/ exists x, live C st x /\ in_range3d r (pos_of x) /\ touched C st e token x)
  | _ => False
  end.
Proof.
  intros (PP & HU & HO & HL) Oo Ho. destruct (lives_Rep C U PP HU ops st HL HO) as (xs & R).
  pose proof (fun x => Rep_live C U PP HU xs st x R) as LX.
  assert (AX : acceptable C (fun x => In x xs) e token <-> acceptable C (live C st) e token).
  { unfold acceptable. split; intros (A1 & A2 & A3 & A4); repeat split; auto; intros x Hx; [apply A3|apply A4|apply A3|apply A4]; apply LX; auto. }
  destruct (moment_around C U PP HU xs st o e token i R Oo Ho) as (ys & Ry & Ay).
  set (now := moment C o st i) in *. unfold watch_Query.
  destruct (watch_values_spec C U PP HU xs st e token ys now (query (tree now) r) 0 (fun k => moment C o st (js k)) R Ry Ay)
    as [(l & E & EP & Hl)|(E & n & x & zs & Hn & En & Hx & Az & Nx)].
  { intros k. apply moment_around; auto. }
  { intros n Hn. apply filter_In in Hn. tauto. }
  - rewrite E. cbn [bind]. exists (map (fun x => (x, c_hash C (e_subspace x))) l).
    assert (EF : map fst (map (fun x => (x, c_hash C (e_subspace x))) l) = l).
    { rewrite map_map. cbn. apply map_id. }
    rewrite EF. split; [|split; [|split]].
    + unfold zero_ext. rewrite map_length. f_equal. f_equal. rewrite <- (map_length EntryPosition l), EP, map_length. reflexivity.
    + apply (NoDup_map_inv EntryPosition). rewrite EP.
      assert (ND : NoDup (map node_pos (tree now))).
      { eapply Permutation_NoDup; [symmetry; apply (rep_tree _ _ _ _ Ry)|].
        apply (NoDup_map_inv (fun q => (pos_subspace q, pos_path q))). rewrite map_map. apply (rep_place _ _ _ _ Ry). }
      clear - ND. unfold query. induction (tree now) as [|n t IH]; cbn; [constructor|].
      cbn in ND. inversion ND as [|? ? H1 H2]; subst. specialize (IH H2).
      destruct (IsIncluded3d _ _ _); auto. cbn. constructor; auto.
      intros H. apply in_map_iff in H as (m & E & Hm). apply filter_In in Hm as [Hm _].
      apply H1. rewrite <- E. apply in_map; auto.
    + intros x a H. apply in_map_iff in H as (y & [= <- <-] & Hy). split; auto. split.
      * assert (Hin : In (pos_of y) (map node_pos (query (tree now) r))) by (rewrite <- EP; apply (in_map EntryPosition); auto).
        apply in_map_iff in Hin as (n & En & Hn). apply filter_In in Hn as [_ Hn]. rewrite En in Hn.
        apply IsIncluded3d_spec; auto.
      * rewrite LX, <- AX. apply (proj1 Ay); auto.
    + intros x Hx Hr N. apply LX in Hx.
      assert (Hy : In x ys).
      { apply (proj2 Ay); auto. intros A. apply AX in A. unfold touched in N. split; intros X; apply N; auto. }
      assert (Hm : In (pos_of x) (map EntryPosition l)).
      { rewrite EP. destruct (Rep_node_inv _ _ _ _ x Ry Hy) as (n & Hn & En). change (pos_of x) with (EntryPosition x). rewrite <- En. apply in_map.
        apply filter_In. split; auto. rewrite En. apply IsIncluded3d_spec; auto. }
      apply in_map_iff in Hm as (y & Ey & Hl'). assert (y = x); [|subst; auto].
      eapply place_inj; [apply (rep_place _ _ _ _ Ry)| | | |]; auto; unfold EntryPosition, pos_of in Ey; congruence.
  - rewrite E. cbn [bind]. rewrite <- AX. apply filter_In in Hn as [_ Hn]. rewrite En in Hn. apply IsIncluded3d_spec in Hn.
    destruct (proj1 Ay x Hx) as [Hin|[-> A]]; [|split; auto].
    destruct (acceptable_dec C xs e token) as [A|A]; [|exfalso; apply Nx, (proj2 Az); tauto].
    split; auto. right. exists x. split; [apply LX; auto|]. split; auto. unfold touched. split; [apply AX; auto|].
    destruct (same_place_dec x e) as [|N1]; auto. destruct (prunes_dec e x) as [|N2]; auto.
    exfalso. apply Nx, (proj2 Az); tauto.
Qed.
Print Assumptions C81_query.

(** The payload of an entry the operation does not touch, if it could be read before and its
    digest is not that of the subspace name, is read whole at all moments. (Files are taken to
    be written at once here; for a file being written see C81_torn.) *)
Theorem C81_payload_partial C U ops st o e token x b i j k :
  reached C U ops st -> op_ok C U o -> offer C o = Some (e, token) ->
  live C st x -> ~ touched C st e token x -> e_digest x <> c_hash C (e_subspace e) ->
  fst (GetPayload C (EntryPosition x) st) = Ok b ->
  watch_GetPayload C (EntryPosition x) (moment C o st i) (moment C o st j) (moment C o st k) = Ok b.
Proof.
  intros RE Oo Ho Hx N Nd G. assert (HH := RE). destruct HH as [(PP & HU & _ & L) _].
  destruct (reached_runs C U PP HU ops st RE) as (n & xs & RN).
  destruct (runs_Inv C U ops n xs st RN) as ([R RF FS _ _] & Ln & _).
  pose proof (fun x => Rep_live C U PP HU xs st x R) as LX. apply LX in Hx.
  pose proof (Rep_In_ok C U _ _ _ R Hx) as Ox.
  assert (AX : acceptable C (fun x => In x xs) e token -> ~ same_place x e /\ ~ prunes e x).
  { intros A. assert (A' : acceptable C (live C st) e token).
    { destruct A as (A1 & A2 & A3 & A4). repeat split; auto; intros y Hy; [apply A3|apply A4]; apply LX; auto. }
    unfold touched in N. split; intros X; apply N; auto. }
  assert (F : file_of C st (e_digest x) = Some b).
  { unfold GetPayload, bindM, gets in G. change (EncodeKey (EntryPosition x) (c_pp C)) with (ekey C x) in G.
    rewrite (Rep_kv_get C U xs st x R Hx) in G. unfold lift in G. rewrite (eval_decode C U HU x Ox) in G. cbn [v_digest] in G.
    unfold payload_Get, bindM, gets, ret, fail in G. unfold file_of. destruct (mget (files st) _) as [b'|]; cbn in G; congruence. }
  assert (Fm : forall q, file_of C (moment C o st q) (e_digest x) = Some b).
  { intros q. unfold moment. set (s0 := State _ _ _ _ _ _). destruct (step C o s0) as [r s] eqn:E. cbn [snd].
    apply (held_step C U PP HU (e_digest x) b xs s0 o e token r s n (stored_digest C U x Ox)); auto.
    - eapply Rep_quiet; [|exact R]; split; reflexivity.
    - lia.
    - intros y Uy Ey. destruct (FS _ _ F) as [Ub Eb]. destruct HU as [HI _]. apply HI; auto. rewrite Ey. exact Eb.
    - intros A. right. exists x. destruct (AX A). auto.
    - split; [exact F|]. apply RF. }
  destruct (moment_around C U PP HU xs st o e token i R Oo Ho) as (ys & Ry & Ay).
  assert (Hy : In x ys) by (apply (proj2 Ay); auto).
  unfold watch_GetPayload. change (EncodeKey (EntryPosition x) (c_pp C)) with (ekey C x).
  rewrite (Rep_kv_get C U ys _ x Ry Hy), (eval_decode C U HU x Ox). cbn [bind v_digest].
  pose proof (Fm j) as Fj. pose proof (Fm k) as Fk. unfold file_of in Fj, Fk. rewrite Fj, Fk. reflexivity.
Qed.
Print Assumptions C81_payload_partial.

(** The payload being stored can be read as soon as its entry can, once the first write, that of
    the payload file, is done. *)
Theorem C81_own_partial C U ops st i auth now n1 n2 n3 :
  reached C U ops st -> op_ok C U (OpSet i auth now) -> c_hash C (i_payload i) <> c_hash C (i_sub i) ->
  let o := OpSet i auth now in let e := set_entry C i now in
  live C (moment C o st n1) e ->
  watch_GetPayload C (EntryPosition e) (moment C o st n1) (moment C o st (S n2)) (moment C o st (S n3)) = Ok (i_payload i).
Proof.
  intros RE Oo Nd o e Hl. assert (HH := RE). destruct HH as [(PP & HU & _ & L) _].
  destruct (reached_runs C U PP HU ops st RE) as (n & xs & RN).
  destruct (runs_Inv C U ops n xs st RN) as ([R RF FS _ _] & Ln & _).
  set (d := c_hash C (i_payload i)) in *.
  assert (Fm : forall q, file_of C (moment C o st (S q)) d = Some (i_payload i)).
  { intros q. unfold moment, o. cbn [step].
    set (s0 := State (kv st) (tree st) (refs st) (files st) (locked st) (Some (S q))).
    destruct (Set_ C i auth now s0) as [r s] eqn:E. cbn [snd].
    set (s1 := State (kv st) (tree st) (refs st) (mset (files st) (c_fname C d) (i_payload i)) (locked st) (Some (S q))).
    assert (E1 : Set_ C i auth now s1 = (r, s)).
    { rewrite <- E. unfold Set_, bindM at 1. symmetry. unfold bindM at 1.
      assert (X : payload_Set C (i_payload i) s0 = payload_Set C (i_payload i) s1).
      { unfold payload_Set, bindM, durable, s0, s1, set_files. cbn [budget files kv tree refs locked]. fold d.
        rewrite mset_mset. reflexivity. }
      rewrite X. reflexivity. }
    assert (X : Held C d (i_payload i) 0 (n + 1) s); [|apply X].
    apply (held_Set C U PP HU d (i_payload i)) with (xs := xs) (st := s1) (i := i) (auth := auth) (now := now) (r := r); auto.
    - exists (i_payload i). split; [apply Oo|reflexivity].
    - eapply Rep_quiet; [|exact R]; split; reflexivity.
    - lia.
    - intros _. left. reflexivity.
    - split; [|apply RF]. unfold file_of, s1. cbn [files]. rewrite mget_mset, beqb_refl. reflexivity. }
  destruct (moment_around C U PP HU xs st o e auth n1 R Oo eq_refl) as (ys & Ry & Ay).
  assert (Hy : In e ys) by (apply (Rep_live C U PP HU ys _ e Ry); exact Hl).
  unfold watch_GetPayload. change (EncodeKey (EntryPosition e) (c_pp C)) with (ekey C e).
  rewrite (Rep_kv_get C U ys _ e Ry Hy), (eval_decode C U HU e (Rep_In_ok C U _ _ _ Ry Hy)). cbn [bind v_digest].
  change (e_digest e) with d. pose proof (Fm n2) as Fj. pose proof (Fm n3) as Fk. unfold file_of in Fj, Fk. rewrite Fj, Fk. reflexivity.
Qed.
Print Assumptions C81_own_partial.

(** While the file of a payload is being written, whoever writes it, the payload of every live
    entry with this digest reads as the part written so far. *)
Theorem C81_torn C U ops st x b k :
  survived C U ops st -> live C st x -> e_digest x = c_hash C b ->
  watch_GetPayload C (EntryPosition x) st (writing C b k st) (writing C b k st) = Ok (firstn k b).
Proof.
  intros (PP & HU & HO & HL) Hx Ed. destruct (lives_Rep C U PP HU ops st HL HO) as (xs & R).
  apply (Rep_live C U PP HU xs st x R) in Hx. unfold watch_GetPayload. change (EncodeKey (EntryPosition x) (c_pp C)) with (ekey C x).
  rewrite (Rep_kv_get C U xs st x R Hx), (eval_decode C U HU x (Rep_In_ok C U _ _ _ R Hx)). cbn [bind v_digest].
  rewrite Ed. unfold writing. cbn [files set_files]. rewrite mget_mset, beqb_refl. reflexivity.
Qed.
Print Assumptions C81_torn.

(** ** What is false *)

(** A place that holds an entry before and after reads as empty in between. *)
Theorem C81_gap_refuted :
  exists ops st o n x y,
    reached demo small ops st /\ op_ok demo small o
    /\ fst (driver_Get demo [115] [[97]] st) = Ok (Some x)
    /\ (exists pruned, fst (step demo o st) = Ok pruned)
    /\ fst (driver_Get demo [115] [[97]] (snd (step demo o st))) = Ok (Some y)
    /\ watch_Get demo [115] [[97]] (moment demo o st n) (moment demo o st n) = Ok None.
Proof.
  exists [dset [[97]] [1; 2] 5], (after_ops [dset [[97]] [1; 2] 5]), (dset [[97]] [3] 6), 2%nat. do 2 eexists.
  split; [split; [apply demo_history; vm_compute; reflexivity|vm_compute; reflexivity]|].
  split; [apply demo_op_okb_spec; vm_compute; reflexivity|].
  split; [vm_compute; reflexivity|]. split; [eexists; vm_compute; reflexivity|]. split; vm_compute; reflexivity.
Qed.
Print Assumptions C81_gap_refuted.

(** Get and Query give an error: the node is found, its key is gone when it is looked up. *)
Theorem C81_error_refuted :
  exists ops st o i j r,
    reached demo small ops st /\ op_ok demo small o /\ (i <= j)%nat
    /\ watch_Get demo [115] [[97]] (moment demo o st i) (moment demo o st j) = Err
    /\ watch_Query demo r (moment demo o st i) (fun _ => moment demo o st j) = Err
    /\ (exists l, fst (driver_Query demo r st) = Ok l)
    /\ (exists l, fst (driver_Query demo r (snd (step demo o st))) = Ok l).
Proof.
  exists [dset [[97]] [1; 2] 5], (after_ops [dset [[97]] [1; 2] 5]), (dset [[97]] [3] 6), 1%nat, 2%nat,
    (Range3d (Range [] [] true) (Range [] [] true) (Range 0 0 true)).
  split; [split; [apply demo_history; vm_compute; reflexivity|vm_compute; reflexivity]|].
  split; [apply demo_op_okb_spec; vm_compute; reflexivity|]. split; [lia|].
  split; [vm_compute; reflexivity|]. split; [vm_compute; reflexivity|]. split; eexists; vm_compute; reflexivity.
Qed.
Print Assumptions C81_error_refuted.

(** The payload of an entry that nobody touches is missing for a while: it equals the subspace
    name, whose file a replacement elsewhere removes and writes back. *)
Theorem C81_vanished_refuted :
  exists ops st o n x b,
    reached demo small ops st /\ op_ok demo small o /\ live demo st x
    /\ (forall e token, offer demo o = Some (e, token) -> ~ touched demo st e token x)
    /\ fst (GetPayload demo (EntryPosition x) st) = Ok b
    /\ fst (GetPayload demo (EntryPosition x) (snd (step demo o st))) = Ok b
    /\ watch_GetPayload demo (EntryPosition x) (moment demo o st n) (moment demo o st n) (moment demo o st n) = Err
    /\ watch_GetPayload demo (EntryPosition x) st st (moment demo o st n) = Ok [].
Proof.
  exists [dset [[98]] [115] 4; dset [[97]] [1] 5], (after_ops [dset [[98]] [115] 4; dset [[97]] [1] 5]),
    (dset [[97]] [2] 6), 3%nat, (demo_e [[98]] [115] 4), [115].
  split; [split; [apply demo_history; vm_compute; reflexivity|vm_compute; reflexivity]|].
  split; [apply demo_op_okb_spec; vm_compute; reflexivity|].
  split; [apply liveb_spec; vm_compute; reflexivity|].
  split.
  { intros e token [= <- <-] [_ [[_ H]|[(_ & _ & H) _]]]; [discriminate H|].
    destruct H as (q & Hq & E). cbn in E. discriminate E. }
  split; [vm_compute; reflexivity|]. split; [vm_compute; reflexivity|]. split; vm_compute; reflexivity.
Qed.
Print Assumptions C81_vanished_refuted.

(** A payload reads as part of itself while the same payload is offered again. *)
Theorem C81_torn_refuted :
  exists ops st x b k,
    reached demo small ops st /\ live demo st x /\ fst (GetPayload demo (EntryPosition x) st) = Ok b
    /\ watch_GetPayload demo (EntryPosition x) st (writing demo b k st) (writing demo b k st) = Ok [1]
    /\ b = [1; 2].
Proof.
  exists [dset [[97]] [1; 2] 5], (after_ops [dset [[97]] [1; 2] 5]), (demo_e [[97]] [1; 2] 5), [1; 2], 1%nat.
  split; [split; [apply demo_history; vm_compute; reflexivity|vm_compute; reflexivity]|].
  split; [apply liveb_spec; vm_compute; reflexivity|]. split; [vm_compute; reflexivity|]. split; [vm_compute; reflexivity|reflexivity].
Qed.
Print Assumptions C81_torn_refuted.

(** An accepted Set over a store with a neighbour: an entry replaced, one pruned, one kept. *)
Definition watched : list op := [dset [[97]] [1; 2] 5; dset [[97]; [98]] [9] 8; dset [[99]] [7] 4].
Example C81_instance :
  let o := dset [[97]] [6] 9 in let e := demo_e [[97]] [6] 9 in let st := after_ops watched in
  reached demo small watched st /\ op_ok demo small o /\ offer demo o = Some (e, [115])
  /\ live demo st (demo_e [[99]] [7] 4) /\ fst (GetPayload demo (Position [115] [[99]] 4) st) = Ok [7]
  /\ map (fun n => (liveb demo (moment demo o st n) (demo_e [[97]] [1; 2] 5), liveb demo (moment demo o st n) (demo_e [[97]; [98]] [9] 8),
                    liveb demo (moment demo o st n) e)) [1; 2; 7; 8; 20]%nat
     = [(true, true, false); (false, true, false); (false, true, true); (false, true, true); (false, false, true)]
  /\ c_hash demo [6] <> c_hash demo [115].
Proof.
  split; [split; [apply demo_history; vm_compute; reflexivity|vm_compute; reflexivity]|].
  split; [apply demo_op_okb_spec; vm_compute; reflexivity|]. split; [reflexivity|].
  split; [apply liveb_spec; vm_compute; reflexivity|]. split; [vm_compute; reflexivity|].
  split; [vm_compute; reflexivity|]. discriminate.
Qed.
