(** C24-C31, C37, C57, C58, C61: the store.

    [reached C U ops st]: [st] is the state after the history [ops] of
    Set/IngestEntry/restart operations, all with non-empty paths strictly below
    the three path limits, payloads and names from a set [U] on which the digest
    has no collision, and fewer than 2^64 operations. The theorems about such
    histories are called [_partial] where the property fails for paths that
    reach a limit; the failure is then proved as [_refuted]. *)
From Coq Require Import Sorting.Permutation.
From Verif Require Import Base M_Order M_Encoding M_Paths M_Keys M_Entry M_Map M_Store
  M_Ranges M_Successor S_Order S_Store P_Order P_Encoding P_Paths P_Keys P_Map P_Store P_History P_Auth P_Demo P_Mono.
Local Open Scope N_scope.

(** A demonstration history: two files below a directory entry, an overwrite, a
    restart, a refused older write, a foreign entry, and a deletion by prefix. *)
Definition demo_set (p : path) (b : bytes) (t : N) : op := OpSet (Input [115] p b t) [115] 1.
Definition demo_ops : list op :=
  [ demo_set [[97]; [98]] [1; 2; 3] 5; demo_set [[97]; [99]] [1; 2; 3] 6; demo_set [[97]; [98]] [9] 8; OpReopen;
    demo_set [[97]; [98]] [7] 7; OpIngest (Entry [110] [116] (hex_encode [4]) [[97]] 3 1) [116];
    demo_set [[97]] [5; 5] 7 ].
Definition demo_after : state :=
  match run demo demo_ops empty_store with Some s => s | None => empty_store end.
Definition demo_e (p : path) (b : bytes) (t : N) : entry := Entry [110] [115] (hex_encode b) p t (len b).

Lemma demo_reached : reached demo small demo_ops demo_after.
Proof. split; [apply demo_history; vm_compute; reflexivity|vm_compute; reflexivity]. Qed.

Example demo_live :
  live demo demo_after (demo_e [[97]; [98]] [9] 8) /\ live demo demo_after (demo_e [[97]] [5; 5] 7)
  /\ live demo demo_after (Entry [110] [116] (hex_encode [4]) [[97]] 3 1)
  /\ ~ live demo demo_after (demo_e [[97]; [99]] [1; 2; 3] 6)
  /\ length (kv demo_after) = 3%nat.
Proof. rewrite <- !liveb_spec. vm_compute. repeat split; auto; discriminate. Qed.

(** A component of exactly MaxComponentLength bytes. *)
Definition big : bytes := repeat 97 50.
Definition big' : bytes := repeat 97 49 ++ [98].
Definition after_ops (ops : list op) : state :=
  match run demo ops empty_store with Some s => s | None => empty_store end.

(** * C24 *)

Theorem C24_one_live_entry_partial C U ops st x y :
  reached C U ops st -> live C st x -> live C st y ->
  e_subspace x = e_subspace y -> e_path x = e_path y -> x = y.
Proof.
  intros H. pose proof H as [(PP & HU & _) _].
  destruct (reached_runs C U PP HU ops st H) as (n & xs & R).
  destruct (runs_Inv _ _ _ _ _ _ R) as (I & _). pose proof (inv_rep _ _ _ _ _ I) as RP.
  rewrite !(Rep_live C U PP HU xs st) by auto. intros. eapply place_inj; eauto. apply (rep_place _ _ _ _ RP).
Qed.
Print Assumptions C24_one_live_entry_partial.

(** Get: the unique live entry at the place, or "entry does not exist". *)
Theorem C24_get_partial C U ops st s p :
  reached C U ops st -> strict_path (c_pp C) p ->
  (exists e a, driver_Get C s p st = (Ok (Some (e, a)), st) /\ live C st e /\ e_subspace e = s /\ e_path e = p)
  \/ (driver_Get C s p st = (Ok None, st) /\ forall e, live C st e -> ~ (e_subspace e = s /\ e_path e = p)).
Proof.
  intros H HS. pose proof H as [(PP & HU & _) _].
  destruct (reached_runs C U PP HU ops st H) as (n & xs & R).
  destruct (runs_Inv _ _ _ _ _ _ R) as (I & _). pose proof (inv_rep _ _ _ _ _ I) as RP.
  destruct (driver_Get_spec C U PP HU xs st s p RP HS) as [[E HN]|(x & E & Hx & E1 & E2)].
  - right. split; auto. intros e He [E1 E2]. apply (Rep_live C U PP HU xs st) in He; eauto.
  - left. exists x, (c_hash C (e_subspace x)). rewrite (Rep_live C U PP HU xs st) by auto. auto.
Qed.
Print Assumptions C24_get_partial.

Example C24_instance :
  strict_path (c_pp demo) [[97]; [98]] /\
  fst (driver_Get demo [115] [[97]; [98]] demo_after) = Ok (Some (demo_e [[97]; [98]] [9] 8, hex_encode [115])) /\
  fst (driver_Get demo [115] [[97]; [99]] demo_after) = Ok None.
Proof. split; [apply strict_pathb_spec; vm_compute; reflexivity|vm_compute; auto]. Qed.

(** Were there several, Get would end the process, whatever the store holds otherwise. *)
Theorem C24_several C st s p n1 n2 t1 t2 t3 : store_params (c_pp C) -> strict_path (c_pp C) p ->
  tree st = t1 ++ n1 :: t2 ++ n2 :: t3 ->
  n_sub n1 = s -> n_path n1 = p -> n_sub n2 = s -> n_path n2 = p ->
  driver_Get C s p st = (Fatal, st).
Proof.
  intros PP HS E A1 B1 A2 B2. unfold driver_Get, driver_Get_at, storage_Get, bindM, lift, gets.
  rewrite strict_SuccessorPath by (auto; apply PP). cbv iota beta.
  assert (W : forall n, n_sub n = s -> n_path n = p ->
    M_Ranges.IsIncluded3d OrderSubspace (path_window s (SuccessorSubspaceId s) p (Some (p ++ [[]]))) (node_pos n) = true).
  { intros n <- <-. rewrite window_single, beqb_refl. destruct (peqb_spec (n_path n) (n_path n)); [reflexivity|congruence]. }
  unfold query. rewrite E, !filter_app. cbn [filter]. rewrite (W n1) by auto. rewrite filter_app. cbn [filter]. rewrite (W n2) by auto.
  destruct (filter _ t1) as [|a [|b l]]; cbn [app]; [|reflexivity|reflexivity].
  destruct (filter _ t2); reflexivity.
Qed.
Print Assumptions C24_several.

(** Such a store can be left behind by a disk call that fails: C79_replace_refuted. *)
Example C24_instance_several :
  let n t := Node [115] [[97]] t [] false in
  let st := State [] [n 5; n 7] [] [] false None in
  store_params (c_pp demo) /\ strict_path (c_pp demo) [[97]] /\ driver_Get demo [115] [[97]] st = (Fatal, st).
Proof. split; [exact shipped_store_params|]. split; [apply strict_pathb_spec|]; vm_compute; reflexivity. Qed.

(** Three live entries at one subspace and path, all written through Set. *)
Theorem C24_one_live_entry_refuted :
  exists ops st x y, Forall (op_within demo) ops /\ run demo ops empty_store = Some st
    /\ live demo st x /\ live demo st y
    /\ e_subspace x = e_subspace y /\ e_path x = e_path y /\ x <> y.
Proof.
  set (ops := [demo_set [big] [1] 5; demo_set [big] [2] 7]).
  exists ops, (after_ops ops), (demo_e [big] [1] 5), (demo_e [big] [2] 7).
  split; [apply op_withinb_spec; vm_compute; reflexivity|]. split; [vm_compute; reflexivity|].
  rewrite <- !liveb_spec. split; [vm_compute; reflexivity|]. split; [vm_compute; reflexivity|].
  repeat split. discriminate.
Qed.
Print Assumptions C24_one_live_entry_refuted.

(** * C25 *)

Theorem C25_no_newer_above_partial C U ops st x y :
  reached C U ops st -> live C st x -> live C st y -> above x y -> e_time x <= e_time y.
Proof.
  intros H. pose proof H as [(PP & HU & _) _].
  destruct (reached_runs C U PP HU ops st H) as (n & xs & R).
  destruct (runs_Inv _ _ _ _ _ _ R) as (I & _). pose proof (inv_rep _ _ _ _ _ I) as RP.
  rewrite !(Rep_live C U PP HU xs st) by auto. intros Hx Hy A.
  destruct (N.le_gt_cases (e_time x) (e_time y)); auto. exfalso.
  apply (runs_clean C U _ _ _ _ R x y Hx Hy). split; [lia|right; auto].
Qed.
Print Assumptions C25_no_newer_above_partial.

Example C25_instance :
  above (demo_e [[97]] [5; 5] 7) (demo_e [[97]; [98]] [9] 8)
  /\ live demo demo_after (demo_e [[97]] [5; 5] 7) /\ live demo demo_after (demo_e [[97]; [98]] [9] 8).
Proof.
  split; [split; [reflexivity|split; [discriminate|exists [98], []; reflexivity]]|].
  split; apply demo_live.
Qed.

(** Missing: equal timestamps. A descendant written first survives an entry
    above it with the same timestamp. *)
Theorem C25_no_newer_above_refuted :
  exists ops st x y, reached demo small ops st /\ live demo st x /\ live demo st y
    /\ above x y /\ e_time y <= e_time x.
Proof.
  set (ops := [demo_set [[97]; [98]] [1] 5; demo_set [[97]] [2] 5]).
  exists ops, (after_ops ops), (demo_e [[97]] [2] 5), (demo_e [[97]; [98]] [1] 5).
  split; [split; [apply demo_history; vm_compute; reflexivity|vm_compute; reflexivity]|].
  rewrite <- !liveb_spec. split; [vm_compute; reflexivity|]. split; [vm_compute; reflexivity|].
  split; [split; [reflexivity|split; [discriminate|exists [98], []; reflexivity]]|cbn; lia].
Qed.
Print Assumptions C25_no_newer_above_refuted.

(** * C26 *)

Theorem C26_index_agrees_partial C U ops st :
  reached C U ops st ->
  Permutation (map (fun n => Ok (node_pos n)) (tree st))
              (map (fun kvp => DecodeKey (fst kvp) (c_pp C)) (kv st)).
Proof.
  intros H. pose proof H as [(PP & HU & _) _].
  destruct (reached_runs C U PP HU ops st H) as (n & xs & R).
  destruct (runs_Inv _ _ _ _ _ _ R) as (I & _). pose proof (inv_rep _ _ _ _ _ I) as RP.
  rewrite <- map_map. rewrite (Permutation_map _ (rep_tree _ _ _ _ RP)).
  rewrite (Permutation_map (fun kvp => DecodeKey (fst kvp) (c_pp C)) (rep_kv _ _ _ _ RP)).
  rewrite !map_map. apply Permutation_refl'. apply map_ext_in. intros x Hx. cbn [fst].
  symmetry. apply (ekey_decode C U PP). eapply Rep_In_ok; eauto.
Qed.
Print Assumptions C26_index_agrees_partial.

Theorem C26_restart_partial C U ops st :
  reached C U ops st ->
  exists st', reopen C st = Ok st' /\ (forall e, live C st' e <-> live C st e)
    /\ Permutation (map node_pos (tree st')) (map node_pos (tree st))
    /\ refs st' = refs st /\ files st' = files st.
Proof.
  intros H. pose proof H as [(PP & HU & _) _].
  destruct (reached_runs C U PP HU ops st H) as (n & xs & R).
  destruct (runs_Inv _ _ _ _ _ _ R) as (I & _). pose proof (inv_rep _ _ _ _ _ I) as RP.
  destruct (reopen_spec C U PP HU n xs st I) as (st' & E & I' & K1 & K2 & K3).
  exists st'. split; auto. pose proof (inv_rep _ _ _ _ _ I') as RP'. split; [|split; [|auto]].
  - intros e. rewrite (Rep_live C U PP HU xs st' e RP'), (Rep_live C U PP HU xs st e RP). reflexivity.
  - rewrite (rep_tree _ _ _ _ RP'). symmetry. apply (rep_tree _ _ _ _ RP).
Qed.
Print Assumptions C26_restart_partial.

Example C26_instance : reached demo small demo_ops demo_after /\ length (tree demo_after) = 3%nat.
Proof. split; [exact demo_reached|reflexivity]. Qed.

(** With a component of maximal length the index holds a position that is not
    in the database, and loses the one that is. *)
Theorem C26_index_agrees_refuted :
  exists ops st, Forall (op_within demo) ops /\ run demo ops empty_store = Some st
    /\ map (fun kvp => DecodeKey (fst kvp) (c_pp demo)) (kv st) = [Ok (Position [115] [big] 5)]
    /\ map node_pos (tree st) = [Position [115] [big'] 5].
Proof.
  set (ops := [demo_set [big] [1] 5]). exists ops, (after_ops ops).
  split; [apply op_withinb_spec; vm_compute; reflexivity|]. vm_compute. auto.
Qed.
Print Assumptions C26_index_agrees_refuted.

(** * C27 *)

Theorem C27_decision_partial C U ops st e token :
  reached C U ops st -> entry_ok C U e ->
  (acceptable C (live C st) e token -> exists pruned st', IngestEntry C e token st = (Ok pruned, st'))
  /\ (~ acceptable C (live C st) e token -> IngestEntry C e token st = (Err, st)).
Proof.
  intros H O. pose proof H as [(PP & HU & _ & L) _].
  destruct (reached_runs C U PP HU ops st H) as (n & xs & R).
  destruct (runs_Inv _ _ _ _ _ _ R) as (I & HL & _). pose proof (inv_rep _ _ _ _ _ I) as RP.
  assert (A : acceptable C (live C st) e token <-> acceptable C (fun x => In x xs) e token).
  { split; apply acceptable_ext; intros x; [|apply iff_sym]; apply (Rep_live C U PP HU xs st x RP). }
  rewrite A.
  destruct (IngestEntry_spec C U PP HU n xs st e token) as [(B & pr & s' & E & _)|(B & E)]; auto; [lia| |].
  - split; [eauto|tauto].
  - split; [tauto|auto].
Qed.
Print Assumptions C27_decision_partial.

Example C27_instance :
  fst (IngestEntry demo (demo_e [[97]; [98]] [6] 9) [115] demo_after) = Ok [] /\
  fst (IngestEntry demo (demo_e [[97]; [98]] [6] 8) [115] demo_after) = Err /\
  fst (IngestEntry demo (demo_e [[97]; [98]; [99]] [6] 8) [115] demo_after) = Err /\
  fst (IngestEntry demo (demo_e [[97]; [98]] [6] 9) [116] demo_after) = Err /\
  entry_ok demo small (demo_e [[97]; [98]] [6] 9).
Proof.
  split; [vm_compute; reflexivity|]. split; [vm_compute; reflexivity|]. split; [vm_compute; reflexivity|].
  split; [vm_compute; reflexivity|]. apply demo_entry_okb_spec. vm_compute. reflexivity.
Qed.

(** With a component of maximal length an older entry is accepted over a newer
    one at the same place. *)
Theorem C27_decision_refuted :
  exists ops st e x, Forall (op_within demo) ops /\ run demo ops empty_store = Some st
    /\ live demo st x /\ same_place x e /\ e_time e < e_time x
    /\ fst (IngestEntry demo e (e_subspace e) st) = Ok [].
Proof.
  set (ops := [demo_set [big] [1] 5]).
  exists ops, (after_ops ops), (demo_e [big] [2] 3), (demo_e [big] [1] 5).
  split; [apply op_withinb_spec; vm_compute; reflexivity|]. split; [vm_compute; reflexivity|].
  rewrite <- !liveb_spec. split; [vm_compute; reflexivity|]. split; [split; reflexivity|].
  split; [vm_compute; reflexivity|vm_compute; reflexivity].
Qed.
Print Assumptions C27_decision_refuted.

(** * C28 *)

Theorem C28_effect_partial C U ops st e token pruned st' :
  reached C U ops st -> entry_ok C U e -> IngestEntry C e token st = (Ok pruned, st') ->
  (forall x, live C st' x <-> x = e \/ (live C st x /\ ~ same_place x e /\ ~ prunes e x))
  /\ NoDup pruned
  /\ (forall x, In x pruned <-> live C st x /\ prunes e x).
Proof.
  intros H O E. pose proof H as [(PP & HU & _ & L) _].
  destruct (reached_runs C U PP HU ops st H) as (n & xs & R).
  destruct (runs_Inv _ _ _ _ _ _ R) as (I & HL & _). pose proof (inv_rep _ _ _ _ _ I) as RP.
  destruct (IngestEntry_spec C U PP HU n xs st e token) as [(B & pr & s' & E' & HP & I' & _)|(B & E')]; auto;
    [lia| |rewrite E' in E; discriminate].
  rewrite E' in E. inversion E; subst pr s'. clear E.
  pose proof (inv_rep _ _ _ _ _ I') as RP'. pose proof (ok_path C U e O) as HN.
  split; [|split].
  - intros x. rewrite (Rep_live C U PP HU _ st' x RP'), (Rep_live C U PP HU xs st x RP).
    apply after_In; auto.
  - eapply Permutation_NoDup; [symmetry; exact HP|]. apply NoDup_filter, NoDup_filter.
    eapply NoDup_map_inv. apply (rep_place _ _ _ _ RP).
  - intros x. rewrite (Rep_live C U PP HU xs st x RP). split.
    + intros Hx. eapply Permutation_in in Hx; [|exact HP]. rewrite filter_In, others_In in Hx.
      destruct Hx as ((Hx & _) & Hp). split; auto. destruct (prunesb_spec e x HN); auto; discriminate.
    + intros [Hx Hp]. eapply Permutation_in; [symmetry; exact HP|]. rewrite filter_In, others_In.
      split; [split; auto|].
      * intros [E1 E2]. destruct Hp as [(_ & _ & Hp) _]. rewrite E2 in Hp. eapply proper_prefix_irrefl; eauto.
      * destruct (prunesb_spec e x HN); auto.
Qed.
Print Assumptions C28_effect_partial.

Example C28_instance :
  fst (IngestEntry demo (demo_e [[97]] [6] 9) [115] demo_after) = Ok [demo_e [[97]; [98]] [9] 8]
  /\ entry_ok demo small (demo_e [[97]] [6] 9).
Proof. split; [vm_compute; reflexivity|]. apply demo_entry_okb_spec. vm_compute. reflexivity. Qed.

Theorem C28_effect_refuted :
  exists ops st e pruned st' x, Forall (op_within demo) ops /\ run demo ops empty_store = Some st
    /\ IngestEntry demo e (e_subspace e) st = (Ok pruned, st')
    /\ live demo st' x /\ same_place x e /\ e_time x < e_time e.
Proof.
  set (ops := [demo_set [big] [1] 5]).
  exists ops, (after_ops ops), (demo_e [big] [2] 7), [],
    (snd (IngestEntry demo (demo_e [big] [2] 7) [115] (after_ops ops))), (demo_e [big] [1] 5).
  split; [apply op_withinb_spec; vm_compute; reflexivity|]. split; [vm_compute; reflexivity|].
  rewrite <- !liveb_spec. split; [vm_compute; reflexivity|]. split; [vm_compute; reflexivity|].
  split; [split; reflexivity|vm_compute; reflexivity].
Qed.
Print Assumptions C28_effect_refuted.

(** * C29 *)

Theorem C29_read_your_writes_partial C U ops st i auth now pruned st' :
  reached C U ops st -> op_ok C U (OpSet i auth now) -> Set_ C i auth now st = (Ok pruned, st') ->
  let t := if i_time i =? 0 then now else i_time i in
  (exists a, driver_Get C (i_sub i) (i_path i) st'
     = (Ok (Some (Entry (c_ns C) (i_sub i) (c_hash C (i_payload i)) (i_path i) t (len (i_payload i)), a)), st'))
  /\ GetPayload C (Position (i_sub i) (i_path i) t) st' = (Ok (i_payload i), st').
Proof.
  intros H [O1 O2] E t. pose proof H as [(PP & HU & _ & L) _].
  destruct (reached_runs C U PP HU ops st H) as (n & xs & R).
  destruct (runs_Inv _ _ _ _ _ _ R) as (I & HL & _).
  assert (Hn : n + 1 < 2 ^ 64) by lia.
  destruct (Set_spec C U PP HU n xs st i auth now Hn I O1 O2)
    as [(A & pr & s' & E' & HP & I' & K & F)|(A & s' & E' & _)]; rewrite E' in E; [|discriminate].
  inversion E; subst pr s'. clear E. set (e := set_entry C i now) in *.
  pose proof (inv_rep _ _ _ _ _ I') as RP'. assert (He : In e (after e xs)) by (left; auto).
  split.
  - destruct (driver_Get_spec C U PP HU _ st' (i_sub i) (i_path i) RP' (proj1 O2)) as [[_ X]|(x & X & Hx & E1 & E2)].
    + exfalso. apply (X e); auto.
    + assert (x = e) by (eapply place_inj; [apply (rep_place _ _ _ _ RP')| | | |]; eauto). subst x.
      exists (c_hash C (e_subspace e)). exact X.
  - unfold GetPayload, bindM, gets. pose proof (Rep_kv_get C U _ st' e RP' He) as G.
    unfold ekey in G. change (EntryPosition e) with (Position (i_sub i) (i_path i) t) in G. rewrite G.
    unfold lift. rewrite (eval_decode C U HU e) by (eapply Rep_In_ok; eauto). cbn [v_digest].
    unfold payload_Get, bindM, gets. unfold file_of in F. rewrite F. reflexivity.
Qed.
Print Assumptions C29_read_your_writes_partial.

Example C29_instance :
  op_ok demo small (demo_set [[97]; [100]] [6; 7] 9)
  /\ fst (Set_ demo (Input [115] [[97]; [100]] [6; 7] 9) [115] 1 demo_after) = Ok []
  /\ fst (GetPayload demo (Position [115] [[97]; [100]] 9)
            (snd (Set_ demo (Input [115] [[97]; [100]] [6; 7] 9) [115] 1 demo_after))) = Ok [6; 7].
Proof.
  split; [|vm_compute; auto]. split; [apply smallb_spec; vm_compute; reflexivity|].
  apply demo_entry_okb_spec. vm_compute. reflexivity.
Qed.

Theorem C29_read_your_writes_refuted :
  exists i st, op_within demo (OpSet i (i_sub i) 1) /\ Set_ demo i (i_sub i) 1 empty_store = (Ok [], st)
    /\ driver_Get demo (i_sub i) (i_path i) st = (Ok None, st).
Proof.
  exists (Input [115] [big] [1] 5), (after_ops [demo_set [big] [1] 5]).
  assert (W : Forall (op_within demo) [demo_set [big] [1] 5]).
  { apply op_withinb_spec. vm_compute. reflexivity. }
  split; [exact (Forall_inv W)|]. vm_compute. auto.
Qed.
Print Assumptions C29_read_your_writes_refuted.

(** * C30 *)

(** Counts never fall below the number of live entries with the digest. *)
Theorem C30_counts_partial C U ops st d xs :
  reached C U ops st -> NoDup xs -> xs <> [] -> (forall x, In x xs -> live C st x /\ e_digest x = d) ->
  exists c, ref_Count d st = (Ok c, st) /\ len xs <= c.
Proof.
  intros H ND NE HX. pose proof H as [(PP & HU & _) _].
  destruct (reached_runs C U PP HU ops st H) as (n & ys & R).
  destruct (runs_Inv _ _ _ _ _ _ R) as (I & _). pose proof (inv_rep _ _ _ _ _ I) as RP.
  pose proof (inv_refs _ _ _ _ _ I d) as [Hc _].
  assert (CN : forall l, cnt d l = len (filter (fun y => beqb (e_digest y) d) l)).
  { unfold len. induction l as [|y l IH]; [reflexivity|]. cbn [cnt filter].
    destruct (beqb (e_digest y) d); cbn [length]; lia. }
  assert (Hl : len xs <= cnt d ys).
  { rewrite CN. unfold len. match goal with |- N.of_nat ?a <= N.of_nat ?b => cut (a <= b)%nat; [lia|] end.
    apply NoDup_incl_length; auto. intros x Hx.
    destruct (HX x Hx) as [H1 H2]. apply filter_In. split; [apply (Rep_live C U PP HU ys st x RP); auto|].
    rewrite H2. apply beqb_refl. }
  unfold ref_Count, bindM, gets. unfold getd in Hc. destruct (mget (refs st) d) as [c|].
  - exists c. split; [reflexivity|lia].
  - exfalso. destruct xs; [congruence|]. unfold len in Hl. cbn [length] in Hl. lia.
Qed.
Print Assumptions C30_counts_partial.

(** A live entry that was written by a successful Set still has its payload,
    whatever happened in between. *)
Theorem C30_payloads_partial C U ops1 i auth now ops2 st1 pruned st2 st :
  reached C U (ops1 ++ OpSet i auth now :: ops2) st ->
  run C ops1 empty_store = Some st1 -> Set_ C i auth now st1 = (Ok pruned, st2) ->
  live C st (set_entry C i now) ->
  GetPayload C (EntryPosition (set_entry C i now)) st = (Ok (i_payload i), st).
Proof.
  intros H E1 E2 HL. pose proof H as [(PP & HU & F & L) _].
  destruct (reached_runs C U PP HU _ st H) as (n & xs & R).
  assert (R' : runs C U ((ops1 ++ [OpSet i auth now]) ++ ops2) n xs st) by (rewrite <- app_assoc; exact R).
  destruct (runs_split C U _ _ _ _ _ R') as (n2 & xs2 & st2' & R2).
  destruct (runs_split C U _ _ _ _ _ R2) as (n1 & xs1 & st1' & R1).
  assert (st1' = st1) by (pose proof (runs_run C U _ _ _ _ R1); congruence). subst st1'.
  assert (st2' = st2).
  { pose proof (runs_run C U _ _ _ _ R2) as X. rewrite run_app, E1 in X. cbn [run step] in X. rewrite E2 in X. congruence. }
  subst st2'.
  destruct (runs_Inv _ _ _ _ _ _ R1) as (I1 & L1 & _).
  destruct (runs_Inv _ _ _ _ _ _ R2) as (I2 & L2 & F2).
  destruct (runs_Inv _ _ _ _ _ _ R) as (I & _ & _).
  apply Forall_app in F2 as [_ F2]. pose proof (Forall_inv F2) as O0. cbn [op_ok] in O0. destruct O0 as [O1 O2].
  rewrite len_app in L. change (len (OpSet i auth now :: ops2)) with (N.of_nat (S (length ops2))) in L.
  assert (Hn : n1 + 1 < 2 ^ 64) by lia.
  destruct (Set_spec C U PP HU n1 xs1 st1 i auth now Hn I1 O1 O2)
    as [(A & pr & s' & E' & HP & I' & K & Fl)|(A & s' & E' & _)]; rewrite E' in E2; [|discriminate].
  inversion E2; subst pr s'. set (e := set_entry C i now) in *.
  pose proof (inv_rep _ _ _ _ _ I) as RP.
  apply (Rep_live C U PP HU xs st e RP) in HL.
  assert (H2 : In e xs2).
  { apply (Rep_live C U PP HU xs2 st2 e (inv_rep _ _ _ _ _ I2)).
    apply (Rep_live C U PP HU _ st2 e (inv_rep _ _ _ _ _ I')). left; auto. }
  pose proof (runs_payload C U PP HU _ _ _ _ _ _ _ _ e _ R2 R' H2 HL Fl) as FF.
  unfold GetPayload, bindM, gets. pose proof (Rep_kv_get C U _ st e RP HL) as G.
  unfold ekey in G. rewrite G.
  unfold lift. rewrite (eval_decode C U HU e) by (eapply Rep_In_ok; eauto). cbn [v_digest].
  unfold payload_Get, bindM, gets. unfold file_of in FF. rewrite FF. reflexivity.
Qed.
Print Assumptions C30_payloads_partial.

Example C30_instance :
  reached demo small demo_ops demo_after
  /\ live demo demo_after (demo_e [[97]; [98]] [9] 8)
  /\ fst (GetPayload demo (EntryPosition (demo_e [[97]; [98]] [9] 8)) demo_after) = Ok [9].
Proof. split; [exact demo_reached|]. split; [apply demo_live|vm_compute; reflexivity]. Qed.

(** Missing: digests that are not in canonical form. The file name is the
    decoded digest, the reference count is kept under the digest itself: an
    entry carrying the same digest in upper case takes the payload of a live
    entry away with it. *)
Theorem C30_payloads_refuted :
  exists ops st e, Forall (op_within demo) ops /\ run demo ops empty_store = Some st
    /\ live demo st e
    /\ In (OpSet (Input (e_subspace e) (e_path e) [171] (e_time e)) (e_subspace e) 1) ops
    /\ GetPayload demo (EntryPosition e) st = (Err, st).
Proof.
  set (ops := [ demo_set [[97]] [171] 5; OpIngest (Entry [110] [115] [65; 66] [[98]] 5 1) [115];
                OpIngest (Entry [110] [115] [99; 100] [[98]] 6 1) [115] ]).
  exists ops, (after_ops ops), (demo_e [[97]] [171] 5).
  split; [apply op_withinb_spec; vm_compute; reflexivity|]. split; [vm_compute; reflexivity|].
  rewrite <- liveb_spec. split; [vm_compute; reflexivity|]. split; [left; reflexivity|vm_compute; reflexivity].
Qed.
Print Assumptions C30_payloads_refuted.

(** * C31 *)

Theorem C31_converge_partial C U ops ops' st st' :
  reached C U ops st -> reached C U ops' st' ->
  (forall e, offered C ops e <-> offered C ops' e) ->
  (forall x y, offered C ops x -> offered C ops y -> same_place x y \/ above x y ->
     e_time x = e_time y -> x = y) ->
  forall e, live C st e <-> live C st' e.
Proof.
  intros H H' HO NT e. pose proof H as [(PP & HU & _) _].
  destruct (reached_runs C U PP HU _ _ H) as (n & xs & R).
  destruct (reached_runs C U PP HU _ _ H') as (n' & xs' & R').
  destruct (runs_Inv _ _ _ _ _ _ R) as (I & _). destruct (runs_Inv _ _ _ _ _ _ R') as (I' & _).
  rewrite (Rep_live C U PP HU xs st e (inv_rep _ _ _ _ _ I)).
  rewrite (Rep_live C U PP HU xs' st' e (inv_rep _ _ _ _ _ I')).
  assert (NT' : no_ties (offered C ops')) by (intros x y Hx Hy; apply NT; apply HO; auto).
  rewrite (runs_max C U PP HU _ _ _ _ R NT e), (runs_max C U PP HU _ _ _ _ R' NT' e).
  split; intros [A B]; split; try (apply HO; auto); intros y Hy; apply B; apply HO; auto.
Qed.
Print Assumptions C31_converge_partial.

(** What both stores then hold: the offered entries that none supersedes. *)
Theorem C31_live_is_maximal_partial C U ops st :
  reached C U ops st ->
  (forall x y, offered C ops x -> offered C ops y -> same_place x y \/ above x y ->
     e_time x = e_time y -> x = y) ->
  forall e, live C st e <-> offered C ops e /\ ~ exists y, offered C ops y /\ supersedes y e.
Proof.
  intros H NT e. pose proof H as [(PP & HU & _) _].
  destruct (reached_runs C U PP HU _ _ H) as (n & xs & R).
  destruct (runs_Inv _ _ _ _ _ _ R) as (I & _).
  rewrite (Rep_live C U PP HU xs st e (inv_rep _ _ _ _ _ I)), (runs_max C U PP HU _ _ _ _ R NT e).
  split; intros [A B]; split; auto; [intros (y & Hy & S); eapply B; eauto|].
  intros y Hy S. apply B. eauto.
Qed.
Print Assumptions C31_live_is_maximal_partial.

Definition C31_a := demo_e [[97]; [98]] [1] 5.
Definition C31_b := demo_e [[97]] [2] 7.
Definition C31_c := demo_e [[97]; [98]] [3] 9.
Definition C31_ops (l : list entry) : list op := map (fun e => OpIngest e (e_subspace e)) l.
Example C31_instance :
  reached demo small (C31_ops [C31_a; C31_b; C31_c]) (after_ops (C31_ops [C31_a; C31_b; C31_c])) /\
  reached demo small (C31_ops [C31_c; C31_a; C31_b]) (after_ops (C31_ops [C31_c; C31_a; C31_b])) /\
  kv (after_ops (C31_ops [C31_a; C31_b; C31_c])) = kv (after_ops (C31_ops [C31_c; C31_a; C31_b])) /\
  length (kv (after_ops (C31_ops [C31_a; C31_b; C31_c]))) = 2%nat /\
  NoDup (map e_time [C31_a; C31_b; C31_c]).
Proof.
  split; [split; [apply demo_history; vm_compute; reflexivity|vm_compute; reflexivity]|].
  split; [split; [apply demo_history; vm_compute; reflexivity|vm_compute; reflexivity]|].
  split; [vm_compute; reflexivity|]. split; [vm_compute; reflexivity|].
  repeat constructor; cbn; intuition discriminate.
Qed.

(** Missing: equal timestamps. First come, first served: two authorised entries
    for one place with equal timestamps and different payloads never converge;
    nor do an entry and one above it with equal timestamps. *)
Theorem C31_converge_refuted :
  (exists x y, same_place x y /\ reached demo small (C31_ops [x; y]) (after_ops (C31_ops [x; y]))
    /\ reached demo small (C31_ops [y; x]) (after_ops (C31_ops [y; x]))
    /\ live demo (after_ops (C31_ops [x; y])) x /\ ~ live demo (after_ops (C31_ops [y; x])) x)
  /\ (exists x y, above x y /\ reached demo small (C31_ops [x; y]) (after_ops (C31_ops [x; y]))
    /\ reached demo small (C31_ops [y; x]) (after_ops (C31_ops [y; x]))
    /\ ~ live demo (after_ops (C31_ops [x; y])) y /\ live demo (after_ops (C31_ops [y; x])) y).
Proof.
  split.
  - exists (demo_e [[97]] [1] 5), (demo_e [[97]] [2] 5). split; [split; reflexivity|].
    split; [split; [apply demo_history; vm_compute; reflexivity|vm_compute; reflexivity]|].
    split; [split; [apply demo_history; vm_compute; reflexivity|vm_compute; reflexivity]|].
    rewrite <- !liveb_spec. split; [vm_compute; reflexivity|vm_compute; discriminate].
  - exists (demo_e [[97]] [1] 5), (demo_e [[97]; [98]] [2] 5).
    split; [split; [reflexivity|split; [discriminate|exists [98], []; reflexivity]]|].
    split; [split; [apply demo_history; vm_compute; reflexivity|vm_compute; reflexivity]|].
    split; [split; [apply demo_history; vm_compute; reflexivity|vm_compute; reflexivity]|].
    rewrite <- !liveb_spec. split; [vm_compute; discriminate|vm_compute; reflexivity].
Qed.
Print Assumptions C31_converge_refuted.

(** * C37 *)

Theorem C37_lock_free_partial C U ops st : reached C U ops st -> locked st = false.
Proof.
  intros H. pose proof H as [(PP & HU & _) _].
  destruct (reached_runs C U PP HU _ _ H) as (n & xs & R).
  destruct (runs_Inv _ _ _ _ _ _ R) as (I & _). apply I.
Qed.
Print Assumptions C37_lock_free_partial.

Example C37_instance : reached demo small demo_ops demo_after /\ locked demo_after = false.
Proof. split; [exact demo_reached|reflexivity]. Qed.

(** A Set that returns an error with the lock held; the next Set never returns.
    (After a component of maximal length has displaced a node of the index, Get
    finds a node without a database entry and returns an error.) *)
Theorem C37_lock_free_refuted :
  exists ops st, Forall (op_within demo) ops /\ run demo ops empty_store = Some st /\ locked st = true
    /\ forall i now, fst (Set_ demo i (i_sub i) now st) = Hang.
Proof.
  set (ops := [demo_set [big] [1] 5; demo_set [big'] [2] 7]). exists ops, (after_ops ops).
  split; [apply op_withinb_spec; vm_compute; reflexivity|]. split; [vm_compute; reflexivity|].
  split; [vm_compute; reflexivity|]. intros i now.
  assert (L : locked (after_ops ops) = true) by (vm_compute; reflexivity).
  assert (B : budget (after_ops ops) = None) by (vm_compute; reflexivity).
  revert L B. generalize (after_ops ops). intros st L B.
  unfold Set_, payload_Set, bindM at 1 2, durable. rewrite B. unfold ret at 1. cbn [fst snd].
  unfold bindM at 1, lift, Authorise. cbn [e_subspace]. rewrite beqb_refl.
  unfold bindM at 1, IngestEntry, bindM at 1, lock. cbn [locked set_files]. rewrite L. reflexivity.
Qed.
Print Assumptions C37_lock_free_refuted.

(** * C57 *)

(** Holds for all histories within the limits, including operations cut short by
    a crash at any durable write, panics, exits, and restarts. *)
Theorem C57_only_authorised_entries C ops st e :
  store_params (c_pp C) -> Forall (op_within C) ops -> lives C ops st -> live C st e ->
  e_namespace e = c_ns C /\ exists o, In o ops /\ offer C o = Some (e, e_subspace e).
Proof. exact (lives_offered C ops st e). Qed.
Print Assumptions C57_only_authorised_entries.

(** An unauthorised operation changes nothing but payload files, in any state. *)
Theorem C57_unauthorised_no_effect C o e token st r st' :
  offer C o = Some (e, token) -> token <> e_subspace e \/ e_namespace e <> c_ns C ->
  step C o st = (r, st') -> locked st = false ->
  kv st' = kv st /\ tree st' = tree st /\ refs st' = refs st /\ locked st' = false /\ r <> Hang.
Proof.
  assert (G : forall e token st r st', token <> e_subspace e \/ e_namespace e <> c_ns C ->
    IngestEntry C e token st = (r, st') -> locked st = false ->
    kv st' = kv st /\ tree st' = tree st /\ refs st' = refs st /\ locked st' = false /\ r <> Hang).
  { clear. intros e token st r st' H E L. unfold IngestEntry in E. unfold bindM at 1, lock in E. rewrite L in E.
    unfold ns_equal, IsAuthoriseWrite in E. destruct (beqb_spec (c_ns C) (e_namespace e)) as [En|En]; cbn [negb] in E.
    - destruct (beqb_spec (e_subspace e) token) as [Et|Et]; cbn [negb] in E.
      + exfalso. destruct H; congruence.
      + unfold bindM, unlock, fail in E. inversion E; subst. cbn. repeat split; auto. discriminate.
    - unfold bindM, unlock, fail in E. inversion E; subst. cbn. repeat split; auto. discriminate. }
  intros HO H E L. destruct o as [i auth now|e0 t0|]; cbn in HO; try discriminate.
  - inversion HO; subst e token. cbn [step] in E. unfold Set_ in E.
    unfold payload_Set in E. unfold bindM at 1 2 in E. unfold durable at 1 in E.
    destruct (budget st) as [[|m]|] eqn:B.
    + inversion E; subst. repeat split; auto. discriminate.
    + unfold ret at 1 in E. cbn [fst snd] in E. unfold bindM at 1, lift, Authorise in E. cbn [e_subspace] in E.
      destruct (beqb_spec (i_sub i) auth) as [Ea|Ea].
      * exfalso. destruct H as [H|H]; apply H; cbn; congruence.
      * inversion E; subst. cbn. repeat split; auto. discriminate.
    + unfold ret at 1 in E. cbn [fst snd] in E. unfold bindM at 1, lift, Authorise in E. cbn [e_subspace] in E.
      destruct (beqb_spec (i_sub i) auth) as [Ea|Ea].
      * exfalso. destruct H as [H|H]; apply H; cbn; congruence.
      * inversion E; subst. cbn. repeat split; auto. discriminate.
  - inversion HO; subst e0 t0. eapply G; eauto.
Qed.
Print Assumptions C57_unauthorised_no_effect.

Example C57_instance :
  exists st, lives demo [demo_set [[97]] [1] 5; OpSet (Input [116] [[97]] [1] 5) [115] 1; demo_set [big] [1] 6] st
    /\ live demo st (demo_e [[97]] [1] 5) /\ live demo st (demo_e [big] [1] 6) /\ length (kv st) = 2%nat.
Proof.
  (* the last operation dies after its third durable write *)
  set (s1 := after_ops [demo_set [[97]] [1] 5; OpSet (Input [116] [[97]] [1] 5) [115] 1]).
  set (s2 := snd (step demo (demo_set [big] [1] 6) (set_budget (Some 3%nat) s1))).
  exists (match reopen demo s2 with Ok s => s | _ => empty_store end). split.
  - change [demo_set [[97]] [1] 5; OpSet (Input [116] [[97]] [1] 5) [115] 1; demo_set [big] [1] 6]
      with ((([] ++ [demo_set [[97]] [1] 5]) ++ [OpSet (Input [116] [[97]] [1] 5) [115] 1]) ++ [demo_set [big] [1] 6]).
    eapply lives_crash with (b := Some 3%nat) (st := s1) (r := Fatal) (st' := s2);
      [|vm_compute; reflexivity|vm_compute; reflexivity].
    eapply lives_step with (st := after_ops [demo_set [[97]] [1] 5]) (r := Err); [|vm_compute; reflexivity|auto].
    eapply lives_step with (st := empty_store) (r := Ok []); [constructor|vm_compute; reflexivity|eauto].
  - rewrite <- !liveb_spec. vm_compute. auto.
Qed.

(** * C58 *)

Theorem C58_monotone_strict C U ops1 ops2 st1 st e :
  reached C U (ops1 ++ ops2) st -> run C ops1 empty_store = Some st1 -> live C st1 e ->
  exists x, live C st x /\ ((same_place x e /\ e_time e <= e_time x) \/ (above x e /\ e_time e < e_time x)).
Proof.
  intros H E1 HL. pose proof H as [(PP & HU & _) _].
  destruct (reached_runs C U PP HU _ _ H) as (n & xs & R).
  destruct (runs_split C U _ _ _ _ _ R) as (n1 & xs1 & st1' & R1).
  assert (st1' = st1) by (pose proof (runs_run C U _ _ _ _ R1); congruence). subst st1'.
  destruct (runs_Inv _ _ _ _ _ _ R) as (I & _). destruct (runs_Inv _ _ _ _ _ _ R1) as (I1 & _).
  apply (Rep_live C U PP HU xs1 st1 e (inv_rep _ _ _ _ _ I1)) in HL.
  destruct (runs_covered C U PP HU _ _ _ _ _ _ _ _ R1 R e (or_introl HL)) as [He|(x & Hx & T & P)].
  - exists e. rewrite (Rep_live C U PP HU xs st e (inv_rep _ _ _ _ _ I)). split; auto.
    left. split; [split; auto|lia].
  - exists x. rewrite (Rep_live C U PP HU xs st x (inv_rep _ _ _ _ _ I)). split; auto.
    destruct P; [left|right]; split; auto; lia.
Qed.
Print Assumptions C58_monotone_strict.

(** The same for all paths within the limits, whatever the index has become, and
    also across operations that end the process. *)
Theorem C58_monotone C ops1 ops2 st1 st e :
  store_params (c_pp C) -> roomy (c_pp C) -> Forall (op_bounded C) (ops1 ++ ops2) ->
  goes C empty_store ops1 st1 -> goes C st1 ops2 st -> live C st1 e ->
  exists x, live C st x /\ ((same_place x e /\ e_time e <= e_time x) \/ (above x e /\ e_time e < e_time x)).
Proof.
  intros PP (B0 & B1 & B2) F G1 G2 HL. apply Forall_app in F as [F1 F2].
  destruct (goes_MInv C PP B0 B1 B2 _ _ _ (MInv_empty C) F1 G1) as [I1 _].
  destruct (goes_MInv C PP B0 B1 B2 _ _ _ I1 F2 G2) as [I2 K].
  destruct (K _ (held_live C PP _ _ (proj1 I1) HL)) as (q & Hq & HC).
  destruct (live_held C PP _ _ (proj1 I2) Hq) as (x & Hx & <-). exists x. split; auto.
  destruct HC as [E [[P T]|(N & P & T)]]; [left|right]; (split; [|exact T]); unfold same_place, above; auto.
Qed.
Print Assumptions C58_monotone.

Definition op_boundedb (C : cfg) (o : op) : bool :=
  match offer C o with
  | None => true
  | Some (e, _) =>
      forallb (forallb (fun x => x <? 256)) (e_path e) && within_limitsb (c_pp C) (e_path e) && (e_time e <? 2 ^ 64)
      && (e_length e <? 2 ^ 64) && (len (e_digest e) + 8 <? 2 ^ 64) && (len (c_hash C (e_subspace e)) + 8 <? 2 ^ 64)
  end.
Lemma op_boundedb_spec C ops : forallb (op_boundedb C) ops = true -> Forall (op_bounded C) ops.
Proof.
  rewrite forallb_forall, Forall_forall. intros H o Ho. specialize (H o Ho). unfold op_boundedb, op_bounded in *.
  destruct (offer C o) as [[e t]|]; auto. rewrite !andb_true_iff, !N.ltb_lt in H.
  destruct H as [[[[[H1 H2] H3] H4] H5] H6]. split; [|split; [apply within_limitsb_spec; auto|auto]].
  apply Forall_forall. intros c Hc. apply Forall_forall. intros x Hx. rewrite forallb_forall in H1.
  specialize (H1 c Hc). rewrite forallb_forall in H1. apply N.ltb_lt. auto.
Qed.

(** A component of maximal length, an operation that leaves the lock held, one
    that blocks for ever, a restart, and a write at the path of the first. *)
Example C58_instance_limits :
  exists st, store_params (c_pp demo) /\ roomy (c_pp demo)
    /\ Forall (op_bounded demo)
         ([demo_set [big] [1] 5] ++ [demo_set [big'] [2] 7; demo_set [[97]] [3] 1; demo_set [big] [4] 9])
    /\ goes demo empty_store [demo_set [big] [1] 5] (after_ops [demo_set [big] [1] 5])
    /\ goes demo (after_ops [demo_set [big] [1] 5]) [demo_set [big'] [2] 7; demo_set [[97]] [3] 1; demo_set [big] [4] 9] st
    /\ live demo (after_ops [demo_set [big] [1] 5]) (demo_e [big] [1] 5)
    /\ live demo st (demo_e [big] [4] 9) /\ ~ live demo st (demo_e [big] [1] 5).
Proof.
  set (s1 := after_ops [demo_set [big] [1] 5]).
  set (s2 := snd (step demo (demo_set [big'] [2] 7) s1)).
  set (s3 := match reopen demo (snd (step demo (demo_set [[97]] [3] 1) s2)) with Ok s => s | _ => empty_store end).
  set (s4 := snd (step demo (demo_set [big] [4] 9) s3)).
  exists s4. split; [apply shipped_store_params|]. split; [repeat split; vm_compute; reflexivity|].
  split; [apply op_boundedb_spec; vm_compute; reflexivity|]. split.
  { apply (goes_step demo empty_store [] _ empty_store (Ok []) s1); [constructor|vm_compute; reflexivity|eauto]. }
  split.
  { apply (goes_step demo s1 [_; _] _ s3 (Ok []) s4); [|vm_compute; reflexivity|eauto].
    apply (goes_died demo s1 [_] _ s2 Hang (snd (step demo (demo_set [[97]] [3] 1) s2)) s3);
      [|vm_compute; reflexivity|vm_compute; reflexivity].
    apply (goes_step demo s1 [] _ s1 Err s2); [constructor|vm_compute; reflexivity|auto]. }
  rewrite <- !liveb_spec. split; [vm_compute; reflexivity|]. split; [vm_compute; reflexivity|].
  vm_compute. discriminate.
Qed.

Example C58_instance :
  live demo (after_ops (firstn 2 demo_ops)) (demo_e [[97]; [99]] [1; 2; 3] 6)
  /\ live demo demo_after (demo_e [[97]] [5; 5] 7)
  /\ above (demo_e [[97]] [5; 5] 7) (demo_e [[97]; [99]] [1; 2; 3] 6).
Proof.
  split; [apply liveb_spec; vm_compute; reflexivity|]. split; [apply demo_live|].
  split; [reflexivity|split; [discriminate|exists [99], []; reflexivity]].
Qed.

(** * C61 *)

(** Every such history runs to its end: no operation panics, exits or blocks. *)
Theorem C61_no_crash_partial C U ops : history_ok C U ops -> exists st, run C ops empty_store = Some st.
Proof.
  intros (PP & HU & F & L). destruct (runs_total C U PP HU ops F L) as (n & xs & st & _ & E). eauto.
Qed.
Print Assumptions C61_no_crash_partial.

(** Reading never crashes either, whatever position is asked for. *)
Theorem C61_reads_partial C U ops st p :
  reached C U ops st ->
  (exists b, GetPayload C p st = (Ok b, st)) \/ GetPayload C p st = (Err, st).
Proof.
  intros H. pose proof H as [(PP & HU & _) _].
  destruct (reached_runs C U PP HU _ _ H) as (n & xs & R).
  destruct (runs_Inv _ _ _ _ _ _ R) as (I & _). pose proof (inv_rep _ _ _ _ _ I) as RP.
  unfold GetPayload, bindM, gets. destruct (mget (kv st) (EncodeKey p (c_pp C))) as [v|] eqn:E; [|right; reflexivity].
  apply mget_In in E. eapply Permutation_in in E; [|apply (rep_kv _ _ _ _ RP)].
  apply in_map_iff in E as (x & Ex & Hx). pose proof (f_equal snd Ex) as Ev. cbn [snd] in Ev. subst v.
  unfold lift. rewrite (eval_decode C U HU x) by (eapply Rep_In_ok; eauto).
  unfold payload_Get, bindM, gets. cbn [v_digest]. destruct (mget (files st) _); [left; eexists; reflexivity|right; reflexivity].
Qed.
Print Assumptions C61_reads_partial.

Example C61_instance : history_ok demo small demo_ops.
Proof. apply demo_reached. Qed.

(** The empty path panics; a path of exactly MaxPathLength bytes ends the
    process after the entry has been written; a path that meets a displaced
    index node blocks the process (C37). *)
Theorem C61_no_crash_refuted :
  (exists i, within_limits (c_pp demo) (i_path i) /\ fst (Set_ demo i (i_sub i) 1 empty_store) = Panic)
  /\ (exists i, within_limits (c_pp demo) (i_path i) /\ fst (Set_ demo i (i_sub i) 1 empty_store) = Fatal
        /\ live demo (snd (Set_ demo i (i_sub i) 1 empty_store)) (set_entry demo i 1)).
Proof.
  split.
  - exists (Input [115] [] [1] 5). split; [apply within_limitsb_spec; vm_compute; reflexivity|vm_compute; reflexivity].
  - exists (Input [115] [repeat 97 25; repeat 98 25] [1] 5).
    split; [apply within_limitsb_spec; vm_compute; reflexivity|]. split; [vm_compute; reflexivity|].
    apply liveb_spec. vm_compute. reflexivity.
Qed.
Print Assumptions C61_no_crash_refuted.

(** Each of the four conditions of [strict_path] is needed: a history that
    breaks only that one, ends the process or leaves it blocked for ever. *)
Theorem C61_each_limit_refuted :
  (* non-empty *)
  (exists ops, Forall (op_bounded demo) ops
     /\ Forall (fun o => forall e t, offer demo o = Some (e, t) -> e_path e = [] \/ strict_path (c_pp demo) (e_path e)) ops
     /\ run demo ops empty_store = None)
  (* fewer components than the maximum *)
  /\ (exists ops, Forall (op_bounded demo) ops
     /\ Forall (fun o => forall e t, offer demo o = Some (e, t) ->
          e_path e <> [] /\ Forall (fun c => len c < max_component_length (c_pp demo)) (e_path e)
          /\ total_length (e_path e) < max_path_length (c_pp demo)) ops
     /\ run demo ops empty_store = None)
  (* components shorter than the maximum; the total length has the same limit *)
  /\ (exists ops, Forall (op_bounded demo) ops
     /\ Forall (fun o => forall e t, offer demo o = Some (e, t) ->
          e_path e <> [] /\ len (e_path e) < max_component_count (c_pp demo)) ops
     /\ run demo ops empty_store = None)
  (* total length below the maximum *)
  /\ (exists ops, Forall (op_bounded demo) ops
     /\ Forall (fun o => forall e t, offer demo o = Some (e, t) ->
          e_path e <> [] /\ len (e_path e) < max_component_count (c_pp demo)
          /\ Forall (fun c => len c < max_component_length (c_pp demo)) (e_path e)) ops
     /\ run demo ops empty_store = None).
Proof.
  assert (SH : forall (P : path -> Prop) ops, Forall (fun o => match offer demo o with Some (e, _) => P (e_path e) | None => True end) ops ->
    Forall (fun o => forall e t, offer demo o = Some (e, t) -> P (e_path e)) ops).
  { intros P ops H. eapply Forall_impl; [|exact H]. cbn beta. intros o Ho e t E. rewrite E in Ho. auto. }
  assert (LT : forall (p : path) m, forallb (fun c => len c <? m) p = true -> Forall (fun c : bytes => len c < m) p).
  { intros p m H. apply Forall_forall. intros c Hc. rewrite forallb_forall in H. apply N.ltb_lt. auto. }
  split; [|split; [|split]].
  - exists [demo_set [] [1] 5]. split; [apply op_boundedb_spec; vm_compute; reflexivity|]. split; [|vm_compute; reflexivity].
    apply (SH (fun p => p = [] \/ strict_path (c_pp demo) p)). repeat constructor.
  - set (deep := repeat ([] : bytes) 49 ++ [[97]]).
    exists [demo_set deep [1] 5; OpReopen; demo_set (firstn 48 deep) [2] 6; demo_set [[97]] [3] 7].
    split; [apply op_boundedb_spec; vm_compute; reflexivity|]. split; [|vm_compute; reflexivity].
    apply (SH (fun p => p <> [] /\ Forall (fun c => len c < max_component_length (c_pp demo)) p
          /\ total_length p < max_path_length (c_pp demo))).
    repeat match goal with |- Forall _ _ => constructor end; cbn [offer demo_set];
      try exact I; split; try discriminate; split; try (apply LT; vm_compute; reflexivity); vm_compute; reflexivity.
  - exists [demo_set [big] [1] 5; demo_set [big'] [2] 7; demo_set [[97]] [3] 1].
    split; [apply op_boundedb_spec; vm_compute; reflexivity|]. split; [|vm_compute; reflexivity].
    apply (SH (fun p => p <> [] /\ len p < max_component_count (c_pp demo))).
    repeat constructor; discriminate.
  - exists [demo_set [repeat 97 25; repeat 98 25] [1] 5].
    split; [apply op_boundedb_spec; vm_compute; reflexivity|]. split; [|vm_compute; reflexivity].
    apply (SH (fun p => p <> [] /\ len p < max_component_count (c_pp demo)
          /\ Forall (fun c => len c < max_component_length (c_pp demo)) p)).
    constructor; [|constructor].
    cbn [offer demo_set]. split; [discriminate|]. split; [vm_compute; reflexivity|apply LT; vm_compute; reflexivity].
Qed.
Print Assumptions C61_each_limit_refuted.
