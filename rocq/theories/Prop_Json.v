(** C91: the text of entries.json. *)
From Coq Require Import Ascii String Permutation Lia.
From Verif Require Import Base M_Order M_Encoding M_Paths M_Keys M_Entry M_Map M_Store M_Query M_Payload M_Cli M_Shell M_Names M_Json
  S_Order S_Store S_Shell S_Names S_Json P_Order P_Encoding P_Paths P_Map P_Store P_History P_Demo P_Shell P_Json Prop_Store Prop_Cli Prop_Shell.
Local Open Scope N_scope.
Local Open Scope list_scope.
Notation txt := Prop_Shell.txt.
Notation demo_run := (shell_run shipped_params (c_hash demo) (c_fname demo) sort_nodes).

(** Every text that json.Marshal makes is read back as one row for each key, in their order, with its time, its
    subspace and its path; and with UTF-8 text for its fingerprint, which is the fingerprint exactly if that is UTF-8. *)
Theorem C91_read_back o : Forall (fun k => wf_bytes (opt_bytes (k_sub k)) /\ wf_path (opt_path (k_path k))) (opt_list o) ->
  exists rows, read_entries (entries_json o) = Some rows
    /\ Forall2 (fun k '(t, s, p, f) => t = k_time k /\ s = opt_bytes (k_sub k) /\ p = opt_path (k_path k)
                                       /\ utf8_text f /\ (f = k_fp k <-> utf8_text (k_fp k))) (opt_list o) rows.
Proof.
  intros H.
  set (fp := fun k => match string_rest (string_body 0 0 (k_fp k) ++ [34]) with Some (x, _) => x | None => [] end).
  exists (map (fun k => (k_time k, opt_bytes (k_sub k), opt_path (k_path k), fp k)) (opt_list o)). split.
  - apply read_entries_ok. revert H. apply Forall_impl. intros k [W1 W2]. split; [split; [exact W1|exact W2]|].
    intros r. unfold fp. destruct (string_body_reads (k_fp k)) as [x X]. rewrite !X. reflexivity.
  - clear H. induction (opt_list o) as [|k l IH]; cbn [map]; constructor; auto. repeat split.
    + unfold fp. destruct (string_body_text (k_fp k)) as (x & T & X). rewrite X. exact T.
    + intros <-. unfold fp. destruct (string_body_text (k_fp k)) as (x & T & X). rewrite X. exact T.
    + intros F. unfold fp. rewrite string_body_utf8 by auto. reflexivity.
Qed.
Print Assumptions C91_read_back.

(** Lists whose texts are equal say the same: as many keys, with the same times, subspaces and paths, and the same
    fingerprints where both are UTF-8. *)
Theorem C91_distinct o o' :
  Forall (fun k => wf_bytes (opt_bytes (k_sub k)) /\ wf_path (opt_path (k_path k))) (opt_list o) ->
  Forall (fun k => wf_bytes (opt_bytes (k_sub k)) /\ wf_path (opt_path (k_path k))) (opt_list o') ->
  entries_json o = entries_json o' ->
  Forall2 (fun k k' => k_time k = k_time k' /\ opt_bytes (k_sub k) = opt_bytes (k_sub k') /\ opt_path (k_path k) = opt_path (k_path k')
                       /\ (utf8_text (k_fp k) -> utf8_text (k_fp k') -> k_fp k = k_fp k'))
    (opt_list o) (opt_list o').
Proof.
  intros H H' E. destruct (C91_read_back o H) as (rows & R & F), (C91_read_back o' H') as (rows' & R' & F').
  rewrite E, R' in R. injection R as ->. clear -F F'. revert F'. generalize (opt_list o'). intros l'. revert l'.
  induction F as [|k [[[t s] p] f] l rows (-> & -> & -> & _ & A) _ IH]; intros l' F'; destruct l' as [|k' l']; inversion F' as [|? ? ? ? B F'' E1 E2]; constructor; auto.
  clear IH F'. destruct B as (B1 & B2 & B3 & _ & B4). split; [exact B1|]. split; [exact B2|]. split; [exact B3|].
  intros X Y. apply A in X. apply B4 in Y. congruence.
Qed.
Print Assumptions C91_distinct.

(** A text cut short, as a write that stops in the middle leaves it (C90), is not read as anything. *)
Theorem C91_cut o n : Forall (fun k => wf_bytes (opt_bytes (k_sub k)) /\ wf_path (opt_path (k_path k))) (opt_list o) ->
  (n < List.length (entries_json o))%nat -> read_entries (firstn n (entries_json o)) = None.
Proof.
  intros H L.
  set (fp := fun k => match string_rest (string_body 0 0 (k_fp k) ++ [34]) with Some (x, _) => x | None => [] end).
  assert (X : says (entries_json o) (j_array (fun k => j_key (fp k) k) o)).
  { apply says_entries. revert H. apply Forall_impl. intros k [W1 W2]. split; [split; [exact W1|exact W2]|].
    intros r. unfold fp. destruct (string_body_reads (k_fp k)) as [x X]. rewrite !X. reflexivity. }
  unfold read_entries. rewrite (read_cut _ _ n X); auto.
  intros c r E. destruct o as [l|]; unfold entries_json, json_array, t_null in E; injection E as <- _; reflexivity.
Qed.
Print Assumptions C91_cut.

(** The words of a line of bytes are bytes. *)
Lemma spaced_wf ws : wf_bytes (spaced ws) -> Forall wf_bytes ws.
Proof.
  induction ws as [|w [|w' ws] IH]; intros H; constructor; auto.
  - change (wf_bytes (w ++ 32 :: spaced (w' :: ws))) in H. apply Forall_app in H. apply H.
  - change (wf_bytes (w ++ 32 :: spaced (w' :: ws))) in H. apply Forall_app in H as [_ H]. inversion H; auto.
Qed.
Lemma words_wf l ws : wf_bytes l -> words l ws -> Forall wf_bytes ws.
Proof.
  intros H (_ & _ & a & b & -> & _). apply spaced_wf. apply Forall_app in H as [_ H]. apply Forall_app in H. apply H.
Qed.
Lemma split_on_wf c s : wf_bytes s -> Forall wf_bytes (split_on c s).
Proof.
  induction 1 as [|x s L _ IH]; cbn [split_on]; [repeat constructor|].
  destruct (split_on c s) as [|w ws]; [repeat constructor; auto|]. inversion IH; subst.
  destruct (x =? c); repeat (constructor; auto).
Qed.
Lemma asks_wf l fs i : wf_bytes l -> asks l fs i -> wf_bytes (i_sub i) /\ wf_path (i_path i).
Proof.
  intros H A. destruct A as [s p f b W _|s p f t b W _ _]; apply words_wf in W; auto; inversion W as [|? ? _ W1]; inversion W1 as [|? ? W2 W3];
    inversion W3; subst; (split; [auto|]); apply split_on_wf; auto.
Qed.

Section Session.
Context (pp : path_params) (hash : bytes -> bytes) (fname : bytes -> bytes) (sort : list node -> list node) (U : bytes -> Prop).
Notation shell_run := (shell_run pp hash fname sort).

(** In a session that C66 speaks of, the text of entries.json is read as exactly the entries the namespace holds, each
    once, whichever of the slices are nil. *)
Theorem C91_session items ns : items_ok pp hash fname U items -> Forall (fun it => forall l now fs, it = Line l now fs -> wf_bytes l) items ->
  let w := shell_run items new_world in
  w_mode w = Inside ns ->
  exists l, w_json w = Some l /\ forall o, Forall2 key_is (opt_list o) l ->
  exists rows es, read_entries (entries_json o) = Some rows /\ NoDup es /\ (forall e, In e es <-> holds pp hash fname w ns e)
    /\ Forall2 (fun e '(t, s, p, _) => t = e_time e /\ s = e_subspace e /\ p = e_path e) es rows.
Proof.
  intros HI HU w HM. destruct (inside_state pp hash fname sort U items ns HI HM) as (sp & ops & es & _ & _ & _ & _ & _ & EJ & ND & HH & HT & P).
  apply Permutation_map_inv in P as (es' & E & P). exists (tree (s_store sp)). split; [exact EJ|]. intros o HO.
  assert (W : forall e, In e es' -> wf_bytes (e_subspace e) /\ wf_path (e_path e)).
  { intros e He. apply (Permutation_in _ (Permutation_sym P)) in He. destruct (HT e He) as (bf & l & now & fs & af & i & EI & _ & HA & ->).
    rewrite EI in HU. apply Forall_app in HU as [_ HU]. inversion HU as [|? ? HL _]; subst. specialize (HL l now fs eq_refl).
    apply (asks_wf l fs i HL HA). }
  assert (X : Forall2 (fun k e => k_time k = e_time e /\ opt_bytes (k_sub k) = e_subspace e /\ opt_path (k_path k) = e_path e) (opt_list o) es').
  { clear -HO E. revert es' E. induction HO as [|k n ks ns (H1 & H2 & H3 & _) _ IH]; intros [|e es] E; try discriminate; constructor; cbn [map] in E.
    - apply (f_equal (hd (node_pos n))) in E. cbn [hd] in E. unfold node_pos, EntryPosition in E. injection E as X1 X2 X3. repeat split; congruence.
    - apply IH. apply (f_equal (@tl _)) in E. exact E. }
  destruct (C91_read_back o) as (rows & R & F).
  { clear -X W. induction X as [|k e ks es (_ & X2 & X3) _ IH]; constructor; [|apply IH; intros; apply W; right; auto].
    rewrite X2, X3. apply W. left. reflexivity. }
  exists rows, es'. split; [exact R|]. split; [eapply Permutation_NoDup; eauto|]. split.
  - intros e. fold w in HH. rewrite <- HH. split; apply Permutation_in; [symmetry|]; auto.
  - clear -F X. revert es' X. induction F as [|k [[[t s] p] f] ks rows (-> & -> & -> & _) _ IH]; intros [|e es] X; inversion X as [|? ? ? ? (X1 & X2 & X3) XX]; constructor; auto.
Qed.
End Session.
Print Assumptions C91_session.

(** The text that /repo/entries.json holds, and what is read from it. *)
Definition repo_keys : option (list key) :=
  Some [Key 1722028788489982 (Some (txt "samar")) (Some [Some (txt "intro"); Some (txt "to"); Some (txt "samar")]) [];
        Key 1722028808607351 (Some (txt "manas")) (Some [Some (txt "intro")]) []].
Definition quotes (b : bytes) : bytes := map (fun c => if c =? 39 then 34 else c) b.
Example C91_instance :
  entries_json repo_keys = quotes (txt "[{'Timestamp':1722028788489982,'Subspace':'c2FtYXI=','Path':['aW50cm8=','dG8=','c2FtYXI='],'Fingerprint':''},{'Timestamp':1722028808607351,'Subspace':'bWFuYXM=','Path':['aW50cm8='],'Fingerprint':''}]")
  /\ read_entries (entries_json repo_keys) =
     Some [(1722028788489982, txt "samar", [txt "intro"; txt "to"; txt "samar"], []); (1722028808607351, txt "manas", [txt "intro"], [])]
  /\ Forall (fun k => wf_bytes (opt_bytes (k_sub k)) /\ wf_path (opt_path (k_path k))) (opt_list repo_keys).
Proof.
  split; [vm_compute; reflexivity|]. split; [vm_compute; reflexivity|].
  repeat (constructor; [split; repeat constructor|]). constructor.
Qed.

(** The same text without its last byte, without its last two thirds, and empty. *)
Example C91_instance_cut :
  List.length (entries_json repo_keys) = 199%nat
  /\ read_entries (firstn 198 (entries_json repo_keys)) = None /\ read_entries (firstn 67 (entries_json repo_keys)) = None
  /\ read_entries [] = None.
Proof. repeat split; vm_compute; reflexivity. Qed.

(** A key with nil slices and every kind of character in its fingerprint; an empty list, nil or not. *)
Example C91_instance_escapes :
  let fp := [97; 34; 92; 10; 13; 9; 8; 12; 1; 60; 38; 127] in
  entries_json (Some [Key 0 None None fp]) =
    quotes (txt "[{'Timestamp':0,'Subspace':null,'Path':null,'Fingerprint':'a\'\\\n\r\t\b\f\u0001\u003c\u0026") ++ [127] ++ quotes (txt "'}]")
  /\ read_entries (entries_json (Some [Key 0 None None fp])) = Some [(0, [], [], fp)]
  /\ entries_json (Some []) = txt "[]" /\ read_entries (txt "[]") = Some []
  /\ entries_json None = txt "null" /\ read_entries (txt "null") = Some [].
Proof. repeat split; vm_compute; reflexivity. Qed.

(** Runes that are copied or escaped, and two fingerprints that are not UTF-8 and have one text: the condition on the
    fingerprints cannot be dropped. *)
Example C91_instance_lost :
  let f fp := entries_json (Some [Key 0 None None fp]) in
  utf8_text [195; 169; 226; 128; 168; 226; 130; 172; 240; 159; 152; 128; 65]
  /\ read_entries (f [195; 169; 226; 128; 168; 226; 130; 172; 240; 159; 152; 128; 65]) =
    Some [(0, [], [], [195; 169; 226; 128; 168; 226; 130; 172; 240; 159; 152; 128; 65])]
  /\ f [255] = f [254] /\ read_entries (f [255; 65]) = Some [(0, [], [], [239; 191; 189; 65])]
  /\ Forall (fun fp => read_entries (f fp) = Some [(0, [], [], flat_map (fun _ => [239; 191; 189]) fp)])
       [[237; 160; 128]; [192; 128]; [193; 191]; [224; 128; 128]; [224; 159; 191]; [240; 143; 191; 191]; [244; 144; 128; 128]; [245; 128; 128; 128]].
Proof.
  split; [exists [233; 8232; 8364; 128512; 65]; split; [vm_compute; reflexivity|repeat (constructor; [split; [reflexivity|lia]|]); constructor]|].
  split; [vm_compute; reflexivity|]. split; [vm_compute; reflexivity|]. split; [vm_compute; reflexivity|].
  repeat (constructor; [vm_compute; reflexivity|]). constructor.
Qed.

(** The session of C66: the text and what is read from it. *)
Definition node_key (n : node) : key := Key (n_time n) (Some (n_sub n)) (Some (map Some (n_path n))) (n_fp n).
Example C91_instance_session :
  Forall (fun it => forall l now fs, it = Line l now fs -> wf_bytes l) demo_session
  /\ w_mode (demo_run demo_session new_world) = Inside (txt "n")
  /\ (let ns := match w_json (demo_run demo_session new_world) with Some l => l | None => [] end in
      Forall2 key_is (opt_list (Some (map node_key ns))) ns
      /\ option_map (map fst) (read_entries (entries_json (Some (map node_key ns)))) =
         Some [(77, txt "s", [txt "a"; txt "b"]); (1800000000, txt "s", [txt "a"; txt "c"]); (5400000000, txt "r", [txt "a"])]).
Proof.
  split; [|split; [vm_compute; reflexivity|]].
  - repeat (constructor; [intros l now fs E; try discriminate E; injection E as <- _ _; repeat constructor|]). constructor.
  - split; [|vm_compute; reflexivity]. cbn [opt_list].
    generalize (match w_json (demo_run demo_session new_world) with Some l => l | None => [] end). intros l.
    induction l as [|n l IH]; cbn [map]; constructor; auto. unfold key_is, node_key. cbn. rewrite map_map, map_id. auto.
Qed.
