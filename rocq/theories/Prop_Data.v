(** C50, C51: the data sender and the payload ingester. *)
From Verif Require Import Base M_Order M_Encoding M_Book M_Keys M_Entry M_Map M_Store M_Payload M_Data P_Encoding.
From Coq Require Import Lia.
Local Open Scope N_scope.

(** * C50 *)

(** The messages [ms] carry the bytes [b], in order, each with its amount. *)
Inductive carries : bytes -> list data_msg -> Prop :=
| carries_nil : carries [] []
| carries_cons c b ms : carries b ms -> carries (c ++ b) (MsgSendPayload (len c) c :: ms).

(** The messages serve what has been asked for: one header each, in order,
    followed by the bytes. *)
Inductive served : list (data_msg * bytes) -> list data_msg -> Prop :=
| served_nil : served [] []
| served_cons h b ms todo rest : carries b ms -> served todo rest -> served ((h, b) :: todo) (h :: ms ++ rest).

Section C50.
Variable fname : bytes -> bytes.
Variable later : bytes -> pdir.    (* the payload directories when Messages is called *)

(** The file of a digest in a namespace's directory. *)
Definition file_at (dirs : bytes -> pdir) (e : entry) : option bytes :=
  match fname (e_digest e) with [] => None | f => mget (p_files (dirs (e_namespace e))) f end.

(** What one call of QueueEntry or QueuePayloadRequest asks for: the header and
    the payload from the offset, which lies inside the payload. *)
Definition asks (o : ds_op) (h : data_msg) (b : bytes) : Prop :=
  exists e offset p,
    (match o with
     | DEntry dirs e' handle token off => e' = e /\ off = offset /\ h = MsgSendEntry e token offset handle /\ file_at dirs e <> None
     | DRequest dirs theirs handle => hs_Get theirs handle = Some (PayloadRequest offset e) /\ h = MsgReplyPayload handle /\ file_at dirs e <> None
     | DMessages _ => False
     end)
    /\ file_at later e = Some p /\ len p < 2 ^ 63 /\ offset < len p /\ b = skipn (N.to_nat offset) p.

(** A call that is refused: no such payload, or no such handle. *)
Definition refused (o : ds_op) : Prop :=
  match o with
  | DEntry dirs e _ _ _ => fname (e_digest e) <> [] /\ file_at dirs e = None
  | DRequest dirs theirs handle =>
      hs_Get theirs handle = None
      \/ exists off e, hs_Get theirs handle = Some (PayloadRequest off e) /\ fname (e_digest e) <> [] /\ file_at dirs e = None
  | DMessages _ => False
  end.

Inductive asked : list ds_op -> list (data_msg * bytes) -> Prop :=
| asked_nil : asked [] []
| asked_cons o ops h b todo : asks o h b -> asked ops todo -> asked (o :: ops) ((h, b) :: todo)
| asked_refused o ops todo : refused o -> asked ops todo -> asked (o :: ops) todo.

Variable transform : bytes -> bytes.

(** A pack and the request it stands for. *)
Definition stands (k : pack) (h : data_msg) (b : bytes) : Prop :=
  exists ns f offset p,
    (match k with
     | PackNil => False
     | PackEntry e off handle token ns' f' => h = MsgSendEntry e token off handle /\ ns' = ns /\ f' = f /\ off = offset
     | PackRequest handle off ns' f' => h = MsgReplyPayload handle /\ ns' = ns /\ f' = f /\ off = offset
     end)
    /\ f <> [] /\ mget (p_files (later ns)) f = Some p /\ len p < 2 ^ 63 /\ offset < len p
    /\ b = skipn (N.to_nat offset) p.

Lemma to_int_small n : n < 2 ^ 63 -> to_int n = Z.of_N n.
Proof.
  intros H. unfold to_int, int64. rewrite Z.mod_small; [lia|]. split; [lia|].
  change (2 ^ 64)%Z with (2 ^ 63 + 2 ^ 63)%Z. lia.
Qed.

Lemma bwo ns f offset p :
  f <> [] -> mget (p_files (later ns)) f = Some p -> len p < 2 ^ 63 -> offset < len p ->
  pl_BytesWithOffset f (to_int offset) (later ns) = Ok (skipn (N.to_nat offset) p).
Proof.
  intros Hf Hg Hp Ho. rewrite to_int_small by lia. unfold pl_BytesWithOffset.
  destruct f; [congruence|]. rewrite Hg.
  replace (Z.of_N (len p) <=? Z.of_N offset)%Z with false by (symmetry; apply Z.leb_gt; lia).
  replace (Z.of_N offset <? 0)%Z with false by (symmetry; apply Z.ltb_ge; lia).
  rewrite N2Z.id. unfold slice_from.
  replace (offset <=? len p) with true by (symmetry; apply N.leb_le; lia). reflexivity.
Qed.

Lemma chunks_carries b : carries (concat (map (fun c => transform [c]) b)) (chunks transform b).
Proof. induction b as [|c b IH]; cbn; constructor; auto. Qed.

Definition sent (hb : data_msg * bytes) : data_msg * bytes :=
  (fst hb, concat (map (fun c => transform [c]) (snd hb))).

Lemma messages_served ks todo : Forall2 (fun k hb => stands k (fst hb) (snd hb)) ks todo ->
  exists ms, Messages transform later ks = (ms, true) /\ served (map sent todo) ms.
Proof.
  induction 1 as [|k [h b] ks todo H _ (ms & E & S)].
  - exists []. split; [reflexivity|constructor].
  - cbn [fst snd] in H. destruct H as (ns & f & offset & p & Hk & Hf & Hg & Hp & Ho & ->).
    pose proof (bwo ns f offset p Hf Hg Hp Ho) as B.
    exists (h :: chunks transform (skipn (N.to_nat offset) p) ++ ms). split.
    + destruct k; [contradiction| |]; destruct Hk as (-> & -> & -> & ->); cbn [Messages];
        rewrite B, E; reflexivity.
    + cbn [map sent fst snd]. constructor; auto. apply chunks_carries.
Qed.

Lemma messages_app ks1 ks2 : snd (Messages transform later ks1) = true ->
  Messages transform later (ks1 ++ ks2)
  = (fst (Messages transform later ks1) ++ fst (Messages transform later ks2), snd (Messages transform later ks2)).
Proof.
  induction ks1 as [|k ks1 IH]; intros H.
  - cbn. destruct (Messages transform later ks2); reflexivity.
  - destruct k; cbn [app Messages] in *; auto;
      destruct (pl_BytesWithOffset _ _ _); cbn [fst snd] in *; try discriminate;
      rewrite (IH H); cbn [fst snd app]; rewrite <- app_assoc; reflexivity.
Qed.

Lemma messages_stop ks1 ks2 : snd (Messages transform later ks1) = false ->
  Messages transform later (ks1 ++ ks2) = Messages transform later ks1.
Proof.
  induction ks1 as [|k ks1 IH]; intros H; [discriminate|].
  destruct k; cbn [app Messages] in *; auto;
    destruct (pl_BytesWithOffset _ _ _); cbn [fst snd] in *; try reflexivity; rewrite (IH H); reflexivity.
Qed.

(** The packs that a list of calls adds. *)
Definition added (o : ds_op) : list pack :=
  match o with
  | DEntry dirs e h t off => match QueueEntry fname dirs e h t off [] with Ok q => q | _ => [] end
  | DRequest dirs theirs h => match QueuePayloadRequest fname dirs theirs h [] with Ok q => q | _ => [] end
  | DMessages _ => []
  end.

Lemma step_added q out o : fst (ds_step fname transform (q, out) o) = q ++ added o.
Proof.
  destruct o; cbn [ds_step fst added].
  - unfold QueueEntry. destruct (pd_Get _ _ _); cbn [bind]; rewrite ?app_nil_r; reflexivity.
  - unfold QueuePayloadRequest. destruct (hs_Get _ _); rewrite ?app_nil_r; auto.
    destruct (pd_Get _ _ _); cbn [bind]; rewrite ?app_nil_r; reflexivity.
  - rewrite app_nil_r. reflexivity.
Qed.

Lemma run_added ops q out : fst (fold_left (ds_step fname transform) ops (q, out)) = q ++ flat_map added ops.
Proof.
  revert q out. induction ops as [|o ops IH]; intros q out; [cbn; rewrite app_nil_r; reflexivity|].
  cbn [fold_left flat_map]. pose proof (step_added q out o) as E.
  destruct (ds_step fname transform (q, out) o) as [q' out']. cbn [fst] in E. subst q'.
  rewrite IH, app_assoc. reflexivity.
Qed.

Lemma pd_Get_file dirs e :
  fname (e_digest e) <> [] ->
  pd_Get fname (e_digest e) (dirs (e_namespace e))
  = match file_at dirs e with Some _ => Ok (fname (e_digest e)) | None => Err end.
Proof. intros H. unfold pd_Get, file_at. destruct (fname (e_digest e)); [congruence|reflexivity]. Qed.

Lemma file_at_name dirs e : file_at dirs e <> None -> fname (e_digest e) <> [].
Proof. unfold file_at. destruct (fname (e_digest e)); congruence. Qed.

Lemma asked_stands ops todo : asked ops todo ->
  Forall2 (fun k hb => stands k (fst hb) (snd hb)) (flat_map added ops) todo.
Proof.
  induction 1 as [|o ops h b todo H _ IH|o ops todo H _ IH]; cbn [flat_map]; [constructor| |].
  - destruct H as (e & offset & p & Ho & Hf & Hp & Hlt & Eb).
    assert (HN : fname (e_digest e) <> []).
    { destruct o; [destruct Ho as (_ & _ & _ & Ho)|destruct Ho as (_ & _ & Ho)|contradiction]; eapply file_at_name; eauto. }
    assert (Hm : mget (p_files (later (e_namespace e))) (fname (e_digest e)) = Some p).
    { unfold file_at in Hf. destruct (fname (e_digest e)); [congruence|exact Hf]. }
    destruct o; [destruct Ho as (-> & -> & -> & Ho)|destruct Ho as (Hh & -> & Ho)|contradiction]; cbn [added].
    + unfold QueueEntry. rewrite pd_Get_file by auto. destruct (file_at dirs e); [|congruence].
      cbn [bind app]. constructor; auto. cbn [fst snd].
      exists (e_namespace e), (fname (e_digest e)), offset, p. repeat split; auto.
    + unfold QueuePayloadRequest. rewrite Hh. cbn [pr_entry pr_offset]. rewrite pd_Get_file by auto.
      destruct (file_at dirs e); [|congruence].
      cbn [bind app]. constructor; auto. cbn [fst snd].
      exists (e_namespace e), (fname (e_digest e)), offset, p. repeat split; auto.
  - replace (added o) with (@nil pack); auto. destruct o; cbn [refused added] in *; [| |contradiction].
    + destruct H as [HN H]. unfold QueueEntry. rewrite pd_Get_file, H by auto. reflexivity.
    + unfold QueuePayloadRequest. destruct H as [->|(off & e & -> & HN & H)]; [reflexivity|].
      cbn [pr_entry]. rewrite pd_Get_file, H by auto. reflexivity.
Qed.

Lemma asked_silent ops todo : asked ops todo -> forall q, snd (fold_left (ds_step fname transform) ops (q, [])) = [].
Proof.
  induction 1 as [|o ops h b todo H _ IH|o ops todo H _ IH]; intros q; [reflexivity| |]; cbn [fold_left].
  - destruct H as (? & ? & ? & H & _). destruct o; try contradiction; cbn [ds_step]; apply IH.
  - destruct o; try contradiction; cbn [ds_step]; apply IH.
Qed.
End C50.

(** A request is queued exactly if the handle is bound to an entry whose payload is
    there; otherwise the call returns an error. *)
Theorem C50_request fname dirs theirs handle q :
  (forall r, hs_Get theirs handle = Some r -> fname (e_digest (pr_entry r)) <> []) ->
  match QueuePayloadRequest fname dirs theirs handle q with
  | Ok q' => (exists r, hs_Get theirs handle = Some r /\ file_at fname dirs (pr_entry r) <> None) /\ exists k, q' = q ++ [k]
  | Err => forall r, hs_Get theirs handle = Some r -> file_at fname dirs (pr_entry r) = None
  | _ => False
  end.
Proof.
  intros HN. unfold QueuePayloadRequest. destruct (hs_Get theirs handle) as [r|] eqn:E; [|intros r F; discriminate F].
  rewrite pd_Get_file by auto. destruct (file_at fname dirs (pr_entry r)) as [p|] eqn:F; cbn [bind].
  - split; [exists r; split; [reflexivity|rewrite F; discriminate]|]. eauto.
  - intros r' H. injection H as <-. exact F.
Qed.
Print Assumptions C50_request.

(** The same for an entry. *)
Theorem C50_entry fname dirs e handle token offset q : fname (e_digest e) <> [] ->
  match QueueEntry fname dirs e handle token offset q with
  | Ok q' => file_at fname dirs e <> None /\ exists k, q' = q ++ [k]
  | Err => file_at fname dirs e = None
  | _ => False
  end.
Proof.
  intros HN. unfold QueueEntry. rewrite pd_Get_file by auto. destruct (file_at fname dirs e) eqn:F; cbn [bind]; [|reflexivity].
  split; [discriminate|]. eauto.
Qed.
Print Assumptions C50_entry.

(** Queue requests in any order, refused ones included, then take the messages:
    each accepted request is answered once, in order, with the (transformed)
    bytes of the payload from the offset.

    Missing from the full property: an offset equal to the length of the payload
    (so every empty payload), and a second call of Messages; see below. *)
Theorem C50_served_partial fname transform later ops todo :
  asked fname later ops todo ->
  exists q ms, ds_run fname transform (ops ++ [DMessages later]) = (q, [(ms, true)])
    /\ served (map (fun hb => (fst hb, concat (map (fun c => transform [c]) (snd hb)))) todo) ms.
Proof.
  intros H. pose proof (asked_stands fname later ops todo H) as HS.
  assert (X : exists ms, Messages transform later (flat_map (added fname) ops) = (ms, true)
    /\ served (map (sent transform) todo) ms) by (apply (messages_served fname); exact HS).
  destruct X as (ms & E & S).
  exists ([PackNil] ++ flat_map (added fname) ops), ms. split; [|exact S].
  unfold ds_run. rewrite fold_left_app. cbn [fold_left].
  pose proof (run_added fname transform ops NewDataSender []) as E1.
  pose proof (asked_silent fname later transform ops todo H NewDataSender) as E2.
  destruct (fold_left _ ops _) as [q out]. cbn [fst snd] in *. subst q out.
  cbn [ds_step app]. rewrite <- E. reflexivity.
Qed.
Print Assumptions C50_served_partial.

(** A later call of Messages, with nothing queued in between, puts out the same once more, behind
    what the earlier ones did: taking the messages does not take the requests. *)
Theorem C50_again fname transform later ops todo n :
  asked fname later ops todo ->
  exists q ms, ds_run fname transform (ops ++ repeat (DMessages later) n) = (q, repeat (ms, true) n)
    /\ served (map (fun hb => (fst hb, concat (map (fun c => transform [c]) (snd hb)))) todo) ms.
Proof.
  intros H. destruct (C50_served_partial fname transform later ops todo H) as (q & ms & E & S). exists q, ms. split; [|exact S].
  unfold ds_run in *. rewrite fold_left_app in E |- *. cbn [fold_left] in E.
  pose proof (asked_silent fname later transform ops todo H NewDataSender) as E2.
  destruct (fold_left _ ops _) as [q' out]. cbn [snd] in E2. subst out. cbn [ds_step app] in E. injection E as -> E.
  rewrite <- (app_nil_l (repeat (ms, true) n)). generalize (@nil (list data_msg * bool)). induction n as [|n IH]; intros out; cbn [repeat fold_left].
  - rewrite app_nil_r. reflexivity.
  - cbn [ds_step]. rewrite E, IH, <- app_assoc. reflexivity.
Qed.
Print Assumptions C50_again.

(** With a transformation that leaves single bytes alone the data is the payload
    from the offset. *)
Theorem C50_verbatim_partial fname transform later ops todo :
  (forall c, transform [c] = [c]) -> asked fname later ops todo ->
  exists q ms, ds_run fname transform (ops ++ [DMessages later]) = (q, [(ms, true)]) /\ served todo ms.
Proof.
  intros HT H. destruct (C50_served_partial fname transform later ops todo H) as (q & ms & E & S).
  exists q, ms. split; auto. replace todo with (map (fun hb : data_msg * bytes =>
    (fst hb, concat (map (fun c => transform [c]) (snd hb)))) todo); auto.
  clear - HT. induction todo as [|[h b] todo IH]; [reflexivity|]. cbn [map fst snd]. f_equal; auto. f_equal.
  induction b as [|c b IHb]; cbn; auto. rewrite HT. cbn. f_equal. exact IHb.
Qed.
Print Assumptions C50_verbatim_partial.

Definition d50 : bytes -> pdir := fun _ => PDir [([7], [10; 11; 12]); ([8], [20])] [] [].
Definition e50 : entry := Entry [1] [2] [7] [[3]] 5 3.
Definition e50' : entry := Entry [1] [2] [8] [[4]] 5 1.
Definition h50 : hstore payload_request := snd (hs_Bind hs_new (PayloadRequest 1 e50)).

Example C50_instance :
  asked (fun d => d) d50 [DRequest d50 h50 0; DRequest d50 h50 9; DEntry d50 e50' 6 [] 0]
    [(MsgReplyPayload 0, [11; 12]); (MsgSendEntry e50' [] 0 6, [20])]
  /\ ds_run (fun d => d) (fun b => b) ([DRequest d50 h50 0; DRequest d50 h50 9; DEntry d50 e50' 6 [] 0] ++ [DMessages d50])
     = ([PackNil; PackRequest 0 1 [1] [7]; PackEntry e50' 0 6 [] [1] [8]],
        [([MsgReplyPayload 0; MsgSendPayload 1 [11]; MsgSendPayload 1 [12];
           MsgSendEntry e50' [] 0 6; MsgSendPayload 1 [20]], true)]).
Proof.
  split; [|vm_compute; reflexivity].
  apply asked_cons; [|apply asked_refused; [|apply asked_cons; [|constructor]]].
  - exists e50, 1, [10; 11; 12]. vm_compute. repeat split; auto; discriminate.
  - left. vm_compute. reflexivity.
  - exists e50', 0, [20]. vm_compute. repeat split; auto; discriminate.
Qed.

(** A request whose offset is the length of the payload or beyond (so every
    request for an empty payload) gets no data, and everything queued after it is
    never sent. *)
Theorem C50_stops_refuted fname transform later ops1 o ops2 e p :
  (exists dirs theirs handle offset, o = DRequest dirs theirs handle
     /\ hs_Get theirs handle = Some (PayloadRequest offset e)
     /\ file_at fname dirs e <> None /\ len p <= offset /\ offset < 2 ^ 63) ->
  file_at fname later e = Some p -> len p < 2 ^ 63 ->
  let messages l := Messages transform later (fst (ds_run fname transform l)) in
  snd (messages (ops1 ++ o :: ops2)) = false
  /\ messages (ops1 ++ o :: ops2) = messages (ops1 ++ [o]).
Proof.
  intros (dirs & theirs & handle & offset & -> & Hh & Hf & Ho & Hb) Hl Hp messages.
  assert (HN : fname (e_digest e) <> []) by (eapply file_at_name; eauto).
  assert (Hm : mget (p_files (later (e_namespace e))) (fname (e_digest e)) = Some p).
  { unfold file_at in Hl. destruct (fname (e_digest e)); [congruence|exact Hl]. }
  assert (EA : added fname (DRequest dirs theirs handle) = [PackRequest handle offset (e_namespace e) (fname (e_digest e))]).
  { cbn [added]. unfold QueuePayloadRequest. rewrite Hh. cbn [pr_entry pr_offset]. rewrite pd_Get_file by auto.
    destruct (file_at fname dirs e); [reflexivity|congruence]. }
  assert (ES : snd (Messages transform later [PackRequest handle offset (e_namespace e) (fname (e_digest e))]) = false).
  { cbn [Messages]. rewrite to_int_small by auto. unfold pl_BytesWithOffset.
    destruct (fname (e_digest e)); [congruence|]. rewrite Hm.
    replace (Z.of_N (len p) <=? Z.of_N offset)%Z with true by (symmetry; apply Z.leb_le; lia). reflexivity. }
  unfold messages, ds_run. rewrite !run_added, !flat_map_app. cbn [flat_map].
  rewrite !EA, app_nil_r. rewrite !app_assoc. set (pre := NewDataSender ++ flat_map (added fname) ops1).
  set (k := [PackRequest handle offset (e_namespace e) (fname (e_digest e))]) in *.
  assert (S1 : snd (Messages transform later (pre ++ k)) = false).
  { destruct (snd (Messages transform later pre)) eqn:E.
    - rewrite messages_app by auto. exact ES.
    - rewrite messages_stop by auto. exact E. }
  rewrite messages_stop by auto. split; auto.
Qed.
Print Assumptions C50_stops_refuted.

Example C50_instance_requests :
  (exists q, QueuePayloadRequest (fun d => d) d50 h50 0 [] = Ok q) /\ QueuePayloadRequest (fun d => d) d50 h50 9 [] = Err
  /\ QueueEntry (fun d => d) (fun _ => PDir [] [] []) e50' 6 [] 0 [] = Err.
Proof. split; [eexists|split]; vm_compute; reflexivity. Qed.
Example C50_instance_stops :
  exists dirs theirs handle offset p,
    hs_Get theirs handle = Some (PayloadRequest offset e50) /\ file_at (fun d => d) dirs e50 = Some p
    /\ len p <= offset /\ offset < 2 ^ 63 /\ p = [].
Proof.
  exists (fun _ => PDir [([7], [])] [] []), (snd (hs_Bind hs_new (PayloadRequest 0 e50))), 0, 0, [].
  vm_compute. repeat split; auto; discriminate.
Qed.

(** Requests are not served once: every call of Messages returns everything
    again. *)
Theorem C50_once_refuted fname transform dirs ops :
  let out l := snd (ds_run fname transform l) in
  exists ms, out (ops ++ [DMessages dirs; DMessages dirs]) = out ops ++ [ms; ms].
Proof.
  cbv zeta. unfold ds_run. rewrite fold_left_app. destruct (fold_left _ ops _) as [q out]. cbn.
  eexists. rewrite <- app_assoc. reflexivity.
Qed.
Print Assumptions C50_once_refuted.

Example C50_instance_once :
  snd (ds_run (fun d => d) (fun b => b) [DEntry d50 e50' 6 [] 0; DMessages d50; DMessages d50])
  = [([MsgSendEntry e50' [] 0 6; MsgSendPayload 1 [20]], true); ([MsgSendEntry e50' [] 0 6; MsgSendPayload 1 [20]], true)].
Proof. vm_compute. reflexivity. Qed.

(** * C51 *)

(** A queue takes events in order until 32 wait in it; the next one blocks, as does any on a
    nil queue. *)
Theorem C51_queue i vs : vs <> [] ->
  fold_left (fun r v => do i' <- r; fifo_send i' v) vs (Ok i)
  = match in_fifo i with
    | Some q => if len q + len vs <=? 32 then Ok (Ingestion (in_kind i) (Some (q ++ vs)) (in_received i) (in_entry i)) else Hang
    | None => Hang
    end.
Proof.
  assert (HH : forall vs, fold_left (fun (r : res ingestion) v => do i' <- r; fifo_send i' v) vs Hang = Hang).
  { induction vs0; auto. }
  intros NE. revert i. induction vs as [|v vs IH]; [congruence|]. intros i. cbn [fold_left bind]. clear NE.
  unfold fifo_send at 2. destruct (in_fifo i) as [q|] eqn:EQ; [|apply HH]. unfold fifo_capacity. rewrite len_cons.
  destruct (N.ltb_spec (len q) 32) as [L|L].
  - destruct vs as [|v' vs].
    + cbn [fold_left]. change (len (@nil event)) with 0. destruct (N.leb_spec (len q + (1 + 0)) 32); [reflexivity|lia].
    + rewrite IH by discriminate. cbn [in_fifo in_kind in_received in_entry]. rewrite len_app, <- app_assoc. change (len [v]) with 1.
      rewrite N.add_assoc. reflexivity.
  - rewrite HH. destruct (N.leb_spec (len q + (1 + len vs)) 32); [lia|reflexivity].
Qed.
Print Assumptions C51_queue.

Example C51_instance_queue : fold_left (fun r v => do i' <- r; fifo_send i' v) (repeat (Event None [7] false) 33) (Ok (Ingestion Active (Some []) 0 None)) = Hang.
Proof. vm_compute. reflexivity. Qed.

(** Whatever is targeted, pushed and terminated, in whatever interleaving with
    the goroutine, no store is ever asked to ingest anything. *)
Theorem C51_never_refuted process g : g_steps process NewPayloadIngester g ->
  g_calls g = [] /\ in_kind (g_current g) = Uninitialised.
Proof.
  cut (forall g0, g0 = NewPayloadIngester -> g_steps process g0 g -> g_calls g = [] /\ in_kind (g_current g) = Uninitialised).
  { eauto. }
  intros g0 E H. induction H as [|g1 g2 g3 _ IH H]; subst; [split; reflexivity|].
  specialize (IH eq_refl) as [I1 I2]. destruct H as [v g|o g|v es i' cs g Ev E]; cbn [g_calls g_current in_kind]; auto.
  unfold on_event in E. rewrite I2 in E. rewrite I1.
  destruct (ev_cancel v); [destruct (ev_entry v)|]; injection E as <- <-; auto.
Qed.
Print Assumptions C51_never_refuted.

(** Nor is anything taken up: the ingestion is for ever the one it was made with,
    without queue or entry and with nothing received. *)
Theorem C51_untouched process g : g_steps process NewPayloadIngester g ->
  in_fifo (g_current g) = None /\ in_received (g_current g) = 0 /\ in_entry (g_current g) = None.
Proof.
  cut (forall g0, g0 = NewPayloadIngester -> g_steps process g0 g -> g_current g = g_current NewPayloadIngester).
  { intros H S. rewrite (H _ eq_refl S). repeat split. }
  intros g0 E H. induction H as [|g1 g2 g3 _ IH H]; subst; [reflexivity|].
  specialize (IH eq_refl). destruct H as [v g|o g|v es i' cs g Ev E]; cbn [g_current] in *; auto.
  rewrite IH in E. unfold on_event in E. cbn in E.
  destruct (ev_cancel v); [destruct (ev_entry v)|]; injection E as <- _; reflexivity.
Qed.
Print Assumptions C51_untouched.

(** Events in order, as the calls produce them. *)
Fixpoint all_events (cs : list g_call) : list event :=
  match cs with [] => [] | c :: cs' => flat_map (fun a => match a with ASend v => [v] | AAssign _ => [] end) (call_actions c) ++ all_events cs' end.

Lemma sends process vs g0 g : g_steps process g0 g -> len (g_events g) + len vs <= 32 ->
  g_steps process g0 (Ingester (g_events g ++ vs) (g_current g) (g_request g) (g_calls g)).
Proof.
  revert g. induction vs as [|v vs IH]; intros g H L.
  - rewrite app_nil_r. destruct g; exact H.
  - change (v :: vs) with ([v] ++ vs) in *. rewrite app_assoc.
    apply (IH (Ingester (g_events g ++ [v]) (g_current g) (g_request g) (g_calls g))).
    + eapply g_trans; [exact H|]. apply GSend. rewrite len_app in L. change (len [v]) with 1 in L. lia.
    + cbn [g_events]. rewrite len_app in *. lia.
Qed.

Definition e51 : entry := Entry [1] [2] [9] [[3]] 5 4.
Example C51_instance :
  exists g, g_steps (fun b _ => b) NewPayloadIngester g
    /\ g_events g = all_events [GTarget e51 true; GPush [1; 2] false; GPush [3; 4] true; GTerminate].
Proof.
  eexists. split; [apply (sends _ (all_events [GTarget e51 true; GPush [1; 2] false; GPush [3; 4] true; GTerminate]));
    [apply g_refl|vm_compute; discriminate]|reflexivity].
Qed.

(** What does hold. The goroutine never gets stuck, panics or falls behind for
    ever: whatever has happened, a waiting event can be received, so a blocked
    caller can go on. *)
Theorem C51_no_deadlock_partial process g : g_steps process NewPayloadIngester g ->
  g_events g <> [] -> exists g', g_step process g g' /\ length (g_events g) = S (length (g_events g')).
Proof.
  intros H HN. destruct (C51_never_refuted process g H) as [_ HK].
  destruct (g_events g) as [|v es] eqn:Ev; [congruence|].
  assert (exists i' cs, on_event process v (g_current g) = Ok (i', cs)) as (i' & cs & E).
  { unfold on_event. rewrite HK. destruct (ev_cancel v); [destruct (ev_entry v)|]; eauto. }
  eexists. split; [eapply GReceive; eauto|]. reflexivity.
Qed.
Print Assumptions C51_no_deadlock_partial.

(** Terminate answers the last entry targeted with the flag, unless something
    was pushed since. *)
Theorem C51_terminate_partial before e between :
  (forall c, In c between -> c = GTerminate \/ exists e', c = GTarget e' false) ->
  Terminate_result (before ++ GTarget e true :: between) = Some e
  /\ forall b last, Terminate_result (before ++ GPush b last :: between) = None.
Proof.
  intros H.
  assert (K : forall o, fold_left (fun o c => call_request c o) between o = o).
  { clear - H. induction between as [|c l IH]; intros o; [reflexivity|]. cbn [fold_left].
    rewrite IH by (intros; apply H; right; auto).
    destruct (H c (or_introl eq_refl)) as [->|[e' ->]]; reflexivity. }
  unfold Terminate_result. split; intros; rewrite fold_left_app; cbn [fold_left]; apply K.
Qed.
Print Assumptions C51_terminate_partial.

(** So a target without the flag does not withdraw the one before it: Terminate
    then answers an entry that is no longer being received. *)
Theorem C51_stale_refuted :
  exists e e', e <> e' /\ Terminate_result [GTarget e true; GTarget e' false] = Some e.
Proof. exists e51, e50. split; [discriminate|reflexivity]. Qed.
Print Assumptions C51_stale_refuted.

(** What the calls hand over does arrive: with a caller and the goroutine in any
    interleaving, once the calls have returned, what the goroutine has received
    and what waits for it carry the targets, the pushed bytes in order and one
    cancellation for each Terminate and each Push with the flag; the field is
    what Terminate answers. And whatever has happened, the calls can go on to
    return and everything can be received. *)
Definition pushed (cs : list g_call) : bytes := concat (map (fun c => match c with GPush b _ => b | _ => [] end) cs).
Definition targeted (cs : list g_call) : list entry := flat_map (fun c => match c with GTarget e _ => [e] | _ => [] end) cs.
Definition ended (cs : list g_call) : nat := length (filter (fun c => match c with GPush _ l => l | GTerminate => true | _ => false end) cs).
Definition arrives (vs : list event) (cs : list g_call) : Prop :=
  concat (map ev_data vs) = pushed cs
  /\ flat_map (fun v => match ev_entry v with Some e => [e] | None => [] end) vs = targeted cs
  /\ length (filter ev_cancel vs) = ended cs.

Definition sent_by (a : list g_action) : list event := flat_map (fun a => match a with ASend v => [v] | AAssign _ => [] end) a.
Definition assigned_by (a : list g_action) (o : option entry) : option entry :=
  fold_left (fun o a => match a with ASend _ => o | AAssign o' => o' end) a o.

Lemma c_inv process todo0 todo g got : c_steps process todo0 todo g got ->
  (got ++ g_events g) ++ sent_by todo = sent_by todo0 /\ assigned_by todo (g_request g) = assigned_by todo0 None
  /\ g_steps process NewPayloadIngester g.
Proof.
  induction 1 as [|v todo g got H IH L|o todo g got H IH|v es i' cs todo g got H IH Ev E]; cbn [g_events g_request].
  - repeat split. apply g_refl.
  - destruct IH as (I1 & I2 & I3). cbn [sent_by flat_map assigned_by fold_left] in *. repeat split; auto.
    + rewrite <- I1. rewrite <- !app_assoc. reflexivity.
    + eapply g_trans; [exact I3|]. apply GSend; auto.
  - destruct IH as (I1 & I2 & I3). cbn [sent_by flat_map assigned_by fold_left] in *. repeat split; auto.
    eapply g_trans; [exact I3|]. apply GRequest.
  - destruct IH as (I1 & I2 & I3). rewrite Ev in I1. repeat split; auto.
    + rewrite <- I1. rewrite <- !app_assoc. reflexivity.
    + eapply g_trans; [exact I3|]. eapply GReceive; eauto.
Qed.

Lemma sent_calls cs : arrives (sent_by (flat_map call_actions cs)) cs.
Proof.
  unfold arrives, pushed, targeted, ended. induction cs as [|c cs (I1 & I2 & I3)]; [repeat split|].
  cbn [flat_map map concat filter]. unfold sent_by in *. rewrite flat_map_app, map_app, concat_app, flat_map_app, filter_app, app_length, I1, I2, I3.
  destruct c as [e [|]|b [|]|]; cbn; rewrite ?app_nil_r; auto.
Qed.
Lemma assigned_calls cs o : assigned_by (flat_map call_actions cs) o = fold_left (fun o c => call_request c o) cs o.
Proof.
  revert o. unfold assigned_by. induction cs as [|c cs IH]; intros o; [reflexivity|].
  cbn [flat_map fold_left]. rewrite fold_left_app, IH. destruct c as [e [|]|b [|]|]; reflexivity.
Qed.

Lemma c_drain process todo0 todo : forall n g got, length (g_events g) = n -> c_steps process todo0 todo g got ->
  exists g', c_steps process todo0 todo g' (got ++ g_events g) /\ g_events g' = [].
Proof.
  induction n as [|n IH]; intros g got L H.
  - destruct (g_events g) eqn:E; [|discriminate]. rewrite app_nil_r. eauto.
  - destruct (g_events g) as [|v es] eqn:Ev; [discriminate|]. injection L as L.
    destruct (c_inv _ _ _ _ _ H) as (_ & _ & R). destruct (C51_never_refuted process g R) as [_ HK].
    assert (exists i' cs, on_event process v (g_current g) = Ok (i', cs)) as (i' & cs & E).
    { unfold on_event. rewrite HK. destruct (ev_cancel v); [destruct (ev_entry v)|]; eauto. }
    destruct (IH (Ingester es i' (g_request g) (g_calls g ++ cs)) (got ++ [v]) L (c_receive _ _ _ _ _ _ _ _ _ H Ev E)) as (g' & S & E').
    exists g'. split; auto. cbn [g_events] in S. rewrite <- app_assoc in S. exact S.
Qed.

Theorem C51_delivered_partial process cs :
  (forall g got, c_steps process (flat_map call_actions cs) [] g got ->
     arrives (got ++ g_events g) cs /\ g_request g = Terminate_result cs)
  /\ forall todo g got, c_steps process (flat_map call_actions cs) todo g got ->
     exists g' got', c_steps process (flat_map call_actions cs) [] g' got' /\ g_events g' = [] /\ exists more, got' = got ++ more.
Proof.
  split.
  - intros g got H. destruct (c_inv _ _ _ _ _ H) as (I1 & I2 & _). cbn [sent_by flat_map assigned_by fold_left] in *.
    rewrite app_nil_r in I1. rewrite I1. split; [apply sent_calls|]. rewrite I2. apply assigned_calls.
  - induction todo as [|a todo IH]; intros g got H; destruct (c_drain process _ _ _ g got eq_refl H) as (g1 & H1 & E1).
    + exists g1, (got ++ g_events g). eauto.
    + destruct a as [v|o].
      * destruct (IH _ _ (c_send _ _ _ _ _ _ H1 ltac:(rewrite E1; reflexivity))) as (g' & got' & A & B & more & C).
        exists g', got'. split; [|split]; auto. exists (g_events g ++ more). rewrite C, app_assoc. reflexivity.
      * destruct (IH _ _ (c_assign _ _ _ _ _ _ H1)) as (g' & got' & A & B & more & C).
        exists g', got'. split; [|split]; auto. exists (g_events g ++ more). rewrite C, app_assoc. reflexivity.
Qed.
Print Assumptions C51_delivered_partial.

Example C51_instance_delivered :
  exists g got, c_steps (fun b _ => b) (flat_map call_actions [GTarget e51 true; GPush [1; 2] false; GPush [3; 4] true]) [] g got
    /\ concat (map ev_data got) = [1; 2; 3; 4] /\ g_calls g = [] /\ g_events g = [].
Proof.
  destruct (C51_delivered_partial (fun b _ => b) [GTarget e51 true; GPush [1; 2] false; GPush [3; 4] true]) as [A B].
  destruct (B _ _ _ (c_refl _ _)) as (g & got & H & E & _). exists g, got. split; [exact H|].
  destruct (A g got H) as [[K _] _]. rewrite E, app_nil_r in K. split; [exact K|]. split; [|exact E].
  apply (C51_never_refuted (fun b _ => b) g). apply (c_inv _ _ _ _ _ H).
Qed.
