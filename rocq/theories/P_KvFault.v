(** Lemmas about M_KvFault.v. *)
From Verif Require Import Base M_Order M_Encoding M_Paths M_Ranges M_Areas M_Keys M_Entry M_Map M_Store M_Query M_Fault M_KvFault P_Map.
Local Open Scope N_scope.

(** A program that does not change the database, that gives [calm] of it if the calls it makes go well, and otherwise an
    error or the end of the process. *)
Definition faithful {A} (calm : bmap bytes -> res A) (m : K A) : Prop :=
  forall s r s', m s = (r, s') ->
    db_map s' = db_map s
    /\ exists used, db_todo s = used ++ db_todo s'
         /\ (Forall (eq Fine) used -> r = calm (db_map s))
         /\ (~ Forall (eq Fine) used -> r = Err \/ r = Fatal).

Lemma faithful_ret {A} (a : A) : faithful (fun _ => Ok a) (retK a).
Proof. intros s r s' E. injection E as <- <-. split; [reflexivity|]. exists []. repeat split; auto. intros H. exfalso. auto. Qed.
Lemma faithful_lift {A} (x : res A) : faithful (fun _ => x) (liftK x).
Proof. intros s r s' E. injection E as <- <-. split; [reflexivity|]. exists []. repeat split; auto. intros H. exfalso. auto. Qed.
Lemma faithful_fail {A} : faithful (fun _ => @Err A) failK.
Proof. intros s r s' E. injection E as <- <-. split; [reflexivity|]. exists []. repeat split; auto. Qed.

Lemma Fine_dec (l : list outcome) : Forall (eq Fine) l \/ ~ Forall (eq Fine) l.
Proof.
  induction l as [|o l [IH|IH]]; [left; constructor| |right; intros H; inversion H; auto].
  destruct o; [left; constructor; auto|right; intros H; inversion H; discriminate|right; intros H; inversion H; discriminate].
Qed.

Lemma faithful_bind {A B} (c : bmap bytes -> res A) (d : A -> bmap bytes -> res B) m f :
  faithful c m -> (forall a, faithful (d a) (f a)) -> faithful (fun db => do a <- c db; d a db) (bindK m f).
Proof.
  intros Hm Hf s r s' E. unfold bindK in E. destruct (m s) as [x s1] eqn:E1. destruct (Hm _ _ _ E1) as (M1 & u1 & T1 & G1 & B1).
  destruct x as [a| | | |].
  1: { destruct (Hf a _ _ _ E) as (M2 & u2 & T2 & G2 & B2). split; [congruence|]. exists (u1 ++ u2).
       rewrite T1, T2, app_assoc. split; [reflexivity|].
       destruct (Fine_dec u1) as [F1|F1]; [|destruct (B1 F1); discriminate].
       rewrite <- (G1 F1). cbn [bind]. rewrite <- M1. split; [intros H; apply Forall_app in H; apply G2, H|].
       intros H. apply B2. intros H2. apply H. apply Forall_app. auto. }
  all: injection E as <- <-; split; [exact M1|]; exists u1; split; [exact T1|]; split;
    [intros H; rewrite <- (G1 H); reflexivity|intros H; destruct (B1 H); try discriminate; auto].
Qed.

(** Equal on every database that is met. *)
Lemma faithful_ext {A} (c d : bmap bytes -> res A) m : (forall db, c db = d db) -> faithful c m -> faithful d m.
Proof.
  intros E H s r s' R. destruct (H _ _ _ R) as (M & u & T & G & B). split; [exact M|]. exists u. rewrite <- E. auto.
Qed.

Lemma faithful_db_Get k : faithful (fun db => Ok (mget db k)) (db_Get k).
Proof.
  intros s r s' E. destruct s as [db [|o os] i v]; unfold db_Get, bindK, next_call, open_value, retK, failK in E; cbn [db_todo db_map db_iters db_values] in *.
  - destruct (mget db k); injection E as <- <-; (split; [reflexivity|]; exists []; repeat split; auto; intros H; exfalso; auto).
  - destruct o; cbn [db_todo db_map db_iters db_values] in E; [destruct (mget db k)| |]; injection E as <- <-; (split; [reflexivity|]; eexists [_]; split; [reflexivity|]; split;
      intros H; try reflexivity; auto; try (inversion H; discriminate); exfalso; apply H; auto).
Qed.

Lemma faithful_shut : faithful (fun _ => Ok tt) shut_value.
Proof. intros s r s' E. injection E as <- <-. split; [reflexivity|]. exists []. repeat split; auto. intros H. exfalso. auto. Qed.

Definition got (db : bmap bytes) (k : bytes) : res bytes := match mget db k with Some b => Ok b | None => Err end.
Lemma faithful_drv_Get k : faithful (fun db => got db k) (drv_Get k).
Proof.
  eapply faithful_ext; [|apply (faithful_bind _ (fun v _ => match v with None => Err | Some b => Ok b end) _ _ (faithful_db_Get k))].
  - intros db. unfold got. cbn [bind]. reflexivity.
  - intros [b|]; [|apply faithful_fail]. eapply faithful_ext; [|apply (faithful_bind _ (fun _ _ => Ok b) _ _ faithful_shut)]; [reflexivity|].
    intros _. apply faithful_ret.
Qed.

Lemma faithful_multiple ks : faithful (fun db => GetMultipleValues db ks) (drv_GetMultipleValues ks).
Proof.
  induction ks as [|k ks IH]; [apply faithful_ret|]. cbn [drv_GetMultipleValues GetMultipleValues].
  eapply faithful_ext; [|apply (faithful_bind _ (fun v db => do r <- GetMultipleValues db ks; Ok (v :: r)) _ _ (faithful_drv_Get k))].
  - intros db. unfold got. destruct (mget db k); reflexivity.
  - intros v. apply (faithful_bind _ (fun r _ => Ok (v :: r)) _ _ IH). intros r. apply faithful_ret.
Qed.

Fixpoint values_at (db : bmap bytes) (ks : list bytes) : res (bmap bytes) :=
  match ks with
  | [] => Ok []
  | k :: ks' => do b <- got db k; do r <- values_at db ks'; Ok ((k, b) :: r)
  end.
Lemma faithful_values ks : faithful (fun db => values_at db ks) (drv_values_loop ks).
Proof.
  induction ks as [|k ks IH]; [apply faithful_ret|]. cbn [drv_values_loop values_at].
  eapply faithful_ext; [|apply (faithful_bind _ (fun v db => match v with None => Err | Some b => do _ <- Ok tt; do r <- values_at db ks; Ok ((k, b) :: r) end) _ _ (faithful_db_Get k))].
  - intros db. unfold got. cbn [bind]. destruct (mget db k); reflexivity.
  - intros [b|]; [|apply faithful_fail].
    apply (faithful_bind _ (fun _ db => do r <- values_at db ks; Ok ((k, b) :: r)) _ _ faithful_shut). intros _.
    apply (faithful_bind _ (fun r _ => Ok ((k, b) :: r)) _ _ IH). intros r. apply faithful_ret.
Qed.
Lemma values_at_part (db part : bmap bytes) : NoDup (mkeys db) -> incl part db -> values_at db (mkeys part) = Ok part.
Proof.
  intros HN. induction part as [|[k v] part IH]; intros HI; [reflexivity|]. cbn [mkeys map fst values_at].
  unfold got. rewrite (mget_NoDup _ k v HN) by (apply HI; left; reflexivity). cbn [bind].
  change (map fst part) with (mkeys part). rewrite IH by (intros x Hx; apply HI; right; exact Hx). reflexivity.
Qed.

(** The deferred Close. *)
Lemma faithful_deferring {A} (c : bmap bytes -> res A) body : faithful c body -> faithful c (deferring true body).
Proof.
  intros H s r s' E. unfold deferring in E. destruct (body s) as [x s1] eqn:E1. destruct (H _ _ _ E1) as (M & u & T & G & B).
  assert (D : (x = Fatal \/ x = Hang) /\ r = x /\ s' = s1
    \/ exists u2, db_map s' = db_map s1 /\ db_todo s1 = u2 ++ db_todo s' /\ (Forall (eq Fine) u2 -> r = x) /\ (~ Forall (eq Fine) u2 -> r = Fatal)).
  { destruct s1 as [db [|o os] i v]; unfold iter_Close, bindK, next_call, shut_iter, retK, liftK in E;
      cbn [db_todo db_map db_iters db_values andb] in E.
    - destruct x; try (left; injection E as <- <-; auto; fail); right; exists []; injection E as <- <-; repeat split; auto; intros F; exfalso; auto.
    - destruct x; try (left; injection E as <- <-; auto; fail); right; exists [o]; destruct o; injection E as <- <-; cbn [db_map db_todo app];
        repeat split; auto; intros F; try (inversion F; discriminate); exfalso; apply F; auto. }
  destruct D as [(X & -> & ->)|(u2 & M2 & T2 & G2 & B2)].
  - split; [exact M|]. exists u. auto.
  - split; [congruence|]. exists (u ++ u2). rewrite T, T2, app_assoc. split; [reflexivity|]. split.
    + intros F. apply Forall_app in F as [F1 F2]. rewrite (G2 F2). auto.
    + intros F. destruct (Fine_dec u2) as [F2|F2]; [|right; apply B2, F2]. rewrite (G2 F2). apply B. intros F1. apply F. apply Forall_app. auto.
Qed.
Lemma deferring_false {A} (c : bmap bytes -> res A) body s r s' : faithful c body ->
  fst (body s) <> Hang -> deferring false body s = (r, s') ->
  r = Fatal /\ db_map s' = db_map s /\ exists used, db_todo s = used ++ db_todo s'.
Proof.
  intros H NH E. unfold deferring in E. destruct (body s) as [x s1] eqn:E1. destruct (H _ _ _ E1) as (M & u & T & _ & _).
  cbn [fst] in NH.
  destruct s1 as [db [|o os] i v]; unfold iter_Close, bindK, next_call, shut_iter, retK, liftK in E;
    cbn [db_todo db_map db_iters db_values andb] in *.
  - destruct x; try congruence; injection E as <- <-; cbn [db_map db_todo] in *; eauto.
  - destruct x; try congruence; injection E as <- <-; cbn [db_map db_todo] in *; (split; [reflexivity|]); (split; [congruence|]);
      try (exists u; congruence); exists (u ++ [o]); rewrite T, <- app_assoc; reflexivity.
Qed.

(** An iterator and a loop over its keys, which are given back at the end. *)
Lemma faithful_iter {A} (back : bool) (c : list bytes -> bmap bytes -> res A) (loop : list bytes -> K A) :
  (forall ks, faithful (c ks) (loop ks)) -> (forall ks db, c ks db <> Hang) ->
  faithful (fun db => c (if back then rev (mkeys db) else mkeys db) db)
    (let? it := db_NewIter back in deferring (snd it) (loop (fst it))).
Proof.
  intros H NH s r s' E. set (ks := if back then rev (mkeys (db_map s)) else mkeys (db_map s)).
  assert (NB : forall ks s, fst (loop ks s) <> Hang).
  { intros k0 s0. destruct (loop k0 s0) as [x s1] eqn:E1. destruct (H _ _ _ _ E1) as (_ & u & _ & G & B). cbn [fst].
    destruct (Fine_dec u) as [F|F]; [rewrite (G F); apply NH|destruct (B F) as [-> | ->]; discriminate]. }
  destruct s as [db [|o os] i v]; cbn [db_todo db_map] in *; unfold bindK at 1, db_NewIter, next_call, open_iter in E;
    unfold bindK in E; cbn [db_todo db_map db_iters db_values] in E.
  - fold ks in E. cbn [fst snd] in E. destruct (faithful_deferring _ _ (H ks) _ _ _ E) as (M & u & T & G & B). cbn [db_map db_todo] in *.
    split; [exact M|]. exists u. auto.
  - destruct o as [| |n]; cbn [db_todo db_map db_iters db_values fst snd] in E; [| |].
    + fold ks in E. destruct (faithful_deferring _ _ (H ks) _ _ _ E) as (M & u & T & G & B). cbn [db_map db_todo] in *.
      split; [exact M|]. exists (Fine :: u). rewrite T. split; [reflexivity|]. split.
      * intros F. inversion F; subst. apply G; auto.
      * intros F. apply B. intros F'. apply F. constructor; auto.
    + injection E as <- <-. split; [reflexivity|]. exists [Fails]. split; [reflexivity|]. split; [intros F; inversion F; discriminate|auto].
    + destruct (deferring_false _ _ _ _ _ (H (firstn n ks)) (NB _ _) E) as (-> & M & u & T). cbn [db_map db_todo] in *.
      split; [exact M|]. exists (Torn n :: u). rewrite T. split; [reflexivity|]. split; [intros F; inversion F; discriminate|auto].
Qed.

Lemma values_at_NH db ks : values_at db ks <> Hang.
Proof.
  induction ks as [|k ks IH]; [discriminate|]. cbn [values_at]. unfold got. destruct (mget db k); [|discriminate].
  cbn [bind]. destruct (values_at db ks); cbn [bind]; congruence.
Qed.

(** DecodeKey never waits. *)
Lemma bind_NH {A B} (r : res A) (f : A -> res B) : r <> Hang -> (forall a, f a <> Hang) -> bind r f <> Hang.
Proof. intros H F. destruct r; cbn [bind]; auto; discriminate. Qed.
Lemma slice_NH {A} (l : list A) i j : slice l i j <> Hang.
Proof. unfold slice. destruct (_ && _); discriminate. Qed.
Lemma slice_from_NH {A} (l : list A) i : slice_from l i <> Hang.
Proof. unfold slice_from. destruct (_ <=? _); discriminate. Qed.
Lemma be_uint64_NH b : be_uint64 b <> Hang.
Proof. unfold be_uint64. apply bind_NH; [apply slice_NH|discriminate]. Qed.
Lemma DecodeIntMax32_NH b max : DecodeIntMax32 b max <> Hang.
Proof.
  unfold DecodeIntMax32. cbv zeta. destruct (negb _); [discriminate|]. do 3 (destruct (_ =? _); [discriminate|]).
  apply bind_NH; [apply slice_NH|]. intros a. apply bind_NH; [unfold index; destruct nth_error; discriminate|discriminate].
Qed.
Lemma DecodePath_NH pp b : DecodePath pp b <> Hang.
Proof.
  unfold DecodePath. cbv zeta. apply bind_NH; [apply slice_NH|]. intros cb. apply bind_NH; [apply DecodeIntMax32_NH|]. intros n.
  generalize (GetWidthMax32Int (max_component_count pp)). induction (N.to_nat n) as [|m IH]; intros pos; cbn [decode_components]; [discriminate|].
  cbv zeta. apply bind_NH; [apply slice_NH|]. intros lb. apply bind_NH; [destruct (DecodeIntMax32 lb (max_component_length pp)); discriminate|]. intros l.
  apply bind_NH; [apply slice_NH|]. intros c. apply bind_NH; [apply IH|]. intros [pos' p]. discriminate.
Qed.
Lemma DecodeKey_NH k pp : DecodeKey k pp <> Hang.
Proof.
  unfold DecodeKey. apply bind_NH; [apply slice_NH|]. intros tb. apply bind_NH; [apply be_uint64_NH|]. intros t.
  apply bind_NH; [apply slice_from_NH|]. intros r. apply bind_NH; [apply DecodePath_NH|]. intros [n p].
  apply bind_NH; [apply slice_from_NH|discriminate].
Qed.
Lemma bytesToString_NH b : bytesToString b <> Hang.
Proof.
  unfold bytesToString. repeat (apply bind_NH; [try apply slice_NH; try apply slice_from_NH; try apply be_uint64_NH|intros ?]); try discriminate.
Qed.
Lemma DecodeValues_NH b : DecodeValues b <> Hang.
Proof.
  unfold DecodeValues. apply bind_NH; [apply slice_NH|]. intros h. apply bind_NH; [apply be_uint64_NH|]. intros l.
  apply bind_NH; [apply slice_from_NH|]. intros r. apply bind_NH; [apply bytesToString_NH|]. intros [d r2].
  apply bind_NH; [apply bytesToString_NH|]. intros [a r3]. discriminate.
Qed.

Section Listing.
Variable C : cfg.
Variable aoi : area_of_interest.

(** The loop of ListValues without failures, the values read from [db]. *)
Fixpoint list_at (db : bmap bytes) (ks : list bytes) (plen : N) (acc : list entry) : res (list entry) :=
  match ks with
  | [] => Ok acc
  | k :: ks' =>
      let a := aoi_area aoi in
      do q <- DecodeKey k (c_pp C);
      if (r_end (area_times a) <? pos_time q)
         || negb (OrderSubspace (pos_subspace q) (area_subspace a) =? 0)%Z
         || (len (pos_path q) <? len (area_path a)) then list_at db ks' plen acc
      else
        do pre <- slice (pos_path q) 0 (len (area_path a));
        if negb (OrderPath pre (area_path a) =? 0)%Z then list_at db ks' plen acc
        else if ((0 <? aoi_max_count aoi) && ge_int (len acc) (aoi_max_count aoi))
                || (pos_time q <? r_start (area_times a)) then Ok acc
        else
          do b <- got db k;
          do w <- DecodeValues b;
          let plen' := add64 plen (v_length w) in
          if (0 <? aoi_max_size aoi) && (aoi_max_size aoi <=? plen') then Ok acc
          else list_at db ks' plen'
                 (acc ++ [Entry (c_ns C) (pos_subspace q) (v_digest w) (pos_path q) (pos_time q) (v_length w)])
  end.

Lemma list_at_part db : NoDup (mkeys db) -> forall part plen acc, incl part db ->
  list_at db (mkeys part) plen acc = list_loop C aoi part plen acc.
Proof.
  intros HN. induction part as [|[k v] part IH]; intros plen acc HI; [reflexivity|].
  assert (HI' : incl part db) by (intros x Hx; apply HI; right; exact Hx).
  cbn [mkeys map fst list_at list_loop]. change (map fst part) with (mkeys part). cbv zeta.
  destruct (DecodeKey k (c_pp C)) as [q| | | |]; cbn [bind]; try reflexivity.
  destruct (_ || _ || _); [apply IH, HI'|].
  destruct (slice _ _ _) as [pre| | | |]; cbn [bind]; try reflexivity.
  destruct (negb _); [apply IH, HI'|]. destruct (_ || _); [reflexivity|].
  unfold got. rewrite (mget_NoDup _ k v HN) by (apply HI; left; reflexivity). cbn [bind].
  destruct (DecodeValues v) as [w| | | |]; cbn [bind]; try reflexivity. destruct (_ && _); [reflexivity|]. apply IH, HI'.
Qed.

Lemma list_at_NH db : forall ks plen acc, list_at db ks plen acc <> Hang.
Proof.
  induction ks as [|k ks IH]; intros plen acc; cbn [list_at]; [discriminate|]. cbv zeta.
  apply bind_NH; [apply DecodeKey_NH|]. intros q. destruct (_ || _ || _); [apply IH|].
  apply bind_NH; [apply slice_NH|]. intros pre. destruct (negb _); [apply IH|]. destruct (_ || _); [discriminate|].
  apply bind_NH; [unfold got; destruct mget; discriminate|]. intros b. apply bind_NH; [apply DecodeValues_NH|]. intros w.
  destruct (_ && _); [discriminate|]. apply IH.
Qed.

Lemma faithful_list : forall ks plen acc, faithful (fun db => list_at db ks plen acc) (drv_list_loop C aoi ks plen acc).
Proof.
  induction ks as [|k ks IH]; intros plen acc; [apply faithful_ret|]. cbn [drv_list_loop list_at]. cbv zeta.
  apply (faithful_bind _ (fun q db => if _ : bool then _ else _) _ _ (faithful_lift _)). intros q. destruct (_ || _ || _); [apply IH|].
  apply (faithful_bind _ (fun pre db => if _ : bool then _ else _) _ _ (faithful_lift _)). intros pre.
  destruct (negb _); [apply IH|]. destruct (_ || _); [apply faithful_ret|].
  eapply faithful_ext; [|apply (faithful_bind _ (fun v db => match v with None => Err | Some b => do w <- DecodeValues b;
      if (0 <? aoi_max_size aoi) && (aoi_max_size aoi <=? add64 plen (v_length w)) then Ok acc
      else do _ <- Ok tt; list_at db ks (add64 plen (v_length w)) (acc ++ [Entry (c_ns C) (pos_subspace q) (v_digest w) (pos_path q) (pos_time q) (v_length w)]) end) _ _ (faithful_db_Get k))].
  - intros db. unfold got. cbn [bind]. destruct (mget db k); reflexivity.
  - intros [b|]; [|apply faithful_fail].
    apply (faithful_bind _ (fun w db => if (0 <? aoi_max_size aoi) && (aoi_max_size aoi <=? add64 plen (v_length w)) then Ok acc
      else do _ <- Ok tt; list_at db ks (add64 plen (v_length w)) (acc ++ [Entry (c_ns C) (pos_subspace q) (v_digest w) (pos_path q) (pos_time q) (v_length w)])) _ _ (faithful_lift _)).
    intros w. destruct (_ && _); [apply faithful_ret|].
    apply (faithful_bind _ (fun _ db => list_at db ks (add64 plen (v_length w)) _) _ _ faithful_shut). intros _. apply IH.
Qed.

Lemma faithful_ListValues : faithful (fun db => list_at db (rev (mkeys db)) 0 []) (drv_ListValues C aoi).
Proof.
  apply (faithful_iter true (fun ks db => list_at db ks 0 []) (fun ks => drv_list_loop C aoi ks 0 [])).
  - intros ks. apply faithful_list.
  - intros. apply list_at_NH.
Qed.
End Listing.

Fixpoint query_at (C : cfg) (db : bmap bytes) (ns : list node) : res (list ext) :=
  match ns with
  | [] => Ok []
  | n :: ns' =>
      do b <- got db (EncodeKey (node_pos n) (c_pp C));
      do w <- DecodeValues b;
      do r <- query_at C db ns';
      Ok ((Entry (c_ns C) (n_sub n) (v_digest w) (n_path n) (n_time n) (v_length w), v_auth w) :: r)
  end.
Lemma query_at_spec C ns st : query_loop C ns st = (query_at C (kv st) ns, st).
Proof.
  induction ns as [|n ns IH]; [reflexivity|]. cbn [query_loop query_at]. unfold bindM at 1, gets. unfold got.
  destruct (mget (kv st) _) as [b|]; [|reflexivity]. cbn [bind]. unfold bindM at 1, lift.
  destruct (DecodeValues b) as [w| | | |]; cbn [bind]; try reflexivity. unfold bindM. rewrite IH.
  destruct (query_at C (kv st) ns); reflexivity.
Qed.
Lemma faithful_query C ns : faithful (fun db => query_at C db ns) (drv_query_loop C ns).
Proof.
  induction ns as [|n ns IH]; [apply faithful_ret|]. cbn [drv_query_loop query_at].
  apply (faithful_bind _ (fun b db => do w <- DecodeValues b; do r <- query_at C db ns;
    Ok ((Entry (c_ns C) (n_sub n) (v_digest w) (n_path n) (n_time n) (v_length w), v_auth w) :: r)) _ _ (faithful_drv_Get _)). intros b.
  apply (faithful_bind _ (fun w db => do r <- query_at C db ns; Ok ((_, v_auth w) :: r)) _ _ (faithful_lift _)). intros w.
  apply (faithful_bind _ (fun r _ => Ok (_ :: r)) _ _ IH). intros r. apply faithful_ret.
Qed.

(** ** What is open *)

(** A program that gives back what it takes, with or without an error, unless the process ends. *)
Definition tidy {A} (m : K A) : Prop :=
  forall s r s', m s = (r, s') -> db_iters s' = db_iters s /\ db_values s' = db_values s.
Lemma tidy_bind {A B} (m : K A) (f : A -> K B) : tidy m -> (forall a, tidy (f a)) -> tidy (bindK m f).
Proof.
  intros Hm Hf s r s' E. unfold bindK in E. destruct (m s) as [x s1] eqn:E1. destruct (Hm _ _ _ E1) as [I V].
  destruct x; [destruct (Hf _ _ _ _ E) as [I2 V2]; split; congruence|..]; injection E as <- <-; auto.
Qed.
Lemma tidy_lift {A} (x : res A) : tidy (liftK x).
Proof. intros s r s' E. injection E as <- <-. auto. Qed.
Lemma tidy_ret {A} (x : A) : tidy (retK x).
Proof. apply (tidy_lift (Ok x)). Qed.
Lemma tidy_drv_Get k : tidy (drv_Get k).
Proof.
  intros s r s' E. destruct s as [db [|o os] i v]; unfold drv_Get, db_Get, bindK, next_call, open_value, shut_value, retK, failK in E;
    cbn [db_todo db_map db_iters db_values] in *.
  - destruct (mget db k); injection E as <- <-; cbn [db_iters db_values]; split; lia.
  - destruct o; cbn [db_todo db_map db_iters db_values] in E; [destruct (mget db k)| |]; injection E as <- <-; cbn [db_iters db_values]; split; lia.
Qed.
Lemma tidy_multiple ks : tidy (drv_GetMultipleValues ks).
Proof.
  induction ks as [|k ks IH]; [apply tidy_ret|]. cbn [drv_GetMultipleValues]. apply tidy_bind; [apply tidy_drv_Get|].
  intros v. apply tidy_bind; [exact IH|]. intros. apply tidy_ret.
Qed.
Lemma tidy_values ks : tidy (drv_values_loop ks).
Proof.
  induction ks as [|k ks IH]; [apply tidy_ret|]. intros s r s' E. cbn [drv_values_loop] in E.
  assert (E' : (let? b := drv_Get k in let? r := drv_values_loop ks in retK ((k, b) :: r)) s = (r, s')).
  { rewrite <- E. unfold drv_Get, bindK. destruct (db_Get k s) as [[[b|]| | | |] s1]; reflexivity. }
  revert E'. apply (tidy_bind (drv_Get k) (fun b => let? r := drv_values_loop ks in retK ((k, b) :: r)) (tidy_drv_Get k)).
  intros b. apply tidy_bind; [exact IH|]. intros. apply tidy_ret.
Qed.
Lemma tidy_query C ns : tidy (drv_query_loop C ns).
Proof.
  induction ns as [|n ns IH]; [apply tidy_ret|]. cbn [drv_query_loop]. apply tidy_bind; [apply tidy_drv_Get|].
  intros b. apply tidy_bind; [apply tidy_lift|]. intros w. apply tidy_bind; [exact IH|]. intros. apply tidy_ret.
Qed.

(** The iterator is given back, unless the body ends the process. *)
Lemma iter_shut {A} back (loop : list bytes -> K A) s r s' :
  (forall ks s r s', loop ks s = (r, s') -> db_iters s' = db_iters s) ->
  (forall ks s r s', loop ks s = (r, s') -> r <> Hang) ->
  (let? it := db_NewIter back in deferring (snd it) (loop (fst it))) s = (r, s') ->
  r = Fatal \/ db_iters s' = db_iters s.
Proof.
  intros HI HH E. destruct s as [db todo i v]. cbn [db_iters].
  assert (K : forall fine ks td, deferring fine (loop ks) (KvDb db td (i + 1) v) = (r, s') -> r = Fatal \/ db_iters s' = i).
  { intros fine ks td E0. unfold deferring in E0. destruct (loop ks (KvDb db td (i + 1) v)) as [x s1] eqn:E1.
    pose proof (HI _ _ _ _ E1) as I1. pose proof (HH _ _ _ _ E1) as H1. cbn [db_iters] in I1.
    destruct x; try congruence; try (injection E0 as <- <-; auto; fail);
      (destruct s1 as [db1 [|o os] i1 v1]; unfold iter_Close, bindK, next_call, shut_iter, retK, liftK in E0;
       cbn [db_todo db_map db_iters db_values] in *; injection E0 as _ <-; cbn [db_iters]; right; lia). }
  destruct todo as [|o os]; unfold bindK at 1, db_NewIter, next_call, open_iter in E; unfold bindK in E; cbn [db_todo db_map db_iters db_values] in E.
  - eapply K, E.
  - destruct o; cbn [db_todo db_map db_iters db_values] in E; try (eapply K, E). injection E as <- <-. auto.
Qed.

(** The loop of ListValues keeps at most one value, and none without a limit on the size or a value that cannot be read. *)
Lemma list_keeps C aoi : forall ks plen acc s r s', drv_list_loop C aoi ks plen acc s = (r, s') ->
  db_iters s' = db_iters s
  /\ (db_values s' = db_values s
      \/ db_values s' = db_values s + 1 /\ ((exists l, r = Ok l) /\ 0 < aoi_max_size aoi
           \/ exists k v, In k ks /\ mget (db_map s) k = Some v /\ (forall w, DecodeValues v <> Ok w))).
Proof.
  induction ks as [|k ks IH]; intros plen acc s r s' E; cbn [drv_list_loop] in E; [injection E as <- <-; auto|]. cbv zeta in E.
  assert (W : forall P Q : Prop, (P -> Q) -> forall v1 v2 v3 : N, v2 = v1 -> (v3 = v2 \/ v3 = v2 + 1 /\ P) -> v3 = v1 \/ v3 = v1 + 1 /\ Q).
  { intros P Q H v1 v2 v3 -> [->|[-> HP]]; auto. }
  assert (IH' : forall plen acc s r s', drv_list_loop C aoi ks plen acc s = (r, s') -> db_iters s' = db_iters s
    /\ (db_values s' = db_values s \/ db_values s' = db_values s + 1 /\ ((exists l, r = Ok l) /\ 0 < aoi_max_size aoi
           \/ exists k0 v, In k0 (k :: ks) /\ mget (db_map s) k0 = Some v /\ (forall w, DecodeValues v <> Ok w)))).
  { intros plen0 acc0 s0 r0 s0' E0. destruct (IH _ _ _ _ _ E0) as [I V]. split; [exact I|].
    eapply W; [|reflexivity|exact V]. intros [H|(k0 & v & H1 & H2)]; [auto|right; exists k0, v; split; [right; exact H1|exact H2]]. }
  unfold bindK at 1, liftK at 1 in E. destruct (DecodeKey k (c_pp C)) as [q| | | |]; try (injection E as <- <-; auto; fail).
  destruct (_ || _ || _); [eapply IH', E|]. unfold bindK at 1, liftK at 1 in E.
  destruct (slice _ _ _) as [pre| | | |]; try (injection E as <- <-; auto; fail).
  destruct (negb _); [eapply IH', E|]. destruct (_ || _); [injection E as <- <-; auto|].
  assert (K : forall todo, (match mget (db_map s) k with
      | None => (Err, KvDb (db_map s) todo (db_iters s) (db_values s))
      | Some b => match DecodeValues b with
          | Ok w => if (0 <? aoi_max_size aoi) && (aoi_max_size aoi <=? add64 plen (v_length w))
                    then (Ok acc, KvDb (db_map s) todo (db_iters s) (db_values s + 1))
                    else drv_list_loop C aoi ks (add64 plen (v_length w))
                      (acc ++ [Entry (c_ns C) (pos_subspace q) (v_digest w) (pos_path q) (pos_time q) (v_length w)])
                      (KvDb (db_map s) todo (db_iters s) (db_values s + 1 - 1))
          | Err => (Err, KvDb (db_map s) todo (db_iters s) (db_values s + 1))
          | Panic => (Panic, KvDb (db_map s) todo (db_iters s) (db_values s + 1))
          | Fatal => (Fatal, KvDb (db_map s) todo (db_iters s) (db_values s + 1))
          | Hang => (Hang, KvDb (db_map s) todo (db_iters s) (db_values s + 1)) end
      end) = (r, s') -> db_iters s' = db_iters s
    /\ (db_values s' = db_values s \/ db_values s' = db_values s + 1 /\ ((exists l, r = Ok l) /\ 0 < aoi_max_size aoi
           \/ exists k0 v, In k0 (k :: ks) /\ mget (db_map s) k0 = Some v /\ (forall w, DecodeValues v <> Ok w)))).
  { intros todo E0. destruct (mget (db_map s) k) as [b|] eqn:EG; [|injection E0 as <- <-; auto].
    destruct (DecodeValues b) as [w| | | |] eqn:ED;
      try (injection E0 as <- <-; cbn [db_iters db_values]; split; [reflexivity|]; right; split; [reflexivity|]; right; exists k, b;
           split; [left; reflexivity|]; split; [exact EG|congruence]; fail).
    destruct (0 <? aoi_max_size aoi) eqn:EM; cbn [andb] in E0; [destruct (_ <=? _)|].
    - injection E0 as <- <-. cbn [db_iters db_values]. split; [reflexivity|]. right. split; [reflexivity|]. left. split; [eauto|].
      apply N.ltb_lt, EM.
    - apply IH' in E0. cbn [db_iters db_values db_map] in E0. destruct E0 as [I V]. split; [exact I|]. eapply W; [|apply N.add_sub|exact V]. auto.
    - apply IH' in E0. cbn [db_iters db_values db_map] in E0. destruct E0 as [I V]. split; [exact I|]. eapply W; [|apply N.add_sub|exact V]. auto. }
  destruct s as [db todo i v]. unfold bindK at 1, db_Get, next_call in E. unfold bindK at 1 in E.
  destruct todo as [|o os]; [|destruct o]; cbn [db_todo db_map db_iters db_values] in *; unfold bindK, open_value, shut_value, retK, failK, liftK in E;
    cbn [db_todo db_map db_iters db_values] in E; try (injection E as <- <-; auto; fail).
  - apply (K []). rewrite <- E. destruct (mget db k) as [b|]; [|reflexivity]. destruct (DecodeValues b); try reflexivity. destruct (_ && _); reflexivity.
  - apply (K os). rewrite <- E. destruct (mget db k) as [b|]; [|reflexivity]. destruct (DecodeValues b); try reflexivity. destruct (_ && _); reflexivity.
Qed.

(** ** Clear *)
Lemma mdel_head k v (db : bmap bytes) : NoDup (mkeys ((k, v) :: db)) -> mdel ((k, v) :: db) k = db.
Proof.
  intros H. inversion H as [|? ? NI _]; subst. unfold mdel. cbn [filter fst]. rewrite beqb_refl. cbn [negb].
  apply filter_all. intros [k' v'] Hin. cbn [fst]. rewrite beqb_neq; [reflexivity|]. intros ->. apply NI. apply (in_map fst) in Hin. exact Hin.
Qed.
Lemma clear_runs : forall todo part rest i v r s', NoDup (mkeys (part ++ rest)) ->
  drv_clear_loop (mkeys part) (KvDb (part ++ rest) todo i v) = (r, s') ->
  db_iters s' = i /\ db_values s' = v
  /\ exists used gone, todo = used ++ db_todo s' /\ part ++ rest = gone ++ db_map s'
     /\ (Forall (eq Fine) used /\ r = Ok tt /\ db_map s' = rest \/ ~ Forall (eq Fine) used /\ r = Err /\ db_map s' <> []).
Proof.
  intros todo part. revert todo. induction part as [|[k x] part IH]; intros todo rest i v r s' HN E.
  - injection E as <- <-. cbn [db_iters db_values db_todo db_map]. do 2 (split; [reflexivity|]). exists [], []. repeat split; auto.
  - assert (HN' : NoDup (mkeys (part ++ rest))) by (cbn in HN; inversion HN; auto).
    cbn [mkeys map fst drv_clear_loop] in E. change (map fst part) with (mkeys part) in E.
    unfold bindK at 1, db_Delete, next_call in E. unfold bindK at 1 in E.
    assert (D : mdel (((k, x) :: part) ++ rest) k = part ++ rest) by (apply mdel_head; exact HN).
    destruct todo as [|o os]; [|destruct o]; cbn [db_todo db_map db_iters db_values] in E; unfold with_map, failK in E;
      cbn [db_todo db_map db_iters db_values] in E.
    + rewrite D in E. destruct (IH _ _ _ _ _ _ HN' E) as (I & V & u & g & T & G & R). do 2 (split; [assumption|]).
      exists u, ((k, x) :: g). split; [exact T|]. split; [cbn [app]; f_equal; exact G|exact R].
    + rewrite D in E. destruct (IH _ _ _ _ _ _ HN' E) as (I & V & u & g & T & G & R). do 2 (split; [assumption|]).
      exists (Fine :: u), ((k, x) :: g). split; [cbn [app]; f_equal; exact T|]. split; [cbn [app]; f_equal; exact G|].
      destruct R as [(F & R)|(F & R)]; [left; split; auto|right; split; auto]; intros F'; inversion F'; auto.
    + injection E as <- <-. cbn [db_todo db_map db_iters db_values]. do 2 (split; [reflexivity|]). exists [Fails], [].
      repeat split; auto. right. split; [intros F; inversion F; discriminate|]. split; [reflexivity|discriminate].
    + injection E as <- <-. cbn [db_todo db_map db_iters db_values]. do 2 (split; [reflexivity|]). exists [Torn n], [].
      repeat split; auto. right. split; [intros F; inversion F; discriminate|]. split; [reflexivity|discriminate].
Qed.
