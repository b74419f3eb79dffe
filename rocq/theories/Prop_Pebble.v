(** C75: what the key-value driver reads from pebble's iterators, when the array of a key may be used again by the next move. *)
From Coq Require Import Sorting.Permutation.
From Verif Require Import Base M_Order M_Encoding M_Paths M_Ranges M_Areas M_Keys M_Entry M_Map M_Store M_Cap M_Query M_Pebble
  S_Order S_Store S_Query P_Order P_Encoding P_Paths P_Keys P_Map P_Store P_History P_Crash P_Query P_Demo Prop_Store Prop_Malformed.
Local Open Scope N_scope.

(** Every move of the iterator allocates. *)
Definition always_fresh (fs : list bool) : Prop := Forall (eq true) fs.
(** At least [n] moves use the array they have, if it is large enough. *)
Definition reuses (fs : list bool) (n : nat) : Prop := exists r, fs = repeat false n ++ r.

(** ** Moves *)
Section Moves.
Context (extra : nat -> nat).

Lemma firstn_all_app {A} (a b : list A) : firstn (length a) (a ++ b) = a.
Proof. rewrite firstn_app, firstn_all, Nat.sub_diag, firstn_O, app_nil_r. reflexivity. Qed.

Lemma set_array_length a b m : length (set_array a b m) = length m.
Proof. revert a; induction m as [|c m IH]; intros [|a]; cbn [set_array length]; auto. Qed.
Lemma set_array_at a b m : (a < length m)%nat -> array (set_array a b m) a = b.
Proof. revert a; induction m as [|c m IH]; intros [|a] L; cbn [length] in L; try lia; cbn; [reflexivity|]. apply IH. lia. Qed.
Lemma array_out m a : (length m <= a)%nat -> array m a = [].
Proof. intros L. unfold array. apply nth_overflow. exact L. Qed.
Lemma array_new m b : array (m ++ [b]) (length m) = b.
Proof. unfold array. rewrite app_nth2, Nat.sub_diag by lia. reflexivity. Qed.
Lemma array_old m b a : (a < length m)%nat -> array (m ++ b) a = array m a.
Proof. intros L. unfold array. apply app_nth1. exact L. Qed.

Lemma move_contents f k buf m s m1 : move_key extra f k buf m = (s, m1) -> contents m1 s = k.
Proof.
  unfold move_key. intros E.
  assert (N : forall s m1, (KeySlice (length m) (length k), m ++ [k ++ repeat 0 (extra (length k))]) = (s, m1) -> contents m1 s = k).
  { intros s' m' E'. injection E' as <- <-. unfold contents. cbn [k_len k_array]. rewrite array_new. apply firstn_all_app. }
  destruct buf as [a|]; [|apply N; exact E]. destruct (negb f && (length k <=? length (array m a))%nat) eqn:F; [|apply N; exact E].
  injection E as <- <-. unfold contents. cbn [k_len k_array]. apply andb_prop in F as [_ F]. apply Nat.leb_le in F.
  destruct (Nat.lt_ge_cases a (length m)) as [L|L].
  - rewrite set_array_at by exact L. apply firstn_all_app.
  - rewrite array_out in F by exact L. cbn [length] in F. destruct k; [reflexivity|cbn [length] in F; lia].
Qed.

Lemma move_fresh k buf m : move_key extra true k buf m = (KeySlice (length m) (length k), m ++ [k ++ repeat 0 (extra (length k))]).
Proof. unfold move_key. destruct buf; reflexivity. Qed.

Lemma array_split m s : array m (k_array s) = contents m s ++ beyond m s.
Proof. unfold contents, beyond. symmetry. apply firstn_skipn. Qed.

Lemma always_hd fs : always_fresh fs -> hd true fs = true /\ always_fresh (tl fs).
Proof. intros F. destruct F as [|f fs E F]; split; cbn; auto. constructor. Qed.

(** ** Clear and ListAllValues *)

Lemma clear_In {V} ks : forall fs buf m (db : bmap V) x, In x (clear_loop extra ks fs buf m db) -> In x db /\ ~ In (fst x) ks.
Proof.
  induction ks as [|k ks IH]; intros fs buf m db x; cbn [clear_loop]; [intros H; split; [exact H|intros []]|].
  destruct (move_key extra (hd true fs) k buf m) as [s m1] eqn:E. apply move_contents in E. rewrite E. intros H. apply IH in H as [H1 H2].
  unfold mdel in H1. apply filter_In in H1 as [H1 H3]. split; [exact H1|]. intros [->|H4]; [|auto]. rewrite beqb_refl in H3. discriminate H3.
Qed.

(** With any choices: the values are right, and so are the keys at the time they are read. *)
Lemma list_all_spec {V} (db : bmap V) (HN : NoDup (mkeys db)) : forall l fs buf m, incl l db ->
  exists ss m', list_all extra db (map fst l) fs buf m = (Ok ss, m') /\ map snd ss = map snd l
    /\ (always_fresh fs -> (exists more, m' = m ++ more) /\ map (fun x => contents m' (fst x)) ss = map fst l).
Proof.
  induction l as [|[k v] l IH]; intros fs buf m HI; cbn [map list_all fst snd].
  - exists [], m. split; [reflexivity|]. split; [reflexivity|]. intros _. split; [|reflexivity]. exists []. rewrite app_nil_r. reflexivity.
  - destruct (move_key extra (hd true fs) k buf m) as [s m1] eqn:E. pose proof (move_contents _ _ _ _ _ _ E) as EC. rewrite EC.
    rewrite (mget_NoDup db k v HN) by (apply HI; left; reflexivity).
    destruct (IH (tl fs) (Some (k_array s)) m1) as (ss & m' & EL & EV & EF); [intros x Hx; apply HI; right; exact Hx|].
    rewrite EL. cbn [bind]. exists ((s, v) :: ss), m'. split; [reflexivity|]. cbn [map snd fst]. split; [f_equal; exact EV|].
    intros F. apply always_hd in F as [F1 F2]. rewrite F1, move_fresh in E. injection E as <- <-.
    destruct (EF F2) as [(more & EM) EK]. split; [exists ([k ++ repeat 0 (extra (length k))] ++ more); rewrite EM, <- app_assoc; reflexivity|].
    f_equal; [|exact EK]. unfold contents at 1. rewrite EM, array_old by (rewrite app_length; cbn; lia). exact EC.
Qed.

(** Clear deletes every key. *)
Theorem C75_clear {V} fs (db : bmap V) : Clear extra fs db = [].
Proof.
  unfold Clear. destruct (clear_loop extra (mkeys db) fs None [] db) as [|x l] eqn:E; [reflexivity|].
  assert (H : In x (clear_loop extra (mkeys db) fs None [] db)) by (rewrite E; left; reflexivity).
  apply clear_In in H as [H1 H2]. exfalso. apply H2. apply in_map. exact H1.
Qed.

(** ListAllValues finds every key and has the values in the order of the keys, with any choices. *)
Theorem C75_values {V} fs (db : bmap V) : NoDup (mkeys db) ->
  exists l, ListAllValues extra fs db = Ok l /\ map snd l = map snd db.
Proof.
  intros HN. destruct (list_all_spec db HN db fs None [] (incl_refl _)) as (ss & m & E & EV & _).
  unfold ListAllValues, mkeys. rewrite E. cbn [bind]. eexists. split; [reflexivity|]. rewrite map_map. cbn [snd]. exact EV.
Qed.

(** If every move allocates, it has the keys too. *)
Theorem C75_keys_partial {V} fs (db : bmap V) : NoDup (mkeys db) -> always_fresh fs ->
  exists l, ListAllValues extra fs db = Ok l /\ map (fun x => (fst (fst x), snd x)) l = db.
Proof.
  intros HN F. destruct (list_all_spec db HN db fs None [] (incl_refl _)) as (ss & m & E & EV & EF). destruct (EF F) as [_ EK].
  unfold ListAllValues, mkeys. rewrite E. cbn [bind]. eexists. split; [reflexivity|]. rewrite map_map. cbn [fst snd].
  clear E EF HN. revert ss EV EK. induction db as [|[k v] l IH]; intros [|[s w] ss] EV EK; try discriminate; [reflexivity|].
  cbn [map fst snd] in *. injection EV as -> EV. injection EK as -> EK. f_equal. apply IH; auto.
Qed.

(** If every move uses the array it has and the keys have the same length, every key that ListAllValues returns is the last. *)
Lemma list_all_reuse {V} (db : bmap V) n : forall ks fs m r m' k0, reuses fs (length ks) -> m = [k0] -> length k0 = (n + extra n)%nat ->
  Forall (fun k => length k = n) ks -> list_all extra db ks fs (Some 0%nat) m = (Ok r, m') ->
  (exists z, m' = [z]) /\ length r = length ks /\ Forall (fun x => fst x = KeySlice 0 n) r /\ firstn n (array m' 0) = last ks (firstn n k0).
Proof.
  induction ks as [|k ks IH]; intros fs m r m' k0 RU -> L0 LK E; cbn [list_all] in E.
  - injection E as <- <-. split; [eauto|]. split; [reflexivity|]. split; [constructor|]. reflexivity.
  - destruct RU as (q & EF). cbn [length repeat] in EF. subst fs. cbn [hd tl app] in E.
    inversion LK as [|? ? Lk LK']; subst. unfold move_key in E. change (array [k0] 0) with k0 in E. cbn [negb andb] in E.
    destruct (Nat.leb_spec (length k) (length k0)) as [_|X]; [|lia]. cbn [set_array] in E.
    set (k1 := k ++ skipn (length k) k0) in *.
    assert (L1 : length k1 = (length k + extra (length k))%nat) by (unfold k1; rewrite app_length, skipn_length; lia).
    destruct (mget db _) as [v|]; [|discriminate]. cbn [k_array] in E.
    match type of E with context [list_all extra db ks ?a ?b ?c] => destruct (list_all extra db ks a b c) as [r1 m1] eqn:E1 end.
    destruct r1 as [l1| | | |]; cbn [bind] in E; try discriminate. injection E as <- <-.
    destruct (IH (repeat false (length ks) ++ q) [k1] l1 m1 k1) as (A & B & D & F); auto; [exists q; reflexivity|].
    split; [exact A|]. split; [cbn [length]; lia|]. split; [constructor; auto|]. rewrite F. unfold k1. rewrite firstn_all_app.
    destruct ks as [|k' ks]; [reflexivity|]. cbn [last]. clear. generalize dependent k'. induction ks as [|k2 ks IH]; intros k'; [reflexivity|]. apply (IH k2).
Qed.
Theorem C75_reused {V} fs (db : bmap V) n : NoDup (mkeys db) -> reuses (tl fs) (length db) ->
  (forall k, In k (mkeys db) -> length k = n) ->
  exists l, ListAllValues extra fs db = Ok l /\ forall x, In x l -> fst (fst x) = last (mkeys db) [].
Proof.
  intros HN RU LK. destruct (list_all_spec db HN db fs None [] (incl_refl _)) as (ss & m & E & _).
  unfold ListAllValues. unfold mkeys at 1. rewrite E. cbn [bind]. eexists. split; [reflexivity|]. intros x Hx. apply in_map_iff in Hx as (y & <- & Hy). cbn [fst].
  assert (LF : Forall (fun k => length k = n) (mkeys db)) by (apply Forall_forall; exact LK). clear LK HN.
  change (map fst db) with (mkeys db) in E. assert (RL : length (mkeys db) = length db) by apply map_length. rewrite <- RL in RU. clear RL.
  destruct (mkeys db) as [|k ks]; cbn [list_all] in E; [injection E as <- <-; destruct Hy|].
  inversion LF as [|? ? Lk LF']; subst. unfold move_key in E. cbn [length app] in E. set (k0 := k ++ repeat 0 (extra (length k))) in *.
  assert (L0 : length k0 = (length k + extra (length k))%nat) by (unfold k0; rewrite app_length, repeat_length; lia).
  destruct (mget db _) as [v|]; [|discriminate]. cbn [k_array] in E.
  match type of E with context [list_all extra db ks ?a ?b ?c] => destruct (list_all extra db ks a b c) as [r1 m1] eqn:E1 end. destruct r1 as [l1| | | |]; cbn [bind] in E; try discriminate.
  injection E as <- <-. destruct (list_all_reuse db (length k) ks (tl fs) [k0] l1 m1 k0) as (A & B & D & F); auto.
  { destruct RU as (q & EF). exists (false :: q). rewrite EF. cbn [length repeat].
    change (false :: repeat false (length ks)) with (repeat false (S (length ks))). rewrite <- (Nat.add_1_r (length ks)), repeat_app, <- app_assoc. reflexivity. }
  assert (EY : fst y = KeySlice 0 (length k)). { destruct Hy as [<-|Hy]; [reflexivity|]. rewrite Forall_forall in D. apply D. exact Hy. }
  rewrite EY. unfold contents. cbn [k_len k_array]. rewrite F. unfold k0. rewrite firstn_all_app.
  destruct ks as [|k' ks]; [reflexivity|]. cbn [last]. clear. revert k'. induction ks as [|k2 ks IH]; intros k'; [reflexivity|]. apply (IH k2).
Qed.

(** ** Keys in an array that goes on *)

Lemma ekey_decode_cap C U (PP : store_params (c_pp C)) x spare : stored_ok C U x ->
  DecodeKey_cap (ekey C x) spare (c_pp C) = Ok (EntryPosition x).
Proof.
  intros H. apply (ok_codec C U) in H as [H1 H2]. pose proof (store_codec C PP) as CP.
  unfold ekey, EncodeKey, DecodeKey_cap. rewrite cslice_slice, <- app_assoc.
  rewrite slice_0_app by (rewrite BigIntToBytes_len; reflexivity). cbn [bind].
  rewrite be_uint64_bigint by auto. cbn [bind].
  rewrite slice_from_app by (rewrite BigIntToBytes_len; reflexivity). cbn [bind].
  rewrite DecodePath_cap_eq, <- app_assoc, DecodePath_EncodePath by auto. cbn [bind].
  rewrite app_assoc, slice_from_app by (rewrite len_app, BigIntToBytes_len; reflexivity). cbn [bind].
  reflexivity.
Qed.

Lemma load_listed_spec C U (PP : store_params (c_pp C)) (HU : universe C U) x spare : stored_ok C U x ->
  load_listed (c_pp C) (ekey C x, spare, eval_ C x) = Ok (loaded C x).
Proof.
  intros H. unfold load_listed. rewrite (ekey_decode_cap C U PP x spare H), (eval_decode C U HU x H). reflexivity.
Qed.

Lemma load_all_spec C U (PP : store_params (c_pp C)) (HU : universe C U) : forall ys l, Forall (stored_ok C U) ys ->
  map (fun x => (fst (fst x), snd x)) l = map (fun x => (ekey C x, eval_ C x)) ys -> load_all (c_pp C) l = Ok (map (loaded C) ys).
Proof.
  induction ys as [|y ys IH]; intros [|[[k sp] v] l] HF E; try discriminate; [reflexivity|]. cbn [map fst snd] in E. injection E as -> -> E.
  inversion HF as [|? ? Hy HF']; subst. cbn [load_all map]. rewrite (load_listed_spec C U PP HU y sp Hy). cbn [bind]. rewrite (IH l HF' E). reflexivity.
Qed.

(** Opening a store again, if every move allocates: the index is that of the rest of the model. *)
Theorem C75_reopen_partial C U ops st fs : survived C U ops st -> always_fresh fs -> reopen_iter extra C fs st = reopen C st.
Proof.
  intros (PP & HU & HO & HL) F. destruct (lives_Rep C U PP HU ops st HL HO) as (xs & R).
  pose proof (rep_kv _ _ _ _ R) as HK. apply Permutation_map_inv in HK as (ys & EK & HP). pose proof (rep_ok _ _ _ _ (Rep_perm _ _ _ _ _ HP R)) as HS.
  destruct (C75_keys_partial fs (kv st) (Rep_keys_nodup C U xs st R) F) as (l & EL & EM).
  unfold reopen_iter, reopen. rewrite EL. rewrite (load_all_spec C U PP HU ys l HS) by (rewrite EM; exact EK).
  rewrite EK, (load_nodes_spec C U PP HU ys HS). cbn [bind]. reflexivity.
Qed.

(** If every move uses the array it has and the keys have the same length, the index has the position of the newest entry, as
    often as there are entries, and no other. *)
Lemma load_all_same C U (PP : store_params (c_pp C)) (HU : universe C U) z : stored_ok C U z -> forall ys l, Forall (stored_ok C U) ys ->
  map snd l = map (eval_ C) ys -> (forall x, In x l -> fst (fst x) = ekey C z) ->
  exists t, load_all (c_pp C) l = Ok t /\ length t = length ys /\ forall nd, In nd t -> node_pos nd = EntryPosition z.
Proof.
  intros Hz. induction ys as [|y ys IH]; intros [|[[k sp] v] l] HF EV EK; try discriminate.
  - exists []. split; [reflexivity|]. split; [reflexivity|]. intros nd [].
  - inversion HF as [|? ? Hy HF']; subst. cbn [map snd] in EV. injection EV as -> EV.
    assert (E : k = ekey C z) by (apply (EK (k, sp, eval_ C y)); left; reflexivity). subst k.
    destruct (IH l HF' EV) as (t & ET & LT & HT); [intros x Hx; apply EK; right; exact Hx|].
    cbn [load_all]. unfold load_listed. rewrite (ekey_decode_cap C U PP z sp Hz), (eval_decode C U HU y Hy). cbn [bind]. rewrite ET. cbn [bind].
    eexists. split; [reflexivity|]. split; [cbn [length]; lia|]. intros nd [<-|Hn]; [reflexivity|]. apply HT. exact Hn.
Qed.

Theorem C75_reopen_reused C U ops st fs n x : survived C U ops st -> live C st x -> reuses (tl fs) (length (kv st)) ->
  (forall k, In k (mkeys (kv st)) -> length k = n) ->
  exists z st', live C st z /\ (forall y, live C st y -> e_time y <= e_time z)
    /\ reopen_iter extra C fs st = Ok st' /\ kv st' = kv st /\ length (tree st') = length (kv st)
    /\ forall nd, In nd (tree st') -> node_pos nd = EntryPosition z.
Proof.
  intros (PP & HU & HO & HL) LX RU LK. destruct (lives_Rep C U PP HU ops st HL HO) as (xs & R0).
  destruct (Rep_list C U PP xs st R0) as (ys & EK & R & NF). pose proof (rep_ok _ _ _ _ R) as HS.
  assert (LV : forall y, live C st y <-> In y ys) by (intros y; apply (Rep_live C U PP HU ys st y R)).
  destruct ys as [|z ys]; [exfalso; apply (proj1 (LV x) LX)|].
  assert (EK2 : kv st = map (fun x => (ekey C x, eval_ C x)) (rev (z :: ys))) by (rewrite map_rev, <- EK, rev_involutive; reflexivity).
  pose proof (Rep_keys_nodup C U _ st R) as ND.
  destruct (C75_reused fs (kv st) n ND RU LK) as (l & EL & EN). destruct (C75_values fs (kv st) ND) as (l' & EL' & EV).
  rewrite EL in EL'. injection EL' as <-.
  assert (LZ : last (mkeys (kv st)) [] = ekey C z).
  { rewrite EK2. unfold mkeys. rewrite map_map. cbn [fst rev]. rewrite map_app. cbn [map]. rewrite last_last. reflexivity. }
  destruct (load_all_same C U PP HU z (Rep_In_ok C U _ st z R (or_introl eq_refl)) (rev (z :: ys)) l) as (t & ET & LT & HT).
  { apply Forall_rev. exact HS. }
  { rewrite EV, EK2, map_map. reflexivity. }
  { intros y Hy. rewrite <- LZ. apply EN. exact Hy. }
  exists z, (State (kv st) t (refs st) (files st) false None).
  split; [apply LV; left; reflexivity|]. split.
  { intros y Hy. apply LV in Hy as [<-|Hy]; [lia|]. cbn [newest_first] in NF. apply NF. exact Hy. }
  split; [unfold reopen_iter; rewrite EL, ET; reflexivity|]. split; [reflexivity|]. cbn [tree]. split; [|exact HT].
  rewrite LT, EK2, map_length. reflexivity.
Qed.

(** ** ListValues *)

Lemma skipn_skipn' {A} : forall (l : list A) a b, skipn a (skipn b l) = skipn (b + a) l.
Proof. intros l a b. revert l. induction b as [|b IH]; intros l; [reflexivity|]. destruct l; cbn [skipn Nat.add]; [apply skipn_nil|apply IH]. Qed.

(** A part of an array. *)
Definition cut (b : bytes) (s : N * N) : bytes := firstn (N.to_nat (snd s)) (skipn (N.to_nat (fst s)) b).

Lemma component_slices_spec pp b spare : forall count pos,
  decode_components_cap pp b spare pos count
  = do (n, cs) <- component_slices pp b spare pos count; Ok (n, map (cut (b ++ spare)) cs).
Proof.
  induction count as [|count IH]; intros pos; cbn [decode_components_cap component_slices]; [reflexivity|].
  destruct (cslice b spare pos _) as [lb| | | |]; cbn [bind]; auto.
  destruct (match DecodeIntMax32 lb (max_component_length pp) with Ok l => Ok l | _ => Fatal end) as [l| | | |]; cbn [bind]; auto.
  set (w := GetWidthMax32Int (max_component_length pp)). unfold cslice. destruct (_ && _); cbn [bind]; auto. rewrite IH.
  destruct (component_slices pp b spare (pos + w + l) count) as [[n cs]| | | |]; cbn [bind map]; auto. unfold cut at 2. cbn [fst snd].
  replace (pos + w + l - (pos + w)) with l by lia. reflexivity.
Qed.

Lemma DecodeKey_slices_spec k spare pp :
  DecodeKey_cap k spare pp
  = do (tc, sub) <- DecodeKey_slices k spare pp; Ok (Position (cut (k ++ spare) sub) (map (cut (k ++ spare)) (snd tc)) (fst tc)).
Proof.
  unfold DecodeKey_cap, DecodeKey_slices. destruct (cslice k spare 0 8) as [tb| | | |]; cbn [bind]; auto.
  destruct (be_uint64 tb) as [t| | | |]; cbn [bind]; auto. unfold slice_from at 1 3.
  destruct (N.leb_spec 8 (len k)) as [L8|_]; cbn [bind]; auto. unfold DecodePath_cap.
  destruct (cslice (skipn (N.to_nat 8) k) spare 0 _) as [cb| | | |]; cbn [bind]; auto.
  destruct (DecodeIntMax32 cb (max_component_count pp)) as [c| | | |]; cbn [bind]; auto.
  rewrite component_slices_spec. destruct (component_slices pp _ spare _ _) as [[n cs]| | | |]; cbn [bind]; auto.
  unfold slice_from. destruct (N.leb_spec (8 + n) (len k)) as [LN|_]; cbn [bind fst snd]; auto. f_equal.
  assert (ES : skipn (N.to_nat 8) k ++ spare = skipn (N.to_nat 8) (k ++ spare)).
  { rewrite skipn_app. unfold len in L8. replace (N.to_nat 8 - length k)%nat with 0%nat by lia. reflexivity. }
  f_equal.
  - unfold cut. cbn [fst snd]. rewrite skipn_app, firstn_app, skipn_length. unfold len in *.
    replace (N.to_nat (N.of_nat (length k) - (8 + n)) - (length k - N.to_nat (8 + n)))%nat with 0%nat by lia.
    rewrite firstn_O, app_nil_r. symmetry. apply firstn_all2. rewrite skipn_length. lia.
  - rewrite map_map. apply map_ext. intros [o m]. unfold cut. cbn [fst snd]. rewrite ES, skipn_skipn'. f_equal. f_equal. lia.
Qed.

(** Slices and an entry have the same timestamp, digest and payload length. *)
Definition agree (x : listed) (y : entry) : Prop := l_time x = e_time y /\ l_digest x = e_digest y /\ l_length x = e_length y.

Lemma seen_grows C m more x : (l_array x < length m)%nat -> seen C (m ++ more) x = seen C m x.
Proof.
  intros L. unfold seen, part. rewrite array_old by exact L. f_equal.
Qed.

Lemma list_values_spec C U (PP : store_params (c_pp C)) (HU : universe C U) aoi : forall ys fs buf m plen acc acc',
  Forall (stored_ok C U) ys -> Forall2 agree acc acc' ->
  exists ls es m', list_values extra C aoi (map (fun x => (ekey C x, eval_ C x)) ys) fs buf m plen acc = (Ok ls, m')
    /\ list_loop C aoi (map (fun x => (ekey C x, eval_ C x)) ys) plen acc' = Ok es /\ Forall2 agree ls es
    /\ (always_fresh fs -> Forall (fun x => (l_array x < length m)%nat) acc -> map (seen C m) acc = acc' -> map (seen C m') ls = es).
Proof.
  induction ys as [|y ys IH]; intros fs buf m plen acc acc' HF HA; cbn [map list_values list_loop].
  { exists acc, acc', m. split; [reflexivity|]. split; [reflexivity|]. split; [exact HA|]. auto. }
  inversion HF as [|? ? Hy HF']; subst.
  destruct (move_key extra (hd true fs) (ekey C y) buf m) as [s m1] eqn:E. pose proof (move_contents _ _ _ _ _ _ E) as EC. rewrite EC.
  pose proof (ekey_decode_cap C U PP y (beyond m1 s) Hy) as ED. rewrite DecodeKey_slices_spec in ED.
  destruct (DecodeKey_slices (ekey C y) (beyond m1 s) (c_pp C)) as [[[t cs] sub]| | | |]; cbn [bind fst snd] in ED; try discriminate.
  unfold EntryPosition in ED. rewrite <- EC in ED at 1 2. rewrite <- array_split in ED. injection ED as ES EP ->.
  change (cut (array m1 (k_array s))) with (part m1 (k_array s)) in ES, EP. rewrite ES, EP.
  rewrite (ekey_decode C U PP y Hy). cbn [bind]. unfold EntryPosition. cbn [pos_time pos_subspace pos_path].
  assert (GO : always_fresh fs -> (exists more, m1 = m ++ more) /\ (k_array s < length m1)%nat).
  { intros F. apply always_hd in F as [F1 _]. rewrite F1, move_fresh in E. injection E as <- <-. split; [eauto|]. cbn [k_array]. rewrite app_length. cbn. lia. }
  assert (OLD : always_fresh fs -> Forall (fun x => (l_array x < length m)%nat) acc -> map (seen C m) acc = acc' ->
    Forall (fun x => (l_array x < length m1)%nat) acc /\ map (seen C m1) acc = acc').
  { intros F HB EM. destruct (GO F) as [(more & E1) _]. rewrite E1. split.
    - eapply Forall_impl; [|exact HB]. cbn beta. intros x Hx. rewrite app_length. lia.
    - rewrite <- EM. apply map_ext_in. intros x Hx. rewrite Forall_forall in HB. apply seen_grows, HB. exact Hx. }
  assert (SKIP : exists ls es m',
    list_values extra C aoi (map (fun x => (ekey C x, eval_ C x)) ys) (tl fs) (Some (k_array s)) m1 plen acc = (Ok ls, m')
    /\ list_loop C aoi (map (fun x => (ekey C x, eval_ C x)) ys) plen acc' = Ok es /\ Forall2 agree ls es
    /\ (always_fresh fs -> Forall (fun x => (l_array x < length m)%nat) acc -> map (seen C m) acc = acc' -> map (seen C m') ls = es)).
  { destruct (IH (tl fs) (Some (k_array s)) m1 plen acc acc' HF' HA) as (ls & es & m' & A & B & D & F).
    exists ls, es, m'. split; [exact A|]. split; [exact B|]. split; [exact D|]. intros F1 HB EM. destruct (OLD F1 HB EM) as [O1 O2].
    apply F; auto. apply (proj2 (always_hd fs F1)). }
  assert (STOP : exists ls es m', (Ok acc, m1) = (Ok ls, m') /\ Ok acc' = Ok es /\ Forall2 agree ls es
    /\ (always_fresh fs -> Forall (fun x => (l_array x < length m)%nat) acc -> map (seen C m) acc = acc' -> map (seen C m') ls = es)).
  { exists acc, acc', m1. split; [reflexivity|]. split; [reflexivity|]. split; [exact HA|]. intros F1 HB EM. apply (OLD F1 HB EM). }
  assert (LA : len acc = len acc') by (unfold len; f_equal; clear - HA; induction HA; cbn [length]; auto). rewrite LA.
  destruct (N.ltb_spec (len (e_path y)) (len (area_path (aoi_area aoi)))) as [LP|LP].
  { rewrite !orb_true_r. exact SKIP. }
  rewrite !orb_false_r. destruct (_ || _); [exact SKIP|].
  assert (SL : slice (e_path y) 0 (len (area_path (aoi_area aoi))) = Ok (firstn (length (area_path (aoi_area aoi))) (e_path y))).
  { unfold slice. destruct (N.leb_spec (len (area_path (aoi_area aoi))) (len (e_path y))); [|lia]. destruct (N.leb_spec 0 (len (area_path (aoi_area aoi)))) as [_|X]; [|lia].
    cbn [andb]. change (N.to_nat 0) with 0%nat. rewrite N.sub_0_r. unfold len. rewrite Nat2N.id. reflexivity. }
  rewrite SL. cbn [bind]. destruct (negb _); [exact SKIP|].
  destruct (_ || _); [exact STOP|]. rewrite (eval_decode C U HU y Hy). cbn [bind v_length v_digest].
  destruct (_ && _); [exact STOP|].
  edestruct (IH (tl fs) (Some (k_array s)) m1 (add64 plen (e_length y))) as (ls & es & m' & A & B & D & F);
    [exact HF'| |exists ls, es, m'; split; [exact A|]; split; [exact B|]; split; [exact D|]].
  { apply Forall2_app; [exact HA|]. constructor; [|constructor]. repeat split; reflexivity. }
  intros F1 HB EM. destruct (OLD F1 HB EM) as [O1 O2]. apply F; [apply (proj2 (always_hd fs F1))| |].
  - apply Forall_app. split; [exact O1|]. constructor; [|constructor]. cbn [l_array]. apply (GO F1).
  - rewrite map_app, O2. cbn [map]. unfold seen. cbn [l_array l_sub l_path l_digest l_time l_length]. rewrite ES, EP. reflexivity.
Qed.

(** The listing of an area: timestamps, digests and payload lengths are those of the rest of the model with any choices; if every move
    allocates, so are the entries. *)
Theorem C75_list C U ops st aoi fs : survived C U ops st ->
  exists l l', ListValues extra C aoi fs st = Ok l /\ fst (ListWithAOI C aoi st) = Ok l'
    /\ map (fun x => (e_time x, e_digest x, e_length x)) l = map (fun x => (e_time x, e_digest x, e_length x)) l'.
Proof.
  intros (PP & HU & HO & HL). destruct (lives_Rep C U PP HU ops st HL HO) as (xs & R).
  destruct (Rep_list C U PP xs st R) as (ys & EK & R' & _).
  destruct (list_values_spec C U PP HU aoi ys fs None [] 0 [] [] (rep_ok _ _ _ _ R') (Forall2_nil _)) as (ls & es & m & A & B & D & _).
  unfold ListValues, ListWithAOI. rewrite EK, A. cbn [bind fst]. exists (map (seen C m) ls), es. split; [reflexivity|]. split; [exact B|].
  rewrite map_map. unfold seen. cbn [e_time e_digest e_length]. clear A B. induction D as [|x y ls es (E1 & E2 & E3) D IH]; [reflexivity|].
  cbn [map]. rewrite IH, E1, E2, E3. reflexivity.
Qed.

Theorem C75_list_partial C U ops st aoi fs : survived C U ops st -> always_fresh fs ->
  ListValues extra C aoi fs st = fst (ListWithAOI C aoi st).
Proof.
  intros (PP & HU & HO & HL) F. destruct (lives_Rep C U PP HU ops st HL HO) as (xs & R).
  destruct (Rep_list C U PP xs st R) as (ys & EK & R' & _).
  destruct (list_values_spec C U PP HU aoi ys fs None [] 0 [] [] (rep_ok _ _ _ _ R') (Forall2_nil _)) as (ls & es & m & A & B & _ & D).
  unfold ListValues, ListWithAOI. rewrite EK, A. cbn [bind fst]. rewrite (D F (Forall_nil _) eq_refl). symmetry. exact B.
Qed.
End Moves.

(** ** A small store *)

(** Two entries with keys of the same length. *)
Definition pair_ops : list op := [demo_set [[97]] [1] 5; demo_set [[98]] [2] 6].
Definition pair_store : state := after_ops pair_ops.
(** Append allocates what it needs; the first move allocates, the others use the array. *)
Definition exact (n : nat) : nat := 0%nat.
Definition reuse : list bool := [true; false; false].
(** The entry with another path. *)
Definition set_path (p : path) (e : entry) : entry :=
  Entry (e_namespace e) (e_subspace e) (e_digest e) p (e_time e) (e_length e).
Definition whole : area_of_interest := AOI (Area [115] [] (Range 0 100 false) false) 0 0.

Lemma pair_reached : reached demo small pair_ops pair_store.
Proof. split; [apply demo_history; vm_compute; reflexivity|vm_compute; reflexivity]. Qed.
Lemma pair_survived : survived demo small pair_ops pair_store.
Proof.
  destruct pair_reached as [(PP & HU & HO & _) E]. split; [exact PP|]. split; [exact HU|]. split; [exact HO|].
  apply run_lives; auto.
Qed.

Example C75_instance :
  survived demo small pair_ops pair_store /\ NoDup (mkeys (kv pair_store)) /\ always_fresh [true; true]
  /\ ListAllValues exact [true; true] (kv pair_store) = Ok (map (fun x => (fst x, [], snd x)) (kv pair_store))
  /\ length (kv pair_store) = 2%nat /\ Clear exact reuse (kv pair_store) = []
  /\ reopen_iter exact demo [true; true] pair_store = reopen demo pair_store
  /\ (exists l, ListValues exact demo whole [true; true] pair_store = Ok l /\ length l = 2%nat).
Proof.
  split; [exact pair_survived|]. split; [vm_compute; repeat (constructor; [intros H; repeat (destruct H as [H|H]; [discriminate|]); exact H|]); constructor|].
  split; [repeat constructor|]. split; [vm_compute; reflexivity|]. split; [vm_compute; reflexivity|]. split; [vm_compute; reflexivity|].
  split; [vm_compute; reflexivity|]. eexists. split; vm_compute; reflexivity.
Qed.

(** The hypotheses of C75_reused and C75_reopen_reused. *)
Example C75_instance_reused :
  reuses (tl reuse) (length (kv pair_store)) /\ (forall k, In k (mkeys (kv pair_store)) -> length k = 12%nat)
  /\ live demo pair_store (demo_e [[97]] [1] 5) /\ live demo pair_store (demo_e [[98]] [2] 6).
Proof.
  split; [exists []; vm_compute; reflexivity|]. split; [intros k Hk; vm_compute in Hk; repeat destruct Hk as [<-|Hk]; try reflexivity; destruct Hk|].
  split; rewrite <- liveb_spec; vm_compute; reflexivity.
Qed.

(** A listing of all keys has one key twice and not the other. *)
Theorem C75_keys_refuted :
  exists fs l, ListAllValues exact fs (kv pair_store) = Ok l
    /\ map (fun x => fst (fst x)) l = [ekey demo (demo_e [[98]] [2] 6); ekey demo (demo_e [[98]] [2] 6)]
    /\ mkeys (kv pair_store) = [ekey demo (demo_e [[97]] [1] 5); ekey demo (demo_e [[98]] [2] 6)].
Proof. exists reuse. eexists. split; [vm_compute; reflexivity|]. split; vm_compute; reflexivity. Qed.

(** A store that is opened again does not find a live entry, and accepts an older one in its place: both are live then. *)
Theorem C75_reopen_refuted :
  exists fs ops st st', reached demo small ops st /\ reopen_iter exact demo fs st = Ok st'
    /\ live demo st (demo_e [[97]] [1] 5) /\ live demo st' (demo_e [[97]] [1] 5)
    /\ fst (driver_Get demo [115] [[97]] st') = Ok None
    /\ exists st'', step demo (demo_set [[97]] [3] 4) st' = (Ok [], st'')
         /\ live demo st'' (demo_e [[97]] [3] 4) /\ live demo st'' (demo_e [[97]] [1] 5).
Proof.
  exists reuse, pair_ops, pair_store. eexists. split; [exact pair_reached|]. split; [vm_compute; reflexivity|].
  split; [rewrite <- liveb_spec; vm_compute; reflexivity|]. split; [rewrite <- liveb_spec; vm_compute; reflexivity|].
  split; [vm_compute; reflexivity|]. eexists. split; [vm_compute; reflexivity|].
  split; rewrite <- liveb_spec; vm_compute; reflexivity.
Qed.

(** The listing of an area has the path of the oldest entry twice, with the digests of two entries. *)
Theorem C75_list_refuted :
  exists fs, ListValues exact demo whole fs pair_store = Ok [set_path [[97]] (demo_e [[98]] [2] 6); demo_e [[97]] [1] 5]
    /\ fst (ListWithAOI demo whole pair_store) = Ok [demo_e [[98]] [2] 6; demo_e [[97]] [1] 5].
Proof. exists reuse. split; vm_compute; reflexivity. Qed.

Print Assumptions C75_clear.
Print Assumptions C75_values.
Print Assumptions C75_keys_partial.
Print Assumptions C75_reused.
Print Assumptions C75_reopen_partial.
Print Assumptions C75_reopen_reused.
Print Assumptions C75_list.
Print Assumptions C75_list_partial.
Print Assumptions C75_keys_refuted.
Print Assumptions C75_reopen_refuted.
Print Assumptions C75_list_refuted.
