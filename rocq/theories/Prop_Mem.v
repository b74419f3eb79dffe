(** C83: what the successor functions, PrefixedBy, AreaTo3dRange and EncodeEntry write into the memory of their arguments. *)
From Verif Require Import Base M_Order M_Encoding M_Paths M_Successor M_Ranges M_Areas M_Entry M_Map M_Store M_Cap M_Pebble M_Mem
  P_Successor P_Mono Prop_Pebble P_Mem.
Local Open Scope N_scope.

(** Whatever lies in memory: if no component of the path starts right behind another, SuccessorPath returns what it returns
    on byte strings (M_Successor.v) and its caller's path reads as before. Of the rest of the memory at most one byte
    changes: the one behind a component, which becomes zero. *)
Theorem C83_successor_path extra pp h p : fitsp h p -> apart p ->
  let r := fst (SuccessorPath_mem extra pp h p) in let h' := snd (SuccessorPath_mem extra pp h p) in
  resmap (option_map (rdp h')) r = SuccessorPath (rdp h p) pp
  /\ rdp h' p = rdp h p
  /\ one_zero p h h'.
Proof.
  intros F A. destruct (SuccessorPath_rd extra pp h p F A) as (R & Z & _). split; [exact R|]. split; [|exact Z].
  apply (one_zero_path p h _ p Z F A).
Qed.
Print Assumptions C83_successor_path.

(** The path [1] [2;3] of two components in one array, with a nine between them and a byte behind: the nine stays, the
    byte behind becomes zero. *)
Example C83_instance :
  let h := [[1; 9; 2; 3; 8]] in let p := [Sl 0 0 1 5; Sl 0 2 2 3] in let pp := PathParams 64 2 3 10 in
  fitsp h p /\ apart p
  /\ fst (SuccessorPath_mem (fun _ => 0%nat) pp h p) = Ok (Some [Sl 0 0 1 5; Sl 0 2 3 3])
  /\ snd (SuccessorPath_mem (fun _ => 0%nat) pp h p) = [[1; 9; 2; 3; 0]].
Proof.
  cbn zeta. split; [|split; [|split; reflexivity]].
  - repeat constructor; cbn; lia.
  - intros c d [<-|[<-|[]]] [<-|[<-|[]]] [_ [_ H]]; cbn in H; lia.
Qed.
(** Without the hypothesis the caller's path can change: [1] [255;255] side by side. *)
Example C83_apart_needed :
  let h := [[1; 255; 255]] in let p := [Sl 0 0 1 3; Sl 0 1 2 2] in let pp := PathParams 64 2 2 10 in
  ~ apart p /\ rdp h p = [[1]; [255; 255]] /\ rdp (snd (SuccessorPath_mem (fun _ => 0%nat) pp h p)) p = [[1]; [0; 255]].
Proof.
  cbn zeta. split; [|split; reflexivity]. intros A. apply (A (Sl 0 0 1 3) (Sl 0 1 2 2)); [left; reflexivity|right; left; reflexivity|].
  unfold behind, has_byte. cbn. lia.
Qed.

(** If moreover no byte belongs to two components, SuccessorPrefix returns what it returns on byte strings; its caller's
    path reads as M_Successor says, and of the rest of the memory at most one byte changes: the one behind a component,
    which becomes zero, or one inside a component, which goes up by one. *)
Theorem C83_successor_prefix extra pp h p : fitsp h p -> apart p -> disjoint p ->
  let r := fst (SuccessorPrefix_mem extra pp h p) in let h' := snd (SuccessorPrefix_mem extra pp h p) in
  resmap (option_map (rdp h')) r = SuccessorPrefix (rdp h p) pp
  /\ rdp h' p = SuccessorPrefix_caller (rdp h p) pp
  /\ one_byte p h h'.
Proof.
  intros F A D. pose proof (SuccessorPrefix_rd extra pp h p F A D) as K. destruct (SuccessorPrefix_mem extra pp h p) as [r h'].
  destruct K as (K1 & K2 & K3 & _). auto.
Qed.
Print Assumptions C83_successor_prefix.

Example C83_instance_prefix :
  let h := [[1; 9; 2; 255; 8]] in let p := [Sl 0 0 1 5; Sl 0 2 2 3] in let pp := PathParams 64 2 2 10 in
  fitsp h p /\ apart p /\ disjoint p
  /\ fst (SuccessorPrefix_mem (fun _ => 0%nat) pp h p) = Ok (Some [Sl 0 0 1 5; Sl 0 2 1 3])
  /\ snd (SuccessorPrefix_mem (fun _ => 0%nat) pp h p) = [[1; 9; 3; 255; 8]].
Proof.
  cbn zeta. split; [|split; [|split; [|split; reflexivity]]].
  - repeat constructor; cbn; lia.
  - intros c d [<-|[<-|[]]] [<-|[<-|[]]] [_ [_ H]]; cbn in H; lia.
  - intros i j H (b & x & [_ H1] & [_ H2]). cbn [length] in H. destruct i as [|[|i]], j as [|[|j]]; cbn in *; lia.
Qed.

(** PrefixedBy takes the successor of its path and then the successor of its prefix, both over the same memory. When the
    query is made, the start of its range reads as [reshare] in the model of the store (M_Store.v), the end and the
    caller's path as there too. *)
Theorem C83_prefixed_by extra C h p a e h2 : fitsp h p -> apart p -> disjoint p -> wf_path (rdp h p) ->
  prefixed_range_mem extra (c_pp C) h p = (Ok (a, e), h2) ->
  let after := SuccessorPrefix_caller (rdp h p) (c_pp C) in
  SuccessorPrefix (rdp h p) (c_pp C) = Ok (option_map (rdp h2) e)
  /\ rdp h2 p = after
  /\ exists q, SuccessorPath (rdp h p) (c_pp C) = Ok q /\ option_map (rdp h2) a = option_map (reshare C (rdp h p) after) q.
Proof.
  intros F A D W H. destruct (prefixed_range_rd extra C h p a e h2 F A D W H) as (K1 & K2 & K3). cbn zeta. auto.
Qed.
Print Assumptions C83_prefixed_by.

(** It ends as the two functions on byte strings do: in a range if both give a result, and otherwise in the same way as the
    first of them that does not. *)
Theorem C83_prefixed_by_ends extra pp h p : fitsp h p -> apart p -> disjoint p ->
  resmap (fun _ => tt) (fst (prefixed_range_mem extra pp h p))
  = do _ <- SuccessorPath (rdp h p) pp; do _ <- SuccessorPrefix (rdp h p) pp; Ok tt.
Proof.
  intros F A D. unfold prefixed_range_mem. destruct (SuccessorPath_rd extra pp h p F A) as (R & Z & _).
  destruct (SuccessorPath_mem extra pp h p) as [r h1]. cbn [fst snd] in R, Z. unfold rdr in R. rewrite <- R.
  destruct r as [a| | | |]; cbn [resmap bind fst]; try reflexivity.
  destruct (one_zero_path p h h1 p Z F A) as [Fp1 Rp1].
  pose proof (SuccessorPrefix_rd extra pp h1 p Fp1 A D) as K. destruct (SuccessorPrefix_mem extra pp h1 p) as [r2 h2].
  destruct K as (K1 & _). rewrite Rp1 in K1. unfold rdr in K1. rewrite <- K1. destruct r2; reflexivity.
Qed.
Print Assumptions C83_prefixed_by_ends.

Example C83_instance_prefixed_ends :
  let h := [[1; 9; 2; 255; 8]] in let p := [Sl 0 0 1 5; Sl 0 2 2 3] in let pp := PathParams 64 2 3 3 in
  fst (prefixed_range_mem (fun _ => 0%nat) pp h p) = Fatal /\ SuccessorPath (rdp h p) pp = Fatal.
Proof. split; vm_compute; reflexivity. Qed.

(** The path [1] [2;255] of maximal component length with room for one component more: the start of the range was
    [1] [2;255] [] and reads [1] [3;255] [] when the query is made. *)
Example C83_instance_prefixed :
  let h := [[1; 9; 2; 255; 8]] in let p := [Sl 0 0 1 5; Sl 0 2 2 3] in let pp := PathParams 64 3 2 10 in
  exists a e h2, prefixed_range_mem (fun _ => 0%nat) pp h p = (Ok (a, e), h2)
    /\ SuccessorPath (rdp h p) pp = Ok (Some [[1]; [2; 255]; []])
    /\ option_map (rdp h2) a = Some [[1]; [3; 255]; []] /\ option_map (rdp h2) e = Some [[1]; [3]].
Proof. do 3 eexists. split; [reflexivity|]. repeat split. Qed.

(** A node loaded at start-up has the slices that DecodeKey cuts out of the key: any key that decodes, with anything behind
    it. Asking for the successor of its path leaves the path as it is; the subspace then reads as [clobber] says in the
    model of the store. *)
Theorem C83_loaded extra C h b k spare t cs sub fp :
  (b < length h)%nat -> nth b h [] = k ++ spare -> DecodeKey_slices k spare (c_pp C) = Ok (t, cs, sub) ->
  cs <> [] \/ 0 < max_component_count (c_pp C) ->
  let p := map (cut_of b (length (k ++ spare))) cs in let s := cut_of b (length (k ++ spare)) sub in
  let r := fst (SuccessorPath_mem extra (c_pp C) h p) in let h' := snd (SuccessorPath_mem extra (c_pp C) h p) in
  DecodeKey_cap k spare (c_pp C) = Ok (Position (rd h s) (rdp h p) t)
  /\ resmap (option_map (rdp h')) r = SuccessorPath (rdp h p) (c_pp C)
  /\ rdp h' p = rdp h p
  /\ rd h' s = clobber C (Node (rd h s) (rdp h p) t fp true).
Proof.
  intros Hb Ha Hd NE. cbn zeta. set (p := map _ cs). set (s := cut_of b _ sub).
  destruct (key_fits h b k spare (c_pp C) t cs sub Hb Ha Hd) as [Fp Fs]. fold p in Fp. fold s in Fs.
  pose proof (key_apart h b k spare (c_pp C) t cs sub Hb Hd) as A. fold p in A.
  split.
  { assert (RC : forall c, rd h (cut_of b (length (k ++ spare)) c) = cut (k ++ spare) c).
    { intros c. unfold rd, cut, cut_of. cbn [s_buf s_off s_len]. unfold bytes in *. rewrite Ha. reflexivity. }
    rewrite (DecodeKey_slices_spec extra), Hd. cbn [bind fst snd]. unfold s. rewrite RC. unfold p, rdp. rewrite map_map.
    rewrite (map_ext _ _ RC). reflexivity. }
  destruct (C83_successor_path extra (c_pp C) h p Fp A) as (R & P & _). split; [exact R|]. split; [exact P|].
  destruct (list_eq_dec (fun x y : N * N => ltac:(decide equality; apply N.eq_dec) : {x = y} + {x <> y}) cs []) as [E|NE'].
  - destruct NE as [NE|MC]; [contradiction|]. subst cs. unfold p, s, SuccessorPath_mem, clobber. cbn [map rdp n_shared n_path n_sub andb].
    change (toT (c_pp C) (len (@nil bytes))) with (toT (c_pp C) 0).
    assert (T : (toT (c_pp C) 0 <? max_component_count (c_pp C)) = true).
    { apply N.ltb_lt. unfold toT. try rewrite N.mod_0_l by (apply N.pow_nonzero; discriminate). exact MC. }
    rewrite T. cbn [negb andb]. pose proof (new_old extra h [] s Fs) as [_ O]. destruct (new extra h []). exact O.
  - destruct (key_clobber h b k spare (c_pp C) t cs sub Hb Ha Hd extra C fp eq_refl NE') as [_ K]. exact K.
Qed.
Print Assumptions C83_loaded.

(** The key of timestamp 5, path [7] and subspace [3;4] where paths have at most one component: asking for the successor
    of the path makes the subspace [0;4]. *)
Example C83_instance_loaded :
  let C := Cfg (PathParams 64 1 9 9) [] (fun b => b) (fun b => b) in let k := [0; 0; 0; 0; 0; 0; 0; 5; 1; 1; 7; 3; 4] in
  DecodeKey_slices k [] (c_pp C) = Ok (5, [(10, 1)], (11, 2))
  /\ rd (snd (SuccessorPath_mem (fun _ => 0%nat) (c_pp C) [k] [cut_of 0 13 (10, 1)])) (cut_of 0 13 (11, 2)) = [0; 4].
Proof. split; vm_compute; reflexivity. Qed.

(** AreaTo3dRange of an area of one subspace returns what it returns on byte strings, if the subspace has no byte in common
    with the path and does not contain the byte behind a component. *)
Theorem C83_area extra pp minimal h a :
  fits h (am_sub a) -> fitsp h (am_path a) -> apart (am_path a) -> disjoint (am_path a) ->
  (forall c, In c (am_path a) -> ~ behind c (am_sub a) /\ ~ share c (am_sub a)) ->
  let r := fst (AreaTo3dRange_mem extra pp h a) in let h' := snd (AreaTo3dRange_mem extra pp h a) in
  resmap (seen_range h') r = AreaTo3dRange minimal SuccessorSubspaceId pp (seen_area h a).
Proof.
  intros Fs Fp A D S. pose proof (AreaTo3dRange_rd extra pp minimal h a Fs Fp A D S) as K.
  destruct (AreaTo3dRange_mem extra pp h a). exact K.
Qed.
Print Assumptions C83_area.

Example C83_instance_area :
  let h := [[1; 9; 2; 255; 8]; [3; 4]] in let a := AreaMem (Sl 1 0 2 2) [Sl 0 0 1 5; Sl 0 2 2 3] (Range 0 0 true) in let pp := PathParams 64 2 2 10 in
  (forall c, In c (am_path a) -> ~ behind c (am_sub a) /\ ~ share c (am_sub a))
  /\ resmap (seen_range (snd (AreaTo3dRange_mem (fun _ => 0%nat) pp h a))) (fst (AreaTo3dRange_mem (fun _ => 0%nat) pp h a))
     = Ok (Range3d (Range [3; 4] [3; 4; 0] false) (Range [[1]; [3; 255]] [[1]; [3]] false) (Range 0 0 true)).
Proof.
  cbn zeta. split; [|reflexivity]. intros c [<-|[<-|[]]]; split; try (intros [_ [H _]]; cbn in H; lia);
    intros (b & x & [H1 _] & [H2 _]); cbn in *; lia.
Qed.

(** An area whose path and subspace are those of a key that was decoded has the subspace behind the last component: the
    range starts at another subspace. *)
Theorem C83_area_refuted :
  exists extra pp k t cs sub times,
    DecodeKey_slices k [] pp = Ok (t, cs, sub)
    /\ let a := AreaMem (cut_of 0 (length k) sub) (map (cut_of 0 (length k)) cs) times in
       let r := fst (AreaTo3dRange_mem extra pp [k] a) in let h' := snd (AreaTo3dRange_mem extra pp [k] a) in
       forall minimal, resmap (seen_range h') r <> AreaTo3dRange minimal SuccessorSubspaceId pp (seen_area [k] a).
Proof.
  exists (fun _ => 0%nat), (PathParams 64 9 9 9), [0; 0; 0; 0; 0; 0; 0; 5; 1; 1; 7; 3; 4], 5, [(10, 1)], (11, 2), (Range 0 0 true).
  split; [vm_compute; reflexivity|]. cbn zeta. intros minimal. vm_compute. discriminate.
Qed.
Print Assumptions C83_area_refuted.

(** EncodeEntry returns the bytes it returns on byte strings, in an array of its own, and nothing that was there changes, if
    the slice of the namespace has no capacity beyond its end. *)
Theorem C83_encode extra pp ds h e :
  fits h (em_ns e) -> fits h (em_sub e) -> fitsp h (em_path e) -> s_cap (em_ns e) = s_len (em_ns e) ->
  let d := fst (EncodeEntry_mem extra pp (enc ds) h e) in let h' := snd (EncodeEntry_mem extra pp (enc ds) h e) in
  rd h' d = EncodeEntry shipped_id_scheme shipped_id_scheme ds pp (seen_entry h e)
  /\ (forall s, fits h s -> rd h' s = rd h s)
  /\ (forall s b i, fits h s -> has_byte s b i -> ~ has_byte d b i).
Proof.
  intros Fn Fs Fp Cap. destruct (EncodeEntry_rd extra pp ds h e Fn Fs Fp Cap) as (R & K & _ & B). cbn zeta.
  split; [exact R|]. split; [intros s Hs; apply K; exact Hs|].
  intros s b i (Hs & _) [H1 _] [H2 _]. lia.
Qed.
Print Assumptions C83_encode.

Example C83_instance_encode :
  let h := [[1; 2]; [3; 9]; [7]] in let e := EntryMem (Sl 0 1 1 1) (Sl 1 0 1 2) [6] [Sl 2 0 1 1] 5 4 in let pp := PathParams 64 9 9 9 in
  fits h (em_ns e) /\ fits h (em_sub e) /\ fitsp h (em_path e)
  /\ rd (snd (EncodeEntry_mem (fun n => n) pp (fun d => d) h e)) (fst (EncodeEntry_mem (fun n => n) pp (fun d => d) h e))
     = [2; 3; 1; 1; 7; 0; 0; 0; 0; 0; 0; 0; 5; 0; 0; 0; 0; 0; 0; 0; 4; 6]
  /\ firstn 3 (snd (EncodeEntry_mem (fun n => n) pp (fun d => d) h e)) = h.
Proof.
  cbn zeta. split; [unfold fits; cbn; lia|]. split; [unfold fits; cbn; lia|]. split; [repeat constructor; cbn; lia|].
  split; vm_compute; reflexivity.
Qed.

(** With capacity behind the namespace the encodings of two entries of one namespace share their bytes: the second call
    changes what the first returned. *)
Theorem C83_encode_refuted :
  exists extra pp h e1 e2,
    fits h (em_ns e1) /\ fits h (em_sub e1) /\ em_ns e2 = em_ns e1 /\ em_sub e2 = em_sub e1 /\ em_path e1 = [] /\ em_path e2 = []
    /\ (forall s, In s [em_sub e1; em_ns e1] -> ~ behind (em_ns e1) s)
    /\ let d := fst (EncodeEntry_mem extra pp (fun d => d) h e1) in let h1 := snd (EncodeEntry_mem extra pp (fun d => d) h e1) in
       let h2 := snd (EncodeEntry_mem extra pp (fun d => d) h1 e2) in
       rd h2 d <> rd h1 d.
Proof.
  exists (fun n => n), (PathParams 64 9 9 9), [[1] ++ repeat 0 40; [3]], (EntryMem (Sl 0 0 1 41) (Sl 1 0 1 1) [6] [] 5 4), (EntryMem (Sl 0 0 1 41) (Sl 1 0 1 1) [6] [] 8 4).
  split; [unfold fits; cbn; lia|]. split; [unfold fits; cbn; lia|]. do 4 (split; [reflexivity|]). split.
  - intros s [<-|[<-|[]]] [_ [H1 H2]]; cbn in *; lia.
  - vm_compute. discriminate.
Qed.
Print Assumptions C83_encode_refuted.
