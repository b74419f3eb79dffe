(** C23, continued: the decoders are modelled (M_Stream.v) over a reader that is told by a schedule how many bytes have arrived at each
    call. Here: whatever the goroutine of GrowingBytes and the reader do (M_Growing.v), the answers are those of that sequential
    reader under some schedule, and every sequential run is one of theirs. *)
From Verif Require Import Base M_Growing P_Growing.
From Verif Require M_Stream.
Local Open Scope N_scope.

(** ** What a reader does and is told *)
Inductive event := Asked (n : N) (b : bytes) | Pruned (k : N).

(** In the machine with the goroutine: the answers it gives and the prunings. *)
Definition emits (l : label) (s s' : gstate) : list event :=
  match l with
  | LPrune k => [Pruned k]
  | _ => map (fun x => Asked (fst (fst x)) (snd x)) (skipn (length (g_returned s)) (g_returned s'))
  end.
Fixpoint trace (ls : list label) (s : gstate) : list event :=
  match ls with
  | [] => []
  | l :: r => match gstep l s with Some s' => emits l s s' ++ trace r s' | None => [] end
  end.
(** In the sequential model. *)
Fixpoint goes (es : list event) (st : M_Stream.stream) : option M_Stream.stream :=
  match es with
  | [] => Some st
  | Asked n b :: r =>
      match M_Stream.NextAbsolute n st with
      | Ok (b', st') => if list_eq_dec N.eq_dec b' b then goes r st' else None
      | _ => None
      end
  | Pruned k :: r => goes r (M_Stream.Prune k st)
  end.
(** Nothing is pruned that the last answer did not contain. *)
Fixpoint modest (have : N) (es : list event) : Prop :=
  match es with [] => True | Asked _ b :: r => modest (len b) r | Pruned k :: r => k <= have /\ modest (have - k) r end.

Lemma goes_app a b st : goes (a ++ b) st = match goes a st with Some st' => goes b st' | None => None end.
Proof.
  revert st; induction a as [|[n x|k] a IH]; intros st; cbn [goes app]; [reflexivity| |apply IH].
  destruct (M_Stream.NextAbsolute n st) as [[b' st']| | | |]; try reflexivity. destruct (list_eq_dec _ _ _); [apply IH|reflexivity].
Qed.
Definition pending (c : reader_pc) : option N :=
  match c with CIdle => None | CChecked n | CLocked n | CToken n _ | CWait n _ | CWaitOld n _ => Some n end.

Lemma app_prefix {A} (a r b l : list A) : a ++ r = b ++ l -> (length a <= length b)%nat -> exists x, b = a ++ x /\ r = x ++ l.
Proof.
  revert b; induction a as [|c a IH]; intros b E L; [exists b; auto|]. destruct b as [|d b]; [cbn in L; lia|]. injection E as -> E.
  destruct (IH b E ltac:(cbn in L; lia)) as (x & -> & ->). exists x; auto.
Qed.

(** One step of the sequential reader that answers [a ++ x]. *)
Lemma answer n a x (rest : bytes) ys : n <= len (a ++ x) ->
  M_Stream.NextAbsolute n (M_Stream.Stream a (x ++ rest) ((length x, 0%nat) :: ys)) = Ok (a ++ x, M_Stream.Stream (a ++ x) rest ys).
Proof.
  intros L. unfold M_Stream.NextAbsolute. cbn [M_Stream.g_sched M_Stream.g_array M_Stream.g_future tl]. unfold M_Stream.arrive.
  cbn [M_Stream.g_sched M_Stream.g_array M_Stream.g_future].
  rewrite firstn_app, firstn_all, Nat.sub_diag, firstn_O, app_nil_r, skipn_app, skipn_all, Nat.sub_diag. cbn [skipn app].
  unfold bytes in *. destruct (N.leb_spec n (len (a ++ x))); [reflexivity|lia].
Qed.

(** The sequential reader that has seen [es] is behind, never ahead. *)
Definition behind (es : list event) (s : gstate) (have : bytes) : Prop :=
  exists sched rest,
    (forall tail ys, goes es (M_Stream.Stream [] (g_sent s ++ tail) (sched ++ ys)) = Some (M_Stream.Stream have (rest ++ tail) ys))
    /\ g_sent s = g_gone s ++ have ++ rest /\ (length have <= length (g_array s))%nat
    /\ match pending (g_c s) with Some n => len have <= n | None => True end.

Lemma behind_asked es s s' have n b t : behind es s have -> ginv s -> g_sent s' = g_sent s -> g_gone s' = g_gone s ->
  g_array s = b ++ t -> g_array s' = g_array s -> pending (g_c s') = None -> n <= len b -> (length have <= length b)%nat ->
  behind (es ++ [Asked n b]) s' b.
Proof.
  intros (sched & rest & HG & HS & HL & _) HI ES EG EA EA' EP HN HB.
  pose proof (gi_stream s HI) as GS. rewrite HS, EA in GS. apply app_inv_head in GS. rewrite <- !app_assoc in GS.
  destruct (app_prefix _ _ _ _ GS HB) as (x & -> & ->).
  exists (sched ++ [(length x, 0%nat)]), (t ++ in_hand (g_p s) ++ concat (g_in s)). rewrite ES, EG, EA', EP. split; [|split; [|split; [|exact I]]].
  - intros tail ys. rewrite <- app_assoc. cbn [app]. rewrite goes_app, HG. cbn [goes]. rewrite <- !app_assoc. rewrite answer by exact HN.
    destruct (list_eq_dec _ _ _); [|contradiction]. reflexivity.
  - rewrite HS, <- !app_assoc. reflexivity.
  - rewrite EA, (app_length (have ++ x) t). lia.
Qed.
Lemma behind_same es s s' have : behind es s have -> g_sent s' = g_sent s -> g_gone s' = g_gone s -> (length (g_array s) <= length (g_array s'))%nat ->
  (forall n, pending (g_c s') = Some n -> pending (g_c s) = Some n \/ len have <= n) -> behind es s' have.
Proof.
  intros (sched & rest & HG & HS & HL & HP) ES EG EA EP. exists sched, rest. rewrite ES, EG. split; [exact HG|]. split; [exact HS|]. split; [lia|].
  destruct (pending (g_c s')) as [n|]; [|exact I]. destruct (EP n eq_refl) as [E|E]; [rewrite E in HP; exact HP|exact E].
Qed.

Lemma behind_step l s s' es have : behind es s have -> ginv s -> gstep l s = Some s' -> modest (len have) (emits l s s') ->
  exists have', behind (es ++ emits l s s') s' have' /\ forall r, modest (len have) (emits l s s' ++ r) -> modest (len have') r.
Proof.
  intros HB HI HG HM. pose proof HB as (sched & rest & HR & HS & HL & HP).
  assert (NONE : forall s'', g_returned s'' = g_returned s -> map (fun x => Asked (fst (fst x)) (snd x)) (skipn (length (g_returned s)) (g_returned s'')) = []).
  { intros s'' ->. rewrite skipn_all. reflexivity. }
  assert (ONE : forall s'' n g b, g_returned s'' = g_returned s ++ [(n, g, b)] ->
            map (fun x => Asked (fst (fst x)) (snd x)) (skipn (length (g_returned s)) (g_returned s'')) = [Asked n b]).
  { intros s'' n g b ->. rewrite skipn_app, skipn_all, Nat.sub_diag. reflexivity. }
  assert (SAME : g_returned s' = g_returned s -> (forall k, l <> LPrune k) -> g_sent s' = g_sent s -> g_gone s' = g_gone s ->
            (length (g_array s) <= length (g_array s'))%nat -> (forall n, pending (g_c s') = Some n -> pending (g_c s) = Some n \/ len have <= n) ->
            exists have', behind (es ++ emits l s s') s' have' /\ forall r, modest (len have) (emits l s s' ++ r) -> modest (len have') r).
  { intros E1 E2 E3 E4 E5 E6. exists have. assert (EE : emits l s s' = []) by (destruct l; cbn [emits]; try (apply NONE; exact E1); exfalso; eapply E2; reflexivity).
    rewrite EE, app_nil_r. split; [eapply behind_same; eauto|auto]. }
  assert (TOLD : forall n b t, g_returned s' = g_returned s ++ [(n, g_gone s, b)] -> (forall k, l <> LPrune k) -> g_sent s' = g_sent s -> g_gone s' = g_gone s ->
            g_array s = b ++ t -> g_array s' = g_array s -> pending (g_c s') = None -> n <= len b -> (length have <= length b)%nat ->
            exists have', behind (es ++ emits l s s') s' have' /\ forall r, modest (len have) (emits l s s' ++ r) -> modest (len have') r).
  { intros n b t E1 E2 E3 E4 E5 E6 E7 E8 E9. exists b.
    assert (EE : emits l s s' = [Asked n b]) by (destruct l; cbn [emits]; try (eapply ONE; exact E1); exfalso; eapply E2; reflexivity).
    rewrite EE. split; [eapply behind_asked; eauto|]. intros r M. exact M. }
  destruct l as [ch| | | |n|k|]; cbn [gstep] in HG.
  - injection HG as <-. exists have. cbn [emits g_returned]. rewrite skipn_all. cbn [map]. rewrite app_nil_r. split; [|auto].
    exists sched, (rest ++ ch). cbn [g_sent g_gone g_array g_c]. split; [|split; [|split; assumption]].
    + intros tail ys. rewrite <- !app_assoc. apply HR.
    + rewrite HS, <- !app_assoc. reflexivity.
  - destruct (g_p s); try discriminate. destruct (g_token s); [|discriminate]. injection HG as <-. apply SAME; cbn; auto; discriminate.
  - destruct (g_p s); try discriminate. destruct (g_in s); [discriminate|]. injection HG as <-. apply SAME; cbn; auto; discriminate.
  - destruct (g_p s) as [|c| | | |]; try discriminate.
    + destruct (g_held s); [discriminate|]. injection HG as <-. apply SAME; cbn; auto; try discriminate. rewrite app_length. lia.
    + destruct (g_deferred s) as [[id m]|]; injection HG as <-; apply SAME; cbn; auto; discriminate.
    + destruct (g_deferred s) as [[id m]|]; [|discriminate]. injection HG as <-. apply SAME; cbn; auto; discriminate.
    + injection HG as <-. apply SAME; cbn; auto; discriminate.
    + destruct (g_token s); [discriminate|]. injection HG as <-. apply SAME; cbn; auto; discriminate.
  - destruct (g_c s) eqn:EC; try discriminate. destruct (N.leb_spec n (len (g_array s))).
    + injection HG as <-. apply (TOLD n (g_array s) []); cbn; auto; try discriminate. rewrite app_nil_r. reflexivity.
    + injection HG as <-. apply SAME; cbn; auto; try discriminate. intros m E. injection E as <-. right. unfold len in *. lia.
  - destruct (g_c s) eqn:EC; try discriminate. destruct (g_held s) eqn:EH; [discriminate|]. injection HG as <-.
    cbn [emits modest] in HM |- *. destruct HM as [HK _].
    exists (skipn (N.to_nat k) have).
    assert (LK : (N.to_nat k <= length have)%nat) by (unfold len in HK; lia).
    assert (LS : len (skipn (N.to_nat k) have) = len have - k) by (unfold len in *; rewrite skipn_length; lia).
    assert (CUT : (if len (g_array s) <=? k then length (g_array s) else N.to_nat k) = N.to_nat k).
    { destruct (N.leb_spec (len (g_array s)) k); [|reflexivity]. unfold len in *. lia. }
    rewrite CUT. split.
    + exists sched, rest. cbn [g_sent g_gone g_array g_c]. split; [|split; [|split]].
      * intros tail ys. rewrite goes_app, HR. cbn [goes]. unfold M_Stream.Prune. cbn [M_Stream.g_sched M_Stream.g_array M_Stream.g_future]. reflexivity.
      * rewrite HS, <- app_assoc. f_equal.
        pose proof (gi_stream s HI) as GS. rewrite HS in GS. apply app_inv_head in GS.
        destruct (app_prefix _ _ _ _ GS HL) as (x & EX & _). rewrite EX.
        rewrite firstn_app. replace (N.to_nat k - length have)%nat with 0%nat by lia. rewrite firstn_O, app_nil_r.
        rewrite app_assoc, firstn_skipn. reflexivity.
      * rewrite !skipn_length. lia.
      * exact I.
    + intros r [_ M]. rewrite LS. exact M.
  - destruct (g_c s) as [|n|n|n id|n id|n id] eqn:EC; try discriminate.
    + destruct (g_held s); [discriminate|]. injection HG as <-. apply SAME; cbn; auto; discriminate.
    + destruct (g_deferred s) as [[id m]|]; [destruct (m =? n)|]; injection HG as <-; apply SAME; cbn; auto; discriminate.
    + destruct (g_token s); [discriminate|]. injection HG as <-. apply SAME; cbn; auto; discriminate.
    + pose proof (gi_boxes s HI) as [EB|(id' & n' & b & t & EB & EW & EN & EA)]; rewrite EB in HG; [discriminate HG|].
      rewrite EC in EW. cbn [waits] in EW. injection EW as <- <-. cbn [take_box] in HG. rewrite Nat.eqb_refl in HG. injection HG as <-.
      apply (TOLD n b t); cbn; auto; try discriminate. cbn [pending] in HP. unfold len in *. lia.
    + pose proof (gi_boxes s HI) as [EB|(id' & n' & b & t & EB & EW & EN & EA)]; rewrite EB in HG; [discriminate HG|].
      rewrite EC in EW. discriminate EW.
Qed.

(** Whatever the goroutine and the reader do, a sequential reader with some schedule is told the same and has the same bytes to come. *)
Theorem C23_sequential ls s : gruns ls ginit = Some s -> modest 0 (trace ls ginit) ->
  exists sched st, goes (trace ls ginit) (M_Stream.Stream [] (g_sent s) sched) = Some st
    /\ exists pruned, g_sent s = pruned ++ M_Stream.g_array st ++ M_Stream.g_future st
         /\ exists late, M_Growing.g_array s = M_Stream.g_array st ++ late /\ pruned = g_gone s.
Proof.
  assert (G : forall ls s0 es have, behind es s0 have -> ginv s0 -> gruns ls s0 = Some s -> modest (len have) (trace ls s0) ->
            exists have', behind (es ++ trace ls s0) s have' /\ ginv s).
  { clear ls. induction ls as [|l ls IH]; intros s0 es have HB HI HR HM.
    - injection HR as <-. cbn [trace]. rewrite app_nil_r. eauto.
    - cbn [gruns] in HR. cbn [trace] in *. destruct (gstep l s0) as [s1|] eqn:E; [|discriminate HR].
      assert (M1 : modest (len have) (emits l s0 s1)).
      { clear - HM. revert HM. generalize (trace ls s1) as r. generalize (len have) as h. generalize (emits l s0 s1) as es. induction es as [|[n b|k] es IH]; cbn; auto.
        - intros h r. apply IH.
        - intros h r [A B]. split; [exact A|]. eapply IH; exact B. }
      destruct (behind_step l s0 s1 es have HB HI E M1) as (have1 & HB1 & HM1).
      destruct (IH s1 (es ++ emits l s0 s1) have1 HB1 (gstep_inv _ _ _ HI E) HR (HM1 _ HM)) as (have' & HB' & HI').
      exists have'. rewrite app_assoc. auto. }
  intros HR HM.
  assert (B0 : behind [] ginit []).
  { exists [], []. cbn. split; [intros; reflexivity|]. split; [reflexivity|]. split; [lia|exact I]. }
  destruct (G ls ginit [] [] B0 ginv_init HR HM) as (have & (sched & rest & HG & HS & HL & _) & HI). cbn [app] in HG.
  exists sched. specialize (HG [] []). rewrite !app_nil_r in HG. rewrite HG. eexists. split; [reflexivity|].
  cbn [M_Stream.g_array M_Stream.g_future]. exists (g_gone s). split; [exact HS|].
  pose proof (gi_stream s HI) as GS. rewrite HS in GS. apply app_inv_head in GS. destruct (app_prefix _ _ _ _ GS HL) as (x & EX & _). exists x. auto.
Qed.
Print Assumptions C23_sequential.

(** Nobody is doing anything. *)
Definition quiet (s : gstate) (arr : bytes) : Prop :=
  g_in s = [] /\ g_array s = arr /\ g_held s = false /\ g_deferred s = None /\ g_token s = false /\ g_boxes s = [] /\ g_p s = PSelect /\ g_c s = CIdle.

Lemma gruns_app a b s : gruns (a ++ b) s = match gruns a s with Some s' => gruns b s' | None => None end.
Proof. revert s; induction a as [|l a IH]; intros s; cbn [gruns app]; [reflexivity|]. destruct (gstep l s); [apply IH|reflexivity]. Qed.
Lemma trace_app a b s s' : gruns a s = Some s' -> trace (a ++ b) s = trace a s ++ trace b s'.
Proof.
  revert s; induction a as [|l a IH]; intros s H; cbn [gruns trace app] in *; [injection H as <-; reflexivity|].
  destruct (gstep l s) as [s1|]; [|discriminate H]. rewrite (IH s1 H), app_assoc. reflexivity.
Qed.

Lemma quiet_arrive s arr c : quiet s arr -> exists ls s', gruns ls s = Some s' /\ trace ls s = [] /\ quiet s' (arr ++ c) /\ g_sent s' = g_sent s ++ c.
Proof.
  destruct s as [inn ar held def tok boxes nxt p cc sent gone ret]. intros (E1 & E2 & E3 & E4 & E5 & E6 & E7 & E8). gs. subst.
  exists [LSend c; LTakeChunk; LProducer; LProducer]. eexists. split; [cbn; reflexivity|]. split; [cbn; rewrite !skipn_all; reflexivity|].
  split; [repeat split|reflexivity].
Qed.
Lemma quiet_answer s arr n : quiet s arr -> n <= len arr -> exists ls s', gruns ls s = Some s' /\ trace ls s = [Asked n arr] /\ quiet s' arr /\ g_sent s' = g_sent s.
Proof.
  destruct s as [inn ar held def tok boxes nxt p cc sent gone ret]. intros (E1 & E2 & E3 & E4 & E5 & E6 & E7 & E8) L. gs. subst.
  exists [LCall n]. eexists. cbn [gruns trace gstep g_c g_array]. destruct (N.leb_spec n (len arr)); [|lia]. split; [reflexivity|].
  split; [cbn; rewrite skipn_app, skipn_all, Nat.sub_diag; reflexivity|]. split; [repeat split|reflexivity].
Qed.
Lemma quiet_wait s arr n c : quiet s arr -> len arr < n -> n <= len (arr ++ c) ->
  exists ls s', gruns ls s = Some s' /\ trace ls s = [Asked n (arr ++ c)] /\ quiet s' (arr ++ c) /\ g_sent s' = g_sent s ++ c.
Proof.
  destruct s as [inn ar held def tok boxes nxt p cc sent gone ret]. intros (E1 & E2 & E3 & E4 & E5 & E6 & E7 & E8) L1 L2. gs. subst.
  assert (Q1 : (n <=? len arr) = false) by (apply N.leb_gt; exact L1). assert (Q2 : (n <=? len (arr ++ c)) = true) by (apply N.leb_le; exact L2).
  exists ([LCall n; LReader; LReader; LReader; LTakeToken; LSend c; LTakeChunk] ++ [LProducer; LProducer; LProducer; LProducer; LProducer; LReader; LTakeToken]).
  eexists. split; [|split].
  - cbn [app gruns gstep]. gs. rewrite Q1. cbn. rewrite Q2. cbn. rewrite Nat.eqb_refl. cbn. reflexivity.
  - cbn [app trace gstep]. gs. rewrite Q1. cbn. rewrite Q2. cbn. rewrite Nat.eqb_refl. cbn. rewrite !skipn_all, skipn_app, skipn_all, Nat.sub_diag. cbn.
    rewrite ?skipn_all. reflexivity.
  - split; [repeat split|reflexivity].
Qed.
Lemma quiet_prune s arr k : quiet s arr -> exists ls s', gruns ls s = Some s' /\ trace ls s = [Pruned k] /\ quiet s' (skipn (N.to_nat k) arr) /\ g_sent s' = g_sent s.
Proof.
  destruct s as [inn ar held def tok boxes nxt p cc sent gone ret]. intros (E1 & E2 & E3 & E4 & E5 & E6 & E7 & E8). gs. subst.
  exists [LPrune k]. eexists. split; [reflexivity|]. split; [reflexivity|]. split; [|reflexivity]. repeat split. gs.
  destruct (N.leb_spec (len arr) k); [|reflexivity]. rewrite skipn_all. symmetry. apply skipn_all2. unfold len in *. lia.
Qed.

(** And every run of the sequential reader, whatever its schedule and its prunings, is one of the machine. *)
Theorem C23_realised es bs sched st : goes es (M_Stream.Stream [] bs sched) = Some st ->
  exists ls s, gruns ls ginit = Some s /\ trace ls ginit = es /\ g_array s = M_Stream.g_array st /\ bs = g_sent s ++ M_Stream.g_future st.
Proof.
  assert (G : forall es s st0, quiet s (M_Stream.g_array st0) -> goes es st0 = Some st -> bs = g_sent s ++ M_Stream.g_future st0 ->
            exists ls s', gruns ls s = Some s' /\ trace ls s = es /\ g_array s' = M_Stream.g_array st /\ bs = g_sent s' ++ M_Stream.g_future st).
  { clear es sched. induction es as [|e es IH]; intros s st0 HQ HG HB.
    - injection HG as ->. exists [], s. destruct HQ as (_ & Q & _). auto.
    - assert (KEY : exists ls s1 st1, gruns ls s = Some s1 /\ trace ls s = [e] /\ quiet s1 (M_Stream.g_array st1) /\ goes es st1 = Some st /\ bs = g_sent s1 ++ M_Stream.g_future st1).
      { destruct e as [n b|k]; cbn [goes] in HG.
        - destruct st0 as [arr fut sch]. cbn [M_Stream.g_array M_Stream.g_future] in *. unfold M_Stream.NextAbsolute in HG. cbn [M_Stream.g_sched M_Stream.g_array M_Stream.g_future] in HG.
          destruct (match sch with [] => (0%nat, 0%nat) | x :: _ => x end) as [before after].
          unfold M_Stream.arrive in HG. cbn [M_Stream.g_sched M_Stream.g_array M_Stream.g_future] in HG.
          set (c := firstn before fut) in *. set (f1 := skipn before fut) in *.
          assert (EF : fut = c ++ f1) by (symmetry; apply firstn_skipn). clearbody c f1. subst fut.
          destruct (quiet_arrive s arr c HQ) as (ls1 & s1 & R1 & T1 & Q1 & S1).
          destruct (N.leb_spec n (len (arr ++ c))) as [L|L].
          + destruct (list_eq_dec N.eq_dec (arr ++ c) b) as [<-|]; [|discriminate HG].
            destruct (quiet_answer s1 _ n Q1 L) as (ls2 & s2 & R2 & T2 & Q2 & S2).
            exists (ls1 ++ ls2), s2, (M_Stream.Stream (arr ++ c) f1 (tl sch)). cbn [M_Stream.g_array M_Stream.g_future].
            rewrite gruns_app, R1. rewrite (trace_app ls1 ls2 s s1 R1), T1, T2. split; [exact R2|]. split; [reflexivity|]. split; [exact Q2|].
            split; [exact HG|]. rewrite S2, S1, HB, <- app_assoc. reflexivity.
          + destruct (N.ltb_spec (len (arr ++ c) + len f1) n) as [L2|L2]; [discriminate HG|].
            set (m := (N.to_nat (n - len (arr ++ c)) + after)%nat) in *.
            destruct (list_eq_dec N.eq_dec ((arr ++ c) ++ firstn m f1) b) as [<-|]; [|discriminate HG].
            assert (LN : n <= len ((arr ++ c) ++ firstn m f1)).
            { unfold len in *. rewrite app_length, firstn_length. unfold m. rewrite app_length in *. lia. }
            destruct (quiet_wait s1 _ n (firstn m f1) Q1 L LN) as (ls2 & s2 & R2 & T2 & Q2 & S2).
            exists (ls1 ++ ls2), s2, (M_Stream.Stream ((arr ++ c) ++ firstn m f1) (skipn m f1) (tl sch)). cbn [M_Stream.g_array M_Stream.g_future].
            rewrite gruns_app, R1. rewrite (trace_app ls1 ls2 s s1 R1), T1, T2. split; [exact R2|]. split; [reflexivity|]. split; [exact Q2|].
            split; [exact HG|]. rewrite S2, S1, HB, <- !app_assoc, firstn_skipn. reflexivity.
        - destruct (quiet_prune s _ k HQ) as (ls & s1 & R & T & Q & S1). exists ls, s1, (M_Stream.Prune k st0).
          split; [exact R|]. split; [exact T|]. split; [exact Q|]. split; [exact HG|]. rewrite S1. exact HB. }
      destruct KEY as (ls & s1 & st1 & R & T & Q & HG1 & HB1). destruct (IH s1 st1 Q HG1 HB1) as (ls' & s' & R' & T' & E1 & E2).
      exists (ls ++ ls'), s'. rewrite gruns_app, R. rewrite (trace_app ls ls' s s1 R), T, T'. auto. }
  intros HG. apply (G es ginit (M_Stream.Stream [] bs sched)); auto. repeat split.
Qed.
Print Assumptions C23_realised.

(** Two bytes are asked for and come in two chunks; a third arrives before one is pruned. *)
Example C23_instance_sequential :
  let ls := [LCall 2; LReader; LReader; LReader; LTakeToken; LSend [5]; LSend [6]; LTakeChunk; LProducer; LProducer; LTakeChunk; LProducer; LProducer;
             LProducer; LSend [7]; LReader; LProducer; LProducer; LTakeToken; LTakeChunk; LProducer; LPrune 1; LCall 2] in
  exists s, gruns ls ginit = Some s /\ modest 0 (trace ls ginit)
    /\ trace ls ginit = [Asked 2 [5; 6]; Pruned 1; Asked 2 [6; 7]] /\ g_sent s = [5; 6; 7] /\ g_gone s = [5]
    /\ exists st, goes (trace ls ginit) (M_Stream.Stream [] (g_sent s) [(0, 0); (1, 0)]%nat) = Some st /\ M_Stream.g_array st = [6; 7].
Proof. cbv zeta. eexists. split; [vm_compute; reflexivity|]. vm_compute. repeat split; try discriminate. eexists; split; reflexivity. Qed.
