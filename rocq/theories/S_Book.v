(** Specification vocabulary for the bookkeeping of the sync protocol. *)
From Verif Require Import Base M_Order M_Paths M_Ranges M_Areas M_Entry M_Book S_Order.
From Coq Require Import Permutation.
Local Open Scope N_scope.

(** ** Histories of a handle store *)
Section Handles.
Context {V : Type}.
(** How many values a history binds. *)
Definition binds (ops : list (hs_op V)) : nat :=
  length (filter (fun o => match o with HBind _ => true | _ => false end) ops).
(** The messages that refer to [h] after a history: begun and not yet processed. *)
Definition begun (h : N) (ops : list (hs_op V)) : nat :=
  length (filter (fun o => match o with HInc h' => h =? h' | _ => false end) ops).
Definition processed (h : N) (ops : list (hs_op V)) : nat :=
  length (filter (fun o => match o with HDec h' => h =? h' | _ => false end) ops).
(** No message is processed before it has begun. *)
Definition balanced (h : N) (ops : list (hs_op V)) : Prop :=
  forall p q, ops = p ++ q -> (processed h p <= begun h p)%nat.
(** At some moment the handle had been freed and no message referred to it. *)
Definition released (h : N) (ops : list (hs_op V)) : Prop :=
  exists p q, ops = p ++ q /\ In (HFree h) p /\ begun h p = processed h p.
(** The value last bound to [h], after a history that follows its Bind with [v]. *)
Fixpoint last_value (h : N) (v : V) (ops : list (hs_op V)) : V :=
  match ops with
  | [] => v
  | HUpdate h' v' :: ops' => last_value h (if h =? h' then v' else v) ops'
  | _ :: ops' => last_value h v ops'
  end.
End Handles.

(** ** Histories of a queue *)
Fixpoint pushed (ops : list q_op) : list bytes :=
  match ops with [] => [] | QPush _ m :: ops' => m :: pushed ops' | _ :: ops' => pushed ops' end.
Fixpoint added (ops : list q_op) : N :=
  match ops with [] => 0 | QAdd _ n :: ops' => n + added ops' | _ :: ops' => added ops' end.

(** ** Histories of the intersection finder *)
(** One call: the handle, its namespace, the side and the order in which Go
    iterates over the map. *)
Record bind_call := BindCall { b_handle : N; b_namespace : bytes; b_ours : bool;
                               b_iter : list (N * bytes) -> list (N * bytes) }.
(** The handles bound on one side, with their namespaces. *)
Definition side (b : bool) (cs : list bind_call) : list (N * bytes) :=
  flat_map (fun c => if Bool.eqb (b_ours c) b then [(b_handle c, b_namespace c)] else []) cs.

Section Finder.
Variables (ours_area theirs_area : N -> area).
(** The areas of two handles have a position in common. *)
Definition shared (o t : N) : Prop := exists p, in_area (ours_area o) p /\ in_area (theirs_area t) p.
(** The area bound has a time range that is not reversed, and the iteration visits
    every element once. *)
Definition valid_call (c : bind_call) : Prop :=
  valid_range N.lt (area_times ((if b_ours c then ours_area else theirs_area) (b_handle c)))
  /\ forall m, Permutation (b_iter c m) m.
Variable isEqual : bytes -> bytes -> bool.
Definition add_call (f : aoi_finder) (c : bind_call) : aoi_finder :=
  AddAoiHandleToNamespace isEqual ours_area theirs_area (b_iter c) (b_handle c) (b_namespace c) (b_ours c) f.
Definition run_calls (cs : list bind_call) : aoi_finder := fold_left add_call cs NewAoiIntersectionFinder.
End Finder.

(** ** Histories of the reconciler map *)
Definition add_all {R} (cs : list (N * N * R)) : reconciler_map R :=
  fold_left (fun m c => AddReconciler (fst (fst c)) (snd (fst c)) (snd c) m) cs [].
