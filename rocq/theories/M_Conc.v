(** Model of concurrent Set calls on one store: /repo/pkg/data_model/store/store.go
    Set (32-66). Each call is a thread; the steps that other calls can come
    between are the payload write (38), the ingestion (53, atomic: it holds
    IngestionMutexLock), the reading of the reference count (57) and the erasing
    of the payload (61-63). The writes and erasures of payload files inside an
    ingestion are taken as one step with it; so is a panic or a log.Fatal, which
    ends the process: there is no step for it. *)
From Verif Require Import Base M_Order M_Encoding M_Paths M_Keys M_Entry M_Map M_Store.
Local Open Scope N_scope.

Inductive phase :=
| PStart               (* before line 38 *)
| PWritten             (* the payload is written *)
| PIngested            (* IngestEntry has returned without an error *)
| PCounted (c : N)     (* the count is read *)
| PDone.               (* returned, with or without an error *)

Record thread := Thread { th_input : input; th_auth : bytes; th_now : N; th_phase : phase }.

Section Conc.
Variable C : cfg.

(** store.go:36-48: the entry a call ingests. *)
Definition th_entry (t : thread) : entry :=
  let i := th_input t in
  Entry (c_ns C) (i_sub i) (c_hash C (i_payload i)) (i_path i)
    (if i_time i =? 0 then th_now t else i_time i) (len (i_payload i)).

(** The next step of a call, and the phase it is in afterwards. *)
Definition tstep (t : thread) : M phase :=
  match th_phase t with
  | PStart => payload_Set C (i_payload (th_input t)) ;; ret PWritten
  | PWritten =>
      fun st =>
        match (let* token := lift (Authorise (th_entry t) (th_auth t)) in IngestEntry C (th_entry t) token) st with
        | (Ok _, st') => (Ok PIngested, st')
        | (Err, st') => (Ok PDone, st')
        | (Panic, st') => (Panic, st')
        | (Fatal, st') => (Fatal, st')
        | (Hang, st') => (Hang, st')
        end
  | PIngested =>
      fun st =>
        match ref_Count (e_digest (th_entry t)) st with
        | (Ok c, st') => (Ok (PCounted c), st')
        | (Err, st') => (Ok PDone, st')
        | (Panic, st') => (Panic, st')
        | (Fatal, st') => (Fatal, st')
        | (Hang, st') => (Hang, st')
        end
  | PCounted c => (if c =? 0 then payload_Erase C (e_digest (th_entry t)) else ret tt) ;; ret PDone
  | PDone => ret PDone
  end.

Definition set_phase (t : thread) (p : phase) : thread := Thread (th_input t) (th_auth t) (th_now t) p.

(** Interleavings. [ok th st others]: a condition on the steps taken ([th]
    steps in state [st], [others] are the other calls). *)
Inductive cstep (ok : thread -> state -> list thread -> Prop) : state * list thread -> state * list thread -> Prop :=
| CStep st st' t p pre post :
    th_phase t <> PDone -> ok t st (pre ++ post) -> tstep t st = (Ok p, st') ->
    cstep ok (st, pre ++ t :: post) (st', pre ++ set_phase t p :: post).

Inductive crun (ok : thread -> state -> list thread -> Prop) : state * list thread -> state * list thread -> Prop :=
| crun_refl s : crun ok s s
| crun_step s1 s2 s3 : crun ok s1 s2 -> cstep ok s2 s3 -> crun ok s1 s3.
End Conc.
