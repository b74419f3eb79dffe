(** Model of private area intersection: /repo/pkg/wgps/pai/pai_finder.go and
    /repo/pkg/wgps/wgpstypes/pai_types.go.

    The file ranges over a HandleStore (255, 323, 375, 419), which Go refuses: the
    comment at 256 says that the store is to get an iterator. Here it ranges over
    the handles in the map of the store, in an order given with the call. The
    comments "throw an error" do nothing: a value that was not found is the zero
    value. The five functions that turn queues into channels (450-550) are in
    M_Feed. *)
From Verif Require Import Base M_Order M_Paths M_Book.
Local Open Scope N_scope.

(** pai_types.go:9-18: FragmentTriple and FragmentPair *)
Inductive fragment :=
| FTriple (ns sub : bytes) (p : path)
| FPair (ns : bytes) (p : path).

(** pai_types.go:40-49: FragmentKitComplete and FragmentKitSelective *)
Inductive kit :=
| KComplete (ns : bytes) (p : path)
| KSelective (ns sub : bytes) (p : path).

(** pai_finder.go:552-588 CreateFragmentSet: the primary and the secondary
    fragments; a complete kit also gives a FragmentsSelective (585-587). *)
Definition CreateFragmentSet (k : kit) : list fragment * list fragment :=
  match k with
  | KSelective ns sub p => (map (FTriple ns sub) (PrefixesOf p), map (FPair ns) (PrefixesOf p))
  | KComplete ns p => ([], map (FPair ns) (PrefixesOf p))
  end.

(** pai_finder.go:20-24; BIND_READ_CAP is 0, the zero value *)
Inductive on_intersection := BIND_READ_CAP | REQUEST_SUBSPACE_CAP | REPLY_READ_CAP.

Section Pai.
(** Group, scalar, read capability and subspace capability with their zero
    values, and the functions of PaiScheme (pai_types.go:58-65). *)
Context {G S RC SC : Type} (zeroG : G) (zeroRC : RC) (zeroSC : SC).
Context (FragmentToGroup : fragment -> G) (ScalarMult : G -> S -> G) (IsGroupEqual : G -> G -> bool)
        (GetFragmentKit : RC -> kit).

(** /repo/pkg/wgps/wgpstypes/types.go:36-41 ReadAuthorisation *)
Record authorisation := Authorisation { a_cap : RC; a_sub_cap : SC; a_has_sub : bool }.
Definition zero_auth : authorisation := Authorisation zeroRC zeroSC false.

(** pai_types.go:67-71 Intersection *)
Record isec := Isec { i_group : G; i_complete : bool; i_secondary : bool }.
Definition zero_isec : isec := Isec zeroG false false.

(** pai_finder.go:31-38 LocalFragmentInfo; the subspace is an interface: nil, the
    int ANY_SUBSPACE, or a SubspaceId. *)
Inductive any_subspace := NilSubspace | AnySubspace | Subspace (s : bytes).
Record finfo := FInfo { f_id : bool; f_on : on_intersection; f_auth : authorisation; f_path : path;
                        f_ns : bytes; f_sub : any_subspace }.
Definition zero_info : finfo := FInfo false BIND_READ_CAP zero_auth [] [] NilSubspace.

(** pai_finder.go:63-86 PaiFinder *)
Record finder := Finder {
  p_ours : hstore isec;
  p_theirs : hstore isec;
  p_found : list (bytes * authorisation * N);       (* IntersectionQueue *)
  p_binds : list (G * bool);                        (* BindFragmentQueue *)
  p_replies : list (N * G);                         (* ReplyFragmentQueue *)
  p_requests : list N;                              (* SubspaceCapRequestQueue *)
  p_cap_replies : list (N * SC);                    (* SubspaceCapReplyQueue *)
  p_info : list (N * finfo);                        (* FragmentsInfo *)
  p_requested : list N;                             (* RequestedSubspaceCapHandles *)
  p_scalar : S
}.

(** pai_finder.go:88-98 NewPaiFinder; [s] is what GetScalar returns *)
Definition NewPaiFinder (ours theirs : hstore isec) (s : S) : finder :=
  Finder ours theirs [] [] [] [] [] [] [] s.

(** p.FragmentsInfo[handle] *)
Definition info_at (p : finder) (h : N) : finfo := match mget N.eqb (p_info p) h with Some i => i | None => zero_info end.
(** the first result of Get *)
Definition isec_at (s : hstore isec) (h : N) : isec := match hs_Get s h with Some i => i | None => zero_isec end.

(** pai_finder.go:104-117 SubmitFragment *)
Definition SubmitFragment (f : fragment) (secondary : bool) (p : finder) : N * finder :=
  let g := ScalarMult (FragmentToGroup f) (p_scalar p) in
  let '(h, ours) := hs_Bind (p_ours p) (Isec g false secondary) in
  (h, Finder ours (p_theirs p) (p_found p) (p_binds p ++ [(g, secondary)]) (p_replies p) (p_requests p)
        (p_cap_replies p) (p_info p) (p_requested p) (p_scalar p)).

Definition put_info (h : N) (i : finfo) (p : finder) : finder :=
  Finder (p_ours p) (p_theirs p) (p_found p) (p_binds p) (p_replies p) (p_requests p)
    (p_cap_replies p) (mput N.eqb (p_info p) h i) (p_requested p) (p_scalar p).

Definition fragment_info (auth : authorisation) (last : bool) (f : fragment) : finfo :=
  let on := if last then BIND_READ_CAP else REPLY_READ_CAP in
  match f with
  | FTriple ns sub q => FInfo true on auth q ns (Subspace sub)
  | FPair ns q => FInfo true on auth q ns AnySubspace
  end.

(** The loops 153-185 and 188-220: IsSecondary is false in both (157, 192). The loop
    120-151 is never reached, since CreateFragmentSet always returns a
    FragmentsSelective (590-593). *)
Fixpoint submit_loop (auth : authorisation) (fs : list fragment) (p : finder) : finder :=
  match fs with
  | [] => p
  | f :: fs' =>
      let '(h, p1) := SubmitFragment f false p in
      submit_loop auth fs' (put_info h (fragment_info auth (match fs' with [] => true | _ => false end) f) p1)
  end.

(** pai_finder.go:100-221 SubmitAuthorisation *)
Definition SubmitAuthorisation (auth : authorisation) (p : finder) : finder :=
  let '(primary, secondary) := CreateFragmentSet (GetFragmentKit (a_cap auth)) in
  submit_loop auth secondary (submit_loop auth primary p).

Definition announce (h : N) (p : finder) : finder :=
  Finder (p_ours p) (p_theirs p) (p_found p ++ [(f_ns (info_at p h), f_auth (info_at p h), h)]) (p_binds p) (p_replies p)
    (p_requests p) (p_cap_replies p) (p_info p) (p_requested p) (p_scalar p).

(** pai_finder.go:302-356 CheckForIntersections; [order] is the order in which the
    handles of the other store are visited. *)
Definition CheckForIntersections (h : N) (ours : bool) (order : list N) (p : finder) : finder :=
  let from := if ours then p_ours p else p_theirs p in
  let against := if ours then p_theirs p else p_ours p in
  let i := isec_at from h in
  if negb (i_complete i) then p
  else
    fold_left (fun p other =>
      let o := isec_at against other in
      if negb (i_complete o) then p
      else if i_secondary i && i_secondary o then p
      else if negb (IsGroupEqual (i_group i) (i_group o)) then p
      else
        let our := if ours then h else other in
        match f_on (info_at p our) with
        | BIND_READ_CAP => announce our p
        | REQUEST_SUBSPACE_CAP =>
            Finder (p_ours p) (p_theirs p) (p_found p) (p_binds p) (p_replies p)
              (p_requests p ++ [h]) (p_cap_replies p) (p_info p) (our :: p_requested p) (p_scalar p)
        | REPLY_READ_CAP => p
        end) order p.

(** pai_finder.go:223-235 ReceivedBind; [s] is what GetScalar returns in this call
    (224). The handle is bound in IntersectionHandlesOurs (225). *)
Definition ReceivedBind (g : G) (secondary : bool) (s : S) (order : list N) (p : finder) : finder :=
  let m := ScalarMult g s in
  let '(h, ours) := hs_Bind (p_ours p) (Isec m true secondary) in
  CheckForIntersections h false order
    (Finder ours (p_theirs p) (p_found p) (p_binds p) (p_replies p ++ [(h, m)]) (p_requests p)
       (p_cap_replies p) (p_info p) (p_requested p) (p_scalar p)).

(** pai_finder.go:237-248 ReceivedReply; the error of Update is dropped *)
Definition ReceivedReply (h : N) (g : G) (order : list N) (p : finder) : finder :=
  let ours := match hs_Update (p_ours p) h (Isec g true false) with Ok s => s | _ => p_ours p end in
  CheckForIntersections h true order
    (Finder ours (p_theirs p) (p_found p) (p_binds p) (p_replies p) (p_requests p)
       (p_cap_replies p) (p_info p) (p_requested p) (p_scalar p)).

(** pai_finder.go:250-277 ReceivedSubspaceCapRequest *)
Definition ReceivedSubspaceCapRequest (h : N) (order : list N) (p : finder) : finder :=
  let r := isec_at (p_theirs p) h in
  fold_left (fun p our =>
    let o := isec_at (p_ours p) our in
    if negb (i_complete o) then p
    else if negb (IsGroupEqual (i_group o) (i_group r)) then p
    else if negb (a_has_sub (f_auth (info_at p our))) then p
    else Finder (p_ours p) (p_theirs p) (p_found p) (p_binds p) (p_replies p) (p_requests p)
           (p_cap_replies p ++ [(h, a_sub_cap (f_auth (info_at p our)))]) (p_info p) (p_requested p) (p_scalar p)) order p.

(** pai_finder.go:279-300 ReceivedVerifiedSubspaceCapReply *)
Definition ReceivedVerifiedSubspaceCapReply (h : N) (ns : bytes) (p : finder) : finder :=
  Finder (p_ours p) (p_theirs p) (p_found p ++ [(ns, f_auth (info_at p h), h)]) (p_binds p) (p_replies p)
    (p_requests p) (p_cap_replies p) (p_info p) (filter (fun x => negb (N.eqb h x)) (p_requested p)) (p_scalar p).

(** pai_finder.go:358-368 GetHandleOuterArea; the type assertion (364) panics
    unless the subspace is a SubspaceId. Area: /repo/types/areas.go *)
Definition GetHandleOuterArea (h : N) (p : finder) : res area :=
  match f_sub (info_at p h) with
  | Subspace s => Ok (Area s (f_path (info_at p h)) (Range 0 0 true) false)
  | _ => Panic
  end.

(** pai_finder.go:370-397 ReceivedReadCapForIntersection *)
Definition ReceivedReadCapForIntersection (their : N) (order : list N) (p : finder) : finder :=
  let t := isec_at (p_theirs p) their in
  fold_left (fun p our =>
    let o := isec_at (p_ours p) our in
    if negb (i_complete o) then p
    else if i_secondary o && i_secondary t then p
    else if negb (IsGroupEqual (i_group o) (i_group t)) then p
    else match f_on (info_at p our) with REPLY_READ_CAP => announce our p | _ => p end) order p.

(** pai_finder.go:399-448 GetIntersectionPrivy *)
Definition GetIntersectionPrivy (h : N) (ours : bool) (order : list N) (p : finder) : res (bytes * option area) :=
  let from := if ours then p_ours p else p_theirs p in
  let against := if ours then p_theirs p else p_ours p in
  let i := isec_at from h in
  (fix go (order : list N) :=
     match order with
     | [] => Ok ([], None)                              (* the zero ReadCapPrivy *)
     | other :: order' =>
         let o := isec_at against other in
         if negb (i_complete o) then go order'
         else if i_secondary i && i_secondary o then go order'
         else if negb (IsGroupEqual (i_group i) (i_group o)) then go order'
         else
           let our := if ours then h else other in
           do a <- GetHandleOuterArea our p; Ok (f_ns (info_at p our), Some a)
     end) order.

(** The calls a session makes. *)
Inductive pai_op :=
| PSubmit (auth : authorisation)
| PBind (g : G) (secondary : bool) (s : S) (order : list N)
| PReply (h : N) (g : G) (order : list N)
| PRequest (h : N) (order : list N)
| PVerified (h : N) (ns : bytes)
| PReadCap (h : N) (order : list N).
Definition pai_step (p : finder) (o : pai_op) : finder :=
  match o with
  | PSubmit a => SubmitAuthorisation a p
  | PBind g sec s order => ReceivedBind g sec s order p
  | PReply h g order => ReceivedReply h g order p
  | PRequest h order => ReceivedSubspaceCapRequest h order p
  | PVerified h ns => ReceivedVerifiedSubspaceCapReply h ns p
  | PReadCap h order => ReceivedReadCapForIntersection h order p
  end.
Definition pai_run (p : finder) (ops : list pai_op) : finder := fold_left pai_step ops p.
End Pai.
