(** C66 without its conditions: two sessions after which what a namespace
    holds is not what was typed into it less what is superseded.  The first
    has two lines with one time at one place; the second has a path component
    as long as the parameters allow. *)
From Coq Require Import Ascii String.
From Verif Require Import Base M_Order M_Encoding M_Paths M_Keys M_Entry M_Map M_Store M_Query M_Payload M_Cli M_Shell
  S_Order S_Store S_Shell P_Order P_Encoding P_Paths P_Map P_Store P_History P_Demo P_Shell Prop_Store Prop_Cli Prop_Shell.
Local Open Scope N_scope.

Notation demo_run := (shell_run shipped_params (c_hash demo) (c_fname demo) sort_nodes).
Notation demo_typed := (typed shipped_params (c_hash demo) (c_fname demo) sort_nodes).
Notation demo_holds := (holds shipped_params (c_hash demo) (c_fname demo)).

(** What the last line of a session types. *)
Lemma typed_last ns items l now fs i :
  w_mode (demo_run items new_world) = Inside ns -> asks l fs i ->
  demo_typed ns (items ++ [Line l now fs]) (set_entry (cfg_of shipped_params (c_hash demo) (c_fname demo) ns) i now).
Proof. intros M A. exists items, l, now, fs, [], i. auto. Qed.

(** The second of two lines for one place and time is refused, though nothing
    typed supersedes its entry. *)
Theorem C66_same_time_refuted : exists items e,
  items_ok shipped_params (c_hash demo) (c_fname demo) small items
  /\ demo_typed (txt "n") items e
  /\ (~ exists y, demo_typed (txt "n") items y /\ supersedes y e)
  /\ ~ demo_holds (demo_run items new_world) (txt "n") e.
Proof.
  set (first := [Start; say "new n"; say "y"; say "set s a/b one 0:1"]).
  exists (first ++ [say "set s a/b two 0:1"]), (demo_typed_e "s" "a/b" [9] 60000000).
  split; [apply demo_items_ok; vm_compute; reflexivity|].
  split.
  - assert (A : asks (txt "set s a/b two 0:1") demo_fs (Input (txt "s") [txt "a"; txt "b"] [9] 60000000)).
    { apply (asks_at (txt "set s a/b two 0:1") demo_fs (txt "s") (txt "a/b") (txt "two") (txt "0:1") [9]);
        [apply words_spec; vm_compute; reflexivity|reflexivity|discriminate]. }
    assert (M : w_mode (demo_run first new_world) = Inside (txt "n")) by (vm_compute; reflexivity).
    exact (typed_last (txt "n") first _ 77 demo_fs _ M A).
  - split.
    + intros (y & Hy & L & _). apply collect_typed in Hy. set (c := collect _ _ _) in *. vm_compute in c. subst c. cbn [In] in Hy.
      repeat destruct Hy as [<-|Hy]; try contradiction; vm_compute in L; discriminate L.
    + rewrite <- holdsb_spec. vm_compute. discriminate.
Qed.
Print Assumptions C66_same_time_refuted.

(** A component of fifty bytes, the longest there may be. *)
Definition long_name : string := "abcdefghijklmnopqrstuvwxyzabcdefghijklmnopqrstuvwxyz"%string.
Definition fifty : string := String.substring 0 50 long_name.
Definition set_fifty (f t : string) : string := ("set s " ++ fifty ++ " " ++ f ++ " " ++ t)%string.

Lemma asks_fifty f t b : split_on 32 (TrimSpace (txt (set_fifty f t))) = [w_set; txt "s"; txt fifty; txt f; txt t] ->
  demo_fs (txt f) = Contents b -> parseTimeStampToMicroSeconds (txt t) <> 0 ->
  asks (txt (set_fifty f t)) demo_fs (Input (txt "s") (parse_path (txt fifty)) b (parseTimeStampToMicroSeconds (txt t))).
Proof. intros W F T. apply (asks_at _ _ (txt "s") (txt fifty) (txt f) (txt t) b); [apply words_spec; exact W|exact F|exact T]. Qed.

(** There an entry stays although a line typed later supersedes it. *)
Theorem C66_limits_refuted : exists items x y,
  within_limits shipped_params (e_path x) /\ within_limits shipped_params (e_path y)
  /\ demo_typed (txt "n") items x /\ demo_typed (txt "n") items y /\ supersedes y x
  /\ demo_holds (demo_run items new_world) (txt "n") x /\ demo_holds (demo_run items new_world) (txt "n") y.
Proof.
  set (start := [Start; say "new n"; say "y"]).
  set (items := start ++ say (set_fifty "one" "0:1") :: [say (set_fifty "two" "0:2")]).
  exists items, (demo_typed_e "s" fifty [1; 2] 60000000), (demo_typed_e "s" fifty [9] 120000000).
  assert (W : within_limits shipped_params (parse_path (txt fifty))) by (vm_compute; repeat split; repeat constructor; discriminate).
  split; [exact W|]. split; [exact W|].
  split; [|split; [|split; [|rewrite <- !holdsb_spec; vm_compute; auto]]].
  - exists start, (txt (set_fifty "one" "0:1")), 77, demo_fs, [say (set_fifty "two" "0:2")],
      (Input (txt "s") (parse_path (txt fifty)) [1; 2] (parseTimeStampToMicroSeconds (txt "0:1"))).
    split; [reflexivity|]. split; [vm_compute; reflexivity|].
    split; [apply asks_fifty; [vm_compute; reflexivity|reflexivity|vm_compute; discriminate]|vm_compute; reflexivity].
  - exists (start ++ [say (set_fifty "one" "0:1")]), (txt (set_fifty "two" "0:2")), 77, demo_fs, [],
      (Input (txt "s") (parse_path (txt fifty)) [9] (parseTimeStampToMicroSeconds (txt "0:2"))).
    split; [reflexivity|]. split; [vm_compute; reflexivity|].
    split; [apply asks_fifty; [vm_compute; reflexivity|reflexivity|vm_compute; discriminate]|vm_compute; reflexivity].
  - split; [vm_compute; reflexivity|]. left. split; reflexivity.
Qed.
Print Assumptions C66_limits_refuted.

(** The limits of the program: fifty components, fifty bytes to a component.  One more of either ends the
    program, and so does a path of fifty bytes in several components. *)
Fixpoint deep (c : string) (n : nat) : string := match n with O => "a" | S n => c ++ "/" ++ deep c n end%string.
Definition after_set (p : string) : mode :=
  w_mode (demo_run [Start; say "new n"; say "y"; say ("set s " ++ p ++ " one 0:1")] new_world).
Example C66_instance_limits :
  length (parse_path (txt (deep "" 49))) = 50%nat
  /\ after_set (deep "" 49) = Inside (txt "n") /\ after_set (deep "" 50) = Died
  /\ after_set fifty = Inside (txt "n") /\ after_set (String.substring 0 51 long_name) = Died
  /\ after_set (deep "a" 48) = Inside (txt "n") /\ after_set (deep "a" 49) = Died.
Proof. vm_compute. auto 10. Qed.

(** In that session [list] shows both, under a path that nobody typed: its last byte is one higher. *)
Example C66_instance_list :
  snd (shell_step shipped_params (c_hash demo) (c_fname demo) sort_nodes (say "list")
    (demo_run [Start; say "new n"; say "y"; say (set_fifty "one" "0:1"); say (set_fifty "two" "0:2")] new_world))
  = [OTable (map (fun t => (txt "s", t, firstn 49 (txt fifty) ++ [121])) [120000000; 60000000])]
  /\ nth 49 (txt fifty) 0 = 120.
Proof. vm_compute. auto. Qed.
