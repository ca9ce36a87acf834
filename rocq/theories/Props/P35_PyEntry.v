(** C102: the scripts of a wheel are those that Python finds in its entry_points.txt.
    [create_scripts] is the hook of entry_points.CreateScripts, with the orders in which Go ranges over
    the maps; [py_entry_points] is Python's reading of the file (Spec/PyEntrySpec.v). *)
From Coq Require Import String Ascii List Bool NArith ZArith Permutation.
From Verif.Model Require Import GoStr GoPath Layer ConfigParser Platform WheelFile EntryPoints.
From Verif.Spec Require Import PyConfigSpec EntryPointsSpec PyEntrySpec.
From Verif.Proofs Require Import PyEntryFacts.
Import ListNotations.

(** ** C102: a script for each of Python's entry points, and nothing else; success exactly if each is a reference *)
Theorem C102_scripts_partial : forall outer order,
  (forall l, Permutation (outer l) l) -> (forall s l, Permutation (order s l) l) ->
  forall pl pl' time fs dist_info r text ok, plat_init pl = Some pl' ->
  get_key (path_join [dist_info; $"entry_points.txt"]) fs = Some r -> ref_content r = Bytes text ok -> agreed_text text ->
  forall cfg, py_entry_points text = Some cfg ->
  let names := map (fun kv => script_name (s_scripts (pl_scheme pl)) (fst kv)) (all_entries cfg) in
  ((exists fs', create_scripts outer order pl time fs dist_info = inl fs') <->
   (forall k v, In (k, v) (all_entries cfg) -> exists m f, refers v m f)) /\
  forall fs', create_scripts outer order pl time fs dist_info = inl fs' ->
    (forall n, ~ In n names -> get_key n fs' = get_key n fs) /\
    (NoDup names -> forall sect shebang k v,
     sect = $"console_scripts" /\ shebang = pl_console pl' \/ sect = $"gui_scripts" /\ shebang = pl_graphical pl' ->
     In (k, v) (entries_of cfg sect) ->
     exists m f file, refers v m f /\ get_key (script_name (s_scripts (pl_scheme pl)) k) fs' = Some file /\
       launcher (script_name (s_scripts (pl_scheme pl)) k) shebang m f time file).
Proof. exact python_scripts. Qed.
Print Assumptions C102_scripts_partial.
(** A file that Python refuses is refused. *)
Theorem C102_refused_partial : forall outer order pl time fs dist_info r text ok,
  get_key (path_join [dist_info; $"entry_points.txt"]) fs = Some r -> ref_content r = Bytes text ok -> agreed_text text ->
  py_entry_points text = None -> exists e, create_scripts outer order pl time fs dist_info = inr e.
Proof. exact python_refuses. Qed.
Print Assumptions C102_refused_partial.
Example C102_case : agreed_text ex_entry_points /\ py_entry_points ex_entry_points =
  Some [($"console_scripts", [($"Foo", $"pkg.mod:main [x]")]); ($"other", [($"a", $"b")]); ($"gui_scripts", [($"bar", $"m:f")])].
Proof. exact ex_entry_agrees. Qed.
Example C102_run_case :
  match create_scripts (fun l => l) (fun _ l => l) example_platform (Some 7%Z) (example_vfs ex_entry_points) $"lib/p-1.dist-info" with
  | inl fs => map fst (tl fs) = [$"usr/bin/Foo"; $"usr/bin/bar"]
  | inr _ => False
  end.
Proof. vm_compute. reflexivity. Qed.
Example C102_refused_case : agreed_text ex_twice_entry_points /\ py_entry_points ex_twice_entry_points = None.
Proof. exact ex_twice_refused. Qed.

(** Not so for all texts: with the entries of a section DEFAULT, which Python has in every section, no script is made. *)
Theorem C102_default_refuted : exists text, py_entry_points text = Some [($"console_scripts", [($"foo", $"m:f")])] /\
  create_scripts (fun l => l) (fun _ l => l) example_platform (Some 7%Z) (example_vfs text) $"lib/p-1.dist-info" = inl (example_vfs text).
Proof. exists (text_of [$"[DEFAULT]"; $"foo = m:f"; $"[console_scripts]"]). split; vm_compute; reflexivity. Qed.
Print Assumptions C102_default_refuted.
(** A header with text behind it, which Python ignores, is an error. *)
Theorem C102_header_refuted : exists text e, py_entry_points text = Some [($"console_scripts", [($"foo", $"m:f")])] /\
  create_scripts (fun l => l) (fun _ l => l) example_platform (Some 7%Z) (example_vfs text) $"lib/p-1.dist-info" = inr e.
Proof. exists (text_of [$"[console_scripts] # the program"; $"foo = m:f"]). eexists. split; vm_compute; reflexivity. Qed.
Print Assumptions C102_header_refuted.
