(** Proofs about Spec/PyEntrySpec.v: C102. *)
From Coq Require Import String Ascii List Bool NArith ZArith Permutation.
From Verif.Model Require Import GoStr GoPath Layer ConfigParser Platform WheelFile EntryPoints.
From Verif.Spec Require Import PyConfigSpec EntryPointsSpec PyEntrySpec.
From Verif.Proofs Require Import PyConfigFacts ConfigFacts EntryPointsFacts.
Import ListNotations.

Lemma entry_points_read text : agreed_text text -> result (parse_config ep_parser text false) = py_entry_points text.
Proof. intros (U & W & A). exact (read_same ep_parser text (proj2 parsers_plain) U W A). Qed.
Theorem python_scripts outer order : (forall l, Permutation (outer l) l) -> (forall s l, Permutation (order s l) l) ->
  forall pl pl' time fs dist_info r text ok, plat_init pl = Some pl' ->
  get_key (path_join [dist_info; $"entry_points.txt"]) fs = Some r -> ref_content r = Bytes text ok -> agreed_text text ->
  forall cfg, py_entry_points text = Some cfg ->
  let names := map (fun kv => script_name (s_scripts (pl_scheme pl)) (fst kv)) (all_entries cfg) in
  ((exists fs', create_scripts outer order pl time fs dist_info = inl fs') <->
   (forall k v, In (k, v) (all_entries cfg) -> exists m f, refers v m f)) /\
  forall fs', create_scripts outer order pl time fs dist_info = inl fs' ->
    (forall n, ~ In n names -> get_key n fs' = get_key n fs) /\
    (NoDup names -> forall sect shebang k v,
     sect = $"console_scripts" /\ shebang = pl_console pl' \/ sect = $"gui_scripts" /\ shebang = pl_graphical pl' ->
     In (k, v) (entries_of cfg sect) ->
     exists m f file, refers v m f /\ get_key (script_name (s_scripts (pl_scheme pl)) k) fs' = Some file /\
       launcher (script_name (s_scripts (pl_scheme pl)) k) shebang m f time file).
Proof.
  intros Ho Hs pl pl' time fs dist_info r text ok P G B A cfg E names. rewrite <- (entry_points_read text A) in E.
  destruct (parse_config ep_parser text false) as [cfg'|e] eqn:C; cbn [result] in E; [|discriminate E]. injection E as <-.
  split; [exact (scripts_accepted outer order Ho Hs pl pl' time fs dist_info r text ok cfg' P G B C)|].
  intros fs' R. split; [exact (others_kept outer order Ho Hs pl pl' time fs dist_info r text ok cfg' fs' P G B C R)|].
  intros N sect shebang k v S I.
  destruct (scripts_made outer order Ho Hs pl pl' time fs dist_info r text ok cfg' fs' P G B C R N sect shebang k v S I) as (m & f & file & H1 & H2 & H3 & H4 & H5 & H6).
  exists m, f, file. split; [exact H1|]. split; [exact H2|]. split; [exact H3|]. split; [exact H4|]. split; [exact H5|exact H6].
Qed.
Theorem python_refuses outer order pl time fs dist_info r text ok :
  get_key (path_join [dist_info; $"entry_points.txt"]) fs = Some r -> ref_content r = Bytes text ok -> agreed_text text ->
  py_entry_points text = None -> exists e, create_scripts outer order pl time fs dist_info = inr e.
Proof.
  intros G B A E. rewrite <- (entry_points_read text A) in E. destruct (parse_config ep_parser text false) as [cfg'|e] eqn:C; cbn [result] in E; [discriminate E|].
  apply (scripts_unparsed outer order pl time fs dist_info r text ok G B). exists e. exact C.
Qed.

Lemma ex_entry_agrees : agreed_text ex_entry_points /\ py_entry_points ex_entry_points =
  Some [($"console_scripts", [($"Foo", $"pkg.mod:main [x]")]); ($"other", [($"a", $"b")]); ($"gui_scripts", [($"bar", $"m:f")])].
Proof.
  split; [|vm_compute; reflexivity]. split; [apply usual_dec; vm_compute; reflexivity|]. split; [apply whole_dec; vm_compute; reflexivity|apply agreed_dec; vm_compute; reflexivity].
Qed.
Lemma ex_twice_refused : agreed_text ex_twice_entry_points /\ py_entry_points ex_twice_entry_points = None.
Proof.
  split; [|vm_compute; reflexivity]. split; [apply usual_dec; vm_compute; reflexivity|]. split; [apply whole_dec; vm_compute; reflexivity|apply agreed_dec; vm_compute; reflexivity].
Qed.
