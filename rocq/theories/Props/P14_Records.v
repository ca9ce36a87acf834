(** C56, C57 and, for the whole command, C55: the files that record an installation.
    [layer_wheel o space range sort outer order fuel pl wh] is "ocibuild layer wheel" for an
    archive with the entries [wh]: the wheel is installed, then scripts are made for the entry
    points, then INSTALLER and RECORD are written.  [o] as in P13_Wheels; [range], [outer] and
    [order] are orders of map iteration, [sort] is sort.Slice, [space] tells whether a text
    begins with a Unicode space. *)
From Coq Require Import String Ascii List Bool NArith ZArith Permutation Sorted.
From Verif.Model Require Import GoStr GoPath Tar Stat Layer ConfigParser Platform WheelFile EntryPoints Wheel DirectURL Record LayerWheel.
From Verif.Spec Require Import PathSpec SimpleAPISpec LayerSpec WheelSpec WheelExamples DirectURLSpec RecordSpec LayerWheelSpec RecordExamples.
From Verif.Proofs Require Import SimpleAPIFacts DirectURLFacts LayerFacts WheelFacts WheelSame WheelCases RecordFacts LayerWheelFacts RecordCases.
Import ListNotations.
Local Open Scope nat_scope.

(** ** C55 for the command *)
(** Missing: as for C55_same_partial; entry points with the same name or with names that are not file names. *)
Theorem C55_command_partial : forall o o' space range range' sort sort' outer outer' order order' fuel pl pl' wh wh', fair o -> fair o' -> same_tools o o' -> pyc_outputs o -> distinct_outputs o -> distinct_outputs o' ->
  (forall m, Permutation (range m) m) -> (forall m, Permutation (range' m) m) -> sorts sort -> sorts sort' ->
  (forall l, Permutation (outer l) l) -> (forall l, Permutation (outer' l) l) -> (forall s l, Permutation (order s l) l) -> (forall s l, Permutation (order' s l) l) ->
  sanitize pl = Some pl' -> tame (pl_scheme pl') wh -> tidy_entry_points pl' wh -> Permutation wh wh' ->
  layer_wheel o space range sort outer order fuel pl wh = layer_wheel o' space range' sort' outer' order' fuel pl wh'.
Proof. exact command_same. Qed.
Print Assumptions C55_command_partial.
Example C55_command_case : same_tools (ex_tools_of ex_out) (ex_tools_of ex_out_rev) /\ tame (pl_scheme ex_pl) ex_command /\ tidy_entry_points ex_pl ex_command /\
  pyc_outputs (ex_tools_of ex_out) /\ distinct_outputs (ex_tools_of ex_out) /\
  exists l, ex_layer ex_command = IOk l /\ ex_layer_rev (rev ex_command) = IOk l /\ length l = 15%nat.
Proof.
  split; [apply tools_same, ex_tools|]. split; [exact command_tame|]. split; [exact command_tidy|]. split; [now apply ex_outputs|]. split; [now apply ex_outputs|].
  eexists. split; [vm_compute; reflexivity|]. split; vm_compute; reflexivity.
Qed.
Print Assumptions C55_command_case.

(** ** C56 *)
(** The hook.  It may be called with any map of files with clean names inside the image and without a RECORD file.  Missing: other maps. *)
Theorem C56_hook_partial : forall space digest range sort algo installer url t fs info fs', (forall m, Permutation (range m) m) -> sorts sort -> hook_input fs info -> record_hook space digest range sort algo installer url t fs info = Some fs' ->
  (exists text rows, plain_file (in_info info $"RECORD") t text fs' /\ rfc4180 text = Some (map (map crlf) rows) /\ rows_for digest (hash_used algo) info fs' rows) /\
  plain_file (in_info info $"INSTALLER") t (installer ++ [nl]) fs' /\
  (forall u, url = Some u -> plain_file (in_info info $"direct_url.json") t (url_json go_quote u) fs') /\
  (forall k, k <> in_info info $"RECORD" -> k <> in_info info $"INSTALLER" -> url = None \/ k <> in_info info $"direct_url.json" -> get_key k fs' = get_key k fs).
Proof. exact record_ok. Qed.
Print Assumptions C56_hook_partial.
(** It fails for unknown hashes, ... *)
Theorem C56_hash : forall space digest range sort algo installer url t fs info fs',
  record_hook space digest range sort algo installer url t fs info = Some fs' -> In (hash_used algo) python_hashes.
Proof. exact record_hash. Qed.
Print Assumptions C56_hash.
(** ... and succeeds for the others if each file that it does not replace can be read or has been recorded before. *)
Theorem C56_succeeds : forall space digest range sort algo installer url t fs info, (forall m, Permutation (range m) m) -> hook_input fs info -> In (hash_used algo) python_hashes ->
  (forall k r, get_key k fs = Some r -> k <> in_info info $"INSTALLER" -> url = None \/ k <> in_info info $"direct_url.json" -> ref_dir r = false ->
     (exists hash size, ref_record r = Some (hash, size)) \/ exists text ok, ref_content r = Bytes text ok) ->
  exists fs', record_hook space digest range sort algo installer url t fs info = Some fs'.
Proof. exact record_succeeds. Qed.
Print Assumptions C56_succeeds.
Example C56_hook_case : hook_input ex_before $"lib/foo-1.dist-info" /\
  (exists fs, record_hook (fun _ => false) (fun _ _ => $"x") (fun m => m) insertion_sort $"sha1" $"me" None None ex_before $"lib/foo-1.dist-info" = Some fs /\ length fs = 4) /\
  record_hook (fun _ => false) (fun _ _ => $"x") (fun m => m) insertion_sort $"sha3" $"me" None None ex_before $"lib/foo-1.dist-info" = None.
Proof.
  assert (P : forall c, negb (str_eqb c [] || in_set c slash || str_eqb c dot || str_eqb c dotdot) = true -> plain_comp c) by exact plain_byb.
  assert (I : forall p, is_abs p = false -> clean_comps p <> [] -> Forall (fun c => negb (str_eqb c [] || in_set c slash || str_eqb c dot || str_eqb c dotdot) = true) (clean_comps p) -> inner p).
  { intros p A N F. split; auto. split; auto. eapply Forall_impl; [|exact F]. exact P. }
  split; [|split; [eexists; split; vm_compute; reflexivity|vm_compute; reflexivity]].
  split; [apply I; [reflexivity|discriminate|vm_compute; repeat constructor]|]. split; [reflexivity|]. split; [|split; [|reflexivity]].
  - split; [vm_compute; constructor; [intros [X|[]]; discriminate|constructor; [intros []|constructor]]|]. constructor; [repeat split|constructor; [repeat split|constructor]].
  - constructor; [|constructor; [|constructor]]; apply I; try reflexivity; try discriminate; vm_compute; repeat constructor.
Qed.
(** The order of iteration does not matter. *)
Theorem C56_hook_order : forall space digest range range' sort sort' algo installer url t fs fs' info, (forall m, Permutation (range m) m) -> (forall m, Permutation (range' m) m) -> sorts sort -> sorts sort' ->
  hook_input fs info -> Permutation fs fs' ->
  same_set (record_hook space digest range sort algo installer url t fs info) (record_hook space digest range' sort' algo installer url t fs' info).
Proof. exact record_same. Qed.
Print Assumptions C56_hook_order.
(** After an installation, with any hook [h0] before this one.  Missing: names with ".." or a leading slash, nested data directories. *)
Theorem C56_install_partial : forall o h0 space range sort algo installer url fuel pl pl' min mx wh l, fair o -> pyc_outputs o -> (forall m, Permutation (range m) m) -> sorts sort ->
  (forall t fs info, o_hook o t fs info = match h0 t fs info with Some fs => record_hook space (o_digest o) range sort algo installer url t fs info | None => None end) ->
  (forall t fs info fs', install_vfs o pl' min t wh = IOk (fs, info) -> h0 t fs info = Some fs' ->
     hook_input fs' info /\ forall k r, get_key k fs' = Some r -> get_key k fs = Some r \/ exists m, r = MemRef m) ->
  sanitize pl = Some pl' -> inner_scheme (pl_scheme pl') -> inner_names wh -> never_nested (pl_scheme pl') wh ->
  install_wheel o fuel pl min mx wh = IOk l ->
  exists info root, info_of wh info /\ root_of (pl_scheme pl') root /\
  let base := join $"/" (clean_comps root) in
  exists e0 rows, In e0 l /\ th_name (fst e0) = join $"/" (clean_comps root ++ [info; $"RECORD"]) /\ th_type (fst e0) = TypeReg /\
  rfc4180 (snd e0) = Some (map (map crlf) rows) /\ StronglySorted row_before rows /\
  (forall row, In row rows -> exists e, In e l /\ th_type (fst e) <> TypeDir /\ leads_to base (row_name_of row) (th_name (fst e))) /\
  (exists name, only_row rows base (th_name (fst e0)) [name; []; []] /\ names base name (th_name (fst e0))) /\
  forall e, In e l -> th_type (fst e) = TypeReg -> th_name (fst e) <> th_name (fst e0) ->
  exists row, only_row rows base (th_name (fst e)) row /\
    (right_row (o_digest o) (hash_used algo) base e row \/ script_row (o_digest o) (pl_scheme pl') root (data_name info) base wh e row).
Proof. exact record_installed. Qed.
Print Assumptions C56_install_partial.
(** The whole command.  Missing: also entry points whose names are not file names or are RECORD.  Line ends in names are changed to CR LF ([crlf]). *)
Theorem C56_command_partial : forall o space range sort outer order fuel pl pl' wh l, fair o -> pyc_outputs o -> (forall m, Permutation (range m) m) -> sorts sort ->
  (forall l, Permutation (outer l) l) -> (forall s l, Permutation (order s l) l) ->
  sanitize pl = Some pl' -> inner_scheme (pl_scheme pl') -> inner_names wh -> never_nested (pl_scheme pl') wh -> tidy_entry_points pl' wh ->
  layer_wheel o space range sort outer order fuel pl wh = IOk l ->
  exists info root, info_of wh info /\ root_of (pl_scheme pl') root /\
  let base := join $"/" (clean_comps root) in
  exists e0 rows, In e0 l /\ th_name (fst e0) = join $"/" (clean_comps root ++ [info; $"RECORD"]) /\ th_type (fst e0) = TypeReg /\
  rfc4180 (snd e0) = Some (map (map crlf) rows) /\ StronglySorted row_before rows /\
  (forall row, In row rows -> exists e, In e l /\ th_type (fst e) <> TypeDir /\ leads_to base (row_name_of row) (th_name (fst e))) /\
  (exists name, only_row rows base (th_name (fst e0)) [name; []; []] /\ names base name (th_name (fst e0))) /\
  forall e, In e l -> th_type (fst e) = TypeReg -> th_name (fst e) <> th_name (fst e0) ->
  exists row, only_row rows base (th_name (fst e)) row /\
    (right_row (o_digest o) $"sha256" base e row \/ script_row (o_digest o) (pl_scheme pl') root (data_name info) base wh e row).
Proof. exact command_records. Qed.
Print Assumptions C56_command_partial.
(** What is written is CSV as in RFC 4180, with line ends in fields changed. *)
Theorem C56_csv : forall space rows, Forall (fun r => r <> []) rows -> rfc4180 (csv_write space rows) = Some (map (map crlf) rows).
Proof. exact csv_rfc4180. Qed.
Print Assumptions C56_csv.
(** The name in a row is the shortest that leads from the directory to the file. *)
Theorem C56_names : forall base file, names base (rel_abs ($"/" ++ base) ($"/" ++ file)) file.
Proof. exact rel_names. Qed.
Print Assumptions C56_names.
(** A script whose first line was changed is recorded with size and digest of the original. *)
Theorem C56_script_refuted : exists l e, ex_layer ex_command = IOk l /\ In e l /\ th_name (fst e) = $"usr/bin/run" /\ snd e = $"#!/bin/python3.9" /\
  exists e0 rows, In e0 l /\ th_name (fst e0) = $"usr/lib/foo-1.0.dist-info/RECORD" /\ rfc4180 (snd e0) = Some rows /\
    In [$"../bin/run"; $"sha256=#!python"; $"8"] rows.
Proof. exact script_unrecorded. Qed.
Print Assumptions C56_script_refuted.
(** CR in a name is lost. *)
Theorem C56_cr_refuted : exists l e e0 rows, ex_layer ex_cr_name = IOk l /\ In e l /\ th_type (fst e) = TypeReg /\ In e0 l /\ th_name (fst e0) = $"usr/lib/foo-1.0.dist-info/RECORD" /\
  rfc4180 (snd e0) = Some rows /\ forall row, In row rows -> ~ leads_to $"usr/lib" (row_name_of row) (th_name (fst e)).
Proof. exact cr_unrecorded. Qed.
Print Assumptions C56_cr_refuted.
(** An entry point can lead to RECORD, which is then recorded twice. *)
Theorem C56_twice_refuted : exists l e0 rows row1 row2, ex_layer ex_record_point = IOk l /\ In e0 l /\ th_name (fst e0) = $"usr/lib/foo-1.0.dist-info/RECORD" /\
  rfc4180 (snd e0) = Some rows /\ In row1 rows /\ In row2 rows /\ row1 <> row2 /\ row_name_of row1 = $"foo-1.0.dist-info/RECORD" /\ row_name_of row2 = $"foo-1.0.dist-info/RECORD".
Proof. exact two_rows. Qed.
Print Assumptions C56_twice_refuted.
Example C56_case : exists l, fair (ex_tools_of ex_out) /\ pyc_outputs (ex_tools_of ex_out) /\ sorts (@insertion_sort (list str)) /\ sanitize ex_platform = Some ex_pl /\
  tame (pl_scheme ex_pl) ex_command /\ tidy_entry_points ex_pl ex_command /\ ex_layer ex_command = IOk l /\
  forall text, text_of $"usr/lib/foo-1.0.dist-info/RECORD" (IOk l) = Some text -> option_map (map row_name_of) (rfc4180 text) =
    Some [$"../bin/foo"; $"../bin/foow"; $"../bin/run"; $"foo-1.0.dist-info/INSTALLER"; $"foo-1.0.dist-info/RECORD"; $"foo-1.0.dist-info/WHEEL";
          $"foo-1.0.dist-info/entry_points.txt"; $"foo/__pycache__/a.pyc"; $"foo/a.py"].
Proof.
  eexists. split; [exact ex_fair|]. split; [now apply ex_outputs|]. split; [apply insertion_sorts|]. split; [exact ex_sanitize|]. split; [exact command_tame|]. split; [exact command_tidy|].
  split; [vm_compute; reflexivity|]. intros text E. vm_compute in E. injection E as <-. vm_compute. reflexivity.
Qed.
Print Assumptions C56_case.

(** ** C57 *)
(** direct_url.json, for every record: the members of PEP 610, sorted by name, empty optional ones left out; strings as [go_quote] writes them. *)
Theorem C57_record : forall u, json_dumps (url_value u) = Some (url_text u) /\ url_text u = url_json go_quote u.
Proof. exact url_python. Qed.
Print Assumptions C57_record.
(** They are JSON literals for these strings. *)
Theorem C57_strings : forall s, string_value (go_quote s) = Some s.
Proof. exact quote_value. Qed.
Print Assumptions C57_strings.
(** The function that writes JSON, for values without arrays or objects in arrays.  It does not panic. *)
Theorem C57_values_partial : forall v, flat_arrays v = true -> json_dumps v = Some (py_dumps v).
Proof. exact dumps_python. Qed.
Print Assumptions C57_values_partial.
(** In an array, no separator is written before an array or object.  No record has any. *)
Theorem C57_nested_refuted : json_dumps ex_nested_arrays = Some $"[[][]]" /\ py_dumps ex_nested_arrays = $"[[], []]".
Proof. exact nested_arrays. Qed.
Print Assumptions C57_nested_refuted.
Example C57_case : url_text ex_url =
  $"{""dir_info"": {""editable"": true}, ""url"": ""https://example.com/a?b\u0026c=\""d\"""", ""vcs_info"": {""commit_id"": ""0123abcd"", ""requested_revision"": ""v1.0"", ""vcs"": ""git""}}".
Proof. vm_compute. reflexivity. Qed.
Print Assumptions C57_case.
