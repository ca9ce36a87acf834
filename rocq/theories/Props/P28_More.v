(** C93: the REQUESTED file; C94: kinds of versions; C14: the policy that allows everything. *)
From Coq Require Import String Ascii List Bool NArith ZArith Permutation.
From Verif.Model Require Import GoStr GoPath Pep440 Specifier Tar Stat Layer ConfigParser Platform WheelFile Wheel DirectURL Record.
From Verif.Spec Require Import Pep440Spec KindSpec PathSpec SimpleAPISpec LayerSpec WheelSpec RecordSpec WheelExamples RecordExamples RequestedSpec.
From Verif.Proofs Require Import Pep440Sound KindFacts WheelFacts WheelSame WheelCases RecordFacts RecordCases RequestedFacts.
Import ListNotations.
Local Open Scope nat_scope.

(** ** C93 *)
(** The hook adds a file REQUESTED to the .dist-info directory, empty or with the comment as its only line, changes
    nothing else, and leaves the files fit for further hooks. *)
Theorem C93_hook_partial : forall comment t fs info, hook_input fs info ->
  exists fs', requested_hook comment t fs info = Some fs' /\ hook_input fs' info /\
    (exists text, marker comment text /\ plain_file (in_info info $"REQUESTED") t text fs') /\
    (forall k, k <> in_info info $"REQUESTED" -> get_key k fs' = get_key k fs).
Proof. exact requested_ok. Qed.
Print Assumptions C93_hook_partial.
(** If the installation is recorded after that, RECORD has one row for the file, with its digest and size. *)
Theorem C93_recorded_partial : forall space digest range sort algo installer url comment t fs info fs',
  (forall m, Permutation (range m) m) -> sorts sort -> hook_input fs info ->
  run_hooks [requested_hook comment; record_hook space digest range sort algo installer url] t fs info = Some fs' ->
  exists text record rows name, marker comment text /\ plain_file (in_info info $"REQUESTED") t text fs' /\
    plain_file (in_info info $"RECORD") t record fs' /\ rfc4180 record = Some (map (map crlf) rows) /\
    names (parent info) name (in_info info $"REQUESTED") /\
    only_row rows (parent info) (in_info info $"REQUESTED") [name; hash_used algo ++ $"=" ++ digest (hash_used algo) text; itoa (Z.of_nat (length text))].
Proof. exact requested_recorded. Qed.
Print Assumptions C93_recorded_partial.
(** So in the layer.  Missing: as for C56. *)
Theorem C93_installed_partial : forall o space range sort algo installer url comment fuel pl pl' min mx wh l,
  fair o -> pyc_outputs o -> (forall m, Permutation (range m) m) -> sorts sort ->
  (forall t fs info, o_hook o t fs info = run_hooks [requested_hook comment; record_hook space (o_digest o) range sort algo installer url] t fs info) ->
  sanitize pl = Some pl' -> inner_scheme (pl_scheme pl') -> inner_names wh -> never_nested (pl_scheme pl') wh ->
  install_wheel o fuel pl min mx wh = IOk l ->
  exists info root, info_of wh info /\ root_of (pl_scheme pl') root /\
  let base := join $"/" (clean_comps root) in
  exists e e0 rows row, In e l /\ th_name (fst e) = join $"/" (clean_comps root ++ [info; $"REQUESTED"]) /\ th_type (fst e) = TypeReg /\ th_mode (fst e) = 420%Z /\ marker comment (snd e) /\
  In e0 l /\ th_name (fst e0) = join $"/" (clean_comps root ++ [info; $"RECORD"]) /\ th_type (fst e0) = TypeReg /\ rfc4180 (snd e0) = Some (map (map crlf) rows) /\
  only_row rows base (th_name (fst e)) row /\ right_row (o_digest o) (hash_used algo) base e row.
Proof. exact requested_installed. Qed.
Print Assumptions C93_installed_partial.
(** A case; if the order of the hooks is the other, RECORD does not have the file. *)
Example C93_case : fair (ex_hooked [asked; ex_record]) /\ pyc_outputs (ex_hooked [asked; ex_record]) /\ sanitize ex_platform = Some ex_pl /\ tame (pl_scheme ex_pl) ex_command /\
  text_of $"usr/lib/foo-1.0.dist-info/REQUESTED" (ex_asked [asked; ex_record]) = Some ($"# by hand" ++ [nl]) /\
  option_map (fun text => option_map (map row_name_of) (rfc4180 text)) (text_of $"usr/lib/foo-1.0.dist-info/RECORD" (ex_asked [asked; ex_record])) =
    Some (Some [$"../bin/run"; $"foo-1.0.dist-info/INSTALLER"; $"foo-1.0.dist-info/RECORD"; $"foo-1.0.dist-info/REQUESTED"; $"foo-1.0.dist-info/WHEEL";
      $"foo-1.0.dist-info/entry_points.txt"; $"foo/__pycache__/a.pyc"; $"foo/a.py"]) /\
  option_map (fun text => option_map (@length _) (rfc4180 text)) (text_of $"usr/lib/foo-1.0.dist-info/RECORD" (ex_asked [ex_record; asked])) = Some (Some 7).
Proof.
  split; [exact ex_fair|]. split; [now apply ex_outputs|]. split; [exact ex_sanitize|]. split; [exact command_tame|]. vm_compute. repeat split.
Qed.
Print Assumptions C93_case.
(** A file of the wheel whose name climbs out of the root directory can have the same name in RECORD. *)
Theorem C93_twice_refuted : exists l e rows row row', install_wheel (ex_hooked [asked; ex_record]) 9 ex_platform None None ex_lure = IOk l /\
  In e l /\ th_name (fst e) = $"usr/lib/foo-1.0.dist-info/RECORD" /\ rfc4180 (snd e) = Some rows /\ In row rows /\ In row' rows /\ row <> row' /\
  row_name_of row = $"foo-1.0.dist-info/REQUESTED" /\ row_name_of row' = $"foo-1.0.dist-info/REQUESTED".
Proof.
  do 2 eexists. exists [[$"foo-1.0.dist-info/INSTALLER"; $"sha256=pip"; $"4"]; [$"foo-1.0.dist-info/RECORD"; []; []]; [$"foo-1.0.dist-info/REQUESTED"; $"sha256=lure"; $"4"];
    [$"foo-1.0.dist-info/REQUESTED"; $"sha256=# by hand"; $"10"]; [$"foo-1.0.dist-info/WHEEL"; $"sha256=true"; $"4"]].
  do 2 eexists. split; [vm_compute; reflexivity|]. split; [do 9 right; left; reflexivity|]. split; [reflexivity|]. split; [vm_compute; reflexivity|].
  split; [do 2 right; left; reflexivity|]. split; [do 3 right; left; reflexivity|]. split; [discriminate|]. split; reflexivity.
Qed.
Print Assumptions C93_twice_refuted.

(** ** C94: what IsFinal, IsPreRelease, Major, Minor and Micro tell can be read off what String gives, and a pre-release
    is older than the same version without the pre-release and development numbers. *)
Theorem C94_kinds : forall s v, parse_version s = Some v ->
  (is_final v = true <-> release_only (version_string v)) /\
  (is_prerelease (pub v) = true <-> abcd (public_string (pub v))) /\
  (exists l, numbered (version_string v) l /\ major (pub v) = nth 0 l 0%Z /\ minor (pub v) = nth 1 l 0%Z /\ micro (pub v) = nth 2 l 0%Z) /\
  (is_prerelease (pub v) = true -> (cmp v (released v) < 0)%Z).
Proof. exact kinds. Qed.
Print Assumptions C94_kinds.
Example C94_case : exists v w, parse_version $"v1!2.5-rc.3.DEV4+Local" = Some v /\ parse_version $"2.5.post7" = Some w /\
  version_string v = $"1!2.5rc3.dev4+local" /\ is_final v = false /\ is_prerelease (pub v) = true /\ (major (pub v), minor (pub v), micro (pub v)) = (2, 5, 0)%Z /\
  is_final w = false /\ is_prerelease (pub w) = false.
Proof.
  eexists _, _. split; [vm_compute; reflexivity|]. split; [vm_compute; reflexivity|]. vm_compute. auto 10.
Qed.

(** ** C14 *)
Theorem C14_allow_all_partial : forall spec choices, select spec choices (Some allow_all) = select spec choices None.
Proof. exact select_all. Qed.
Print Assumptions C14_allow_all_partial.
