(** C50 to C55, C70, C71: installing wheels.  [install_wheel o fuel pl min_time max_time wh] is
    InstallWheel for an archive with the entries [wh]; [o] holds what is outside the model
    (CSV reader, hash functions, compiler, post-install hook, encoder of tar headers) and the
    choices of the Go runtime (the order of map iteration and of sort.Slice).  [sanitize] makes
    the directories of the platform relative and fills in the interpreters. *)
From Coq Require Import String Ascii List Bool NArith ZArith Permutation.
From Verif.Model Require Import GoStr GoPath Tar Stat Layer ConfigParser Platform WheelFile Wheel.
From Verif.Spec Require Import PathSpec SimpleAPISpec LayerSpec WheelSpec WheelExamples.
From Verif.Proofs Require Import WheelFacts WheelSame WheelCases.
Import ListNotations.
Local Open Scope nat_scope.

(** ** C50: integrity *)
(** Missing: archives with two entries of the same name, with entries whose mode is that of a
    directory but whose name is not, with names that have "..", with nested data directories. *)
Theorem C50_recorded_partial : forall o fuel pl pl' min mx wh l, fair o -> good_names o -> sanitize pl = Some pl' ->
  inner_scheme (pl_scheme pl') -> inner_names wh -> never_nested (pl_scheme pl') wh ->
  distinct_names wh -> honest_dirs wh ->
  install_wheel o fuel pl min mx wh = IOk l ->
  exists info root, info_of wh info /\ root_of (pl_scheme pl') root /\ Forall (origin o pl' min (max_time o wh mx) wh root info l) l /\
  forall f e, In f wh -> In e l -> entry_from pl' root (data_name info) f e -> ~ In (th_name (fst e)) (left_out root info) ->
    entry_is_dir f = false -> recorded o wh info f.
Proof. exact wheel_recorded. Qed.
Print Assumptions C50_recorded_partial.
(** The check reads the first entry of a name, the installation takes the last. *)
Theorem C50_duplicate_refuted : exists l e, install_wheel ex_out 9 ex_platform None None ex_twice = IOk l /\ In e l /\
  th_name (fst e) = $"usr/lib/foo/a.py" /\ snd e = $"evil" /\
  forall record text ok rows, In record ex_twice -> clean_comps (z_name (zf_header record)) = [$"foo-1.0.dist-info"; $"RECORD"] ->
  zf_content record = Bytes text ok -> o_csv ex_out text = Some rows -> forall name algo size, ~ In [name; algo ++ $"=" ++ o_digest ex_out algo (snd e); size] rows.
Proof. exact twice_unrecorded. Qed.
Print Assumptions C50_duplicate_refuted.
(** The check goes by the mode, the installation by the name. *)
Theorem C50_directory_refuted : exists l e, install_wheel ex_out 9 ex_platform None None ex_dirmode = IOk l /\ In e l /\
  th_name (fst e) = $"usr/lib/foo/b.py" /\ th_type (fst e) = TypeReg /\ snd e = $"evil" /\
  forall record text ok rows, In record ex_dirmode -> clean_comps (z_name (zf_header record)) = [$"foo-1.0.dist-info"; $"RECORD"] ->
  zf_content record = Bytes text ok -> o_csv ex_out text = Some rows -> forall name algo size, ~ In [name; algo ++ $"=" ++ o_digest ex_out algo (snd e); size] rows.
Proof. exact dirmode_unrecorded. Qed.
Print Assumptions C50_directory_refuted.
Example C50_case : exists pl' l, fair ex_out /\ good_names ex_out /\ sanitize ex_platform = Some pl' /\ inner_scheme (pl_scheme pl') /\
  inner_names ex_good /\ never_nested (pl_scheme pl') ex_good /\ distinct_names ex_good /\ honest_dirs ex_good /\
  install_wheel ex_out 9 ex_platform None None ex_good = IOk l /\ length l = 15%nat.
Proof.
  exists ex_pl. eexists. split; [exact ex_fair|]. split; [now apply ex_names|]. split; [exact ex_sanitize|]. split; [exact ex_inner|].
  split; [apply ex_tame|]. split; [apply ex_tame|]. split; [exact ex_distinct|]. split; [exact ex_honest|]. split; vm_compute; reflexivity.
Qed.
Print Assumptions C50_case.

(** ** C51: where files go *)
(** Missing: names with ".." or a leading slash, nested data directories. *)
Theorem C51_inside_partial : forall o fuel pl pl' min mx wh l, fair o -> good_names o -> sanitize pl = Some pl' ->
  inner_scheme (pl_scheme pl') -> inner_names wh -> never_nested (pl_scheme pl') wh ->
  install_wheel o fuel pl min mx wh = IOk l ->
  exists info root, info_of wh info /\ root_of (pl_scheme pl') root /\
  Forall (fun e => origin o pl' min (max_time o wh mx) wh root info l e /\
    (forall f, In f wh -> entry_from pl' root (data_name info) f e ->
       exists dir rest, In dir (scheme_paths (pl_scheme pl')) /\ th_name (fst e) = join $"/" (clean_comps dir ++ rest))) l.
Proof. exact wheel_inside. Qed.
Print Assumptions C51_inside_partial.
(** Nothing is lost: an entry of the archive arrives at its destination, unless another one has the same. *)
Theorem C51_complete_partial : forall o fuel pl pl' min mx wh l, fair o -> good_names o -> sanitize pl = Some pl' -> 
  inner_scheme (pl_scheme pl') -> inner_names wh -> never_nested (pl_scheme pl') wh ->
  install_wheel o fuel pl min mx wh = IOk l ->
  exists info root, info_of wh info /\ root_of (pl_scheme pl') root /\ dist_info_dir wh = Some info /\ root_dir o (pl_scheme pl') info wh = Some root /\
  forall f key name, In f wh -> destination (pl_scheme pl') root (data_name info) (z_name (zf_header f)) = Some (key, name) ->
    taken (pl_scheme pl') root (data_name info) wh f name \/
    In name (left_out root info) \/
    (exists outs, compiles o pl' (max_time o wh mx) wh root info outs /\ In name (map ref_full outs)) \/
    (exists fs fs', hooks o pl' min (max_time o wh mx) wh fs fs' /\ get_key name fs' <> get_key name fs) \/
    (exists e, In e l /\ th_name (fst e) = name /\ entry_from pl' root (data_name info) f e /\
       th_mtime (fst e) = option_map round_second (clamp (max_time o wh mx) (match min with Some _ => min | None => z_modified (zf_header f) end))).
Proof. exact wheel_alone. Qed.
Print Assumptions C51_complete_partial.
(** The directories of the platform *)
Theorem C51_platform_partial : forall pl pl', sanitize pl = Some pl' ->
  (pl_console pl <> [] -> pl_console pl' = pl_console pl) /\ (pl_graphical pl <> [] -> pl_graphical pl' = pl_graphical pl) /\
  (pl_console pl = [] -> pl_console pl' = pl_graphical pl) /\ (pl_graphical pl = [] -> pl_graphical pl' = pl_console pl) /\
  Forall2 (fun p p' => p = $"/" ++ p') (scheme_paths (pl_scheme pl)) (scheme_paths (pl_scheme pl')).
Proof. exact sanitized. Qed.
Print Assumptions C51_platform_partial.
(** Names with ".." are not rejected. *)
Theorem C51_climb_refuted : exists l e, install_wheel ex_out 9 ex_platform None None ex_outside = IOk l /\ In e l /\
  th_name (fst e) = $"etc/passwd" /\ snd e = $"evil" /\
  forall dir, In dir (scheme_paths (pl_scheme ex_platform)) -> ~ below dir ($"/" ++ th_name (fst e)).
Proof. exact escapes. Qed.
Print Assumptions C51_climb_refuted.
(** A file can take the place of the directory for scripts. *)
Theorem C51_whole_refuted : exists l e, install_wheel ex_out 9 ex_platform None None ex_whole = IOk l /\ In e l /\
  $"/" ++ th_name (fst e) = s_scripts (pl_scheme ex_platform) /\ th_type (fst e) = TypeReg /\ snd e = $"evil".
Proof. exact replaces. Qed.
Print Assumptions C51_whole_refuted.
Example C51_case : tame (pl_scheme ex_pl) ex_good /\ sanitize ex_platform = Some ex_pl /\
  destination (pl_scheme ex_pl) $"usr/lib" (data_name $"foo-1.0.dist-info") $"foo-1.0.data/headers/foo.h" = Some (Some $"headers", $"usr/include/foo.h").
Proof. split; [exact ex_tame|]. split; reflexivity. Qed.
Print Assumptions C51_case.

(** ** C52: scripts *)
(** Missing: names with ".." or a leading slash, nested data directories.  C51_inside_partial says the same of each entry of the layer that comes from the archive. *)
Theorem C52_scripts_partial : forall o fuel pl pl' min mx wh l, fair o -> good_names o -> sanitize pl = Some pl' -> 
  inner_scheme (pl_scheme pl') -> inner_names wh -> never_nested (pl_scheme pl') wh ->
  install_wheel o fuel pl min mx wh = IOk l ->
  exists info root, info_of wh info /\ root_of (pl_scheme pl') root /\
  forall f rest, In f wh -> clean_comps (z_name (zf_header f)) = data_name info :: $"scripts" :: rest -> entry_is_dir f = false ->
  forall name, name = join $"/" (clean_comps (s_scripts (pl_scheme pl')) ++ rest) ->
    taken (pl_scheme pl') root (data_name info) wh f name \/
    In name (left_out root info) \/
    (exists outs, compiles o pl' (max_time o wh mx) wh root info outs /\ In name (map ref_full outs)) \/
    (exists fs fs', hooks o pl' min (max_time o wh mx) wh fs fs' /\ get_key name fs' <> get_key name fs) \/
    (exists e text, In e l /\ zf_content f = Bytes text true /\ th_name (fst e) = name /\ th_type (fst e) = TypeReg /\ th_size (fst e) = Z.of_nat (length (snd e)) /\
       (forall r, text = $"#!pythonw" ++ r -> snd e = $"#!" ++ pl_graphical pl' ++ r /\ th_mode (fst e) = 493%Z) /\
       (forall r, text = $"#!python" ++ r -> has_prefix $"w" r = false -> snd e = $"#!" ++ pl_console pl' ++ r /\ th_mode (fst e) = 493%Z) /\
       (has_prefix $"#!python" text = false -> snd e = text /\ th_mode (fst e) = if marked_executable f then 493%Z else 420%Z)).
Proof. exact wheel_scripts. Qed.
Print Assumptions C52_scripts_partial.
Example C52_case : exists l e1 e2 e3, install_wheel ex_out 9 ex_platform None None ex_good = IOk l /\ In e1 l /\ In e2 l /\ In e3 l /\
  (th_name (fst e1), th_mode (fst e1), snd e1) = ($"usr/bin/run", 493%Z, $"#!/bin/python3.9 -E") /\
  (th_name (fst e2), th_mode (fst e2), snd e2) = ($"usr/bin/wrun", 493%Z, $"#!/bin/pythonw3.9") /\
  (th_name (fst e3), th_mode (fst e3), snd e3) = ($"usr/bin/sh", 420%Z, $"#!/bin/sh").
Proof.
  do 4 eexists. split; [vm_compute; reflexivity|]. split; [do 2 right; left; reflexivity|]. split; [do 4 right; left; reflexivity|].
  split; [do 3 right; left; reflexivity|]. repeat split.
Qed.
Print Assumptions C52_case.

(** ** C53: directories above *)
Theorem C53_parents_partial : forall o fuel pl pl' min mx wh l, fair o -> good_names o -> sanitize pl = Some pl' ->
  inner_scheme (pl_scheme pl') -> inner_names wh -> never_nested (pl_scheme pl') wh ->
  install_wheel o fuel pl min mx wh = IOk l ->
  forall e d, In e l -> below d (th_name (fst e)) -> precedes d (th_name (fst e)) (map (fun e => th_name (fst e)) l).
Proof. exact wheel_parents. Qed.
Print Assumptions C53_parents_partial.
(** The search for them ends. *)
Theorem C53_returns_partial : forall o pl pl' min mx wh, fair o -> good_names o -> sanitize pl = Some pl' ->
  inner_scheme (pl_scheme pl') -> inner_names wh -> never_nested (pl_scheme pl') wh ->
  exists n, forall fuel, n <= fuel -> install_wheel o fuel pl min mx wh <> ILoop.
Proof. exact wheel_returns. Qed.
Print Assumptions C53_returns_partial.
(** It does not end if a directory of the platform starts with two slashes. *)
Theorem C53_slashes_refuted : forall fuel, install_wheel ex_out fuel ex_platform_slashes None None ex_good = ILoop.
Proof. exact never_ends. Qed.
Print Assumptions C53_slashes_refuted.
(** What is above can be a regular file. *)
Theorem C53_file_refuted : exists l e e', install_wheel ex_out 9 ex_platform None None ex_file_above = IOk l /\ In e l /\ In e' l /\
  below (th_name (fst e')) (th_name (fst e)) /\ th_type (fst e') = TypeReg.
Proof. exact file_above. Qed.
Print Assumptions C53_file_refuted.

(** ** C54: ownership *)
Theorem C54_owner : forall o fuel pl min mx wh l, fair o -> install_wheel o fuel pl min mx wh = IOk l ->
  Forall (fun e => th_uid (fst e) = pl_uid pl /\ th_gid (fst e) = pl_gid pl /\ th_uname (fst e) = pl_uname pl /\ th_gname (fst e) = pl_gname pl) l.
Proof. exact wheel_owner. Qed.
Print Assumptions C54_owner.
(** No entry has device numbers, and none but hard links a target. *)
Theorem C54_no_devices : forall o fuel pl min mx wh l, fair o -> install_wheel o fuel pl min mx wh = IOk l ->
  Forall (fun e => th_devmajor (fst e) = 0%Z /\ th_devminor (fst e) = 0%Z /\ th_format (fst e) = 0%Z /\ (th_type (fst e) <> TypeLink -> th_link (fst e) = [])) l.
Proof. exact wheel_devices. Qed.
Print Assumptions C54_no_devices.
Example C54_case : exists e l, install_wheel ex_out 9 ex_platform None None ex_good = IOk (e :: l) /\ th_uid (fst e) = 7%Z /\ th_gname (fst e) = $"g".
Proof. do 2 eexists. split; [vm_compute; reflexivity|]. split; reflexivity. Qed.
Print Assumptions C54_case.

(** ** C55: reproducibility *)
(** Also errors are the same.  Missing: archives with files that have the same destination, nested data directories. *)
Theorem C55_same_partial : forall o o' fuel pl pl' min mx wh wh', fair o -> fair o' -> same_tools o o' -> good_names o -> distinct_outputs o -> distinct_outputs o' ->
  sanitize pl = Some pl' -> tame (pl_scheme pl') wh -> same_hooks o o' pl' min wh -> Permutation wh wh' ->
  install_wheel o fuel pl min mx wh = install_wheel o' fuel pl min mx wh'.
Proof. exact wheel_same. Qed.
Print Assumptions C55_same_partial.
(** Two files with the same destination *)
Theorem C55_clash_refuted : fair ex_out /\ fair ex_out_rev /\ same_tools ex_out ex_out_rev /\ o_hook ex_out = o_hook ex_out_rev /\ exists l l',
  install_wheel ex_out 9 ex_platform_same None None ex_clash = IOk l /\ install_wheel ex_out_rev 9 ex_platform_same None None ex_clash = IOk l' /\
  l <> l' /\ map (fun e => th_name (fst e)) l = map (fun e => th_name (fst e)) l'.
Proof. exact order_matters. Qed.
Print Assumptions C55_clash_refuted.
(** Whether a key that is added during a loop over a map is visited is not specified. *)
Theorem C55_nested_refuted : fair ex_out /\ fair ex_out_more /\ exists l l',
  install_wheel ex_out 9 ex_platform None None ex_nested = IOk l /\ install_wheel ex_out_more 9 ex_platform None None ex_nested = IOk l' /\
  ~ In $"usr/bin/run" (map (fun e => th_name (fst e)) l) /\ In $"usr/bin/run" (map (fun e => th_name (fst e)) l').
Proof. exact range_matters. Qed.
Print Assumptions C55_nested_refuted.
(** Two entries with the same name *)
Theorem C55_duplicate_refuted : Permutation ex_twice (rev ex_twice) /\ exists l l',
  install_wheel ex_out 9 ex_platform None None ex_twice = IOk l /\ install_wheel ex_out 9 ex_platform None None (rev ex_twice) = l' /\ IOk l <> l'.
Proof. exact archive_order_matters. Qed.
Print Assumptions C55_duplicate_refuted.
Example C55_case : fair ex_out /\ fair ex_out_rev /\ same_tools ex_out ex_out_rev /\ good_names ex_out /\ distinct_outputs ex_out /\ distinct_outputs ex_out_rev /\
  tame (pl_scheme ex_pl) ex_good /\ same_hooks ex_out ex_out_rev ex_pl None ex_good /\ o_spread ex_out (unpack_wheel None $"usr/lib" ex_good) <> o_spread ex_out_rev (unpack_wheel None $"usr/lib" ex_good).
Proof.
  split; [exact ex_fair|]. split; [exact ex_rev_fair|]. split; [exact ex_tools|]. split; [now apply ex_names|]. split; [now apply ex_outputs|]. split; [now apply ex_outputs|]. split; [exact ex_tame|]. split; [destruct ex_tame as (? & ? & ? & _); now apply ex_hooks|].
  intros E. apply (f_equal (hd [])) in E. vm_compute in E. discriminate.
Qed.
Print Assumptions C55_case.

(** ** C70: times *)
(** Without a maximum, generated files are later than all files of the archive. *)
Theorem C70_later : forall o wh f x, In f wh -> z_modified (zf_header f) = Some x ->
  exists t, max_time o wh None = Some t /\ (x < t)%Z /\ (t mod 1000000000 = 0)%Z.
Proof. exact max_later. Qed.
Print Assumptions C70_later.
(** No file is later than that. *)
Theorem C70_bounded : forall o fuel pl min mx wh l, fair o -> (mx = None -> (o_now o mod 1000000000 = 0)%Z) -> whole_second mx ->
  install_wheel o fuel pl min mx wh = IOk l ->
  exists t, max_time o wh mx = Some t /\ Forall (fun e => time_le (th_mtime (fst e)) (Some t)) l.
Proof. exact wheel_times. Qed.
Print Assumptions C70_bounded.
(** C71_times in P33 is for all names; for plain names, the files are there. *)
Theorem C71_kept : forall o fuel pl pl' min wh l, fair o -> good_names o -> sanitize pl = Some pl' -> 
  inner_scheme (pl_scheme pl') -> inner_names wh -> never_nested (pl_scheme pl') wh ->
  install_wheel o fuel pl min None wh = IOk l ->
  exists info root, info_of wh info /\ root_of (pl_scheme pl') root /\
  forall f key name x, In f wh -> destination (pl_scheme pl') root (data_name info) (z_name (zf_header f)) = Some (key, name) ->
    z_modified (zf_header f) = Some x -> min = None ->
    taken (pl_scheme pl') root (data_name info) wh f name \/
    In name (left_out root info) \/
    (exists outs, compiles o pl' (max_time o wh None) wh root info outs /\ In name (map ref_full outs)) \/
    (exists fs fs', hooks o pl' min (max_time o wh None) wh fs fs' /\ get_key name fs' <> get_key name fs) \/
    (exists e, In e l /\ th_name (fst e) = name /\ entry_from pl' root (data_name info) f e /\ th_mtime (fst e) = Some (round_second x)).
Proof. exact wheel_mtime. Qed.
Print Assumptions C71_kept.
Example C70_case : max_time ex_out ex_good None = Some 14000000000%Z /\ (o_now ex_out mod 1000000000 = 0)%Z /\ round_second ex_time = 13000000000%Z.
Proof. vm_compute. repeat split. Qed.
Print Assumptions C70_case.
