(** C100, and more of C51, C52 and C71: installing any wheel, with any names in it.
    [install_wheel], [fair] and [sanitize] as in P13. *)
From Coq Require Import String Ascii List Bool NArith ZArith Permutation.
From Verif.Model Require Import GoStr GoPath Tar Stat Layer ConfigParser Platform WheelFile Wheel.
From Verif.Spec Require Import PathSpec SimpleAPISpec LayerSpec WheelSpec WheelExamples WheelAnySpec LandsSpec.
From Verif.Proofs Require Import WheelFacts WheelSame WheelCases WheelAny WheelLands.
Import ListNotations.
Local Open Scope nat_scope.

(** ** C100: only files and directories, with modes 0755 and 0644 *)
Theorem C100_plain : forall o fuel pl pl' min mx wh l, fair o -> sanitize pl = Some pl' -> install_wheel o fuel pl min mx wh = IOk l ->
  Forall (fun e => by_tools o pl' min (max_time o wh mx) wh e \/
    (th_mode (fst e) = 493%Z \/ th_mode (fst e) = 420%Z) /\ th_link (fst e) = [] /\ th_devmajor (fst e) = 0%Z /\ th_devminor (fst e) = 0%Z /\
    ((th_type (fst e) = TypeDir /\ snd e = []) \/
     (th_type (fst e) = TypeReg /\ exists f, In f wh /\ bytes_of pl' f e))) l.
Proof. exact wheel_plain. Qed.
Print Assumptions C100_plain.
Example C100_case : fair ex_out /\ sanitize ex_platform = Some ex_pl /\ exists l, install_wheel ex_out 9 ex_platform None None ex_special = IOk l /\
  map (fun f => za_unix (zip_parse (z_attrs (zf_header f)))) ex_special = [33188%N; 41471%N; 25008%N; 35309%N; 33188%N] /\
  map (fun e => (th_name (fst e), th_type (fst e), th_mode (fst e))) l =
    [($"usr", TypeDir, 493%Z); ($"usr/lib", TypeDir, 493%Z); ($"usr/lib/foo", TypeDir, 493%Z); ($"usr/lib/foo/disk", TypeReg, 420%Z);
     ($"usr/lib/foo/link", TypeReg, 420%Z); ($"usr/lib/foo/su", TypeReg, 493%Z); ($"usr/lib/foo-1.0.dist-info", TypeDir, 493%Z);
     ($"usr/lib/foo-1.0.dist-info/INSTALLER", TypeReg, 420%Z); ($"usr/lib/foo-1.0.dist-info/WHEEL", TypeReg, 420%Z)].
Proof. split; [exact ex_fair|]. split; [exact ex_sanitize|]. eexists. split; [vm_compute; reflexivity|]. split; vm_compute; reflexivity. Qed.
Print Assumptions C100_case.

(** Which files these are, and which of them have the mode 0755 *)
Theorem C100_files : forall o fuel pl pl' min mx wh l, fair o -> sanitize pl = Some pl' -> install_wheel o fuel pl min mx wh = IOk l ->
  exists info root, metadata_of wh info /\ root_of (pl_scheme pl') root /\
  Forall (fun e => th_type (fst e) = TypeReg -> tools_made o pl' min (max_time o wh mx) wh root info e \/
    exists f key name, In f wh /\ lands (pl_scheme pl') root (path_join [root; data_name info]) (z_name (zf_header f)) key name /\
      th_name (fst e) = clean name /\ ~ In name (omitted root info) /\ file_from pl' key f e /\
      th_mtime (fst e) = option_map round_second (clamp (max_time o wh mx) (match min with Some _ => min | None => z_modified (zf_header f) end))) l.
Proof. exact wheel_lands. Qed.
Print Assumptions C100_files.
Example C100_files_case : exists l e, install_wheel ex_out_more 9 ex_platform None None ex_nested = IOk l /\ In e l /\ th_type (fst e) = TypeReg /\
  th_name (fst e) = $"usr/bin/run" /\ snd e = $"#!/bin/python3.9" /\ th_mode (fst e) = 493%Z /\ metadata_of ex_nested $"foo-1.0.dist-info" /\
  lands (pl_scheme ex_pl) $"usr/lib" (path_join [$"usr/lib"; data_name $"foo-1.0.dist-info"]) $"foo-1.0.data/purelib/foo-1.0.data/scripts/run" (Some $"scripts") $"usr/bin/run".
Proof.
  do 2 eexists. split; [vm_compute; reflexivity|]. split; [do 2 right; left; reflexivity|]. do 4 (split; [reflexivity|]). split.
  - split; [reflexivity|]. split; [eexists; split; [left; reflexivity|reflexivity]|]. intros f I. repeat (destruct I as [<-|I]; [vm_compute; auto; discriminate|]). destruct I.
  - apply (moved _ _ _ _ (Some $"purelib") $"scripts" $"/run" $"usr/bin"); [|vm_compute; intuition discriminate|right; eexists; reflexivity|reflexivity].
    apply (moved _ _ _ _ None $"purelib" $"/foo-1.0.data/scripts/run" $"usr/lib"); [|vm_compute; intuition discriminate|right; eexists; reflexivity|reflexivity].
    apply unpacked.
Qed.
Print Assumptions C100_files_case.

(** ** C71: modification times *)
Theorem C71_times : forall o fuel pl pl' wh l, fair o -> sanitize pl = Some pl' -> install_wheel o fuel pl None None wh = IOk l ->
  exists info root, metadata_of wh info /\ root_of (pl_scheme pl') root /\
  Forall (fun e => th_type (fst e) = TypeReg -> tools_made o pl' None (max_time o wh None) wh root info e \/
    exists f key name, In f wh /\ lands (pl_scheme pl') root (path_join [root; data_name info]) (z_name (zf_header f)) key name /\
      th_name (fst e) = clean name /\ file_from pl' key f e /\
      forall x, z_modified (zf_header f) = Some x -> th_mtime (fst e) = Some (round_second x)) l.
Proof. exact wheel_lands_times. Qed.
Print Assumptions C71_times.
Example C71_case : exists l e, install_wheel ex_out 9 ex_platform None None ex_outside = IOk l /\ In e l /\
  th_name (fst e) = $"etc/passwd" /\ th_type (fst e) = TypeReg /\ th_mtime (fst e) = Some (round_second ex_time).
Proof. do 2 eexists. split; [vm_compute; reflexivity|]. split; [right; left; reflexivity|]. split; [reflexivity|]. split; reflexivity. Qed.
Print Assumptions C71_case.

(** ** C52: scripts *)
(** The installed ones; missing: that all are installed (C52_shared_refuted). *)
Theorem C52_any_partial : forall o fuel pl pl' min mx wh l, fair o -> sanitize pl = Some pl' -> install_wheel o fuel pl min mx wh = IOk l ->
  exists info root, metadata_of wh info /\ root_of (pl_scheme pl') root /\
  Forall (fun e => th_type (fst e) = TypeReg -> tools_made o pl' min (max_time o wh mx) wh root info e \/
    exists f key name text, In f wh /\ lands (pl_scheme pl') root (path_join [root; data_name info]) (z_name (zf_header f)) key name /\
      th_name (fst e) = clean name /\ zf_content f = Bytes text true /\ th_size (fst e) = Z.of_nat (length (snd e)) /\
      if is_script key then snd e = shebang_line (pl_console pl') (pl_graphical pl') text /\ (has_prefix $"#!python" text = true -> th_mode (fst e) = 493%Z)
      else snd e = text) l.
Proof. exact wheel_lands_scripts. Qed.
Print Assumptions C52_any_partial.
(** Another file of the archive can take the place of a script; which of them is
    installed depends on the order of map iteration. *)
Theorem C52_shared_refuted : fair ex_out /\ fair ex_out_rev /\ exists l l' e e',
  install_wheel ex_out 9 ex_platform None None ex_shared = IOk l /\ install_wheel ex_out_rev 9 ex_platform None None ex_shared = IOk l' /\
  In (ex_reg $"foo-1.0.data/scripts/run" $"#!python -E") ex_shared /\
  In e l /\ In e' l' /\ (forall x, In x l -> th_name (fst x) = $"usr/bin/run" -> x = e) /\
  th_name (fst e) = $"usr/bin/run" /\ snd e = $"text" /\
  th_name (fst e') = $"usr/bin/run" /\ snd e' = $"#!/bin/python3.9 -E".
Proof.
  split; [exact ex_fair|]. split; [exact ex_rev_fair|]. do 4 eexists. split; [vm_compute; reflexivity|]. split; [vm_compute; reflexivity|].
  split; [right; left; reflexivity|]. split; [do 2 right; left; reflexivity|]. split; [do 2 right; left; reflexivity|].
  split; [|repeat split]. intros x I N. repeat (destruct I as [<-|I]; [try discriminate; reflexivity|]). destruct I.
Qed.
Print Assumptions C52_shared_refuted.
