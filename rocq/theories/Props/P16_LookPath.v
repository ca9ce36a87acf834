(** C60: looking for programs in an image.  [look_path utf8 n layers cfg name] models
    ImageFS.LookPath on an image with these layers and this configuration; [n] is the depth of
    recursion that the program has, [utf8] tells the valid UTF-8 texts; [unpack empty_root layers]
    is the unpacked image. *)
From Coq Require Import String Ascii List Bool ZArith Lia.
From Verif.Model Require Import GoStr GoPath Tar Squash VfsFS LookPath.
From Verif.Spec Require Import PathSpec SquashSpec VfsFSSpec LookPathSpec.
From Verif.Proofs Require Import LookPathFacts SquashHard VfsThrough LookThrough.
Import ListNotations.
Local Open Scope nat_scope.

(** A name without a slash: the first directory of PATH, in order, in which the name leads to
    something executable. *)
Theorem C60_path_order_partial : forall utf8 n layers wd env dirs name, handled layers -> path_dirs env dirs -> ~ In slash name ->
  (forall d, In d dirs -> askable utf8 (candidate wd d name)) ->
  match look_path utf8 n layers (Some (mkImageConfig wd env)) name with
  | Found s => exists pre dir post, dirs = pre ++ dir :: post /\ s = as_text (candidate wd dir name) /\ runs (unpack empty_root layers) (candidate wd dir name) /\
                 forall d, In d pre -> ~ runs (unpack empty_root layers) (candidate wd d name)
  | NotFound => forall d, In d dirs -> ~ runs (unpack empty_root layers) (candidate wd d name)
  | Crashed => True
  end.
Proof. exact look_path_searches. Qed.
Print Assumptions C60_path_order_partial.
(** A name with a slash stands for itself, if it is relative or cleaned. *)
Theorem C60_named_partial : forall utf8 n layers wd env name, handled layers -> In slash name -> askable utf8 (named wd name) ->
  is_abs name = false \/ clean name = name ->
  match look_path utf8 n layers (Some (mkImageConfig wd env)) name with
  | Found s => s = as_text (named wd name) /\ runs (unpack empty_root layers) (named wd name)
  | NotFound => ~ runs (unpack empty_root layers) (named wd name)
  | Crashed => True
  end.
Proof. exact look_path_named. Qed.
Print Assumptions C60_named_partial.
(** There is no crash if every path asked for settles: it leads somewhere, or nowhere because of a missing name, a file in the place of a directory or a ring of links ... *)
Theorem C60_returns_partial : forall utf8 layers wd env dirs name, handled layers -> path_dirs env dirs -> ~ In slash name ->
  (forall d, In d dirs -> askable utf8 (candidate wd d name) /\ settles (unpack empty_root layers) (candidate wd d name)) ->
  exists N, forall n, N <= n -> look_path utf8 n layers (Some (mkImageConfig wd env)) name <> Crashed.
Proof. exact look_path_returns. Qed.
Print Assumptions C60_returns_partial.
Theorem C60_named_returns_partial : forall utf8 layers wd env name, handled layers -> In slash name -> askable utf8 (named wd name) ->
  is_abs name = false \/ clean name = name -> settles (unpack empty_root layers) (named wd name) ->
  exists N, forall n, N <= n -> look_path utf8 n layers (Some (mkImageConfig wd env)) name <> Crashed.
Proof. exact look_path_named_returns. Qed.
Print Assumptions C60_named_returns_partial.
(** ... which is so for every path of an image without symbolic links. *)
Theorem C60_linkless_settles_partial : forall fs p, (forall q h c, fs q = Some (FFile h c) -> th_type h <> TypeSymlink) ->
  (exists m, fs [] = Some (FDir m)) -> plain_path p -> settles fs p.
Proof. exact linkless_settles. Qed.
Print Assumptions C60_linkless_settles_partial.
(** Images whose layers are written through links: the same programs are found as among the entries at the places where their links
    lead (C33), of which the above holds. *)
Theorem C60_through_partial : forall layers layers', Forall (Forall in_root) layers -> plain_stack layers' ->
  all_at_target empty_root (all_entries layers) (all_entries layers') ->
  exists N, forall n, N <= n -> forall utf8 cfg name, look_path utf8 n layers cfg name = look_path utf8 n layers' cfg name.
Proof. exact look_path_through. Qed.
Print Assumptions C60_through_partial.
(** "bin/sh" and "sbin/init", put through "bin" -> "usr/bin" and "sbin" -> "/bin" *)
Example C60_through_case : Forall (Forall in_root) merged_usr /\ handled merged_usr_real /\
  all_at_target empty_root (all_entries merged_usr) (all_entries merged_usr_real).
Proof. split; [exact merged_in_root|]. split; [apply handledb_ok; vm_compute; reflexivity|exact merged_at_target]. Qed.
(** The result is an absolute cleaned path. *)
Theorem C60_result_clean_partial : forall utf8 n layers cfg name s, handled layers -> look_path utf8 n layers cfg name = Found s ->
  clean s = s /\ is_abs s = true.
Proof. exact look_path_clean. Qed.
Print Assumptions C60_result_clean_partial.
(** So an absolute name that is not cleaned is never found, even if there is such a program. *)
Theorem C60_unclean_refuted :
  (forall utf8 n layers cfg name s, handled layers -> is_abs name = true -> clean name <> name -> look_path utf8 n layers cfg name <> Found s) /\
  handled an_image /\ runs (unpack empty_root an_image) (named [] $"/opt/../opt/run") /\ runs (unpack empty_root an_image) (named [] $"//opt/run") /\
  forall n, look_path (fun _ => true) (6 + n) an_image None $"/opt/../opt/run" = NotFound /\ look_path (fun _ => true) (6 + n) an_image None $"//opt/run" = NotFound.
Proof.
  split; [exact look_path_unclean|]. split; [apply handledb_ok; vm_compute; reflexivity|].
  assert (R : runs (unpack empty_root an_image) [$"opt"; $"run"]).
  { exists [$"opt"; $"run"], [$"opt"; $"run"], (anon (fst (a_program TypeReg $"opt/run"))), []. split.
    - apply (direct_walk (unpack empty_root an_image) [$"opt"; $"run"] []).
      + repeat constructor; try discriminate; cbn; intuition discriminate.
      + intros [|x [|y r1]] w r2 E; [vm_compute; eauto| |exfalso; apply (f_equal (@length str)) in E; cbn [app length] in E; rewrite app_length in E; cbn [length] in E; lia].
        pose proof (f_equal (hd []) E) as X. cbn [hd app] in X. subst x. vm_compute. eauto.
      + vm_compute. discriminate.
    - split; [eapply ends_file; [vm_compute; reflexivity|discriminate]|]. split; [vm_compute; reflexivity|]. split; [vm_compute; discriminate|left; reflexivity]. }
  split; [exact R|]. split; [exact R|]. intros n. split; vm_compute; reflexivity.
Qed.
Print Assumptions C60_unclean_refuted.
(** Something executable need not be a regular file: a device is accepted. *)
Theorem C60_regular_refuted : forall n, look_path (fun _ => true) (6 + n) an_image (Some (mkImageConfig [] [$"PATH=/opt"])) $"dev" = Found $"/opt/dev" /\
  exists h, unpack empty_root an_image [$"opt"; $"dev"] = Some (FFile h []) /\ th_type h <> TypeReg /\ th_type h <> TypeLink.
Proof. intros n. split; [vm_compute; reflexivity|]. eexists. split; [vm_compute; reflexivity|]. split; discriminate. Qed.
Print Assumptions C60_regular_refuted.
(** A link that leads below itself makes the search run out of stack, at any depth. *)
Theorem C60_returns_refuted : handled [[a_symlink $"a" $"a/b"]] /\ forall utf8 n, utf8 $"a/x" = true ->
  look_path utf8 n [[a_symlink $"a" $"a/b"]] (Some (mkImageConfig [] [$"PATH=/a"])) $"x" = Crashed.
Proof. split; [apply handledb_ok; vm_compute; reflexivity|exact look_path_crashes]. Qed.
Print Assumptions C60_returns_refuted.
(** No configuration is an empty one. *)
Theorem C60_no_config : forall utf8 n layers name, look_path utf8 n layers None name = look_path utf8 n layers (Some (mkImageConfig [] [])) name.
Proof. exact look_path_no_config. Qed.
Print Assumptions C60_no_config.

(** An image with links and a file that is not executable, a relative directory in PATH *)
Example C60_nonvacuous : let cfg := Some (mkImageConfig $"opt" [$"HOME=/"; $"PATH=/none:/opt:/bin:.:"; $"PATH=/x"]) in
  handled an_image /\ path_dirs [$"HOME=/"; $"PATH=/none:/opt:/bin:.:"; $"PATH=/x"] [$"/none"; $"/opt"; $"/bin"; $"."; []] /\
  (forall d, In d [$"/none"; $"/opt"; $"/bin"; $"."; []] -> askable (fun _ => true) (candidate $"opt" d $"ls")) /\
  candidate $"opt" $"." $"dev" = [$"opt"; $"dev"] /\ candidate $"opt" [] $"dev" = [$"opt"; $"dev"] /\
  look_path (fun _ => true) 12 an_image cfg $"ls" = Found $"/bin/ls" /\
  look_path (fun _ => true) 12 an_image cfg $"run" = Found $"/opt/run" /\
  look_path (fun _ => true) 12 an_image cfg $"sh" = NotFound /\
  look_path (fun _ => true) 12 an_image cfg $"../bin/run" = Found $"/bin/run" /\
  look_path (fun _ => true) 12 an_image cfg $"../opt/ls" = NotFound.
Proof.
  cbv zeta. split; [apply handledb_ok; vm_compute; reflexivity|]. split.
  - left. exists [$"HOME=/"], $"/none:/opt:/bin:.:", [$"PATH=/x"]. split; [reflexivity|]. split; [intros x y [<-|[]]; discriminate|]. right. split; [discriminate|]. split; [reflexivity|].
    split; [discriminate|]. repeat constructor; cbn; intuition discriminate.
  - split; [|vm_compute; repeat split; reflexivity]. intros d [<-|[<-|[<-|[<-|[<-|[]]]]]]; split; try reflexivity; vm_compute; repeat constructor.
Qed.
