(** Examples for laying a layer over an image. *)
From Coq Require Import String Ascii List Bool ZArith Lia.
From Verif.Model Require Import GoStr GoPath Tar Layer Squash VfsFS LookPath ConfigParser Platform WheelFile Wheel.
From Verif.Spec Require Import PathSpec SimpleAPISpec SquashSpec VfsFSSpec TripSpec LookPathSpec LayerSpec MadeSpec WheelSpec WheelExamples OverlaySpec.
From Verif.Proofs Require Import Order SquashCheck LookPathFacts WheelCases MadeCases OverlayFacts OverlayMade.
Import ListNotations.
Local Open Scope nat_scope.

Lemma a_layer_untouched : untouched a_layer [$"usr"; $"bin"; $"sh"].
Proof.
  split; [vm_compute; intuition discriminate|]. split; intros e I; repeat destruct I as [<-|I]; try destruct I; vm_compute; congruence.
Qed.
Lemma a_wheel_over : exists l, install_wheel ex_out 9 ex_platform None None ex_good = IOk l /\ 9 <= length l /\
  Forall (fun e => exists p, names_path (th_name (fst e)) p) l /\
  (forall e e', In e l -> In e' l -> LayerSpec.below (th_name (fst e)) (th_name (fst e')) -> is_dir e = true) /\
  Forall (Forall (fun e => ~ links_to_root e)) (a_base ++ [l]).
Proof.
  destruct a_wheel as (l & E & L & NP & DA & _). exists l. split; auto. split; auto. split; auto. split; auto.
  vm_compute in E. injection E as <-. apply no_rootb_ok. vm_compute. reflexivity.
Qed.
Lemma a_program_case : let env := [$"PATH=/sbin:/usr/bin"] in let e := a_program TypeReg $"usr/bin/run" in
  tree_layer a_layer /\ handled (a_base ++ [a_layer]) /\ In e a_layer /\ executable (fst e) /\ path_dirs env ([$"/sbin"] ++ $"/usr/bin" :: []) /\
  candidate [] $"/usr/bin" $"run" = entry_path e /\ ~ runs (unpack empty_root (a_base ++ [a_layer])) (candidate [] $"/sbin" $"run") /\
  (forall d, In d [$"/sbin"; $"/usr/bin"] -> askable (fun _ => true) (candidate [] d $"run") /\ settles (unpack empty_root (a_base ++ [a_layer])) (candidate [] d $"run")) /\
  look_path (fun _ => true) 9 (a_base ++ [a_layer]) (Some (mkImageConfig [] env)) $"run" = Found $"/usr/bin/run".
Proof.
  intros env e. assert (T : tree_layer a_layer) by (apply tree_layerb_ok; vm_compute; reflexivity).
  assert (I : In e a_layer) by (right; right; now left).
  assert (C1 : candidate [] $"/sbin" $"run" = [$"sbin"; $"run"]) by (vm_compute; reflexivity).
  assert (C2 : candidate [] $"/usr/bin" $"run" = entry_path e) by (vm_compute; reflexivity).
  assert (PC : plain_comp $"sbin") by (repeat split; try discriminate; cbn; intuition discriminate).
  split; auto. split; [apply handledb_ok; vm_compute; reflexivity|]. split; auto. split; [split; [vm_compute; discriminate|left; reflexivity]|].
  split; [|split; [exact C2|split; [|split]]].
  - left. exists [], $"/sbin:/usr/bin", []. split; [reflexivity|]. split; [intros x y []|]. right. split; [discriminate|]. split; [reflexivity|]. split; [discriminate|].
    repeat constructor; cbn; intuition discriminate.
  - rewrite C1. intros (q & r & h & c & W & _). inversion W; subst.
    match goal with F : follows _ ([] ++ [_]) _ |- _ => inversion F; subst; match goal with E : unpack _ _ _ = Some _ |- _ => vm_compute in E; discriminate end end.
  - intros d [<-|[<-|[]]].
    + rewrite C1. split; [split; [reflexivity|repeat constructor]|]. right. exists ENotExist. left. eapply trips_missing; [vm_compute; reflexivity|exact PC|vm_compute; reflexivity].
    + rewrite C2. split; [split; [reflexivity|repeat constructor]|]. left. exists (entry_path e), (entry_path e). split; [now apply over_walks|now apply over_ends].
  - vm_compute. reflexivity.
Qed.
