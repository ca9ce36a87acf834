(** Additions to C31: when squashing ends.  [squash n sort order layers] is Squash with the
    recursion bounded by [n]; it ends if some bound is enough (C31_depth_irrelevant_partial). *)
From Coq Require Import String Ascii List Bool ZArith Lia.
From Verif.Model Require Import GoStr GoPath Tar Squash.
From Verif.Spec Require Import PathSpec SquashSpec SimpleAPISpec EndsSpec LoopSpec.
From Verif.Proofs Require Import SimpleAPIFacts SquashCheck SquashHard SquashBack SquashEnds SquashLoops.
Import ListNotations.
Open Scope nat_scope.

(** Exactly when squashing ends with an output: every entry has a place to which its
    path leads in what the entries before it have unpacked.  Missing: links to the root
    directory itself. *)
Theorem C31_output_exact_partial : forall sort order layers, Forall (Forall good_entry) layers -> Forall (Forall proper_link) layers ->
  ((exists n out, squash n sort order layers = Ret out) <->
   (exists layers', plain_stack layers' /\ all_at_target empty_root (all_entries layers) (all_entries layers'))).
Proof. exact squash_ends. Qed.
Print Assumptions C31_output_exact_partial.
(** So it is if every link names a path that does not run through a link, and no link is
    put below a link; other entries may be below links. *)
Theorem C31_direct_links_partial : forall sort order layers, Forall (Forall good_entry) layers -> Forall (Forall proper_link) layers ->
  direct_links (all_entries layers) -> exists N out, forall n, N <= n -> squash n sort order layers = Ret out.
Proof. exact direct_ends. Qed.
Print Assumptions C31_direct_links_partial.
Example C31_direct_links_case :
  let layers := [[a_symlink $"bin" $"usr/bin"; a_symlink $"lib" $"/usr/lib"; a_symlink $"usr/up" $"../../etc"]; [a_file $"bin/sh" $"S"; a_file $"lib/x" $"X"]; [a_file $"usr/up/conf" $"C"]] in
  Forall (Forall good_entry) layers /\ Forall (Forall proper_link) layers /\ direct_links (all_entries layers) /\
  squash 20 insertion_sort (fun _ l => l) layers = Ret [a_symlink $"bin" $"usr/bin"; a_file $"etc/conf" $"C"; a_symlink $"lib" $"/usr/lib";
    a_file $"usr/bin/sh" $"S"; a_file $"usr/lib/x" $"X"; a_symlink $"usr/up" $"../../etc"].
Proof.
  split; [|split; [|split]].
  - apply good_layersb_ok. vm_compute. reflexivity.
  - apply proper_linkb_ok; vm_compute; reflexivity.
  - apply direct_linksb_ok. vm_compute. reflexivity.
  - vm_compute. reflexivity.
Qed.
(** The stack of C31_terminates_refuted is of this form, so its entries lead nowhere. *)
Example C31_output_exact_case :
  let layers := [[a_symlink $"a" $"a/b"]; [a_file $"a/x" $"x"]] in
  Forall (Forall good_entry) layers /\ Forall (Forall proper_link) layers /\
  ~ (exists layers', plain_stack layers' /\ all_at_target empty_root (all_entries layers) (all_entries layers')).
Proof.
  assert (G : Forall (Forall good_entry) [[a_symlink $"a" $"a/b"]; [a_file $"a/x" $"x"]]) by (apply good_layersb_ok; vm_compute; reflexivity).
  assert (P : Forall (Forall proper_link) [[a_symlink $"a" $"a/b"]; [a_file $"a/x" $"x"]]) by (apply proper_linkb_ok; vm_compute; reflexivity).
  split; [exact G|]. split; [exact P|]. intros H. apply (proj2 (C31_output_exact_partial insertion_sort (fun _ l => l) _ G P)) in H as (n & out & E).
  rewrite squash_diverges in E. discriminate.
Qed.
(** Exactly when squashing fails, always with ELOOP (C31_only_loops_partial): the path of some entry
    comes upon a link that is in a circle of links, in what the entries before it have unpacked. *)
Theorem C31_loop_exact_partial : forall sort order layers, Forall (Forall good_entry) layers -> Forall (Forall proper_link) layers ->
  ((exists n, squash n sort order layers = Fail ELoop) <-> some_caught layers).
Proof. exact squash_loops. Qed.
Print Assumptions C31_loop_exact_partial.
(** Exactly when squashing never ends: neither has every entry a place, nor is one caught in a circle. *)
Theorem C31_never_exact_partial : forall sort order layers, Forall (Forall good_entry) layers -> Forall (Forall proper_link) layers ->
  ((forall n, squash n sort order layers = OutOfFuel) <-> ~ all_settled layers /\ ~ some_caught layers).
Proof. exact squash_never. Qed.
Print Assumptions C31_never_exact_partial.
(** Two links that name each other, a third that runs through them, and a file below it. *)
Example C31_loop_exact_case :
  let layers := [[a_symlink $"a" $"b"; a_symlink $"b" $"/a"; a_symlink $"c" $"a/y"]; [a_file $"c/x" $"x"]] in
  Forall (Forall good_entry) layers /\ Forall (Forall proper_link) layers /\ some_caught layers /\
  squash 20 insertion_sort (fun _ l => l) layers = Fail ELoop.
Proof.
  split; [apply good_layersb_ok; vm_compute; reflexivity|]. split; [apply proper_linkb_ok; vm_compute; reflexivity|].
  assert (PA : plain_comp $"a") by (repeat split; try discriminate; intros [X|[]]; discriminate).
  assert (PB : plain_comp $"b") by (repeat split; try discriminate; intros [X|[]]; discriminate).
  assert (PC : plain_comp $"c") by (repeat split; try discriminate; intros [X|[]]; discriminate).
  set (es := [a_symlink $"a" $"b"; a_symlink $"b" $"/a"; a_symlink $"c" $"a/y"]).
  assert (D : is_dir_at (unpacked es) []) by (exists None; reflexivity).
  assert (TA : turns (unpacked es) [$"a"] [$"b"]).
  { exists (anon (fst (a_symlink $"a" $"b"))), []. split; [reflexivity|]. split; [reflexivity|]. split; [discriminate|]. exact (reaches_last _ [] $"b" D PB). }
  assert (TB : turns (unpacked es) [$"b"] [$"a"]).
  { exists (anon (fst (a_symlink $"b" $"/a"))), []. split; [reflexivity|]. split; [reflexivity|]. split; [discriminate|]. exact (reaches_last _ [] $"a" D PA). }
  assert (S : spins (unpacked es) [$"a"]).
  { apply spins_circle with (links := [[$"a"]; [$"b"]]); [now left|]. intros x [<-|[<-|[]]]; eexists; (split; [|eassumption]); cbn [In]; auto. }
  split; [|vm_compute; reflexivity]. exists es, (a_file $"c/x" $"x"), [], es. split; [reflexivity|]. split.
  - split; [|split].
    + repeat (constructor; [split; [reflexivity|split; [reflexivity|split; [reflexivity|now left]]]|]). constructor.
    + assert (G : Forall (Forall good_entry) [es]) by (apply good_layersb_ok; vm_compute; reflexivity). now inversion G.
    + assert (G : plain_stack [es]) by (apply plain_stackb_ok; vm_compute; reflexivity). apply G.
  - exists [$"c"], $"x". split; [reflexivity|]. right. exists [$"c"]. split; [exact (reaches_last _ [] $"c" D PC)|].
    apply spins_text with (h := anon (fst (a_symlink $"c" $"a/y"))) (c := []); [reflexivity|reflexivity|discriminate|].
    change (snags (unpacked es) [] [$"a"; $"y"]). exact (snags_link _ [] $"a" [$"y"] D PA ltac:(discriminate) S).
Qed.
Example C31_never_exact_case :
  let layers := [[a_symlink $"a" $"a/b"]; [a_file $"a/x" $"x"]] in
  Forall (Forall good_entry) layers /\ Forall (Forall proper_link) layers /\ forall n, squash n insertion_sort (fun _ l => l) layers = OutOfFuel.
Proof.
  split; [apply good_layersb_ok; vm_compute; reflexivity|]. split; [apply proper_linkb_ok; vm_compute; reflexivity|]. intros n. apply squash_diverges.
Qed.
