(** C99: squashing some consecutive layers of a stack first.  The stack is
    [B ++ M ++ T]; [M] is squashed to one layer, which takes its place.
    [squash], [unpack], [agree], [plain_stack] and [not_hidden] as in P07. *)
From Coq Require Import String Ascii List Bool ZArith Sorted Permutation Lia.
From Verif.Model Require Import GoStr GoPath Tar Squash.
From Verif.Spec Require Import PathSpec SimpleAPISpec SquashSpec.
From Verif.Proofs Require Import SimpleAPIFacts SquashCheck SquashMore SquashHard SquashInner.
Import ListNotations.
Open Scope nat_scope.

(** Squashing the stack in two steps yields the meaning of the whole stack, if
    neither step writes through symbolic links. *)
Theorem C99_inner_partial : forall n m sort order B M T out, sorts sort -> permutes order ->
  plain_stack M -> squash (4 + n) sort order M = Ret out -> plain_stack (B ++ out :: T) ->
  is_dir_at (unpack empty_root B) [] -> blank (unpack empty_root B) \/ history not_hidden (all_entries M) ->
  exists o, squash (4 + m) sort order (B ++ out :: T) = Ret o /\
  forall p, real_path p -> agree (unpack empty_root (B ++ M ++ T) p) (unpack empty_root [o] p) /\
    (history no_file_above (all_entries M) -> history no_file_above (all_entries (B ++ out :: T)) ->
     unpack empty_root (B ++ M ++ T) p = unpack empty_root [o] p).
Proof. exact squash_inner. Qed.
Print Assumptions C99_inner_partial.
(** In terms of the stack alone: if nothing is ever put below a symbolic link and
    none is replaced by a directory, both ways to squash it end and agree. *)
Theorem C99_links_apart_partial : forall n sort order B M T, sorts sort -> permutes order ->
  Forall (Forall good_entry) (B ++ M ++ T) -> links_apart (B ++ M ++ T) ->
  is_dir_at (unpack empty_root B) [] -> blank (unpack empty_root B) \/ history not_hidden (all_entries M) ->
  exists out o o', squash (4 + n) sort order M = Ret out /\
    squash (4 + n) sort order (B ++ M ++ T) = Ret o /\ squash (4 + n) sort order (B ++ out :: T) = Ret o' /\
  forall p, real_path p -> agree (unpack empty_root (B ++ M ++ T) p) (unpack empty_root [o] p) /\
    agree (unpack empty_root (B ++ M ++ T) p) (unpack empty_root [o'] p).
Proof. exact squash_inner_apart. Qed.
Print Assumptions C99_links_apart_partial.
Example C99_nonvacuous :
  let B := [[a_dir $"usr/"; a_file $"usr/f" $"1"; a_symlink $"lib" $"usr"]] in
  let M := [[a_file $"usr/.wh.f" []; a_file $"lib" $"2"]; [a_file $"usr/g" $"3"]; [a_dir $"d/"; a_file $"usr/g/x" $"4"]] in
  let T := [[a_file $".wh.lib" []; a_file $"d/.wh..wh..opq" []; a_symlink $"d/l" $"../usr"]] in
  Forall (Forall good_entry) (B ++ M ++ T) /\ links_apart (B ++ M ++ T) /\ is_dir_at (unpack empty_root B) [] /\
  history not_hidden (all_entries M) /\
  exists out o o', squash 4 insertion_sort (fun _ l => l) M = Ret out /\ squash 4 insertion_sort (fun _ l => l) (B ++ M ++ T) = Ret o /\
    squash 4 insertion_sort (fun _ l => l) (B ++ out :: T) = Ret o' /\ plain_stack M /\ plain_stack (B ++ out :: T) /\
    map (fun e => th_name (fst e)) out = [$"d/"; $"lib"; $"usr/.wh.f"; $"usr/g/.wh..wh..opq"; $"usr/g/x"] /\
    map (fun e => th_name (fst e)) o' = map (fun e => th_name (fst e)) o /\ length o = 8.
Proof.
  intros B M T. assert (G : Forall (Forall good_entry) (B ++ M ++ T)).
  { assert (P : plain_stack (B ++ M ++ T)) by (apply plain_stackb_ok; vm_compute; reflexivity). exact (proj1 P). }
  split; [exact G|]. split; [apply links_apartb_ok; vm_compute; reflexivity|]. split; [eexists; vm_compute; reflexivity|].
  split; [apply no_hiddenb_ok; vm_compute; reflexivity|]. do 3 eexists. split; [vm_compute; reflexivity|]. split; [vm_compute; reflexivity|].
  split; [vm_compute; reflexivity|]. split; [apply plain_stackb_ok; vm_compute; reflexivity|]. split; [apply plain_stackb_ok; vm_compute; reflexivity|].
  split; [reflexivity|]. split; reflexivity.
Qed.
(** A file that replaces a link to a directory and is then replaced by a
    directory: the stack has no entries written through links, but squashing the
    two later layers first adds an opaque marker, which is followed through the
    link and deletes what is in the directory the link led to. *)
Theorem C99_replaced_link_refuted : forall n sort order, sorts sort -> permutes order ->
  let B := [[a_dir $"usr/"; a_dir $"usr/bin/"; a_file $"usr/bin/sh" $"1"; a_symlink $"bin" $"usr/bin"]] in
  let M := [[a_file $"bin" $"2"]; [a_dir $"bin/"; a_file $"bin/x" $"3"]] in
  plain_stack (B ++ M) /\ history not_hidden (all_entries M) /\
  exists out o o', squash (20 + n) sort order M = Ret out /\ squash (20 + n) sort order (B ++ M) = Ret o /\ squash (20 + n) sort order (B ++ [out]) = Ret o' /\
    unpack empty_root [o] [$"usr"; $"bin"; $"sh"] = unpack empty_root (B ++ M) [$"usr"; $"bin"; $"sh"] /\
    unpack empty_root [o] [$"usr"; $"bin"; $"sh"] <> None /\ unpack empty_root [o'] [$"usr"; $"bin"; $"sh"] = None.
Proof.
  intros n sort order HS HO B M. split; [apply plain_stackb_ok; vm_compute; reflexivity|]. split; [apply no_hiddenb_ok; vm_compute; reflexivity|].
  do 3 eexists. do 3 (split; [apply (more_fuel 20 (20 + n)); [|discriminate|apply Nat.le_add_r]; apply any_order; [exact HS|exact HO|vm_compute; reflexivity]|]).
  split; [vm_compute; reflexivity|]. split; [vm_compute; discriminate|vm_compute; reflexivity].
Qed.
Print Assumptions C99_replaced_link_refuted.
(** A file that is added through a link of the lower layers which is then
    removed: it stays where the link led to, unless these two layers are squashed
    first. *)
Theorem C99_removed_link_refuted : forall n sort order, sorts sort -> permutes order ->
  let B := [[a_dir $"usr/"; a_dir $"usr/bin/"; a_symlink $"bin" $"usr/bin"]] in
  let M := [[a_file $"bin/x" $"2"]; [a_file $".wh.bin" []]] in
  exists out o o', squash (20 + n) sort order M = Ret out /\ squash (20 + n) sort order (B ++ M) = Ret o /\ squash (20 + n) sort order (B ++ [out]) = Ret o' /\
    unpack empty_root [o] [$"usr"; $"bin"; $"x"] <> None /\ unpack empty_root [o'] [$"usr"; $"bin"; $"x"] = None.
Proof.
  intros n sort order HS HO B M.
  do 3 eexists. do 3 (split; [apply (more_fuel 20 (20 + n)); [|discriminate|apply Nat.le_add_r]; apply any_order; [exact HS|exact HO|vm_compute; reflexivity]|]).
  split; [vm_compute; discriminate|vm_compute; reflexivity].
Qed.
Print Assumptions C99_removed_link_refuted.
(** A directory that is deleted and created again: its old contents reappear. *)
Theorem C99_recreated_refuted : forall n sort order, sorts sort -> permutes order ->
  let B := [[a_dir $"usr/"; a_file $"usr/f" $"1"]] in
  let M := [[a_file $".wh.usr" []]; [a_dir $"usr/"]] in
  plain_stack (B ++ M) /\
  exists out o o', squash (4 + n) sort order M = Ret out /\ squash (4 + n) sort order (B ++ M) = Ret o /\ squash (4 + n) sort order (B ++ [out]) = Ret o' /\
    unpack empty_root [o] [$"usr"; $"f"] = None /\ unpack empty_root [o'] [$"usr"; $"f"] <> None.
Proof.
  intros n sort order HS HO B M. split; [apply plain_stackb_ok; vm_compute; reflexivity|].
  do 3 eexists. do 3 (split; [apply (more_fuel 4 (4 + n)); [|discriminate|apply Nat.le_add_r]; apply any_order; [exact HS|exact HO|vm_compute; reflexivity]|]).
  split; [vm_compute; reflexivity|vm_compute; discriminate].
Qed.
Print Assumptions C99_recreated_refuted.
