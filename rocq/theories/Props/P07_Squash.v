(** C26-C34: squashing layers.  [squash n sort order layers] is Squash with
    recursion depth [n]; [sort] is sort.Slice, [order] the order in which Go
    visits maps.  [unpack] is the unpacking of layers (Spec/SquashSpec.v). *)
From Coq Require Import String Ascii List Bool ZArith Sorted.
From Verif.Model Require Import GoStr GoPath Tar Squash.
From Verif.Spec Require Import PathSpec SquashSpec SimpleAPISpec.
From Verif.Proofs Require Import SquashFinal SquashMore SquashLinks SquashCreate SquashBack SquashCheck SquashHard.
Import ListNotations.
Open Scope nat_scope.

(** ** C26: the meaning of the stack *)

(** For stacks without entries that are written through symbolic links: the
    squashed layer unpacks to the same files and directories.  ([agree]: the
    metadata of directories that no entry describes may differ, unless no entry
    replaces a file by a directory.)  Over a base that is not empty this needs
    [not_hidden]. *)
Theorem C26_same_meaning_partial : forall n sort order layers, sorts sort -> permutes order -> plain_stack layers ->
  exists out, squash (4 + n) sort order layers = Ret out /\
  forall base, (exists m, base [] = Some (FDir m)) -> blank base \/ history not_hidden (all_entries layers) ->
  forall p, real_path p ->
    agree (unpack base layers p) (unpack base [out] p) /\
    (history no_file_above (all_entries layers) -> unpack base layers p = unpack base [out] p).
Proof. exact squash_preserves. Qed.
Print Assumptions C26_same_meaning_partial.
(** Without that condition it is false: a whiteout followed by a new directory
    is squashed to the directory alone, and what was below it in the base
    reappears. *)
Theorem C26_same_meaning_refuted : forall n sort order, sorts sort -> permutes order ->
  plain_stack [[a_file $".wh.foo" []]; [a_dir $"foo/"]] /\
  exists out, squash (4 + n) sort order [[a_file $".wh.foo" []]; [a_dir $"foo/"]] = Ret out /\
    unpack with_foo_bar [[a_file $".wh.foo" []]; [a_dir $"foo/"]] [$"foo"; $"bar"] = None /\
    unpack with_foo_bar [out] [$"foo"; $"bar"] = with_foo_bar [$"foo"; $"bar"] /\
    with_foo_bar [$"foo"; $"bar"] <> None.
Proof.
  intros n sort order HS HO. split; [apply plain_stackb_ok; reflexivity|]. eexists. split.
  - apply (more_fuel 4 (4 + n)); [|discriminate|apply Nat.le_add_r]. apply any_order; [exact HS|exact HO|vm_compute; reflexivity].
  - vm_compute. repeat split. discriminate.
Qed.
Print Assumptions C26_same_meaning_refuted.
Example C26_nonvacuous :
  let layers := [[a_dir $"a/"; a_file $"a/f" $"1"; a_dir $"b/"; a_file $"b/g" $"2"; a_symlink $"l" $"a"];
                 [a_file $"a/.wh.f" []; a_file $"a/h" $"3"; a_file $"b/.wh..wh..opq" []; a_file $"b/k" $"4"];
                 [a_file $"./a/f" $"5"; a_dir $"l"]] in
  plain_stack layers /\ history not_hidden (all_entries layers) /\
  squash 4 insertion_sort (fun _ l => l) layers =
    Ret [a_dir $"a/"; a_file $"a/f" $"5"; a_file $"a/h" $"3"; a_dir $"b/"; a_file $"b/.wh..wh..opq" []; a_file $"b/k" $"4";
         a_dir $"l/"; (with_name opq_header $"l/.wh..wh..opq", [])].
Proof.
  split; [apply plain_stackb_ok; vm_compute; reflexivity|]. split; [apply no_hiddenb_ok; vm_compute; reflexivity|]. vm_compute. reflexivity.
Qed.
Example C26_nonvacuous_exact :
  history no_file_above (all_entries [[a_dir $"a/"; a_file $"a/f" $"1"]; [a_file $"a/.wh.f" []; a_file $"a/h" $"3"]]).
Proof. apply no_fileb_ok. vm_compute. reflexivity. Qed.
Example C26_bases : blank empty_root /\ with_foo_bar [] = Some (FDir None).
Proof. split; [intros [|k q] N; [now destruct N|reflexivity]|reflexivity]. Qed.

(** ** C27: squashing again, squashing in stages *)

(** Squashing the result again removes only markers that an opaque marker of
    the same directory makes redundant, and a third time nothing. *)
Theorem C27_again_partial : forall n sort order layers out, sorts sort -> permutes order -> plain_stack layers ->
  squash (4 + n) sort order layers = Ret out ->
  squash (4 + n) sort order [out] = Ret (effective out) /\ squash (4 + n) sort order [effective out] = Ret (effective out).
Proof. intros n sort order layers out HS HO. exact (squash_again sort order HS HO n layers out). Qed.
Print Assumptions C27_again_partial.
Theorem C27_again_meaning_partial : forall n sort order layers out base p, sorts sort -> permutes order -> plain_stack layers ->
  squash (4 + n) sort order layers = Ret out -> (exists m, base [] = Some (FDir m)) -> real_path p ->
  unpack base [effective out] p = unpack base [out] p.
Proof. intros. eapply squash_again_meaning; eauto. Qed.
Print Assumptions C27_again_meaning_partial.
Theorem C27_staged_partial : forall n sort order l1 l2, sorts sort -> permutes order -> plain_stack (l1 ++ l2) ->
  exists o1 o o', squash (4 + n) sort order l1 = Ret o1 /\ squash (4 + n) sort order (l1 ++ l2) = Ret o /\
    squash (4 + n) sort order (o1 :: l2) = Ret o' /\ effective o' = effective o.
Proof. intros. eapply squash_staged; eauto. Qed.
Print Assumptions C27_staged_partial.
(** The same for layers that are written through symbolic links. *)
Theorem C27_again_links_partial : forall n m sort order layers out, sorts sort -> permutes order ->
  Forall (Forall good_entry) layers -> Forall (Forall proper_link) layers -> squash n sort order layers = Ret out ->
  squash (4 + m) sort order [out] = Ret (effective out) /\ squash (4 + m) sort order [effective out] = Ret (effective out).
Proof. exact squash_again_links. Qed.
Print Assumptions C27_again_links_partial.
Theorem C27_staged_links_partial : forall n sort order l1 l2 o, sorts sort -> permutes order ->
  Forall (Forall good_entry) (l1 ++ l2) -> Forall (Forall proper_link) (l1 ++ l2) -> squash n sort order (l1 ++ l2) = Ret o ->
  exists o1 o' N, (forall m, N <= m -> squash m sort order l1 = Ret o1 /\ squash m sort order (o1 :: l2) = Ret o') /\ effective o' = effective o.
Proof. exact squash_staged_links. Qed.
Print Assumptions C27_staged_links_partial.
Example C27_nonvacuous_links :
  let l1 := [[a_dir $"usr/"; a_symlink $"bin" $"usr/bin"]; [a_file $"bin/sh" $"1"; a_symlink $"usr/lib" $"../lib64"]] in
  let l2 := [[a_file $"bin/.wh.sh" []; a_file $"usr/lib/x" $"2"]] in
  Forall (Forall good_entry) (l1 ++ l2) /\ Forall (Forall proper_link) (l1 ++ l2) /\
  squash 12 insertion_sort (fun _ l => l) (l1 ++ l2) =
    Ret [a_symlink $"bin" $"usr/bin"; a_file $"lib64/x" $"2"; a_dir $"usr/"; a_file $"usr/bin/.wh.sh" []; a_symlink $"usr/lib" $"../lib64"].
Proof.
  split; [apply good_layersb_ok; vm_compute; reflexivity|]. split; [apply proper_linkb_ok; vm_compute; reflexivity|]. vm_compute. reflexivity.
Qed.
(** Such a marker is there when it was written after the opaque marker. *)
Theorem C27_again_refuted : forall n sort order, sorts sort -> permutes order ->
  let layers := [[a_file $"d/.wh..wh..opq" []]; [a_file $"d/.wh.-foo" []]] in
  let first := [a_file $"d/.wh.-foo" []; a_file $"d/.wh..wh..opq" []] in
  plain_stack layers /\ squash (4 + n) sort order layers = Ret first /\
  squash (4 + n) sort order [first] = Ret [a_file $"d/.wh..wh..opq" []].
Proof.
  intros n sort order HS HO layers first. split; [apply plain_stackb_ok; vm_compute; reflexivity|].
  split; (apply (more_fuel 4 (4 + n)); [|discriminate|apply Nat.le_add_r]; apply any_order; [exact HS|exact HO|vm_compute; reflexivity]).
Qed.
Print Assumptions C27_again_refuted.
Example C27_nonvacuous :
  let l1 := [[a_dir $"a/"; a_file $"a/f" $"1"]; [a_file $"a/.wh.f" []]] in
  let l2 := [[a_file $"a/g" $"2"]; [a_file $"a/.wh.g" []; a_file $"h" $"3"]] in
  plain_stack (l1 ++ l2) /\
  squash 4 insertion_sort (fun _ l => l) l1 = Ret [a_dir $"a/"; a_file $"a/.wh.f" []] /\
  squash 4 insertion_sort (fun _ l => l) (l1 ++ l2) = Ret [a_dir $"a/"; a_file $"a/.wh.f" []; a_file $"a/.wh.g" []; a_file $"h" $"3"].
Proof. split; [apply plain_stackb_ok; vm_compute; reflexivity|]. split; vm_compute; reflexivity. Qed.

(** ** C28: the output is well formed *)

(** Directories before what is below them, markers before their siblings,
    siblings in byte order; in particular no path twice. *)
Theorem C28_sorted_partial : forall n sort order layers out, sorts sort -> permutes order ->
  Forall (Forall (fun e => ~ links_to_root e)) layers ->
  squash n sort order layers = Ret out ->
  StronglySorted before (map entry_path out).
Proof. exact squash_sorted. Qed.
Print Assumptions C28_sorted_partial.
Theorem C28_sorted_plain_partial : forall n sort order layers, sorts sort -> permutes order -> plain_stack layers ->
  exists out, squash (4 + n) sort order layers = Ret out /\ StronglySorted before (map entry_path out).
Proof. exact squash_sorted_plain. Qed.
Print Assumptions C28_sorted_plain_partial.
Theorem C28_no_path_twice_partial : forall out, StronglySorted before (map entry_path out) -> NoDup (map entry_path out).
Proof. exact sorted_paths_nodup. Qed.
Print Assumptions C28_no_path_twice_partial.
(** Entries written through a link to the root directory. *)
Theorem C28_sorted_refuted : forall n sort order, sorts sort -> permutes order ->
  squash (10 + n) sort order [[a_symlink $"a" $"/"]; [a_file $"a/x" $"1"]; [a_file $"x" $"2"]] =
    Ret [a_file $"x" $"1"; a_symlink $"a" $"/"; a_file $"x" $"2"].
Proof.
  intros n sort order HS HO. apply (more_fuel 10 (10 + n)); [|discriminate|apply Nat.le_add_r]. apply any_order; [exact HS|exact HO|vm_compute; reflexivity].
Qed.
Print Assumptions C28_sorted_refuted.
Example C28_nonvacuous :
  Forall (Forall (fun e => ~ links_to_root e)) [[a_symlink $"a" $"/b"; a_symlink $"b" $"c"; a_dir $"c"]; [a_file $"a/x" $"1"; a_file $"c/.wh.y" []]] /\
  squash 12 insertion_sort (fun _ l => l) [[a_symlink $"a" $"/b"; a_symlink $"b" $"c"; a_dir $"c"]; [a_file $"a/x" $"1"; a_file $"c/.wh.y" []]] =
    Ret [a_symlink $"a" $"/b"; a_symlink $"b" $"c"; a_dir $"c/"; a_file $"c/.wh.y" []; a_file $"c/x" $"1"].
Proof.
  split; [|vm_compute; reflexivity]. repeat constructor; intros [L C]; vm_compute in L, C; discriminate.
Qed.

(** ** C29: the root *)
Theorem C29_rejects_outside : forall n sort order layers e, (exists l, In l layers /\ In e l) -> ~ in_root e ->
  forall out, squash n sort order layers <> Ret out.
Proof. exact squash_rejects. Qed.
Print Assumptions C29_rejects_outside.
Theorem C29_names_in_root : forall n sort order layers out, sorts sort -> permutes order ->
  squash n sort order layers = Ret out ->
  forall e, In e out -> in_root e /\ th_name (fst e) = written_name e.
Proof. exact squash_in_root. Qed.
Print Assumptions C29_names_in_root.
Example C29_nonvacuous :
  squash 8 insertion_sort (fun _ l => l) [[a_file $"a/../../b" []]] = Fail EOutside /\
  ~ in_root (a_file $"a/../../b" []) /\ ~ in_root (a_file $"/b" []) /\
  squash 8 insertion_sort (fun _ l => l) [[a_symlink $"a/up" $"../../../.."]; [a_file $"a/up/x" $"1"]] =
    Ret [a_symlink $"a/up" $"../../../.."; a_file $"x" $"1"].
Proof.
  split; [vm_compute; reflexivity|]. split; [intros [_ P]; inversion P as [|? ? (_ & _ & _ & N)]; now destruct N|].
  split; [intros [A _]; discriminate|]. vm_compute. reflexivity.
Qed.

(** ** C30: the iteration order of maps *)
Theorem C30_order_irrelevant : forall n layers sort order sort' order', sorts sort -> permutes order -> sorts sort' -> permutes order' ->
  squash n sort order layers = squash n sort' order' layers.
Proof. exact squash_unique. Qed.
Print Assumptions C30_order_irrelevant.
Example C30_nonvacuous : permutes (fun _ l => l) /\ permutes (fun _ l => rev l) /\ @sorts str insertion_sort.
Proof. split; [intros p l; apply Permutation.Permutation_refl|]. split; [intros p l; apply Permutation.Permutation_sym, Permutation.Permutation_rev|apply SimpleAPIFacts.insertion_sorts]. Qed.

(** ** C31: termination *)

(** A result does not depend on the recursion depth allowed. *)
Theorem C31_depth_irrelevant_partial : forall n m sort order layers r, squash n sort order layers = r -> r <> OutOfFuel -> n <= m ->
  squash m sort order layers = r.
Proof. exact more_fuel. Qed.
Print Assumptions C31_depth_irrelevant_partial.
Theorem C31_plain_terminates_partial : forall n sort order layers, plain_stack layers -> exists out, squash (4 + n) sort order layers = Ret out.
Proof. exact squash_terminates. Qed.
Print Assumptions C31_plain_terminates_partial.
(** The only failure of a stack that stays in its root. *)
Theorem C31_only_loops_partial : forall n sort order layers e, Forall (Forall in_root) layers ->
  squash n sort order layers = Fail e -> e = ELoop.
Proof. exact squash_fails. Qed.
Print Assumptions C31_only_loops_partial.
(** A link that leads below itself is followed forever. *)
Theorem C31_terminates_refuted : forall n sort order,
  squash n sort order [[a_symlink $"a" $"a/b"]; [a_file $"a/x" $"x"]] = OutOfFuel.
Proof. exact squash_diverges. Qed.
Print Assumptions C31_terminates_refuted.
Example C31_nonvacuous : forall sort order,
  squash 10 sort order [[a_symlink $"a" $"b"; a_symlink $"b" $"a"]; [a_file $"a/x" $"x"]] = Fail ELoop.
Proof. reflexivity. Qed.

(** ** C32: later entries win, whiteouts hide *)

(** An entry that no later entry of its layer and no entry of a later layer
    overrides is in the output and is what is found at its path. *)
Theorem C32_last_entry_wins_partial : forall n sort order l1 f1 e f2 l2, let layers := l1 ++ (f1 ++ e :: f2) :: l2 in
  sorts sort -> permutes order -> plain_stack layers -> is_marker e = false ->
  (forall e', In e' f2 -> is_marker e' = false -> ~ overrides e' (entry_path e) (is_dir e)) ->
  (forall l e', In l l2 -> In e' l -> ~ overrides e' (entry_path e) (is_dir e)) ->
  exists out, squash (4 + n) sort order layers = Ret out /\
    (exists e', In e' out /\ entry_path e' = entry_path e /\ anon (fst e') = anon (fst e) /\ (is_dir e = false -> snd e' = snd e)) /\
    unpack empty_root [out] (entry_path e) = Some (node_of e).
Proof. exact squash_last_wins. Qed.
Print Assumptions C32_last_entry_wins_partial.
(** What a marker hides is not found, unless written by its own or a later layer. *)
Theorem C32_whiteout_hides_partial : forall n sort order l1 l w l2 p base, let layers := l1 ++ l :: l2 in
  sorts sort -> permutes order -> plain_stack layers -> In w l -> marks w p -> real_path p ->
  (forall l' e, In l' (l :: l2) -> In e l' -> at_or_below p (entry_path e) = false) ->
  (exists m, base [] = Some (FDir m)) -> blank base \/ history not_hidden (all_entries layers) ->
  exists out, squash (4 + n) sort order layers = Ret out /\ unpack base [out] p = None.
Proof. exact squash_hides. Qed.
Print Assumptions C32_whiteout_hides_partial.
Example C32_nonvacuous_wins :
  let layers := [[a_file $"d/f" $"1"]] ++ ([a_file $"d/.wh..wh..opq" []] ++ a_file $"d/f" $"2" :: [a_file $"d/.wh.f" []]) :: [[a_file $"d/g" []; a_file $".wh.f" []]] in
  plain_stack layers /\
  (forall e', In e' [a_file $"d/.wh.f" []] -> is_marker e' = false -> ~ overrides e' [$"d"; $"f"] false) /\
  (forall l e', In l [[a_file $"d/g" []; a_file $".wh.f" []]] -> In e' l -> ~ overrides e' [$"d"; $"f"] false) /\
  squash 4 insertion_sort (fun _ l => l) layers = Ret [a_file $".wh.f" []; a_file $"d/.wh..wh..opq" []; a_file $"d/f" $"2"; a_file $"d/g" []].
Proof.
  split; [apply plain_stackb_ok; vm_compute; reflexivity|]. split; [intros e' [<-|[]]; discriminate|].
  split; [|vm_compute; reflexivity]. intros l e' [<-|[]] [<-|[<-|[]]]; apply overridesb_ok; vm_compute; reflexivity.
Qed.
Example C32_nonvacuous_hides :
  let layers := [[a_file $"d/f/g" $"1"]] ++ [a_file $"d/.wh.f" []] :: [[a_file $"d/h" []]] in
  plain_stack layers /\ marks (a_file $"d/.wh.f" []) [$"d"; $"f"; $"g"] /\ history not_hidden (all_entries layers) /\
  (forall l' e, In l' [[a_file $"d/.wh.f" []]; [a_file $"d/h" []]] -> In e l' -> at_or_below [$"d"; $"f"; $"g"] (entry_path e) = false).
Proof.
  split; [apply plain_stackb_ok; vm_compute; reflexivity|]. split; [left; exists [$"d"], $"f"; split; reflexivity|].
  split; [apply no_hiddenb_ok; vm_compute; reflexivity|]. intros l' e [<-|[<-|[]]] [<-|[]]; reflexivity.
Qed.

(** ** C33: symbolic links *)

(** [layers'] is [layers] with each entry at the place to which its path leads at
    that point, through links to directories, to directories that are not there
    and to files.  Squashing gives exactly the same layer. *)
Theorem C33_same_output_partial : forall sort order layers layers',
  Forall (Forall in_root) layers -> plain_stack layers' -> all_at_target empty_root (all_entries layers) (all_entries layers') ->
  exists N, forall n, N <= n -> squash n sort order layers = squash n sort order layers'.
Proof. exact squash_links. Qed.
Print Assumptions C33_same_output_partial.
(** So squashing ends, its output is well formed, and it unpacks to what the
    entries at their targets unpack to. *)
Theorem C33_written_at_target_partial : forall sort order layers layers', sorts sort -> permutes order ->
  Forall (Forall in_root) layers -> plain_stack layers' -> all_at_target empty_root (all_entries layers) (all_entries layers') ->
  exists N out, (forall n, N <= n -> squash n sort order layers = Ret out) /\ StronglySorted before (map entry_path out) /\
    (forall base, (exists m, base [] = Some (FDir m)) -> blank base \/ history not_hidden (all_entries layers') ->
     forall p, real_path p -> agree (unpack base layers' p) (unpack base [out] p) /\
       (history no_file_above (all_entries layers') -> unpack base layers' p = unpack base [out] p)).
Proof. exact squash_through_links. Qed.
Print Assumptions C33_written_at_target_partial.
(** Conversely, whenever squashing such a stack ends with an output, every entry
    has a place to which its path leads, and the output unpacks to what the
    entries at these places unpack to. *)
Theorem C33_every_output_partial : forall n sort order layers out, sorts sort -> permutes order ->
  Forall (Forall good_entry) layers -> Forall (Forall proper_link) layers -> squash n sort order layers = Ret out ->
  exists layers', plain_stack layers' /\ all_at_target empty_root (all_entries layers) (all_entries layers') /\
    (forall base, (exists m, base [] = Some (FDir m)) -> blank base \/ history not_hidden (all_entries layers') ->
     forall p, real_path p -> agree (unpack base layers' p) (unpack base [out] p) /\
       (history no_file_above (all_entries layers') -> unpack base layers' p = unpack base [out] p)).
Proof. exact squash_every. Qed.
Print Assumptions C33_every_output_partial.
(** A path twice in the output, with a link to the root directory. *)
Theorem C33_root_link_refuted : forall n sort order, sorts sort -> permutes order ->
  exists out, squash (10 + n) sort order [[a_symlink $"a" $"/"]; [a_file $"a/x" $"1"]; [a_file $"x" $"2"]] = Ret out /\
    ~ NoDup (map entry_path out).
Proof.
  intros n sort order HS HO. eexists. split; [now apply C28_sorted_refuted|].
  intros N. inversion N as [|? ? H]. apply H. right. left. reflexivity.
Qed.
Print Assumptions C33_root_link_refuted.
Example C33_nonvacuous :
  let links := [a_dir $"usr/"; a_dir $"usr/bin/"; a_symlink $"bin" $"usr/bin"; a_symlink $"sbin" $"/bin"] in
  let layers := [links; [a_file $"bin/sh" $"S"]; [a_file $"sbin/init" $"I"]] in
  let layers' := [links; [a_file $"usr/bin/sh" $"S"]; [a_file $"usr/bin/init" $"I"]] in
  Forall (Forall in_root) layers /\ plain_stack layers' /\
  all_at_target empty_root (all_entries layers) (all_entries layers') /\
  squash 12 insertion_sort (fun _ l => l) layers =
    Ret [a_symlink $"bin" $"usr/bin"; a_symlink $"sbin" $"/bin"; a_dir $"usr/"; a_dir $"usr/bin/"; a_file $"usr/bin/init" $"I"; a_file $"usr/bin/sh" $"S"].
Proof.
  split; [|split; [|split]].
  - repeat apply Forall_cons; try apply Forall_nil; (split; [reflexivity|apply real_pathb_ok; vm_compute; reflexivity]).
  - apply plain_stackb_ok. vm_compute. reflexivity.
  - exact merged_at_target.
  - vm_compute. reflexivity.
Qed.
Example C33_nonvacuous_dangling :
  let links := [a_symlink $"bin" $"usr/bin"; a_file $"f" $"1"; a_symlink $"l" $"f"] in
  let layers := [links; [a_file $"bin/x/sh" $"S"]; [a_file $"l/x" $"2"]] in
  let layers' := [links; [a_file $"usr/bin/x/sh" $"S"]; [a_file $"f/x" $"2"]] in
  Forall (Forall in_root) layers /\ plain_stack layers' /\
  all_at_target empty_root (all_entries layers) (all_entries layers') /\
  squash 12 insertion_sort (fun _ l => l) layers =
    Ret [a_symlink $"bin" $"usr/bin"; (with_name opq_header $"f/.wh..wh..opq", []); a_file $"f/x" $"2"; a_symlink $"l" $"f"; a_file $"usr/bin/x/sh" $"S"].
Proof.
  split; [|split; [|split]].
  - repeat apply Forall_cons; try apply Forall_nil; (split; [reflexivity|apply real_pathb_ok; vm_compute; reflexivity]).
  - apply plain_stackb_ok. vm_compute. reflexivity.
  - exact dangling_at_target.
  - vm_compute. reflexivity.
Qed.

(** ** C34: hard links *)

(** [unpack_linking] unpacks hard links as second names of their targets.  If
    neither the link nor its target is overridden and the target's path comes
    first in the order of the output, the output has both, the target first,
    and the link has the target's content. *)
Theorem C34_hard_link_partial : forall n sort order layers es1 f es2 e es3, sorts sort -> permutes order -> plain_stack layers ->
  all_entries layers = es1 ++ f :: es2 ++ e :: es3 ->
  is_marker f = false -> is_dir f = false -> is_hard_link f = false ->
  is_marker e = false -> is_hard_link e = true -> target e = entry_path f ->
  (forall x, In x (es2 ++ e :: es3) -> ~ overrides x (entry_path f) false) -> (forall x, In x es3 -> ~ overrides x (entry_path e) false) ->
  before (entry_path f) (entry_path e) ->
  exists out, squash (4 + n) sort order layers = Ret out /\
    (exists o1 f' o2 e' o3, out = o1 ++ f' :: o2 ++ e' :: o3 /\ entry_path f' = entry_path f /\ node_of f' = node_of f /\
       entry_path e' = entry_path e /\ node_of e' = node_of e) /\
    unpack_linking empty_root layers (entry_path e) = Some (node_of f) /\
    unpack_linking empty_root [out] (entry_path e) = Some (node_of f).
Proof. exact squash_hard_link. Qed.
Print Assumptions C34_hard_link_partial.
(** The target is replaced later: the link changes with it. *)
Theorem C34_content_refuted : forall n sort order, sorts sort -> permutes order ->
  let layers := [[a_file $"a" $"A"; a_hard_link $"b" $"a"]; [a_file $"a" $"B"]] in
  plain_stack layers /\
  exists out, squash (4 + n) sort order layers = Ret out /\
    unpack_linking empty_root layers [$"b"] = Some (node_of (a_file $"b" $"A")) /\
    unpack_linking empty_root [out] [$"b"] = Some (node_of (a_file $"b" $"B")).
Proof.
  intros n sort order HS HO layers. split; [apply plain_stackb_ok; vm_compute; reflexivity|]. eexists. split.
  - apply (more_fuel 4 (4 + n)); [|discriminate|apply Nat.le_add_r]. apply any_order; [exact HS|exact HO|vm_compute; reflexivity].
  - split; vm_compute; reflexivity.
Qed.
Print Assumptions C34_content_refuted.
(** The link's name sorts first: the output has the link before its target. *)
Theorem C34_order_refuted : forall n sort order, sorts sort -> permutes order ->
  plain_stack [[a_file $"z" $"Z"; a_hard_link $"a" $"z"]] /\
  squash (4 + n) sort order [[a_file $"z" $"Z"; a_hard_link $"a" $"z"]] = Ret [a_hard_link $"a" $"z"; a_file $"z" $"Z"].
Proof.
  intros n sort order HS HO. split; [apply plain_stackb_ok; vm_compute; reflexivity|].
  apply (more_fuel 4 (4 + n)); [|discriminate|apply Nat.le_add_r]. apply any_order; [exact HS|exact HO|vm_compute; reflexivity].
Qed.
Print Assumptions C34_order_refuted.
Example C34_nonvacuous :
  let f := a_file $"a" $"A" in let e := a_hard_link $"b" $"a" in
  let layers := [[f]; [a_file $".wh.c" []; e]; [a_file $"c" $"C"]] in
  plain_stack layers /\ all_entries layers = [] ++ f :: [a_file $".wh.c" []] ++ e :: [a_file $"c" $"C"] /\
  target e = entry_path f /\ before (entry_path f) (entry_path e) /\
  (forall x, In x ([a_file $".wh.c" []] ++ e :: [a_file $"c" $"C"]) -> ~ overrides x (entry_path f) false) /\
  (forall x, In x [a_file $"c" $"C"] -> ~ overrides x (entry_path e) false).
Proof.
  split; [apply plain_stackb_ok; vm_compute; reflexivity|]. split; [reflexivity|]. split; [reflexivity|]. split.
  - right. exists [], $"a", $"b", [], []. split; [reflexivity|]. split; [reflexivity|]. right. split; reflexivity.
  - split; [intros x [<-|[<-|[<-|[]]]]|intros x [<-|[]]]; apply overridesb_ok; vm_compute; reflexivity.
Qed.
