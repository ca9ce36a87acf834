(** C35, C36, C65: the file system that Load returns.  [load_layers n false
    layers] is Load and [open utf8 n t name] is Open, both with recursion depth
    [n]; [open_file] also gathers what later calls on the open file depend on.
    [reachable sort f programs c]: goroutines that make the calls [programs] on
    the open file [f] can reach the state [c], with the calls that have returned
    in [c_log c].  [unpack] is the unpacking of layers; [walks] and [ends] follow
    symbolic links in it. *)
From Coq Require Import String Ascii List Bool ZArith Sorted Permutation Lia.
From Verif.Model Require Import GoStr GoPath Tar Squash VfsFS.
From Verif.Spec Require Import PathSpec SquashSpec SimpleAPISpec VfsFSSpec TripSpec.
From Verif.Proofs Require Import SquashFinal SquashMore SquashLinks SquashCheck SquashHard VfsFSFacts VfsImage VfsRuns.
From Verif.Spec Require LookPathSpec DanglingSpec.
From Verif.Proofs Require LookPathFacts VfsThrough NamesThrough VfsDangling.
Import ListNotations.
Open Scope nat_scope.

(** ** C35: reading *)

(** Whatever the schedule, the results are those of reading the content once. *)
Theorem C35_reads_once_partial : forall sort f programs c h, reachable sort f programs c ->
  hd_header f = Some h -> th_type h <> TypeDir -> (th_size h <= Z.of_nat (length (hd_body f)))%Z ->
  reads_file (hd_body f) false (c_log c).
Proof. exact reads_file_any. Qed.
Print Assumptions C35_reads_once_partial.
(** So the chunks form a prefix of the content, and all of it once EOF is returned. *)
Theorem C35_chunks_partial : forall log content closed, reads_file content closed log ->
  exists more, content = bytes_read log ++ more /\ (In (RErr EEOF) (map snd log) -> more = []).
Proof. exact reads_file_prefix. Qed.
Print Assumptions C35_chunks_partial.
(** Every goroutine's calls return in its order, and there is always one that
    can go on. *)
Theorem C35_in_program_order_partial : forall sort f programs c i, reachable sort f programs c ->
  exists todo, calls_of i (c_log c) ++ todo = programs i.
Proof. exact reachable_calls. Qed.
Print Assumptions C35_in_program_order_partial.
Theorem C35_never_stuck_partial : forall sort f programs c i, reachable sort f programs c ->
  (c_threads c i <> (Idle, []) -> exists c', step sort f c c') /\
  (c_threads c i = (Idle, []) -> calls_of i (c_log c) = programs i).
Proof. intros sort f programs c i R. split; [now apply (never_stuck sort f programs)|now apply (finished_calls sort f programs)]. Qed.
Print Assumptions C35_never_stuck_partial.
(** The content is that of the file the path leads to in the unpacked stack. *)
Theorem C35_content_partial : forall layers, plain_stack layers -> Forall (Forall (fun e => ~ links_to_root e)) layers ->
  forall sort order, (forall l, Permutation (order l) l) -> forall utf8 p q e h c,
  plain_path p -> utf8 (open_name p) = true ->
  walks (unpack empty_root layers) [] p q -> ends (unpack empty_root layers) q e ->
  unpack empty_root layers e = Some (FFile h c) -> (th_size h <= Z.of_nat (length c))%Z ->
  exists N t f, (forall n, N <= n -> load_layers n false layers = Ret t /\ open_file utf8 n order t (open_name p) = Ret f) /\
    forall programs c', reachable sort f programs c' -> reads_file c false (c_log c').
Proof. intros layers P NR sort order HO. exact (image_file layers P NR sort order HO). Qed.
Print Assumptions C35_content_partial.
(** The same for layers that are themselves written through links: [layers'] are the entries at the places where their
    links lead (C33). *)
Theorem C35_through_partial : forall layers layers', Forall (Forall in_root) layers -> plain_stack layers' ->
  all_at_target empty_root (all_entries layers) (all_entries layers') ->
  Forall (Forall (fun e => ~ links_to_root e)) layers' ->
  forall sort order utf8 p q e h c, (forall l, Permutation (order l) l) -> plain_path p -> utf8 (open_name p) = true ->
  walks (unpack empty_root layers') [] p q -> ends (unpack empty_root layers') q e ->
  unpack empty_root layers' e = Some (FFile h c) -> (th_size h <= Z.of_nat (length c))%Z ->
  exists N t f, (forall n, N <= n -> load_layers n false layers = Ret t /\ open_file utf8 n order t (open_name p) = Ret f) /\
    forall programs c', reachable sort f programs c' -> reads_file c false (c_log c').
Proof. exact VfsThrough.through_file. Qed.
Print Assumptions C35_through_partial.
(** "bin" -> "usr/bin" and "sbin" -> "/bin", and the files "bin/sh" and "sbin/init" in further layers *)
Example C35_through_case : Forall (Forall in_root) merged_usr /\ plain_stack merged_usr_real /\
  all_at_target empty_root (all_entries merged_usr) (all_entries merged_usr_real) /\ Forall (Forall (fun e => ~ links_to_root e)) merged_usr_real /\
  walks (unpack empty_root merged_usr_real) [] [$"sbin"; $"init"] [$"usr"; $"bin"; $"init"] /\
  ends (unpack empty_root merged_usr_real) [$"usr"; $"bin"; $"init"] [$"usr"; $"bin"; $"init"] /\
  unpack empty_root merged_usr_real [$"usr"; $"bin"; $"init"] = Some (FFile (anon (fst (a_file $"usr/bin/init" $"I"))) $"I").
Proof.
  split; [exact VfsThrough.merged_in_root|]. split; [apply plain_stackb_ok; vm_compute; reflexivity|]. split; [exact merged_at_target|].
  split; [apply no_rootb_ok; vm_compute; reflexivity|]. destruct VfsThrough.init_walks as [W E]. split; [exact W|]. split; [exact E|]. vm_compute. reflexivity.
Qed.
(** A hard link reads as an empty file. *)
Theorem C35_hard_link_refuted : forall sort order utf8, (forall l, Permutation (order l) l) -> utf8 $"b" = true ->
  let layers := [[a_file $"a" $"A"; a_hard_link $"b" $"a"]] in
  (exists h, unpack_linking empty_root layers [$"b"] = Some (FFile h $"A")) /\
  exists N t f, (forall n, N <= n -> load_layers n false layers = Ret t /\ open_file utf8 n order t $"b" = Ret f) /\
    exists programs c, reachable sort f programs c /\ c_log c = [(0, CRead 1, RErr EEOF)].
Proof.
  intros sort order utf8 HO U layers. split; [eexists; vm_compute; reflexivity|].
  destruct (image_file layers ltac:(apply plain_stackb_ok; vm_compute; reflexivity)
    ltac:(apply no_rootb_ok; vm_compute; reflexivity) sort order HO utf8 [$"b"] [$"b"] [$"b"] (anon (fst (a_hard_link $"b" $"a"))) []) as (N & t & f & H & R); auto.
  - repeat constructor; try discriminate. intros [X|[]]; discriminate X.
  - apply (walks_last _ [] None); [reflexivity| |vm_compute; discriminate]. repeat constructor; try discriminate. intros [X|[]]; discriminate X.
  - eapply ends_file; [vm_compute; reflexivity|vm_compute; discriminate].
  - vm_compute. discriminate.
  - exists N, t, f. split; [exact H|]. destruct (alone_reachable sort f [CRead 1]) as (c & Rc & L). exists (only [CRead 1]), c. split; [exact Rc|].
    specialize (R _ _ Rc). rewrite L in *. cbn [alone] in *. destruct (before_lock f (CRead 1)); cbn [reads_file] in R; destruct R as [-> _]; reflexivity.
Qed.
Print Assumptions C35_hard_link_refuted.
Example C35_nonvacuous :
  let layers := [[a_dir $"d/"; a_file $"d/f" $"hello"; a_symlink $"l" $"d"; a_symlink $"m" $"l/f"]] in
  plain_stack layers /\ Forall (Forall (fun e => ~ links_to_root e)) layers /\
  walks (unpack empty_root layers) [] [$"m"] [$"m"] /\ ends (unpack empty_root layers) [$"m"] [$"d"; $"f"] /\
  unpack empty_root layers [$"d"; $"f"] = Some (FFile (anon (fst (a_file $"d/f" $"hello"))) $"hello") /\
  exists t f c, load_layers 6 false layers = Ret t /\ open_file (fun _ => true) 9 (fun l => l) t $"m" = Ret f /\
    reachable insertion_sort f (only [CRead 2; CRead 9; CRead 1; CClose; CRead 1]) c /\
    map snd (c_log c) = [RData $"he"; RData $"llo"; RErr EEOF; ROk; RErr EClosed].
Proof.
  intros layers. assert (PC : forall x, In x [$"m"; $"l"; $"f"; $"d"] -> plain_comp x).
  { intros x [<-|[<-|[<-|[<-|[]]]]]; repeat constructor; try discriminate; intros [X|[]]; discriminate X. }
  split; [apply plain_stackb_ok; vm_compute; reflexivity|]. split; [apply no_rootb_ok; vm_compute; reflexivity|].
  assert (D0 : unpack empty_root layers [] = Some (FDir None)) by (vm_compute; reflexivity).
  split; [apply (walks_last _ [] None); [exact D0|apply PC; cbn; auto|vm_compute; discriminate]|]. split.
  - apply (ends_link _ [$"m"] (anon (fst (a_symlink $"m" $"l/f"))) [] [$"d"; $"f"]); [vm_compute; reflexivity|reflexivity| |].
    + change (walks (unpack empty_root layers) [] [$"l"; $"f"] [$"d"; $"f"]). apply (walks_down _ [] None $"l" [$"f"] [$"d"]).
      * exact D0.
      * apply PC; cbn; auto.
      * apply (follows_link _ [$"l"] (anon (fst (a_symlink $"l" $"d"))) [] [$"d"]); [vm_compute; reflexivity|reflexivity| |].
        -- change (walks (unpack empty_root layers) [] [$"d"] [$"d"]). apply (walks_last _ [] None); [exact D0|apply PC; cbn; auto|vm_compute; discriminate].
        -- eapply follows_dir. vm_compute. reflexivity.
      * discriminate.
      * eapply (walks_last _ [$"d"]); [vm_compute; reflexivity|apply PC; cbn; auto|vm_compute; discriminate].
    + eapply ends_file; [vm_compute; reflexivity|vm_compute; discriminate].
  - split; [vm_compute; reflexivity|]. eexists. eexists.
    match goal with |- exists c, _ /\ open_file _ _ _ ?t _ = Ret ?f /\ _ => idtac end.
    edestruct (alone_reachable insertion_sort) as (c & R & L). exists c. split; [vm_compute; reflexivity|]. split; [vm_compute; reflexivity|]. split; [exact R|].
    rewrite L. vm_compute. reflexivity.
Qed.

(** ** C36: listing *)

(** The results are those of listing the entries once, in order. *)
Theorem C36_pages_partial : forall sort f programs c acc, reachable sort f programs c ->
  non_dir (hd_header f) = false -> hd_built f = (acc, None) ->
  reads_dir (sort (fun i j => str_ltb (fst i) (fst j)) acc) false (c_log c).
Proof. exact reads_dir_any. Qed.
Print Assumptions C36_pages_partial.
Theorem C36_each_once_partial : forall log entries closed, reads_dir entries closed log ->
  exists more, entries = entries_read log ++ more /\ (In (RErr EEOF) (map snd log) -> more = []).
Proof. exact reads_dir_prefix. Qed.
Print Assumptions C36_each_once_partial.
(** The entries are those of the directory the path leads to in the unpacked
    stack, if no entry of it is a dangling link or a loop. *)
Theorem C36_listing_partial : forall layers, plain_stack layers -> Forall (Forall (fun e => ~ links_to_root e)) layers ->
  forall sort, sorts sort -> forall order, (forall l, Permutation (order l) l) -> forall utf8 p q e m,
  plain_path p -> utf8 (open_name p) = true ->
  walks (unpack empty_root layers) [] p q -> ends (unpack empty_root layers) q e ->
  unpack empty_root layers e = Some (FDir m) ->
  (forall x, unpack empty_root layers (e ++ [x]) <> None -> exists r, ends (unpack empty_root layers) (e ++ [x]) r) ->
  exists N t f l, (forall n, N <= n -> load_layers n false layers = Ret t /\ open_file utf8 n order t (open_name p) = Ret f) /\
    listing (unpack empty_root layers) e l /\
    forall programs c', reachable sort f programs c' -> reads_dir l false (c_log c').
Proof. exact image_dir. Qed.
Print Assumptions C36_listing_partial.
(** The same for layers that are themselves written through links ([layers'] as for C35). *)
Theorem C36_through_partial : forall layers layers', Forall (Forall in_root) layers -> plain_stack layers' ->
  all_at_target empty_root (all_entries layers) (all_entries layers') ->
  Forall (Forall (fun e => ~ links_to_root e)) layers' ->
  forall sort order utf8 p q e m, sorts sort -> (forall l, Permutation (order l) l) -> plain_path p -> utf8 (open_name p) = true ->
  walks (unpack empty_root layers') [] p q -> ends (unpack empty_root layers') q e ->
  unpack empty_root layers' e = Some (FDir m) ->
  (forall x, unpack empty_root layers' (e ++ [x]) <> None -> exists r, ends (unpack empty_root layers') (e ++ [x]) r) ->
  exists N t f l, (forall n, N <= n -> load_layers n false layers = Ret t /\ open_file utf8 n order t (open_name p) = Ret f) /\
    listing (unpack empty_root layers') e l /\
    forall programs c', reachable sort f programs c' -> reads_dir l false (c_log c').
Proof. exact NamesThrough.through_dir. Qed.
Print Assumptions C36_through_partial.
(** "sbin" of the image of C35_through_case: its entries were written as "bin/sh" and "sbin/init" *)
Example C36_through_case : Forall (Forall in_root) merged_usr /\ plain_stack merged_usr_real /\
  all_at_target empty_root (all_entries merged_usr) (all_entries merged_usr_real) /\ Forall (Forall (fun e => ~ links_to_root e)) merged_usr_real /\
  (walks (unpack empty_root merged_usr_real) [] [$"sbin"] [$"sbin"] /\ ends (unpack empty_root merged_usr_real) [$"sbin"] [$"usr"; $"bin"] /\
   unpack empty_root merged_usr_real [$"usr"; $"bin"] = Some (FDir (Some (anon (fst (a_dir []))))) /\
   (forall x, unpack empty_root merged_usr_real ([$"usr"; $"bin"] ++ [x]) <> None -> exists r, ends (unpack empty_root merged_usr_real) ([$"usr"; $"bin"] ++ [x]) r)) /\
  exists t f c, load_layers 9 false merged_usr = Ret t /\ open_file (fun _ => true) 12 (fun l => l) t $"sbin" = Ret f /\
    reachable insertion_sort f (only [CReadDir 1; CReadDir 5]) c /\
    map (fun x => match x with REntries l => map fst l | _ => [] end) (map snd (c_log c)) = [[$"init"]; [$"sh"]].
Proof.
  split; [exact VfsThrough.merged_in_root|]. split; [apply plain_stackb_ok; vm_compute; reflexivity|]. split; [exact merged_at_target|].
  split; [apply no_rootb_ok; vm_compute; reflexivity|]. split; [exact NamesThrough.usr_bin_listed|].
  eexists. eexists. edestruct (alone_reachable insertion_sort) as (c & R & L). exists c. split; [vm_compute; reflexivity|]. split; [vm_compute; reflexivity|]. split; [exact R|].
  rewrite L. vm_compute. reflexivity.
Qed.
(** A dangling link makes the first ReadDir fail, and the next one return
    whatever entries came first in the order of the Go map. *)
Theorem C36_dangling_refuted :
  let layers := [[a_file $"a" $"A"; a_symlink $"b" $"gone"]] in
  forall n sort utf8, utf8 $"." = true -> exists t, load_layers (4 + n) false layers = Ret t /\
  unpack empty_root layers [$"a"] <> None /\ unpack empty_root layers [$"b"] <> None /\
  exists f f' c c',
    open_file utf8 (6 + n) (fun l => l) t $"." = Ret f /\ open_file utf8 (6 + n) (fun l => rev l) t $"." = Ret f' /\
    reachable sort f (only [CReadDir (-1); CReadDir (-1)]) c /\ reachable sort f' (only [CReadDir (-1); CReadDir (-1)]) c' /\
    map snd (c_log c) = [RErr ENotExist; REntries [($"a", Some (fst (a_file $"a" $"A")))]] /\
    map snd (c_log c') = [RErr ENotExist; REntries []].
Proof.
  intros layers n sort utf8 U. eexists. split; [vm_compute; reflexivity|]. split; [vm_compute; discriminate|]. split; [vm_compute; discriminate|].
  eexists. eexists.
  edestruct (alone_reachable sort) as (c & R & L). edestruct (alone_reachable sort) as (c' & R' & L'). exists c, c'.
  split; [unfold open_file, open, valid_path; rewrite U; vm_compute; reflexivity|]. split; [unfold open_file, open, valid_path; rewrite U; vm_compute; reflexivity|].
  split; [exact R|]. split; [exact R'|]. rewrite L, L'. split; vm_compute; reflexivity.
Qed.
Print Assumptions C36_dangling_refuted.
(** What is left of the claim then, for every order of the Go map: the first ReadDir fails with the reason of one of
    the entries that lead nowhere, and further calls page through some of the entries, none of them twice. *)
Theorem C36_dangling_partial : forall layers sort order utf8 p q e m x er, LookPathSpec.handled layers -> (forall l, Permutation (order l) l) ->
  plain_path p -> utf8 (open_name p) = true ->
  walks (unpack empty_root layers) [] p q -> ends (unpack empty_root layers) q e -> unpack empty_root layers e = Some (FDir m) ->
  (forall y, unpack empty_root layers (e ++ [y]) <> None ->
     (exists r, ends (unpack empty_root layers) (e ++ [y]) r) \/ (exists a, strays (unpack empty_root layers) (e ++ [y]) a)) ->
  unpack empty_root layers (e ++ [x]) <> None -> strays (unpack empty_root layers) (e ++ [x]) er ->
  exists N t f y a l, (forall n, N <= n -> load_layers n false layers = Ret t /\ open_file utf8 n order t (open_name p) = Ret f) /\
    unpack empty_root layers (e ++ [y]) <> None /\ strays (unpack empty_root layers) (e ++ [y]) a /\
    DanglingSpec.some_entries (unpack empty_root layers) e l /\
    forall programs c, reachable sort f programs c -> DanglingSpec.fails_first a l false (c_log c).
Proof. exact VfsDangling.image_dangling. Qed.
Print Assumptions C36_dangling_partial.
(** The same in an image written through links, for the entries at the places where the links lead *)
Theorem C36_through_dangling_partial : forall layers layers' sort order utf8 p q e m x er, Forall (Forall in_root) layers -> LookPathSpec.handled layers' ->
  all_at_target empty_root (all_entries layers) (all_entries layers') -> (forall l, Permutation (order l) l) ->
  plain_path p -> utf8 (open_name p) = true ->
  walks (unpack empty_root layers') [] p q -> ends (unpack empty_root layers') q e -> unpack empty_root layers' e = Some (FDir m) ->
  (forall y, unpack empty_root layers' (e ++ [y]) <> None ->
     (exists r, ends (unpack empty_root layers') (e ++ [y]) r) \/ (exists a, strays (unpack empty_root layers') (e ++ [y]) a)) ->
  unpack empty_root layers' (e ++ [x]) <> None -> strays (unpack empty_root layers') (e ++ [x]) er ->
  exists N t f y a l, (forall n, N <= n -> load_layers n false layers = Ret t /\ open_file utf8 n order t (open_name p) = Ret f) /\
    unpack empty_root layers' (e ++ [y]) <> None /\ strays (unpack empty_root layers') (e ++ [y]) a /\
    DanglingSpec.some_entries (unpack empty_root layers') e l /\
    forall programs c, reachable sort f programs c -> DanglingSpec.fails_first a l false (c_log c).
Proof. exact VfsDangling.through_dangling. Qed.
Print Assumptions C36_through_dangling_partial.
(** "bin" -> "usr/bin", "sbin" -> "/bin", "bin/sh" and "sbin/init" in further layers, and "usr/bin/vi" that leads nowhere *)
Example C36_through_dangling_case : let fs := unpack empty_root VfsDangling.dangling_usr_real in
  Forall (Forall in_root) VfsDangling.dangling_usr /\ LookPathSpec.handled VfsDangling.dangling_usr_real /\
  all_at_target empty_root (all_entries VfsDangling.dangling_usr) (all_entries VfsDangling.dangling_usr_real) /\
  walks fs [] [$"sbin"] [$"sbin"] /\ ends fs [$"sbin"] [$"usr"; $"bin"] /\ fs [$"usr"; $"bin"] = Some (FDir (Some (anon (fst (a_dir []))))) /\
  (forall y, fs ([$"usr"; $"bin"] ++ [y]) <> None -> (exists r, ends fs ([$"usr"; $"bin"] ++ [y]) r) \/ (exists a, strays fs ([$"usr"; $"bin"] ++ [y]) a)) /\
  fs ([$"usr"; $"bin"] ++ [$"vi"]) <> None /\ strays fs ([$"usr"; $"bin"] ++ [$"vi"]) ENotExist.
Proof.
  intros fs. split; [exact VfsDangling.dangling_in_root|]. split; [apply LookPathFacts.handledb_ok; vm_compute; reflexivity|]. split; [exact VfsDangling.dangling_at_target|exact VfsDangling.dangling_bin].
Qed.
Example C36_dangling_case :
  let layers := [[a_file $"a" $"A"; a_symlink $"b" $"gone"]] in let fs := unpack empty_root layers in
  LookPathSpec.handled layers /\ walks fs [] [] [] /\ ends fs [] [] /\ fs [] = Some (FDir None) /\
  (forall y, fs ([] ++ [y]) <> None -> (exists r, ends fs ([] ++ [y]) r) \/ (exists a, strays fs ([] ++ [y]) a)) /\
  fs ([] ++ [$"b"]) <> None /\ strays fs ([] ++ [$"b"]) ENotExist.
Proof.
  intros layers fs. assert (B : strays fs ([] ++ [$"b"]) ENotExist).
  { eapply strays_text; [vm_compute; reflexivity|reflexivity|]. change (trips fs [] [$"gone"] ENotExist). eapply trips_missing; [vm_compute; reflexivity|apply pc; reflexivity|vm_compute; reflexivity]. }
  split; [|split; [apply walks_nil|split; [eapply ends_dir; vm_compute; reflexivity|split; [vm_compute; reflexivity|split; [|split; [vm_compute; discriminate|exact B]]]]]].
  - apply LookPathFacts.handledb_ok. vm_compute. reflexivity.
  - intros y N. pose proof N as J. apply in_next_names in J. vm_compute in J. destruct J as [<-|[<-|[]]]; [left|right; eauto].
    eexists. eapply ends_file; [vm_compute; reflexivity|vm_compute; discriminate].
Qed.
Example C36_nonvacuous :
  let layers := [[a_dir $"d/"; a_file $"d/f" $"hello"; a_file $"d/e" []; a_file $"d/g" []; a_symlink $"d/l" $"e"]; [a_file $"d/.wh.g" []]] in
  plain_stack layers /\ Forall (Forall (fun e => ~ links_to_root e)) layers /\
  (forall x, unpack empty_root layers ([$"d"] ++ [x]) <> None -> exists r, ends (unpack empty_root layers) ([$"d"] ++ [x]) r) /\
  exists t f c, load_layers 6 false layers = Ret t /\ open_file (fun _ => true) 9 (fun l => l) t $"d" = Ret f /\
    reachable insertion_sort f (only [CReadDir 2; CReadDir 5; CReadDir 1; CReadDir 0]) c /\
    map (fun x => match x with REntries l => map fst l | _ => [] end) (map snd (c_log c)) = [[$"e"; $"f"]; [$"l"]; []; []].
Proof.
  intros layers. split; [apply plain_stackb_ok; vm_compute; reflexivity|]. split; [apply no_rootb_ok; vm_compute; reflexivity|]. split.
  - intros x N. pose proof N as I. apply in_next_names in I. vm_compute in I. destruct I as [<-|[<-|[<-|[<-|[<-|[]]]]]].
    + eexists. eapply ends_file; [vm_compute; reflexivity|vm_compute; discriminate].
    + eexists. eapply ends_file; [vm_compute; reflexivity|vm_compute; discriminate].
    + exfalso. apply N. vm_compute. reflexivity.
    + exists [$"d"; $"e"]. apply (ends_link _ [$"d"; $"l"] (anon (fst (a_symlink $"d/l" $"e"))) [] [$"d"; $"e"]); [vm_compute; reflexivity|reflexivity| |].
      * change (walks (unpack empty_root layers) [$"d"] [$"e"] [$"d"; $"e"]). eapply (walks_last _ [$"d"]); [vm_compute; reflexivity| |vm_compute; discriminate].
        repeat constructor; try discriminate; intros [X|[]]; discriminate X.
      * eapply ends_file; [vm_compute; reflexivity|vm_compute; discriminate].
    + exfalso. apply N. vm_compute. reflexivity.
  - eexists. eexists.
    edestruct (alone_reachable insertion_sort) as (c & R & L). exists c. split; [vm_compute; reflexivity|]. split; [vm_compute; reflexivity|]. split; [exact R|].
    rewrite L. vm_compute. reflexivity.
Qed.

(** ** C65: opening *)

(** A path that leads somewhere opens what it leads to, and Stat describes that
    under the name of the path. *)
Theorem C65_open_partial : forall layers, plain_stack layers -> Forall (Forall (fun e => ~ links_to_root e)) layers ->
  forall utf8 p q e, plain_path p -> utf8 (open_name p) = true ->
  walks (unpack empty_root layers) [] p q -> ends (unpack empty_root layers) q e ->
  exists N t, forall n, N <= n -> load_layers n false layers = Ret t /\ open utf8 n t (open_name p) = Ret (q, e) /\
    stat_tells (unpack empty_root layers e) q (stat t q e).
Proof. exact image_open. Qed.
Print Assumptions C65_open_partial.
(** If its directory exists but has no such name, Open reports ErrNotExist. *)
Theorem C65_missing_partial : forall layers, plain_stack layers -> Forall (Forall (fun e => ~ links_to_root e)) layers ->
  forall utf8 a x r q D, plain_path (a ++ x :: r) -> utf8 (open_name (a ++ x :: r)) = true ->
  walks (unpack empty_root layers) [] a q -> follows (unpack empty_root layers) q D ->
  marker_name x = false -> unpack empty_root layers (D ++ [x]) = None ->
  exists N t, forall n, N <= n -> load_layers n false layers = Ret t /\ open utf8 n t (open_name (a ++ x :: r)) = Fail ENotExist.
Proof. exact image_missing. Qed.
Print Assumptions C65_missing_partial.
(** If it runs through something that is not a directory, ErrNotDir. *)
Theorem C65_not_dir_partial : forall layers, plain_stack layers -> Forall (Forall (fun e => ~ links_to_root e)) layers ->
  forall utf8 a x r q e h c, plain_path (a ++ x :: r) -> utf8 (open_name (a ++ x :: r)) = true ->
  walks (unpack empty_root layers) [] a q -> ends (unpack empty_root layers) q e ->
  unpack empty_root layers e = Some (FFile h c) ->
  exists N t, forall n, N <= n -> load_layers n false layers = Ret t /\ open utf8 n t (open_name (a ++ x :: r)) = Fail ENotDir.
Proof. exact image_not_dir. Qed.
Print Assumptions C65_not_dir_partial.
(** Names that are not paths in the sense of io/fs are refused. *)
Theorem C65_invalid_partial : forall utf8 n t name c, In c (split_on slash name) -> c = [] \/ c = $"." \/ c = $".." -> name <> $"." ->
  open utf8 n t name = Fail EInvalid.
Proof. exact open_invalid. Qed.
Print Assumptions C65_invalid_partial.
(** Open succeeds only for a path that leads somewhere, and opens what it leads to. *)
Theorem C65_only_partial : forall layers utf8 n m t p q e, LookPathSpec.handled layers -> load_layers m false layers = Ret t ->
  plain_path p -> Forall (fun x => marker_name x = false) p ->
  open utf8 n t (open_name p) = Ret (q, e) -> walks (unpack empty_root layers) [] p q /\ ends (unpack empty_root layers) q e.
Proof. exact LookPathFacts.open_only. Qed.
Print Assumptions C65_only_partial.
(** A path that leads nowhere gives the error that tells why: a name that is missing, something with names
    below it that is not a directory, links that lead to one another. *)
Theorem C65_nowhere_partial : forall layers utf8 p e, LookPathSpec.handled layers -> plain_path p -> LookPathSpec.askable utf8 p ->
  leads_nowhere (unpack empty_root layers) p e ->
  exists N t, forall n, N <= n -> load_layers n false layers = Ret t /\ open utf8 n t (open_name p) = Fail e.
Proof. exact LookPathFacts.image_nowhere. Qed.
Print Assumptions C65_nowhere_partial.
(** Open fails only for such paths. *)
Theorem C65_why_partial : forall layers utf8 n m t p e, LookPathSpec.handled layers -> load_layers m false layers = Ret t ->
  plain_path p -> LookPathSpec.askable utf8 p ->
  open utf8 n t (open_name p) = Fail e -> leads_nowhere (unpack empty_root layers) p e.
Proof. exact LookPathFacts.image_why. Qed.
Print Assumptions C65_why_partial.
(** So Open returns exactly for the paths that settle; on others it recurses without end. *)
Theorem C65_returns_partial : forall layers utf8 p, LookPathSpec.handled layers -> plain_path p -> LookPathSpec.askable utf8 p ->
  (LookPathSpec.settles (unpack empty_root layers) p <->
   exists N, forall n, N <= n -> exists t, load_layers n false layers = Ret t /\ open utf8 n t (open_name p) <> OutOfFuel).
Proof. exact LookPathFacts.open_settles. Qed.
Print Assumptions C65_returns_partial.
(** Layers that are themselves written through links: Open gives what it gives for the entries at the places where
    their links lead, which are not written through links; so all of the above holds of them. *)
Theorem C65_through_partial : forall layers layers', Forall (Forall in_root) layers -> plain_stack layers' ->
  all_at_target empty_root (all_entries layers) (all_entries layers') ->
  exists N t t', (forall n, N <= n -> load_layers n false layers = Ret t /\ load_layers n false layers' = Ret t') /\
    forall utf8 n name, open utf8 n t name = open utf8 n t' name.
Proof. exact VfsThrough.open_same. Qed.
Print Assumptions C65_through_partial.
(** Stat, too, describes what the path leads to, under the name of the path. *)
Theorem C65_through_stat_partial : forall layers layers', Forall (Forall in_root) layers -> plain_stack layers' ->
  all_at_target empty_root (all_entries layers) (all_entries layers') ->
  Forall (Forall (fun e => ~ links_to_root e)) layers' ->
  forall utf8 p q e, plain_path p -> utf8 (open_name p) = true ->
  walks (unpack empty_root layers') [] p q -> ends (unpack empty_root layers') q e ->
  exists N t, forall n, N <= n -> load_layers n false layers = Ret t /\ open utf8 n t (open_name p) = Ret (q, e) /\
    stat_tells (unpack empty_root layers' e) q (stat t q e).
Proof. exact NamesThrough.through_stat. Qed.
Print Assumptions C65_through_stat_partial.
(** A link to the root directory leads nowhere. *)
Theorem C65_root_link_refuted :
  let layers := [[a_symlink $"r" $"/"; a_file $"f" $"F"]] in
  walks (unpack empty_root layers) [] [$"r"; $"f"] [$"f"] /\
  forall n utf8, utf8 $"r/f" = true -> exists t, load_layers (4 + n) false layers = Ret t /\ open utf8 (6 + n) t $"r/f" = Fail ENotExist.
Proof.
  intros layers. assert (PC : forall x, In x [$"r"; $"f"] -> plain_comp x).
  { intros x [<-|[<-|[]]]; repeat constructor; try discriminate; intros [X|[]]; discriminate X. }
  split.
  - apply (walks_down _ [] None $"r" [$"f"] []); [vm_compute; reflexivity|apply PC; cbn; auto| |discriminate|].
    + apply (follows_link _ [$"r"] (anon (fst (a_symlink $"r" $"/"))) [] []); [vm_compute; reflexivity|reflexivity| |].
      * apply walks_nil.
      * eapply follows_dir. vm_compute. reflexivity.
    + apply (walks_last _ [] None); [vm_compute; reflexivity|apply PC; cbn; auto|vm_compute; discriminate].
  - intros n utf8 U. eexists. split; [vm_compute; reflexivity|]. unfold open, valid_path. rewrite U. vm_compute. reflexivity.
Qed.
Print Assumptions C65_root_link_refuted.
(** A link that leads below itself is followed forever. *)
Theorem C65_endless_refuted :
  LookPathSpec.handled [[a_symlink $"a" $"a/b"]] /\
  forall utf8, utf8 $"a/x" = true -> exists t, (forall n, load_layers (4 + n) false [[a_symlink $"a" $"a/b"]] = Ret t) /\
    forall n, open utf8 n t $"a/x" = OutOfFuel.
Proof. split; [apply LookPathFacts.handledb_ok; vm_compute; reflexivity|]. exact LookPathFacts.open_endless. Qed.
Print Assumptions C65_endless_refuted.
(** Markers are not listed, but they can be opened. *)
Theorem C65_marker_refuted :
  let layers := [[a_file $".wh.x" []]] in
  unpack empty_root layers [$".wh.x"] = None /\
  forall n utf8, utf8 $".wh.x" = true -> exists t, load_layers (4 + n) false layers = Ret t /\
    open utf8 (6 + n) t $".wh.x" = Ret ([$".wh.x"], [$".wh.x"]).
Proof.
  split; [vm_compute; reflexivity|]. intros n utf8 U. eexists. split; [vm_compute; reflexivity|]. unfold open, valid_path. rewrite U. vm_compute. reflexivity.
Qed.
Print Assumptions C65_marker_refuted.
(** The hypotheses of the theorems on a stack with links: see C35_nonvacuous for
    paths that lead somewhere. *)
Example C65_nowhere_nonvacuous :
  let layers := [[a_dir $"d/"; a_file $"d/f" $"hello"; a_symlink $"a" $"d/../b"; a_symlink $"b" $"/a"; a_symlink $"gone" $"d/x/y"; a_symlink $"over" $"d/f/y"; a_symlink $"to" $"gone"]] in
  LookPathSpec.handled layers /\
  leads_nowhere (unpack empty_root layers) [$"a"] ELoop /\ leads_nowhere (unpack empty_root layers) [$"a"; $"x"] ELoop /\
  leads_nowhere (unpack empty_root layers) [$"to"] ENotExist /\ leads_nowhere (unpack empty_root layers) [$"over"; $"z"] ENotDir /\
  exists t, load_layers 9 false layers = Ret t /\ map (open (fun _ => true) 20 t) [$"a"; $"a/x"; $"to"; $"over/z"; $"d/f"] =
    [Fail ELoop; Fail ELoop; Fail ENotExist; Fail ENotDir; Ret ([$"d"; $"f"], [$"d"; $"f"])].
Proof.
  intros layers. assert (PC : forall x, In x [$"a"; $"b"; $"d"; $"f"; $"gone"; $"over"; $"to"; $"x"] -> plain_comp x).
  { intros x I. repeat (destruct I as [<-|I]; [repeat constructor; try discriminate; cbn; intuition discriminate|]). destruct I. }
  set (fs := unpack empty_root layers). assert (D0 : fs [] = Some (FDir None)) by (vm_compute; reflexivity).
  assert (W : forall x, In x [$"a"; $"b"; $"d"; $"gone"; $"over"; $"to"] -> fs [x] <> None -> walks fs [] [x] [x]).
  { intros x I N. apply (walks_last _ [] None); auto. apply PC. cbn in *. tauto. }
  assert (L : forall x l, In (x, l) [($"a", $"d/../b"); ($"b", $"/a"); ($"gone", $"d/x/y"); ($"over", $"d/f/y"); ($"to", $"gone")] -> fs [x] = Some (FFile (anon (fst (a_symlink x l))) [])).
  { intros x l I. repeat (destruct I as [I|I]; [injection I as <- <-; vm_compute; reflexivity|]). destruct I. }
  assert (R : ring fs [[$"a"]; [$"b"]]).
  { intros x [<-|[<-|[]]].
    - exists [$"b"]. split; [cbn; auto|]. eexists. eexists. split; [apply L; cbn; tauto|]. split; [reflexivity|]. change (walks fs [] [$"b"] [$"b"]). apply W; [cbn; auto|vm_compute; discriminate].
    - exists [$"a"]. split; [cbn; auto|]. eexists. eexists. split; [apply L; cbn; tauto|]. split; [reflexivity|]. change (walks fs [] [$"a"] [$"a"]). apply W; [cbn; auto|vm_compute; discriminate]. }
  assert (SA : strays fs [$"a"] ELoop) by (apply strays_ring with (links := [[$"a"]; [$"b"]]); [cbn; auto|exact R]).
  assert (ED : fs [$"d"] = Some (FDir (Some (anon (fst (a_dir $"d/")))))) by (vm_compute; reflexivity).
  assert (EF : fs [$"d"; $"f"] = Some (FFile (anon (fst (a_file $"d/f" $"hello"))) $"hello")) by (vm_compute; reflexivity).
  assert (FD : follows fs [$"d"] [$"d"]) by (eapply follows_dir; exact ED).
  assert (SG : strays fs [$"gone"] ENotExist).
  { eapply strays_text; [apply L; cbn; tauto|reflexivity|]. change (trips fs [] [$"d"; $"x"; $"y"] ENotExist). eapply trips_down; [exact D0|apply PC; cbn; auto|exact FD|discriminate|].
    eapply trips_missing; [exact ED|apply PC; cbn; tauto|vm_compute; reflexivity]. }
  split; [apply LookPathFacts.handledb_ok; vm_compute; reflexivity|]. split; [|split; [|split; [|split]]].
  - right. exists [$"a"]. split; [apply W; [cbn; auto|vm_compute; discriminate]|exact SA].
  - left. eapply trips_link; [exact D0|apply PC; cbn; auto|discriminate|exact SA].
  - right. exists [$"to"]. split; [apply W; [cbn; tauto|vm_compute; discriminate]|]. eapply strays_on; [|exact SG]. eexists. eexists. split; [apply L; cbn; tauto|]. split; [reflexivity|].
    change (walks fs [] [$"gone"] [$"gone"]). apply W; [cbn; tauto|vm_compute; discriminate].
  - left. eapply trips_link; [exact D0|apply PC; cbn; tauto|discriminate|]. eapply strays_text; [apply L; cbn; tauto|reflexivity|]. change (trips fs [] [$"d"; $"f"; $"y"] ENotDir).
    eapply trips_down; [exact D0|apply PC; cbn; auto|exact FD|discriminate|]. eapply trips_file; [exact ED|apply PC; cbn; tauto|discriminate| |].
    + eapply ends_file; [exact EF|discriminate].
    + exact EF.
  - exists (match load_layers 9 false layers with Ret t => t | _ => empty_tree end). split; vm_compute; reflexivity.
Qed.
Example C65_nonvacuous :
  let layers := [[a_dir $"d/"; a_file $"d/f" $"hello"; a_symlink $"l" $"d"]] in
  LookPathSpec.handled layers /\ plain_stack layers /\ Forall (Forall (fun e => ~ links_to_root e)) layers /\
  walks (unpack empty_root layers) [] [$"l"] [$"l"] /\ follows (unpack empty_root layers) [$"l"] [$"d"] /\
  unpack empty_root layers [$"d"; $"x"] = None /\
  exists t, load_layers 6 false layers = Ret t /\ open (fun _ => true) 9 t $"l/f" = Ret ([$"d"; $"f"], [$"d"; $"f"]) /\
    open (fun _ => true) 9 t $"l/x" = Fail ENotExist /\ open (fun _ => true) 9 t $"l/f/x" = Fail ENotDir.
Proof.
  intros layers. assert (PC : forall x, In x [$"l"; $"f"; $"d"] -> plain_comp x).
  { intros x [<-|[<-|[<-|[]]]]; repeat constructor; try discriminate; intros [X|[]]; discriminate X. }
  split; [apply LookPathFacts.handledb_ok; vm_compute; reflexivity|]. split; [apply plain_stackb_ok; vm_compute; reflexivity|]. split; [apply no_rootb_ok; vm_compute; reflexivity|].
  assert (D0 : unpack empty_root layers [] = Some (FDir None)) by (vm_compute; reflexivity).
  split; [apply (walks_last _ [] None); [exact D0|apply PC; cbn; auto|vm_compute; discriminate]|]. split.
  - apply (follows_link _ [$"l"] (anon (fst (a_symlink $"l" $"d"))) [] [$"d"]); [vm_compute; reflexivity|reflexivity| |].
    + change (walks (unpack empty_root layers) [] [$"d"] [$"d"]). apply (walks_last _ [] None); [exact D0|apply PC; cbn; auto|vm_compute; discriminate].
    + eapply follows_dir. vm_compute. reflexivity.
  - split; [vm_compute; reflexivity|]. exists (match load_layers 6 false layers with Ret t => t | _ => empty_tree end). repeat split; vm_compute; reflexivity.
Qed.
