(** C105: an image and the image that has its squashed layer only, as seen by Load, Open, Read and ReadDir.
    [layers] may be written through links; [layers'] are the entries at the places where the links lead (C33), as
    [layers' = layers] if nothing is written through links.  [opens utf8 layers p r]: Load succeeds and Open gives
    [r] for the path [p], at every sufficient depth of recursion. *)
From Coq Require Import String Ascii List Bool ZArith Permutation Lia.
From Verif.Model Require Import GoStr GoPath Tar Squash VfsFS.
From Verif.Spec Require Import PathSpec SquashSpec SimpleAPISpec VfsFSSpec LookPathSpec OverlaySpec SquashOpenSpec TripSpec DanglingSpec.
From Verif.Proofs Require Import SimpleAPIFacts SquashLinks SquashCheck SquashHard LookPathFacts VfsThrough NamesThrough VfsDangling SquashOpen SquashSame.
Import ListNotations.
Open Scope nat_scope.

(** Open finds the same or fails for the same reason in both, and goes on forever in one if it does in the other. *)
Theorem C105_open_partial : forall n sort order layers layers' out utf8 p r, sorts sort -> permutes order ->
  Forall (Forall in_root) layers -> handled layers' -> all_at_target empty_root (all_entries layers) (all_entries layers') ->
  squash n sort order layers = Ret out -> plain_path p -> askable utf8 p ->
  r <> OutOfFuel -> (opens utf8 layers p r <-> opens utf8 [out] p r).
Proof. exact squash_opens. Qed.
Print Assumptions C105_open_partial.
(** Also with links to the root directory, at every depth of recursion and for every name, also one that is not valid; Stat then
    gives the same apart from the name, and files have the same content. *)
Theorem C105_any_partial : forall n sort order layers layers' out, sorts sort -> permutes order ->
  Forall (Forall in_root) layers -> plain_stack layers' ->
  (forall p h c, unpack empty_root layers' p = Some (FFile h c) -> th_type h = TypeSymlink -> unmarked (clean_comps (th_link h))) ->
  all_at_target empty_root (all_entries layers) (all_entries layers') -> squash n sort order layers = Ret out ->
  exists N t t', (forall k, N <= k -> load_layers k false layers = Ret t /\ load_layers k false [out] = Ret t') /\
    forall utf8 k name, unmarked (clean_comps name) -> open utf8 k t name = open utf8 k t' name /\
      (forall q e, open utf8 k t name = Ret (q, e) -> alike_stat (stat t q e) (stat t' q e)) /\
      forall ord ord' f f' h, open_file utf8 k ord t name = Ret f -> open_file utf8 k ord' t' name = Ret f' ->
        hd_header f = Some h -> th_type h <> TypeDir -> (th_size h <= Z.of_nat (length (hd_body f)))%Z ->
        exists content, forall srt programs c, (reachable srt f programs c -> reads_file content false (c_log c)) /\ (reachable srt f' programs c -> reads_file content false (c_log c)).
Proof. exact squash_opens_any. Qed.
Print Assumptions C105_any_partial.
(** False for links to the name of a whiteout: that of "-a" is in the squashed layer before the opaque whiteout, which removes it. *)
Theorem C105_marker_refuted : let layers := [[a_file $".wh..wh..opq" []]; [a_file $".wh.-a" []; a_symlink $"l" $".wh.-a"]] in
  plain_stack layers /\ exists out t t', squash 12 insertion_sort (fun _ l => l) layers = Ret out /\ load_layers 12 false layers = Ret t /\ load_layers 12 false [out] = Ret t' /\
  open (fun _ => true) 12 t $"l" = Ret ([$"l"], [$".wh.-a"]) /\ open (fun _ => true) 12 t' $"l" = Fail ENotExist.
Proof.
  intros layers. split; [apply plain_stackb_ok; vm_compute; reflexivity|]. do 3 eexists.
  split; [vm_compute; reflexivity|]. split; [vm_compute; reflexivity|]. split; [vm_compute; reflexivity|]. split; vm_compute; reflexivity.
Qed.
Print Assumptions C105_marker_refuted.
(** Files have the same content. *)
Theorem C105_read_partial : forall n sort order layers layers' out p q e h c, sorts sort -> permutes order ->
  Forall (Forall in_root) layers -> handled layers' -> all_at_target empty_root (all_entries layers) (all_entries layers') ->
  squash n sort order layers = Ret out -> plain_path p ->
  walks (unpack empty_root layers') [] p q -> ends (unpack empty_root layers') q e ->
  unpack empty_root layers' e = Some (FFile h c) -> (th_size h <= Z.of_nat (length c))%Z ->
  reads_back layers (open_name p) c /\ reads_back [out] (open_name p) c.
Proof. exact squash_reads. Qed.
Print Assumptions C105_read_partial.
(** Stat gives the same description, apart from the directory part of the name, or fails for the same reason. *)
Theorem C105_stat_partial : forall n sort order layers layers' out utf8 p q e, sorts sort -> permutes order ->
  Forall (Forall in_root) layers -> handled layers' -> all_at_target empty_root (all_entries layers) (all_entries layers') ->
  squash n sort order layers = Ret out -> plain_path p -> utf8 (open_name p) = true ->
  walks (unpack empty_root layers') [] p q -> ends (unpack empty_root layers') q e ->
  exists N t t', (forall k, N <= k -> load_layers k false layers = Ret t /\ open utf8 k t (open_name p) = Ret (q, e) /\
      load_layers k false [out] = Ret t' /\ open utf8 k t' (open_name p) = Ret (q, e)) /\
    same_stat q (stat t q e) (stat t' q e).
Proof. exact squash_stats. Qed.
Print Assumptions C105_stat_partial.
(** Directories have the same names in them, with the same descriptions. *)
Theorem C105_list_partial : forall n sort order layers layers' out srt ord utf8 p q e m, sorts sort -> permutes order ->
  Forall (Forall in_root) layers -> handled layers' -> all_at_target empty_root (all_entries layers) (all_entries layers') ->
  squash n sort order layers = Ret out -> sorts srt -> (forall l, Permutation (ord l) l) -> plain_path p -> utf8 (open_name p) = true ->
  walks (unpack empty_root layers') [] p q -> ends (unpack empty_root layers') q e -> unpack empty_root layers' e = Some (FDir m) ->
  (forall x, unpack empty_root layers' (e ++ [x]) <> None -> exists r, ends (unpack empty_root layers') (e ++ [x]) r) ->
  exists N t f l t' f' l', (forall k, N <= k -> load_layers k false layers = Ret t /\ open_file utf8 k ord t (open_name p) = Ret f /\
      load_layers k false [out] = Ret t' /\ open_file utf8 k ord t' (open_name p) = Ret f') /\
    listing (unpack empty_root layers') e l /\ map fst l' = map fst l /\
    (forall x h h', In (x, h) l -> In (x, h') l' -> option_map anon h = option_map anon h') /\
    (forall programs c, reachable srt f programs c -> reads_dir l false (c_log c)) /\
    (forall programs c, reachable srt f' programs c -> reads_dir l' false (c_log c)).
Proof. exact squash_lists. Qed.
Print Assumptions C105_list_partial.
(** Also with links to the root directory: if ReadDir in the image finds no entry that leads nowhere. *)
Theorem C105_list_any_partial : forall n sort order layers layers' out, sorts sort -> permutes order ->
  Forall (Forall in_root) layers -> plain_stack layers' ->
  (forall p h c, unpack empty_root layers' p = Some (FFile h c) -> th_type h = TypeSymlink -> unmarked (clean_comps (th_link h))) ->
  all_at_target empty_root (all_entries layers) (all_entries layers') -> squash n sort order layers = Ret out ->
  exists N t t', (forall k, N <= k -> load_layers k false layers = Ret t /\ load_layers k false [out] = Ret t') /\
    forall srt ord ord' utf8 k name f acc, sorts srt -> (forall l, Permutation (ord l) l) -> (forall l, Permutation (ord' l) l) -> unmarked (clean_comps name) ->
      open_file utf8 k ord t name = Ret f -> non_dir (hd_header f) = false -> hd_built f = (acc, None) ->
      exists f' l l', open_file utf8 k ord' t' name = Ret f' /\ map fst l' = map fst l /\
        (forall x h h', In (x, h) l -> In (x, h') l' -> option_map anon h = option_map anon h') /\
        (forall programs c, reachable srt f programs c -> reads_dir l false (c_log c)) /\
        (forall programs c, reachable srt f' programs c -> reads_dir l' false (c_log c)).
Proof. exact squash_lists_any. Qed.
Print Assumptions C105_list_any_partial.
(** If an entry of a directory leads nowhere then ReadDir fails at first in both, each time for the reason of one of these
    entries, and then lists some entries; which ones depends on the order of Go's maps, so not even two runs with the same image agree (C36). *)
Theorem C105_dangling_partial : forall n sort order layers layers' out srt ord utf8 p q e m x er, sorts sort -> permutes order ->
  Forall (Forall in_root) layers -> handled layers' -> all_at_target empty_root (all_entries layers) (all_entries layers') ->
  squash n sort order layers = Ret out -> (forall l, Permutation (ord l) l) -> plain_path p -> utf8 (open_name p) = true ->
  walks (unpack empty_root layers') [] p q -> ends (unpack empty_root layers') q e -> unpack empty_root layers' e = Some (FDir m) ->
  (forall y, unpack empty_root layers' (e ++ [y]) <> None ->
     (exists r, ends (unpack empty_root layers') (e ++ [y]) r) \/ (exists a, strays (unpack empty_root layers') (e ++ [y]) a)) ->
  unpack empty_root layers' (e ++ [x]) <> None -> strays (unpack empty_root layers') (e ++ [x]) er ->
  exists N t f y a l t' f' y' a' l', (forall k, N <= k -> load_layers k false layers = Ret t /\ open_file utf8 k ord t (open_name p) = Ret f /\
      load_layers k false [out] = Ret t' /\ open_file utf8 k ord t' (open_name p) = Ret f') /\
    strays (unpack empty_root layers') (e ++ [y]) a /\ some_entries (unpack empty_root layers') e l /\
    strays (unpack empty_root layers') (e ++ [y']) a' /\ some_entries (unpack empty_root [out]) e l' /\
    (forall programs c, reachable srt f programs c -> fails_first a l false (c_log c)) /\
    (forall programs c, reachable srt f' programs c -> fails_first a' l' false (c_log c)).
Proof. exact squash_dangles. Qed.
Print Assumptions C105_dangling_partial.
(** Also with links to the root directory. *)
Theorem C105_dangling_any_partial : forall n sort order layers layers' out, sorts sort -> permutes order ->
  Forall (Forall in_root) layers -> plain_stack layers' ->
  (forall p h c, unpack empty_root layers' p = Some (FFile h c) -> th_type h = TypeSymlink -> unmarked (clean_comps (th_link h))) ->
  all_at_target empty_root (all_entries layers) (all_entries layers') -> squash n sort order layers = Ret out ->
  exists N t t', (forall k, N <= k -> load_layers k false layers = Ret t /\ load_layers k false [out] = Ret t') /\
    forall srt ord ord' utf8 k name f f' acc er, (forall l, Permutation (ord l) l) -> (forall l, Permutation (ord' l) l) -> unmarked (clean_comps name) ->
      open_file utf8 k ord t name = Ret f -> open_file utf8 k ord' t' name = Ret f' -> non_dir (hd_header f) = false -> hd_built f = (acc, Some er) ->
      exists er' l l', (forall programs c, reachable srt f programs c -> fails_first er l false (c_log c)) /\
        (forall programs c, reachable srt f' programs c -> fails_first er' l' false (c_log c)).
Proof. exact squash_fails_any. Qed.
Print Assumptions C105_dangling_any_partial.
(** "bin" -> "usr/bin", "sbin" -> "/bin", "bin/sh" and "sbin/init" in further layers *)
Example C105_case : Forall (Forall in_root) merged_usr /\ handled merged_usr_real /\
  all_at_target empty_root (all_entries merged_usr) (all_entries merged_usr_real) /\
  (exists out, squash 12 insertion_sort (fun _ l => l) merged_usr = Ret out /\ length out = 6) /\
  (walks (unpack empty_root merged_usr_real) [] [$"sbin"; $"init"] [$"usr"; $"bin"; $"init"] /\
   ends (unpack empty_root merged_usr_real) [$"usr"; $"bin"; $"init"] [$"usr"; $"bin"; $"init"]) /\
  (walks (unpack empty_root merged_usr_real) [] [$"sbin"] [$"sbin"] /\ ends (unpack empty_root merged_usr_real) [$"sbin"] [$"usr"; $"bin"] /\
   unpack empty_root merged_usr_real [$"usr"; $"bin"] = Some (FDir (Some (anon (fst (a_dir []))))) /\
   (forall x, unpack empty_root merged_usr_real ([$"usr"; $"bin"] ++ [x]) <> None -> exists r, ends (unpack empty_root merged_usr_real) ([$"usr"; $"bin"] ++ [x]) r)).
Proof.
  split; [exact merged_in_root|]. split; [apply handledb_ok; vm_compute; reflexivity|]. split; [exact merged_at_target|].
  split; [eexists; split; vm_compute; reflexivity|]. split; [exact init_walks|exact usr_bin_listed].
Qed.
(** the same with a link "usr/bin/vi" that leads nowhere *)
Example C105_dangling_case : let fs := unpack empty_root dangling_usr_real in
  Forall (Forall in_root) dangling_usr /\ handled dangling_usr_real /\
  all_at_target empty_root (all_entries dangling_usr) (all_entries dangling_usr_real) /\
  (exists out, squash 12 insertion_sort (fun _ l => l) dangling_usr = Ret out /\ length out = 7) /\
  walks fs [] [$"sbin"] [$"sbin"] /\ ends fs [$"sbin"] [$"usr"; $"bin"] /\ fs [$"usr"; $"bin"] = Some (FDir (Some (anon (fst (a_dir []))))) /\
  (forall y, fs ([$"usr"; $"bin"] ++ [y]) <> None -> (exists r, ends fs ([$"usr"; $"bin"] ++ [y]) r) \/ (exists a, strays fs ([$"usr"; $"bin"] ++ [y]) a)) /\
  fs ([$"usr"; $"bin"] ++ [$"vi"]) <> None /\ strays fs ([$"usr"; $"bin"] ++ [$"vi"]) ENotExist.
Proof.
  intros fs. split; [exact dangling_in_root|]. split; [apply handledb_ok; vm_compute; reflexivity|]. split; [exact dangling_at_target|].
  split; [eexists; split; vm_compute; reflexivity|exact dangling_bin].
Qed.
(** no layer describes "d": Stat fails in both *)
Example C105_stat_case : let layers := [[a_file $"d/f" $"F"]] in
  handled layers /\ exists out t t', squash 12 insertion_sort (fun _ l => l) layers = Ret out /\ load_layers 12 false layers = Ret t /\ load_layers 12 false [out] = Ret t' /\
  open (fun _ => true) 12 t $"d" = Ret ([$"d"], [$"d"]) /\ stat t [$"d"] [$"d"] = StatErr EMissing /\ stat t' [$"d"] [$"d"] = StatErr EMissing /\
  map (fun t => match stat t [$"d"; $"f"] [$"d"; $"f"] with StatOk h => Some (fi_name h, th_size h) | _ => None end) [t; t'] = [Some ($"f", 1%Z); Some ($"f", 1%Z)].
Proof.
  intros layers. split; [apply handledb_ok; vm_compute; reflexivity|]. do 3 eexists.
  split; [vm_compute; reflexivity|]. split; [vm_compute; reflexivity|]. split; [vm_compute; reflexivity|]. repeat split; vm_compute; reflexivity.
Qed.
(** a link to the root directory *)
Example C105_any_case : let layers := [[a_symlink $"r" $"/"; a_file $"f" $"F"]; [a_symlink $"s" $"r/f"]] in
  Forall (Forall in_root) layers /\ plain_stack layers /\ all_at_target empty_root (all_entries layers) (all_entries layers) /\
  (forall p h c, unpack empty_root layers p = Some (FFile h c) -> th_type h = TypeSymlink -> unmarked (clean_comps (th_link h))) /\
  exists out t t', squash 12 insertion_sort (fun _ l => l) layers = Ret out /\ load_layers 12 false layers = Ret t /\ load_layers 12 false [out] = Ret t' /\
  map (fun t => map (open (fun _ => true) 12 t) [$"f"; $"r"; $"s"; $"../f"]) [t; t'] =
  [[Ret ([$"f"], [$"f"]); Fail ENotExist; Fail ENotExist; Fail EInvalid]; [Ret ([$"f"], [$"f"]); Fail ENotExist; Fail ENotExist; Fail EInvalid]] /\
  exists f f' h, open_file (fun _ => true) 12 (fun l => l) t $"f" = Ret f /\ open_file (fun _ => true) 12 (fun l => l) t' $"f" = Ret f' /\ hd_header f = Some h /\ th_type h = TypeReg /\ th_size h = 1%Z /\ hd_body f = $"F".
Proof.
  intros layers. assert (P : plain_stack layers) by (apply plain_stackb_ok; vm_compute; reflexivity).
  split; [|split; [exact P|split; [apply SquashBack.aat_same, SquashStack.good_all, P|split]]].
  - repeat match goal with |- Forall in_root [] => constructor | |- Forall in_root (_ :: _) => constructor | |- Forall (Forall _) _ => constructor end;
      (split; [reflexivity|]); apply Forall_forall; intros x H; apply pc;
      match type of H with In x ?l => let l' := eval vm_compute in l in change (In x l') in H end; cbn [In] in H;
      repeat (destruct H as [<-|H]; [vm_compute; reflexivity|]); destruct H.
  - apply links_checked. vm_compute. reflexivity.
  - do 3 eexists. split; [vm_compute; reflexivity|]. split; [vm_compute; reflexivity|]. split; [vm_compute; reflexivity|]. split; [vm_compute; reflexivity|].
    do 3 eexists. split; [vm_compute; reflexivity|]. split; [vm_compute; reflexivity|]. repeat split; vm_compute; reflexivity.
Qed.
(** a directory of an image that has a link to the root directory *)
Example C105_list_any_case : let layers := [[a_symlink $"r" $"/"; a_dir $"d/"; a_file $"d/x" $"X"; a_file $"d/z" []]; [a_symlink $"d/y" $"x"; a_file $"d/.wh.z" []]] in
  Forall (Forall in_root) layers /\ plain_stack layers /\ all_at_target empty_root (all_entries layers) (all_entries layers) /\
  (forall p h c, unpack empty_root layers p = Some (FFile h c) -> th_type h = TypeSymlink -> unmarked (clean_comps (th_link h))) /\
  exists out t t' f acc, squash 12 insertion_sort (fun _ l => l) layers = Ret out /\ load_layers 12 false layers = Ret t /\ load_layers 12 false [out] = Ret t' /\
  open_file (fun _ => true) 12 (fun l => l) t $"d" = Ret f /\ non_dir (hd_header f) = false /\ hd_built f = (acc, None) /\ map fst acc = [$"x"; $"y"] /\
  (** the root directory has a link to itself, which leads nowhere *)
  exists g g' part part', open_file (fun _ => true) 12 (fun l => l) t $"." = Ret g /\ open_file (fun _ => true) 12 (fun l => l) t' $"." = Ret g' /\
  non_dir (hd_header g) = false /\ hd_built g = (part, Some ENotExist) /\ hd_built g' = (part', Some ENotExist).
Proof.
  intros layers. assert (P : plain_stack layers) by (apply plain_stackb_ok; vm_compute; reflexivity).
  split; [|split; [exact P|split; [apply SquashBack.aat_same, SquashStack.good_all, P|split]]].
  - repeat match goal with |- Forall in_root [] => constructor | |- Forall in_root (_ :: _) => constructor | |- Forall (Forall _) _ => constructor end;
      (split; [reflexivity|]); apply Forall_forall; intros x H; apply pc;
      match type of H with In x ?l => let l' := eval vm_compute in l in change (In x l') in H end; cbn [In] in H;
      repeat (destruct H as [<-|H]; [vm_compute; reflexivity|]); destruct H.
  - apply links_checked. vm_compute. reflexivity.
  - do 5 eexists. split; [vm_compute; reflexivity|]. split; [vm_compute; reflexivity|]. split; [vm_compute; reflexivity|]. split; [vm_compute; reflexivity|].
    split; [vm_compute; reflexivity|]. split; [vm_compute; reflexivity|]. split; [vm_compute; reflexivity|].
    do 4 eexists. split; [vm_compute; reflexivity|]. split; [vm_compute; reflexivity|]. split; [vm_compute; reflexivity|]. split; vm_compute; reflexivity.
Qed.
