(** C88, C89 and an addition to C32: squashing a layer that this program has made.
    [layer_from_refs], [layer_from_dir] and [install_wheel] make a layer from file
    references, from a directory on disk and from a wheel; [squash n sort order layers]
    is Squash.  [respelled e] is the entry [e] under the name that Squash writes for its
    path: with a slash at the end if it is a directory. *)
From Coq Require Import String Ascii List Bool ZArith Sorted Permutation Lia.
From Verif.Model Require Import GoStr GoPath Tar Stat Layer Dir Squash ConfigParser Platform WheelFile Wheel.
From Verif.Spec Require Import PathSpec SimpleAPISpec SquashSpec LayerSpec WheelSpec WheelExamples DirSpec MadeSpec.
From Verif.Proofs Require Import SimpleAPIFacts WheelCases SquashCheck SquashMore SquashHard SquashBack SquashSources SquashMade SquashWheel MadeCases.
Import ListNotations.
Open Scope nat_scope.

(** ** File references *)

(** Missing: names that are not clean, absolute or those of markers, and files in the place of directories (below). *)
Theorem C88_refs_partial : forall refs encodable sort clamp_time out n sort' order,
  NoDup (map fr_name refs) -> Forall (fun r => exists p, names_path (fr_name r) p) refs ->
  (forall r r', In r refs -> In r' refs -> LayerSpec.below (fr_name r) (fr_name r') -> is_dir_ref r) ->
  sorts sort -> layer_from_refs encodable sort refs clamp_time = LayerOk out ->
  sorts sort' -> permutes order -> squash (4 + n) sort' order [out] = Ret (map respelled out).
Proof. intros refs encodable sort c out n sort' order ND NP DA. exact (squash_refs refs ND NP DA encodable sort c out n sort' order). Qed.
Print Assumptions C88_refs_partial.

Example C88_refs_case : NoDup (map fr_name some_refs) /\ Forall (fun r => exists p, names_path (fr_name r) p) some_refs /\
  (forall r r', In r some_refs -> In r' some_refs -> LayerSpec.below (fr_name r) (fr_name r') -> is_dir_ref r) /\
  exists out, layer_from_refs (fun _ => true) insertion_sort some_refs (Some 0%Z) = LayerOk out /\
  map (fun e => th_name (fst e)) (map respelled out) = [$"d/"; $"d/z"; $"d-b"; $"e/f"] /\
  squash 4 insertion_sort (fun _ l => l) [out] = Ret (map respelled out).
Proof.
  split; [|split; [|split]].
  - repeat constructor; cbn; intuition discriminate.
  - repeat constructor; cbn [fr_name a_ref some_refs];
      [exists [$"d"; $"z"]|exists [$"e"; $"f"]|exists [$"d"]|exists [$"d-b"]]; (split; [discriminate|split; [|reflexivity]]); split; repeat constructor; try discriminate; cbn; intuition discriminate.
  - intros r r' I I' (x & [B|(B & _)]); cbn [In some_refs] in I, I';
      repeat (destruct I as [<-|I]; [|]); try tauto; repeat (destruct I' as [<-|I']; [|]); try tauto; try discriminate; cbn in B; try discriminate; eexists; split; reflexivity.
  - eexists. split; [vm_compute; reflexivity|]. split; vm_compute; reflexivity.
Qed.

(** A file whose name is that of a marker changes places. *)
Theorem C88_marker_refuted : exists refs out, NoDup (map fr_name refs) /\ layer_from_refs (fun _ => true) insertion_sort refs None = LayerOk out /\
  map (fun e => th_name (fst e)) out = [$"-a"; $".wh.b"] /\
  exists out', squash 4 insertion_sort (fun _ l => l) [out] = Ret out' /\ map (fun e => th_name (fst e)) out' = [$".wh.b"; $"-a"].
Proof.
  exists [a_ref TypeReg $"-a" $"x"; a_ref TypeReg $".wh.b" $"y"]. eexists. split; [repeat constructor; cbn; intuition discriminate|].
  split; [vm_compute; reflexivity|]. split; [reflexivity|]. eexists. split; vm_compute; reflexivity.
Qed.
Print Assumptions C88_marker_refuted.
(** A file above another is dropped; a marker takes its place. *)
Theorem C88_file_above_refuted : exists refs out, NoDup (map fr_name refs) /\ Forall (fun r => exists p, names_path (fr_name r) p) refs /\
  layer_from_refs (fun _ => true) insertion_sort refs None = LayerOk out /\
  map (fun e => (th_name (fst e), snd e)) out = [($"a", $"x"); ($"a/b", $"y")] /\
  exists out', squash 4 insertion_sort (fun _ l => l) [out] = Ret out' /\ map (fun e => (th_name (fst e), snd e)) out' = [($"a/.wh..wh..opq", []); ($"a/b", $"y")].
Proof.
  exists [a_ref TypeReg $"a" $"x"; a_ref TypeReg $"a/b" $"y"]. eexists. split; [repeat constructor; cbn; intuition discriminate|].
  split; [repeat constructor; [exists [$"a"]|exists [$"a"; $"b"]]; (split; [discriminate|split; [|reflexivity]]); split; repeat constructor; try discriminate; cbn; intuition discriminate|].
  split; [vm_compute; reflexivity|]. split; [reflexivity|]. eexists. split; vm_compute; reflexivity.
Qed.
Print Assumptions C88_file_above_refuted.
(** A layer with an absolute name can be made but not squashed. *)
Theorem C88_absolute_refuted : exists refs out, layer_from_refs (fun _ => true) insertion_sort refs None = LayerOk out /\
  map (fun e => th_name (fst e)) out = [$"/a"] /\ forall n sort order out', squash n sort order [out] <> Ret out'.
Proof.
  exists [a_ref TypeReg $"/a" $"x"]. eexists. split; [vm_compute; reflexivity|]. split; [reflexivity|]. intros n sort order out'.
  destruct n; vm_compute; discriminate.
Qed.
Print Assumptions C88_absolute_refuted.

(** ** Directories on disk *)

(** With or without a prefix.  Missing: prefixes that are not clean, and names of markers. *)
Theorem C88_dir_partial : forall root encodable sort px chown clamp_time l out n m sort' order,
  disk_names root -> true_directories root -> no_markers_in root -> sorts sort -> real_path l ->
  match px with None => l = [] | Some px => px_name px = path_text false l end ->
  layer_from_dir encodable m sort root px chown clamp_time = LayerOk out ->
  sorts sort' -> permutes order -> squash (4 + n) sort' order [out] = Ret (map respelled out).
Proof. intros root encodable sort px chown c l out n m sort' order DN TD NM. exact (squash_dir root DN TD NM encodable sort px chown c l out n m sort' order). Qed.
Print Assumptions C88_dir_partial.

Example C88_dir_case : disk_names a_disk /\ true_directories a_disk /\ no_markers_in a_disk /\
  exists out, layer_from_dir (fun _ => true) 5 insertion_sort a_disk (Some (mkPrefix $"opt" 0 (mkOwner 0 [] 0 []))) None None = LayerOk out /\
  map (fun e => th_name (fst e)) out = [$"opt"; $"opt/a"; $"opt/a/e"; $"opt/a/y"; $"opt/a-b"; $"opt/z"] /\
  squash 4 insertion_sort (fun _ l => l) [out] = Ret (map respelled out).
Proof.
  split; [exact a_disk_names|]. split; [exact a_disk_true|]. split; [exact a_disk_markers|].
  eexists. split; [vm_compute; reflexivity|]. split; vm_compute; reflexivity.
Qed.
(** A trailing slash in the prefix: one of the two entries for the same directory is dropped. *)
Theorem C88_prefix_refuted : exists out out',
  layer_from_dir (fun _ => true) 5 insertion_sort a_disk (Some (mkPrefix $"opt/" 0 (mkOwner 0 [] 0 []))) None None = LayerOk out /\
  squash 4 insertion_sort (fun _ l => l) [out] = Ret out' /\ S (length out') = length out.
Proof. eexists. eexists. split; [vm_compute; reflexivity|]. split; vm_compute; reflexivity. Qed.
Print Assumptions C88_prefix_refuted.

(** ** Wheels *)

(** Missing: as in C53, and wheels with names of markers or with files in the place of directories. *)
Theorem C88_wheel_partial : forall o fuel pl pl' min mx wh l n sort' order, fair o -> good_names o -> sanitize pl = Some pl' ->
  inner_scheme (pl_scheme pl') -> inner_names wh -> never_nested (pl_scheme pl') wh ->
  install_wheel o fuel pl min mx wh = IOk l ->
  Forall (fun e => exists p, names_path (th_name (fst e)) p) l ->
  (forall e e', In e l -> In e' l -> LayerSpec.below (th_name (fst e)) (th_name (fst e')) -> is_dir e = true) ->
  sorts sort' -> permutes order -> squash (4 + n) sort' order [l] = Ret (map respelled l).
Proof. exact squash_wheel. Qed.
Print Assumptions C88_wheel_partial.

Example C88_wheel_case : fair ex_out /\ good_names ex_out /\ sanitize ex_platform = Some ex_pl /\ tame (pl_scheme ex_pl) ex_good /\
  exists l, install_wheel ex_out 9 ex_platform None None ex_good = IOk l /\ 9 <= length l /\
  Forall (fun e => exists p, names_path (th_name (fst e)) p) l /\
  (forall e e', In e l -> In e' l -> LayerSpec.below (th_name (fst e)) (th_name (fst e')) -> is_dir e = true) /\ Forall in_root l.
Proof. split; [exact ex_fair|]. split; [apply ex_names; reflexivity|]. split; [exact ex_sanitize|]. split; [exact ex_tame|]. exact a_wheel. Qed.

(** ** The meaning *)

(** Whatever the other layers are, the layer with the respelled names puts the same files in the same places. *)
Theorem C88_same_files : forall base lower l upper, Forall in_root l ->
  unpack base (lower ++ map respelled l :: upper) = unpack base (lower ++ l :: upper).
Proof. exact respelled_stack. Qed.
Print Assumptions C88_same_files.

(** ** C89: squashing invents nothing *)

(** For every stack, however it is written: all that comes out went in, but for empty files (markers, below). *)
Theorem C89_nothing_new : forall n sort order layers out e, sorts sort -> permutes order -> squash n sort order layers = Ret out -> In e out ->
  (exists l e0, In l layers /\ In e0 l /\ same_file e e0) \/ empty_file e.
Proof. exact squash_from. Qed.
Print Assumptions C89_nothing_new.
(** It comes out at the path where it went in.  The empty files are opaque markers, only where the stack has both a file and a directory.
    Missing: stacks whose entries are written through links. *)
Theorem C89_sources_partial : forall n sort order layers out e, sorts sort -> permutes order -> plain_stack layers ->
  squash (4 + n) sort order layers = Ret out -> In e out ->
  (exists l e0, In l layers /\ In e0 l /\ entry_path e = entry_path e0 /\ same_file e e0) \/
  (exists a, entry_path e = a ++ [$".wh..wh..opq"] /\ empty_file e /\ turned (all_entries layers) a).
Proof.
  intros n sort order layers out e HS HO P E I. destruct (squash_sources n sort order layers out e HS HO P E I) as [(l & e0 & A)|(a & A & B & C & D)].
  - left. exists l, e0. exact A.
  - right. exists a. split; [exact A|]. split; [split; [exact B|exact C]|exact D].
Qed.
Print Assumptions C89_sources_partial.
(** Entries that are written through links come out at the places where these lead ([layers'], as in C33).
    Missing: links to the root directory itself or in its place. *)
Theorem C89_through_links_partial : forall n sort order layers out, sorts sort -> permutes order ->
  Forall (Forall good_entry) layers -> Forall (Forall proper_link) layers -> squash n sort order layers = Ret out ->
  exists layers', plain_stack layers' /\ all_at_target empty_root (all_entries layers) (all_entries layers') /\
  forall e, In e out -> (exists l e0, In l layers' /\ In e0 l /\ entry_path e = entry_path e0 /\ same_file e e0) \/
    (exists a, entry_path e = a ++ [$".wh..wh..opq"] /\ empty_file e /\ turned (all_entries layers') a).
Proof. exact squash_sources_links. Qed.
Print Assumptions C89_through_links_partial.
(** A marker that was in no layer *)
(** With a link to the root directory an entry can come out where its links do not lead:
    [l/q/b] is the link [q/b], so [a/b/c] is [q/d/c], and not [q/b/c]. *)
Theorem C89_root_refuted : forall n sort order, sorts sort -> permutes order ->
  let base := [a_dir $"q/"; a_dir $"q/d/"; a_symlink $"a" $"q"; a_symlink $"l" $"/"] in
  let fs := unpack empty_root [base; [a_symlink $"q/b" $"d"]] in
  reaches fs [] [$"a"; $"b"] [$"q"; $"b"] /\ leads fs [$"q"; $"b"] [$"q"; $"d"] /\
  exists out, squash (20 + n) sort order [base; [a_symlink $"l/q/b" $"d"]; [a_file $"a/b/c" $"1"]] = Ret out /\
    In (a_file $"q/b/c" $"1") out /\ forall e, In e out -> snd e = $"1" -> entry_path e = [$"q"; $"b"; $"c"].
Proof.
  intros n sort order HS HO base fs.
  assert (Hq : ~ is_symlink_at fs [$"q"]) by (intros (h & c & H & _); vm_compute in H; discriminate H).
  assert (Hd : ~ is_symlink_at fs [$"q"; $"d"]) by (intros (h & c & H & _); vm_compute in H; discriminate H).
  assert (Dr : is_dir_at fs []) by (eexists; vm_compute; reflexivity).
  assert (Dq : is_dir_at fs [$"q"]) by (eexists; vm_compute; reflexivity).
  split.
  - apply (reaches_down fs [] $"a" [$"b"] [$"q"]); [exact Dr|apply plain_compb_ok; reflexivity| |discriminate|].
    + eapply leads_link; [vm_compute; reflexivity|reflexivity|vm_compute; discriminate| |apply leads_end; exact Hq].
      apply (reaches_last fs []); [exact Dr|apply plain_compb_ok; reflexivity].
    + apply (reaches_last fs [$"q"]); [exact Dq|apply plain_compb_ok; reflexivity].
  - split.
    + eapply leads_link; [vm_compute; reflexivity|reflexivity|vm_compute; discriminate| |apply leads_end; exact Hd].
      apply (reaches_last fs [$"q"]); [exact Dq|apply plain_compb_ok; reflexivity].
    + eexists. split; [apply (more_fuel 20 (20 + n)); [|discriminate|apply Nat.le_add_r]; apply any_order; [exact HS|exact HO|vm_compute; reflexivity]|].
      split; [cbn [In]; tauto|]. intros e [<- | [<- | [<- | [<- | [<- | [<- | []]]]]]] H; vm_compute in H; try discriminate H. vm_compute. reflexivity.
Qed.
Print Assumptions C89_root_refuted.

Example C89_case : let layers := [[a_file $"a" $"x"]; [a_file $"a/b" $"y"]] in
  exists out e, squash 4 insertion_sort (fun _ l => l) layers = Ret out /\ In e out /\ entry_path e = [$"a"; $".wh..wh..opq"] /\ empty_file e /\ turned (all_entries layers) [$"a"].
Proof.
  eexists. eexists. split; [vm_compute; reflexivity|]. split; [left; reflexivity|]. split; [reflexivity|]. split; [split; reflexivity|].
  exists (a_file $"a" $"x"), (a_file $"a/b" $"y"). split; [now left|]. split; [right; now left|]. split; [reflexivity|]. split; [reflexivity|]. left. reflexivity.
Qed.

(** ** C32: later entries win and markers hide, also through links *)

(** [es] are the entries of the stack in the order of unpacking, each at the place where its path leads (as in C33).
    Missing: links to the root directory itself or in its place. *)
Theorem C32_through_links_partial : forall n sort order layers out, sorts sort -> permutes order ->
  Forall (Forall good_entry) layers -> Forall (Forall proper_link) layers -> squash n sort order layers = Ret out ->
  exists es, all_at_target empty_root (all_entries layers) es /\
  (forall es1 e es2, es = es1 ++ e :: es2 -> is_marker e = false -> (forall e', In e' es2 -> ~ overrides e' (entry_path e) (is_dir e)) ->
     (exists e', In e' out /\ entry_path e' = entry_path e /\ anon (fst e') = anon (fst e) /\ (is_dir e = false -> snd e' = snd e)) /\
     unpack empty_root [out] (entry_path e) = Some (node_of e)) /\
  (forall es1 w es2 p, es = es1 ++ w :: es2 -> marks w p -> real_path p -> (forall e, In e es2 -> at_or_below p (entry_path e) = false) ->
     unpack empty_root [out] p = None).
Proof. exact squash_wins_links. Qed.
Print Assumptions C32_through_links_partial.
(** With a link to the root directory, what is written or hidden through it later does not win. *)
Theorem C32_root_refuted : forall n sort order, sorts sort -> permutes order ->
  let below := [a_symlink $"a" $"/"; a_file $"x" $"2"] in exists out1 out2,
  squash (12 + n) sort order [below; [a_file $"a/x" $"1"]] = Ret out1 /\ squash (12 + n) sort order [below; [a_file $"a/.wh.x" []]] = Ret out2 /\
  unpack empty_root [out1] [$"x"] = Some (node_of (a_file $"x" $"2")) /\ unpack empty_root [out2] [$"x"] = Some (node_of (a_file $"x" $"2")).
Proof.
  intros n sort order HS HO. eexists. eexists.
  split; [apply (more_fuel 12 (12 + n)); [|discriminate|apply Nat.le_add_r]; apply any_order; [exact HS|exact HO|vm_compute; reflexivity]|].
  split; [apply (more_fuel 12 (12 + n)); [|discriminate|apply Nat.le_add_r]; apply any_order; [exact HS|exact HO|vm_compute; reflexivity]|].
  split; vm_compute; reflexivity.
Qed.
Print Assumptions C32_root_refuted.
Example C32_through_links_case : let links := [a_dir $"usr/"; a_dir $"usr/bin/"; a_symlink $"bin" $"usr/bin"] in
  let layers := [links; [a_file $"usr/bin/sh" $"1"; a_file $"usr/bin/x" $"1"]; [a_file $"bin/sh" $"2"; a_file $"bin/.wh.x" []]] in
  Forall (Forall good_entry) layers /\ Forall (Forall proper_link) layers /\
  squash 12 insertion_sort (fun _ l => l) layers = Ret [a_symlink $"bin" $"usr/bin"; a_dir $"usr/"; a_dir $"usr/bin/"; a_file $"usr/bin/.wh.x" []; a_file $"usr/bin/sh" $"2"].
Proof.
  split; [apply good_layersb_ok; vm_compute; reflexivity|]. split; [apply proper_linkb_ok; vm_compute; reflexivity|]. vm_compute. reflexivity.
Qed.
