(** C92: what an image shows once a layer is laid over it.  [unpack empty_root base] is the image
    below, [laid_over] says what is at a path afterwards, [reads_back layers name content] that Load
    and Open give a file at [name] from which every reader gets [content]. *)
From Coq Require Import String Ascii List Bool ZArith Sorted Permutation Lia.
From Verif.Model Require Import GoStr GoPath Tar Layer Dir Squash VfsFS LookPath ConfigParser Platform WheelFile Wheel.
From Verif.Spec Require Import PathSpec SimpleAPISpec SquashSpec VfsFSSpec LookPathSpec LayerSpec DirSpec MadeSpec WheelSpec WheelExamples OverlaySpec.
From Verif.Proofs Require Import SquashCheck LookPathFacts WheelCases MadeCases VfsFSFacts VfsImage OverlayFacts OverlayMade OverlayThrough VfsThrough OverlayCases.
Import ListNotations.
Local Open Scope nat_scope.

(** ** One layer over another *)

(** Exactly the paths of the layer change. *)
Theorem C92_overlay : forall base l, tree_layer l -> forall p, laid_over l (unpack empty_root base) p (unpack empty_root (base ++ [l]) p).
Proof. intros base l T p. now apply overlay. Qed.
Print Assumptions C92_overlay.
Theorem C92_one_answer : forall l fs p x y, tree_layer l -> laid_over l fs p x -> laid_over l fs p y -> x = y.
Proof. exact laid_over_fun. Qed.
Print Assumptions C92_one_answer.
(** The same is seen in what squashing makes of both.
    Missing: layers that are written through links of the image below, or that hold markers. *)
Theorem C92_squash_partial : forall n sort order base l, sorts sort -> permutes order -> plain_stack base -> tree_layer l -> past_links (unpack empty_root base) l ->
  exists out, squash (4 + n) sort order (base ++ [l]) = Ret out /\
    forall p, real_path p -> exists x, laid_over l (unpack empty_root base) p x /\ agree x (unpack empty_root [out] p).
Proof. exact squash_over. Qed.
Print Assumptions C92_squash_partial.
(** The layer may also be written through links of the image below: then the entries are seen at the places where
    their links lead ([all_at_target]: each entry of [l'] is one of [l] at its place).  Missing: layers of which two
    entries come to the same place, or one comes below a file of another (refuted below); links to the root directory. *)
Theorem C92_through_partial : forall sort order base l l', sorts sort -> permutes order -> plain_stack base ->
  Forall in_root l -> tree_layer l' -> all_at_target (unpack empty_root base) l l' -> past_links (unpack empty_root base) l' ->
  exists N out, (forall n, N <= n -> squash n sort order (base ++ [l]) = Ret out) /\
    forall p, real_path p -> exists x, laid_over l' (unpack empty_root base) p x /\ agree x (unpack empty_root [out] p).
Proof. exact over_through. Qed.
Print Assumptions C92_through_partial.
(** In the loaded image they are read there, under every name that leads there. *)
Theorem C92_through_reads_partial : forall base l l', plain_stack base -> Forall in_root l -> tree_layer l' ->
  all_at_target (unpack empty_root base) l l' -> past_links (unpack empty_root base) l' ->
  Forall (Forall (fun e => ~ links_to_root e)) (base ++ [l']) ->
  forall e p q, In e l' -> is_dir e = false -> is_link e = false -> (th_size (fst e) <= Z.of_nat (length (snd e)))%Z ->
  plain_path p -> walks (unpack empty_root (base ++ [l'])) [] p q -> ends (unpack empty_root (base ++ [l'])) q (entry_path e) ->
  reads_back (base ++ [l]) (open_name p) (snd e).
Proof. intros base l l' P I T A PL NR e p q. now apply over_through_reads. Qed.
Print Assumptions C92_through_reads_partial.
Example C92_through_case : let l := [a_file $"bin/run" $"x"; a_file $"opt" $"y"] in let l' := [a_file $"usr/bin/run" $"x"; a_file $"opt" $"y"] in
  plain_stack a_base /\ Forall in_root l /\ tree_layer l' /\ all_at_target (unpack empty_root a_base) l l' /\ past_links (unpack empty_root a_base) l'.
Proof.
  split; [apply plain_stackb_ok; vm_compute; reflexivity|].
  split; [repeat apply Forall_cons; try apply Forall_nil; (split; [reflexivity|apply real_pathb_ok; vm_compute; reflexivity])|].
  split; [apply tree_layerb_ok; vm_compute; reflexivity|]. split; [exact bin_at_target|]. apply past_linksb_ok. vm_compute. reflexivity.
Qed.
(** "bin/run" leads to the file that was laid there, in the example above *)
Example C92_through_reads_case : let l := [a_file $"bin/run" $"x"; a_file $"opt" $"y"] in let l' := [a_file $"usr/bin/run" $"x"; a_file $"opt" $"y"] in
  Forall (Forall (fun e => ~ links_to_root e)) (a_base ++ [l']) /\
  walks (unpack empty_root (a_base ++ [l'])) [] [$"bin"; $"run"] [$"usr"; $"bin"; $"run"] /\
  ends (unpack empty_root (a_base ++ [l'])) [$"usr"; $"bin"; $"run"] (entry_path (a_file $"usr/bin/run" $"x")).
Proof. exact bin_walks. Qed.
(** In the loaded image the entries of the layer can be opened, under their own names, *)
Theorem C92_open_partial : forall base l, plain_stack base -> tree_layer l -> past_links (unpack empty_root base) l ->
  Forall (Forall (fun e => ~ links_to_root e)) (base ++ [l]) -> forall e utf8, In e l -> is_link e = false -> utf8 (open_name (entry_path e)) = true ->
  exists N t, forall n, N <= n -> load_layers n false (base ++ [l]) = Ret t /\
    open utf8 n t (open_name (entry_path e)) = Ret (entry_path e, entry_path e) /\
    stat_tells (Some (node_of e)) (entry_path e) (stat t (entry_path e) (entry_path e)).
Proof. exact over_stat. Qed.
Print Assumptions C92_open_partial.
(** and the files of the image below that it does not touch still have their content. *)
Theorem C92_rest_partial : forall base l p h s, plain_stack base -> tree_layer l -> past_links (unpack empty_root base) l ->
  Forall (Forall (fun e => ~ links_to_root e)) (base ++ [l]) ->
  unpack empty_root base p = Some (FFile h s) -> th_type h = TypeReg -> th_size h = Z.of_nat (length s) -> untouched l p ->
  reads_back (base ++ [l]) (open_name p) s.
Proof. exact over_rest. Qed.
Print Assumptions C92_rest_partial.
Example C92_case : plain_stack a_base /\ tree_layer a_layer /\ past_links (unpack empty_root a_base) a_layer /\
  Forall (Forall (fun e => ~ links_to_root e)) (a_base ++ [a_layer]) /\
  unpack empty_root (a_base ++ [a_layer]) [$"etc"; $"conf"] = Some (FFile (anon (fst (a_file [] $"new"))) $"new") /\
  unpack empty_root (a_base ++ [a_layer]) [$"usr"; $"share"] = Some (FDir None) /\
  untouched a_layer [$"usr"; $"bin"; $"sh"].
Proof.
  split; [apply plain_stackb_ok; vm_compute; reflexivity|]. split; [apply tree_layerb_ok; vm_compute; reflexivity|].
  split; [apply past_linksb_ok; vm_compute; reflexivity|]. split; [apply no_rootb_ok; vm_compute; reflexivity|].
  split; [vm_compute; reflexivity|]. split; [vm_compute; reflexivity|]. exact a_layer_untouched.
Qed.

(** Through links two paths can be the same file: then one of the contents is lost. *)
Theorem C92_links_refuted : exists base l out, plain_stack base /\ tree_layer l /\ map (fun e => (entry_path e, snd e)) l = [([$"bin"; $"x"], $"1"); ([$"usr"; $"bin"; $"x"], $"2")] /\
  squash 12 insertion_sort (fun _ l => l) (base ++ [l]) = Ret out /\ ~ In $"1" (map snd out).
Proof.
  exists a_base, [a_file $"bin/x" $"1"; a_file $"usr/bin/x" $"2"]. eexists. split; [apply plain_stackb_ok; vm_compute; reflexivity|].
  split; [apply tree_layerb_ok; vm_compute; reflexivity|]. split; [reflexivity|]. split; [vm_compute; reflexivity|]. vm_compute. intuition discriminate.
Qed.
Print Assumptions C92_links_refuted.

(** ** Layers made by the program *)

(** Files given one by one.  Missing: as in C88; files that are written through links. *)
Theorem C92_refs_partial : forall base vfs encodable sort clamp_time out r h s, plain_stack base ->
  NoDup (map fr_name vfs) -> Forall (fun r => exists p, names_path (fr_name r) p) vfs ->
  (forall r r', In r vfs -> In r' vfs -> LayerSpec.below (fr_name r) (fr_name r') -> is_dir_ref r) ->
  sorts sort -> layer_from_refs encodable sort vfs clamp_time = LayerOk out -> past_links (unpack empty_root base) out ->
  Forall (Forall (fun e => ~ links_to_root e)) (base ++ [out]) ->
  In r vfs -> fr_header r = Some h -> th_type h = TypeReg -> fr_content r = Bytes s true -> reads_back (base ++ [out]) (fr_name r) s.
Proof. exact over_refs. Qed.
Print Assumptions C92_refs_partial.
(** A directory on disk, also if there are links in its place in the image below.
    Missing: as in C88; a file with several names on disk (it reads as empty, C35_hard_link_refuted). *)
Theorem C92_dir_partial : forall base root encodable sort px chown clamp_time l out m p i h s, plain_stack base ->
  disk_names root -> true_directories root -> no_markers_in root -> sorts sort -> real_path l ->
  match px with None => l = [] | Some px => px_name px = path_text false l end ->
  layer_from_dir encodable m sort root px chown clamp_time = LayerOk out -> is_dir_at (unpack empty_root base) [] ->
  Forall (Forall (fun e => ~ links_to_root e)) (base ++ [out]) ->
  info_at root p = Some i -> p <> [] -> (forall q j, info_at root q = Some j -> di_id j = di_id i -> q = p) ->
  di_header i = Some h -> th_type h = TypeReg -> di_content i = Bytes s true -> reads_back (base ++ [out]) (join $"/" (l ++ p)) s.
Proof. exact over_dir. Qed.
Print Assumptions C92_dir_partial.
(** A wheel: what the archive holds is what is read at its destination. *)
Theorem C92_wheel_partial : forall base o fuel pl pl' min mx wh l, plain_stack base -> fair o -> good_names o -> sanitize pl = Some pl' -> tame (pl_scheme pl') wh ->
  install_wheel o fuel pl min mx wh = IOk l ->
  Forall (fun e => exists p, names_path (th_name (fst e)) p) l ->
  (forall e e', In e l -> In e' l -> LayerSpec.below (th_name (fst e)) (th_name (fst e')) -> is_dir e = true) ->
  is_dir_at (unpack empty_root base) [] -> Forall (Forall (fun e => ~ links_to_root e)) (base ++ [l]) ->
  exists info root, info_of wh info /\ root_of (pl_scheme pl') root /\
  forall f key name text, In f wh -> destination (pl_scheme pl') root (data_name info) (z_name (zf_header f)) = Some (key, name) ->
    entry_is_dir f = false -> zf_content f = Bytes text true ->
    In name (left_out root info) \/
    (exists outs, compiles o pl' (max_time o wh mx) wh root info outs /\ In name (map ref_full outs)) \/
    (exists fs fs', hooks o pl' min (max_time o wh mx) wh fs fs' /\ get_key name fs' <> get_key name fs) \/
    reads_back (base ++ [l]) name (if is_script key then shebang_line (pl_console pl') (pl_graphical pl') text else text).
Proof. exact over_wheel. Qed.
Print Assumptions C92_wheel_partial.
Example C92_wheel_case : plain_stack a_base /\ is_dir_at (unpack empty_root a_base) [] /\
  fair ex_out /\ good_names ex_out /\ sanitize ex_platform = Some ex_pl /\ tame (pl_scheme ex_pl) ex_good /\
  exists l, install_wheel ex_out 9 ex_platform None None ex_good = IOk l /\ 9 <= length l /\
  Forall (fun e => exists p, names_path (th_name (fst e)) p) l /\
  (forall e e', In e l -> In e' l -> LayerSpec.below (th_name (fst e)) (th_name (fst e')) -> is_dir e = true) /\
  Forall (Forall (fun e => ~ links_to_root e)) (a_base ++ [l]).
Proof.
  split; [apply plain_stackb_ok; vm_compute; reflexivity|]. split; [eexists; vm_compute; reflexivity|].
  split; [exact ex_fair|]. split; [apply ex_names; reflexivity|]. split; [exact ex_sanitize|]. split; [exact ex_tame|]. exact a_wheel_over.
Qed.

(** ** Programs *)

(** A program in the layer is found by its name, if its directory is in PATH and no directory before it has one of that name. *)
Theorem C92_program_partial : forall base l e utf8 wd env pre dir post name, tree_layer l -> handled (base ++ [l]) ->
  In e l -> th_type (fst e) = TypeReg -> executable (fst e) ->
  path_dirs env (pre ++ dir :: post) -> ~ In slash name -> candidate wd dir name = entry_path e ->
  (forall d, In d (pre ++ dir :: post) -> askable utf8 (candidate wd d name) /\ settles (unpack empty_root (base ++ [l])) (candidate wd d name)) ->
  (forall d, In d pre -> ~ runs (unpack empty_root (base ++ [l])) (candidate wd d name)) ->
  exists N, forall n, N <= n -> look_path utf8 n (base ++ [l]) (Some (mkImageConfig wd env)) name = Found (as_text (entry_path e)).
Proof. exact over_program. Qed.
Print Assumptions C92_program_partial.
Example C92_program_case : let env := [$"PATH=/sbin:/usr/bin"] in let e := a_program TypeReg $"usr/bin/run" in
  tree_layer a_layer /\ handled (a_base ++ [a_layer]) /\ In e a_layer /\ executable (fst e) /\ path_dirs env ([$"/sbin"] ++ $"/usr/bin" :: []) /\
  candidate [] $"/usr/bin" $"run" = entry_path e /\ ~ runs (unpack empty_root (a_base ++ [a_layer])) (candidate [] $"/sbin" $"run") /\
  (forall d, In d [$"/sbin"; $"/usr/bin"] -> askable (fun _ => true) (candidate [] d $"run") /\ settles (unpack empty_root (a_base ++ [a_layer])) (candidate [] d $"run")) /\
  look_path (fun _ => true) 9 (a_base ++ [a_layer]) (Some (mkImageConfig [] env)) $"run" = Found $"/usr/bin/run".
Proof. exact a_program_case. Qed.
