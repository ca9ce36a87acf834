(** C41, C42, C43, C66: layers made from directories.
    [layer_from_dir encodable n sort root prefix chown clamp_time] is
    LayerFromDir for the directory tree [root]: the entries of the layer, an
    error, or [LayerFuel] if the loop over the directories of the prefix takes
    more than [n] turns.  [encodable] says which headers tar.Writer accepts. *)
From Coq Require Import String Ascii List Bool ZArith Sorted Permutation Lia.
From Verif.Model Require Import GoStr GoPath Tar Layer Dir.
From Verif.Spec Require Import PathSpec SimpleAPISpec LayerSpec DirSpec.
From Verif.Proofs Require Import SimpleAPIFacts LayerFacts DirFacts.
Import ListNotations.
Open Scope nat_scope.

(** ** C41: the requested owner *)

(** A request for an owner never changes the layer. *)
Theorem C41_no_effect_refuted : forall encodable n sort root px chown clamp_time,
  layer_from_dir encodable n sort root px (Some chown) clamp_time = layer_from_dir encodable n sort root px None clamp_time.
Proof. intros. apply chown_no_effect. Qed.
Print Assumptions C41_no_effect_refuted.
(** So a file of user 1000 stays theirs although root is requested. *)
Theorem C41_owner_refuted : exists root chown out e,
  layer_from_dir (fun _ => true) 5 insertion_sort root None (Some chown) (Some 5%Z) = LayerOk out /\ In e out /\
  (0 <= o_uid chown)%Z /\ th_uid (fst e) <> o_uid chown /\ o_uname chown <> [] /\ th_uname (fst e) <> o_uname chown.
Proof.
  pose (h := fun t => mkHeader t [] [] 0 420 1000 1000 $"me" $"me" None None None 0 0 [] 0).
  exists (DDir (mkInfo (1, 1)%Z (Some (h TypeDir)) None OpenErr) true [($"f", DFile (mkInfo (1, 2)%Z (Some (h TypeReg)) None (Bytes [] true)))]).
  exists (mkOwner 0 $"root" 0 $"root"), [(with_name (h TypeReg) $"f", [])], (with_name (h TypeReg) $"f", []).
  repeat split; try (vm_compute; congruence). now left.
Qed.
Print Assumptions C41_owner_refuted.

(** ** C42: the prefix *)

(** LayerFromDir returns for every relative prefix. *)
Theorem C42_returns_partial : forall encodable n sort root px chown clamp_time,
  is_abs (px_name px) = false -> S (length (px_name px)) < n ->
  layer_from_dir encodable n sort root (Some px) chown clamp_time <> LayerFuel.
Proof. exact dir_returns. Qed.
Print Assumptions C42_returns_partial.
(** With a clean relative prefix the layer begins with its directories, the
    shallowest first. *)
Theorem C42_directories_partial : forall encodable n sort root px chown clamp_time l out,
  sorts sort -> disk_names root -> clean_list false l -> px_name px = path_text false l ->
  layer_from_dir encodable n sort root (Some px) chown clamp_time = LayerOk out ->
  exists above rest, out = above ++ rest /\ Forall2 (prefix_entry px clamp_time) (nonempty_prefixes l) above /\
  Forall (fun e => exists p, p <> [] /\ th_name (fst e) = join $"/" (l ++ p)) rest.
Proof. exact dir_prefix. Qed.
Print Assumptions C42_directories_partial.
(** It never returns for an absolute one. *)
Theorem C42_absolute_refuted : forall encodable n sort root px chown clamp_time, is_abs (px_name px) = true ->
  layer_from_dir encodable n sort root (Some px) chown clamp_time = LayerFuel.
Proof. exact dir_absolute. Qed.
Print Assumptions C42_absolute_refuted.
(** A trailing slash gives two entries for one directory, an empty prefix an
    entry without a name. *)
Theorem C42_unclean_refuted : forall encodable sort root owner chown clamp_time out,
  (layer_from_dir encodable 5 sort root (Some (mkPrefix $"a/" 0 owner)) chown clamp_time = LayerOk out ->
   exists rest, map (fun e => th_name (fst e)) out = $"a" :: $"a/" :: rest) /\
  (layer_from_dir encodable 5 sort root (Some (mkPrefix [] 0 owner)) chown clamp_time = LayerOk out ->
   exists rest, map (fun e => th_name (fst e)) out = [] :: rest).
Proof. exact dir_unclean. Qed.
Print Assumptions C42_unclean_refuted.

(** ** C43 and C66: the files *)

(** If it returns, each file is there as itself or as a hard link to the first
    path of the same file: [file_entries] says so for every file in turn, given
    the ones before it.  The files are all below the directory, in path order. *)
Theorem C43_hard_links : forall encodable n sort root px chown clamp_time l out,
  sorts sort -> disk_names root -> prefix_path px l ->
  layer_from_dir encodable n sort root px chown clamp_time = LayerOk out ->
  exists files above rest, listing root files /\ out = above ++ rest /\ file_entries l [] files rest.
Proof. exact dir_files. Qed.
Print Assumptions C43_hard_links.
(** So there is one entry for each path, in path order. *)
Theorem C66_every_file_partial : forall encodable n sort root px chown clamp_time l out,
  sorts sort -> disk_names root -> prefix_path px l ->
  layer_from_dir encodable n sort root px chown clamp_time = LayerOk out ->
  exists paths above rest, out = above ++ rest /\
  map (fun e => th_name (fst e)) rest = map (fun p => join $"/" (l ++ p)) paths /\
  StronglySorted parts_before paths /\ forall p, In p paths <-> p <> [] /\ exists i, info_at root p = Some i.
Proof. exact dir_paths. Qed.
Print Assumptions C66_every_file_partial.
(** If the name of the directory is a symbolic link to it, the layer is empty. *)
Theorem C66_link_refuted : forall encodable n sort i chown clamp_time,
  layer_from_dir encodable n sort (DFile i) None chown clamp_time = LayerOk [].
Proof. reflexivity. Qed.
Print Assumptions C66_link_refuted.
(** Any error ends in an error: an unreadable directory, a file that cannot be
    examined. *)
Theorem C66_errors_partial : forall encodable n sort root px chown clamp_time l out p,
  sorts sort -> disk_names root -> prefix_path px l ->
  layer_from_dir encodable n sort root px chown clamp_time = LayerOk out ->
  file_at root p <> Some DBad /\ forall i ch, file_at root p <> Some (DDir i false ch).
Proof. exact dir_errors. Qed.
Print Assumptions C66_errors_partial.
(** And without errors there is a layer. *)
Theorem C66_succeeds_partial : forall n sort root px chown clamp_time,
  sorts sort -> disk_names root -> (forall p d, file_at root p = Some d -> without_errors d) ->
  match px with None => True | Some px => is_abs (px_name px) = false /\ S (length (px_name px)) < n end ->
  exists out, layer_from_dir (fun _ => true) n sort root px chown clamp_time = LayerOk out.
Proof. exact dir_succeeds. Qed.
Print Assumptions C66_succeeds_partial.

(** Beside C42, C43 and C66: a tree with a hard link and a symbolic link below the
    prefix "opt/x". *)
Example C43_case :
  let h t size := mkHeader t $"base" [] size 420 7 8 $"u" $"g" (Some 3000000000%Z) None None 0 0 [] 0 in
  let file id := DFile (mkInfo (1, id)%Z (Some (h TypeReg 2%Z)) None (Bytes $"hi" true)) in
  let dir id ch := DDir (mkInfo (1, id)%Z (Some (h TypeDir 0%Z)) None OpenErr) true ch in
  let root := dir 1%Z [($"z", file 4%Z); ($"a", dir 2%Z [($"y", file 4%Z); ($"l", DFile (mkInfo (1, 5)%Z (Some (h TypeSymlink 0%Z)) (Some $"../z") OpenErr))]); ($"a-b", file 6%Z)] in
  let px := Some (mkPrefix $"opt/x" 0 (mkOwner 1 $"p" 2 $"q")) in
  disk_names root /\ prefix_path px [$"opt"; $"x"] /\ (forall p d, file_at root p = Some d -> without_errors d) /\
  match layer_from_dir (fun _ => true) 9 insertion_sort root px None (Some 2000000000%Z) with
  | LayerOk out => map (fun e => (th_type (fst e), th_name (fst e), th_link (fst e), th_uid (fst e), snd e)) out =
      [(TypeDir, $"opt", [], 1%Z, []); (TypeDir, $"opt/x", [], 1%Z, []);
       (TypeDir, $"opt/x/a", [], 7%Z, []); (TypeSymlink, $"opt/x/a/l", $"../z", 7%Z, []); (TypeReg, $"opt/x/a/y", [], 7%Z, $"hi");
       (TypeReg, $"opt/x/a-b", [], 7%Z, $"hi"); (TypeLink, $"opt/x/z", $"opt/x/a/y", 7%Z, [])]
  | _ => False
  end.
Proof.
  intros h file dir root px.
  assert (N : forall l : list str, (fix nd (l : list str) := match l with [] => True | x :: l' => (fix ni (m : list str) := match m with [] => True | y :: m' => x <> y /\ ni m' end) l' /\ nd l' end) l -> NoDup l).
  { induction l as [|x l IH]; intros H; constructor; destruct H as [H1 H2]; auto. clear -H1. induction l as [|y l IH]; [auto|]. destruct H1 as [H1 H2]. intros [->|I]; [congruence|]. now apply IH. }
  assert (P : forall c, c <> [] -> ~ In slash c -> c <> dot -> c <> dotdot -> plain_comp c) by (intros; repeat split; auto).
  split; [|split; [|split]].
  - constructor.
    + apply N. repeat split; discriminate.
    + repeat constructor; apply P; try discriminate; cbn; intros X; repeat destruct X as [X|X]; try discriminate; auto.
    + intros c d I. repeat destruct I as [I|I]; try injection I as <- <-; try constructor; try destruct I.
      * apply N. repeat split; discriminate.
      * repeat constructor; apply P; try discriminate; cbn; intros X; repeat destruct X as [X|X]; try discriminate; auto.
      * intros c d I. repeat destruct I as [I|I]; try injection I as <- <-; try constructor; destruct I.
  - split; [reflexivity|]. exists 0, [$"opt"; $"x"]. repeat split; try discriminate. repeat constructor; apply P; try discriminate; cbn; intros X; repeat destruct X as [X|X]; try discriminate; auto.
  - assert (D : forall id, fine (mkInfo (1, id)%Z (Some (h TypeDir 0%Z)) None OpenErr)) by (intros id; eexists; split; [reflexivity|split; discriminate]).
    assert (F : forall id, fine (mkInfo (1, id)%Z (Some (h TypeReg 2%Z)) None (Bytes $"hi" true))) by (intros id; eexists; split; [reflexivity|split; [discriminate|]]; intros _; eexists; split; reflexivity).
    assert (L : forall id, fine (mkInfo (1, id)%Z (Some (h TypeSymlink 0%Z)) (Some $"../z") OpenErr)) by (intros id; eexists; split; [reflexivity|split; discriminate]).
    apply no_errors_check. unfold root, dir, file. cbn [all_fine]. auto 12.
  - vm_compute. reflexivity.
Qed.
