(** C80: images in a Docker daemon (dockerutil.WithImage); C81: files that are read as layers, and
    layers that are written (fsutil.PathOpener, fsutil.WriteLayer). *)
From Coq Require Import String Ascii List Bool ZArith Lia.
From Verif.Model Require Import GoStr Docker LayerFile.
From Verif.Spec Require Import DockerSpec LayerFileSpec.
From Verif.Proofs Require Import DockerFacts LayerFileFacts.
Import ListNotations.
Local Open Scope nat_scope.

(** *** C80.  [with_image a repo pid nanos archive s] gives the commands that are run, in order, the
    images of the daemon in the end, and the result; [s] are the images before, [archive tag] is the
    archive of the image with that tag, [a] what happens around (failures, the daemon, fn, and other
    clients of the daemon). *)
(** fn is called at most once, after a successful "load" of the whole archive; "rm" comes last, and is
    left out only if the context is done or docker cannot be run (or the name was bad). *)
Theorem C80_order : forall a repo pid nanos archive s, let tag := tag_text repo pid nanos in
  exists pre, (pre = [] \/ (exists k ok, pre = [Load (firstn k (archive tag)) ok]) \/ (exists ok, pre = [Load (archive tag) ok]) \/ pre = [Load (archive tag) true; Call tag]) /\
    if a_valid a tag && a_rm a then exists ok, fst (fst (with_image a repo pid nanos archive s)) = pre ++ [Remove tag ok]
    else fst (fst (with_image a repo pid nanos archive s)) = pre.
Proof. exact docker_order. Qed.
Print Assumptions C80_order.
(** fn finds the image, and an error of fn is the result; without one the result is no error, or the
    image could not be removed. *)
Theorem C80_during : forall a repo pid nanos archive s tr s' res, let tag := tag_text repo pid nanos in
  with_image a repo pid nanos archive s = (tr, s', res) -> In (Call tag) tr ->
  exists seen r, snd (a_fn a tag seen) = r /\ (loads (a_load a) tag (archive tag) -> strangers (a_others a) tag -> image_of tag seen = Some (archive tag)) /\
  (r <> Done -> res = r) /\ (r = Done -> res = Done \/ ~ In (Remove tag true) tr).
Proof. exact docker_first. Qed.
Print Assumptions C80_during.
(** The error that is reported is that of the first step that failed: the name of the image (0), the pipe (1), the
    start of "docker image load" (2), writing (3) and closing (4) the archive, "docker image load" itself (5), fn,
    "docker image rm" (6) or its start (7). *)
Theorem C80_reported : forall a repo pid nanos archive s tr s' res, let tag := tag_text repo pid nanos in
  with_image a repo pid nanos archive s = (tr, s', res) ->
  (a_valid a tag = false -> res = Failed 0) /\
  (a_valid a tag = true -> a_pipe a = false -> res = Failed 1) /\
  (a_valid a tag = true -> a_pipe a = true -> a_start a = false -> res = Failed 2) /\
  (a_valid a tag = true -> a_pipe a = true -> a_start a = true ->
     (a_write a <> None -> res = Failed 3) /\ (a_write a = None -> a_close a = false -> res = Failed 4) /\
     (a_write a = None -> a_close a = true -> In (Load (archive tag) false) tr -> res = Failed 5)) /\
  (In (Call tag) tr -> res = Failed 6 -> (exists seen, snd (a_fn a tag seen) = Failed 6) \/ In (Remove tag false) tr) /\
  (In (Call tag) tr -> res = Failed 7 -> (exists seen, snd (a_fn a tag seen) = Failed 7) \/ a_rm a = false).
Proof. exact docker_reported. Qed.
Print Assumptions C80_reported.
(** Without an error all was done, and the image is gone. *)
Theorem C80_done : forall a repo pid nanos archive s tr s', let tag := tag_text repo pid nanos in
  removes (a_remove a) tag -> strangers (a_others a) tag -> with_image a repo pid nanos archive s = (tr, s', Done) ->
  tr = [Load (archive tag) true; Call tag; Remove tag true] /\ image_of tag s' = None.
Proof. exact docker_done. Qed.
Print Assumptions C80_done.
(** Also after an error the image is gone if "rm" was run with success, see [C80_order]. *)
Theorem C80_gone_partial : forall a repo pid nanos archive s tr s' res, let tag := tag_text repo pid nanos in
  removes (a_remove a) tag -> strangers (a_others a) tag -> with_image a repo pid nanos archive s = (tr, s', res) -> In (Remove tag true) tr -> image_of tag s' = None.
Proof. exact docker_gone. Qed.
Print Assumptions C80_gone_partial.
(** No other image is touched. *)
Theorem C80_others : forall a repo pid nanos archive s t tr s' res, let tag := tag_text repo pid nanos in
  removes (a_remove a) tag -> loads (a_load a) tag (archive tag) -> t <> tag ->
  (forall n s, image_of t (a_others a n s) = image_of t s) -> (forall s, image_of t (fst (a_fn a tag s)) = image_of t s) ->
  with_image a repo pid nanos archive s = (tr, s', res) -> image_of t s' = image_of t s.
Proof. exact docker_others. Qed.
Print Assumptions C80_others.
(** Two calls at different times or in different processes have different tags. *)
Theorem C80_tags : forall repo pid nanos pid' nanos', (0 <= pid)%Z -> (0 <= nanos)%Z -> (0 <= pid')%Z -> (0 <= nanos')%Z ->
  tag_text repo pid nanos = tag_text repo pid' nanos' -> pid = pid' /\ nanos = nanos'.
Proof. exact tags_differ. Qed.
Print Assumptions C80_tags.
(** False: if the context is done when fn returns, "docker image rm" is not run, and the image stays. *)
Theorem C80_cancelled_refuted : forall a repo pid nanos archive s tr s' res, let tag := tag_text repo pid nanos in
  loads (a_load a) tag (archive tag) -> strangers (a_others a) tag -> (forall s, image_of tag (fst (a_fn a tag s)) = image_of tag s) ->
  a_rm a = false -> with_image a repo pid nanos archive s = (tr, s', res) -> In (Call tag) tr -> image_of tag s' = Some (archive tag).
Proof. exact docker_left. Qed.
Print Assumptions C80_cancelled_refuted.
Example C80_nonvacuous : let run rm write res := with_image (ex_around rm write res) $"python-inspect" 12 345 (fun _ => $"archive") [($"old", $"x")] in
  tag_text $"python-inspect" 12 345 = ex_tag /\
  run true None Done = ([Load $"archive" true; Call ex_tag; Remove ex_tag true], [($"busybox", $"b"); ($"other", $"o"); ($"old", $"x")], Done) /\
  run true None (Failed 9) = ([Load $"archive" true; Call ex_tag; Remove ex_tag true], [($"busybox", $"b"); ($"other", $"o"); ($"old", $"x")], Failed 9) /\
  run true (Some 3) Done = ([Load $"arc" false; Remove ex_tag false], [($"old", $"x")], Failed 3) /\
  (exists s', run false None Done = ([Load $"archive" true; Call ex_tag], s', Failed 7) /\ image_of ex_tag s' = Some $"archive") /\
  loads (ex_load ex_tag $"archive") ex_tag $"archive" /\ removes ex_remove ex_tag /\ strangers (a_others (ex_around true None Done)) ex_tag.
Proof. cbv zeta. do 4 (split; [vm_compute; reflexivity|]). split; [eexists; split; vm_compute; reflexivity|]. exact ex_daemon. Qed.

(** *** C81.  [uses o others n count f]: what the opener [o] gives when it is used [count] times, where
    [others n] happens to the file before each use. *)
(** All uses for a file that nobody changes give its content, and for a pipe what was in it, although it
    can be read only once. *)
Theorem C81_steady_partial : forall f text, holds_text f text -> let '(o, f') := path_opener f in
  forall n count, uses o (fun _ f => f) n count f' = repeat (Some text) count.
Proof. exact uses_steady. Qed.
Print Assumptions C81_steady_partial.
(** For pipes also if something happens to them later; a missing file is an error each time. *)
Theorem C81_special : forall ok text o f' others n count, path_opener (Special ok text) = (o, f') -> forall g, uses o others n count g = repeat (if ok then Some text else None) count.
Proof. exact uses_special. Qed.
Print Assumptions C81_special.
Theorem C81_missing : forall o f' others n count g, path_opener NoFile = (o, f') -> uses o others n count g = repeat None count.
Proof. exact uses_missing. Qed.
Print Assumptions C81_missing.
(** False for regular files that are replaced meanwhile: two uses can give different layers. *)
Theorem C81_changed_refuted : forall text text', text <> text' -> let '(o, f') := path_opener (Regular true text) in
  exists others, uses o others 0 2 f' = [Some text; Some text'].
Proof. exact uses_changed. Qed.
Print Assumptions C81_changed_refuted.
(** WriteLayer writes the layer or a first part of it, and gives no error exactly if nothing failed and
    the writer took all. *)
Theorem C81_written : forall content read_fails write_fails close_ok, match content with
  | None => write_layer content read_fails write_fails close_ok = ([], false)
  | Some text => starts (fst (write_layer content read_fails write_fails close_ok)) text /\
      (snd (write_layer content read_fails write_fails close_ok) = true -> fst (write_layer content read_fails write_fails close_ok) = text) /\
      (snd (write_layer content read_fails write_fails close_ok) = true <-> read_fails = None /\ close_ok = true /\ match write_fails with Some k => length text <= k | None => True end)
  end.
Proof. exact written_part. Qed.
Print Assumptions C81_written.
(** "layer squash" on files or pipes: no error exactly if all were read and their squashed layer was
    written; otherwise at most a first part of it is written. *)
Theorem C81_squash : forall looks squash files write_fails out, let r := squash_command (S looks) squash files write_fails in
  (r = (out, true) <-> exists texts, Forall2 holds_text files texts /\ squash texts = Some out /\ match write_fails with Some k => length out <= k | None => True end) /\
  (fst r <> [] -> exists texts whole, Forall2 holds_text files texts /\ squash texts = Some whole /\ starts (fst r) whole).
Proof. exact squash_reads. Qed.
Print Assumptions C81_squash.
Example C81_nonvacuous : squash_command 3 (fun l => Some (concat l)) [Regular true $"ab"; Special true $"cd"] None = ($"abcd", true) /\
  squash_command 3 (fun l => Some (concat l)) [Regular true $"ab"; Special true $"cd"] (Some 3) = ($"abc", false) /\
  squash_command 3 (fun l => Some (concat l)) [Regular true $"ab"; NoFile] None = ([], false) /\
  fst (read_all (snd (read_all (Special true $"cd")))) = Some [] /\
  write_layer (Some $"abc") (Some 1) None true = ($"a", false).
Proof. vm_compute. auto. Qed.
