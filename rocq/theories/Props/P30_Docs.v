(** C98: the generators of the documentation.  [man h page root before] is "ocibuild man OUT_DIRECTORY" on the host [h] if
    [root] is the tree of commands, [page path] is the text of the page of the command with these names, and [before] is what
    OUT_DIRECTORY is before; its result is what OUT_DIRECTORY is afterwards, and whether the command succeeds.  [mddoc] is
    "ocibuild mddoc OUT_DIRECTORY". *)
From Coq Require Import String Ascii List Bool Arith.
From Verif.Model Require Import GoStr DocGen.
From Verif.Spec Require Import DocGenSpec.
From Verif.Proofs Require Import Order GoStrFacts DocGenFacts.
Import ListNotations.

(** On success the directory has the pages of the visible commands and nothing else, whatever it was before. *)
Theorem C98_man : forall h page root before after, names_avoid "-"%char root -> man h page root before = (after, true) ->
  exists l, after = ADir l /\ NoDup (map fst l) /\
  forall x t, entry_named l x = Some t <-> exists p c, documented root p c /\ x = join $"-" p ++ $".1" /\ t = AFile (page p).
Proof. intros h page root before after. exact (generate_pages h "-"%char $".1" page root before after). Qed.
Print Assumptions C98_man.
Theorem C98_mddoc : forall h page root before after, names_avoid "_"%char root -> mddoc h page root before = (after, true) ->
  exists l, after = ADir l /\ NoDup (map fst l) /\
  forall x t, entry_named l x = Some t <-> exists p c, documented root p c /\ x = join $"_" p ++ $".md" /\ t = AFile (page p).
Proof. intros h page root before after. exact (generate_pages h "_"%char $".md" page root before after). Qed.
Print Assumptions C98_mddoc.
(** If it fails, but what was there before could be removed, nothing of that is left, and there are only pages, or beginnings of pages. *)
Theorem C98_only_pages : forall h page root before after ok, removal h = None ->
  (names_avoid "-"%char root /\ man h page root before = (after, ok) -> after = Absent \/ exists l, after = ADir l /\ NoDup (map fst l) /\
   forall x t, entry_named l x = Some t ->
   exists p c text, documented root p c /\ x = join $"-" p ++ $".1" /\ t = AFile text /\ starts text (page p)) /\
  (names_avoid "_"%char root /\ mddoc h page root before = (after, ok) -> after = Absent \/ exists l, after = ADir l /\ NoDup (map fst l) /\
   forall x t, entry_named l x = Some t ->
   exists p c text, documented root p c /\ x = join $"_" p ++ $".md" /\ t = AFile text /\ starts text (page p)).
Proof.
  intros h page root before after ok R. split; intros [A E].
  - exact (generate_only h "-"%char $".1" page root before after ok A R E).
  - exact (generate_only h "_"%char $".md" page root before after ok A R E).
Qed.
Print Assumptions C98_only_pages.
(** If it cannot be removed, the command fails and writes nothing. *)
Theorem C98_stuck : forall h page root before rest, removal h = Some rest ->
  man h page root before = (rest, false) /\ mddoc h page root before = (rest, false).
Proof.
  intros h page root before rest R. split.
  - exact (generate_stuck h "-"%char $".1" page root before rest R).
  - exact (generate_stuck h "_"%char $".md" page root before rest R).
Qed.
Print Assumptions C98_stuck.
(** It succeeds exactly if the host lets it remove the directory, make it and write every page. *)
Theorem C98_succeeds : forall h page root before,
  (names_avoid "-"%char root -> (snd (man h page root before) = true <-> removal h = None /\ mkdir_ok h = true /\
   forall p c, documented root p c -> create_ok h (join $"-" p ++ $".1") = true /\ writing h (join $"-" p ++ $".1") = None)) /\
  (names_avoid "_"%char root -> (snd (mddoc h page root before) = true <-> removal h = None /\ mkdir_ok h = true /\
   forall p c, documented root p c -> create_ok h (join $"_" p ++ $".md") = true /\ writing h (join $"_" p ++ $".md") = None)).
Proof.
  intros h page root before. split; intros A.
  - exact (generate_succeeds h "-"%char $".1" page root before A).
  - exact (generate_succeeds h "_"%char $".md" page root before A).
Qed.
Print Assumptions C98_succeeds.
(** The commands of this program have such names, and these pages (the files of /repo/userdocs). *)
Theorem C98_program : names_avoid "-"%char the_commands /\ names_avoid "_"%char the_commands /\
  forall h page before after, mddoc h page the_commands before = (after, true) -> exists l, after = ADir l /\
  forall x, (exists t, entry_named l x = Some t) <->
    In x [$"ocibuild.md"; $"ocibuild_image.md"; $"ocibuild_image_build.md"; $"ocibuild_layer.md"; $"ocibuild_layer_dir.md"; $"ocibuild_layer_gobuild.md";
          $"ocibuild_layer_squash.md"; $"ocibuild_layer_wheel.md"; $"ocibuild_python.md"; $"ocibuild_python_getwheel.md"; $"ocibuild_python_inspect.md"].
Proof. exact the_pages. Qed.
Print Assumptions C98_program.
(** Beside C98: a host where everything works, and one where a page cannot be written to its end *)
Example C98_case :
  let good := mkHost None true (fun _ => true) (fun _ => None) in
  let full := mkHost None true (fun _ => true) (fun f => if str_eqb f $"ocibuild-layer.1" then Some 3 else None) in
  let page := fun p => $"NAME " ++ join $" " p in
  snd (man good page the_commands (ADir [($"old", AFile $"x")])) = true /\
  man full page (Cmd $"ocibuild" false false true [Cmd $"layer" false false false [leaf $"dir"; Cmd $"x" true false true []]; Cmd $"topic" false false false []]) (AFile $"x") =
    (ADir [($"ocibuild-layer-dir.1", AFile $"NAME ocibuild layer dir"); ($"ocibuild-layer.1", AFile $"NAM")], false).
Proof. vm_compute. split; reflexivity. Qed.
