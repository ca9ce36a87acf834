(** What "ocibuild image build" should do. *)
From Coq Require Import String Ascii List Bool NArith ZArith.
From Verif.Model Require Import GoStr ImageConfig ImageBuild.
From Verif.Spec Require Import ImageConfigSpec.
Import ListNotations.

(** The base image: the empty one unless a file is named. *)
Definition base_is {others layer} (w : files others layer) (base : str) (b : base_image others layer) : Prop :=
  base = [] /\ b = mkBase [] (Some (empty_config w)) \/ base <> [] /\ open_image w base = Some b.
(** The tag: none unless one is given. *)
Definition tag_is {others layer} (w : files others layer) (tag : str) (t : option str) : Prop :=
  tag = [] /\ t = None \/ tag <> [] /\ t <> None /\ new_tag w tag = t.
(** No configuration flag asks for anything. *)
Definition nothing_asked (uses : list flag_use) : Prop :=
  ~ env_named uses /\ env_args uses = [] /\ entrypoint_args uses = [] /\ cmd_args uses = [] /\ ~ workdir_named uses.

(** Files: a base with two layers, one whose configuration cannot be read, and one layer *)
Definition ex_files : files nat str :=
  mkFiles (fun f => if str_eqb f $"base.tar" then Some (mkBase [$"l1"; $"l2"] (Some ex_config))
                    else if str_eqb f $"broken.tar" then Some (mkBase [$"l1"] None) else None)
          (fun t => if str_eqb t $"my:tag" then Some $"docker.io/library/my:tag" else None)
          (fun f => if str_eqb f $"a.layer" then Some $"la" else if str_eqb f $"b.layer" then Some $"lb" else None)
          (mkCfg None None None [] 0) true.
