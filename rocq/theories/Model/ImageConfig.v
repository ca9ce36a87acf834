(** cmd_image_build.go: "ocibuild image build" *)
From Coq Require Import String Ascii List Bool NArith ZArith.
From Verif.Model Require Import GoStr.
Import ListNotations.

(** A Go slice of strings; [None] is nil *)
Definition slice : Type := option (list str).
Definition elems (s : slice) : list str := match s with None => [] | Some l => l end.
(** append(s, l...) (Go specification): without arguments, [s] itself *)
Definition append (s : slice) (l : list str) : slice := match l with [] => s | _ => Some (elems s ++ l) end.

(** ociv1.Config (go-containerregistry v1/config.go): the fields that the command has
    flags for, and all others.  Simplified: the others are one value. *)
Record config (others : Type) : Type := mkCfg {
  cfg_env : slice;
  cfg_entrypoint : slice;
  cfg_cmd : slice;
  cfg_workdir : str;
  cfg_others : others
}.
Arguments mkCfg {others}. Arguments cfg_env {others}. Arguments cfg_entrypoint {others}.
Arguments cfg_cmd {others}. Arguments cfg_workdir {others}. Arguments cfg_others {others}.

(** cmd_image_build.go:19-42 configFlags *)
Record flags : Type := mkFlags {
  f_env_clear : bool;
  f_env_append : slice;
  f_entrypoint : slice;
  f_cmd : slice;
  f_workdir : str
}.
(** cmd_image_build.go:74-78 IsZero; reflect's IsZero is true of nil slices only *)
Definition is_zero (f : flags) : bool :=
  negb (f_env_clear f) &&
  match f_env_append f, f_entrypoint f, f_cmd f, f_workdir f with None, None, None, [] => true | _, _, _, _ => false end.
(** cmd_image_build.go:80-122 ApplyTo *)
Definition apply_to {others} (f : flags) (c : config others) : config others :=
  mkCfg (append (if f_env_clear f then None else cfg_env c) (elems (f_env_append f)))
        (match f_entrypoint f with None => cfg_entrypoint c | Some l => Some l end)
        (match f_cmd f with None => cfg_cmd c | Some l => Some l end)
        (match f_workdir f with [] => cfg_workdir c | d => d end)
        (cfg_others c).

(** ** The command line *)
(** One flag as pflag has parsed it *)
Inductive flag_use : Type :=
| UseEnvClear (b : bool)      (* --config.Env.clear[=b], -E *)
| UseEnvAppend (s : str)      (* --config.Env.append, -e *)
| UseEntrypoint (s : str)     (* --config.Entrypoint *)
| UseCmd (s : str)            (* --config.Cmd, -c *)
| UseWorkdir (s : str).       (* --config.WorkingDir, -w *)
(** cmd_image_build.go:44-72 AddFlagsTo, with the Set methods of pflag: stringArrayValue
    replaces the default nil by a slice and appends to it, the others overwrite. *)
Definition no_flags : flags := mkFlags false None None None [].
Definition add_elem (s : slice) (x : str) : slice := Some (elems s ++ [x]).
Definition set_flag (f : flags) (u : flag_use) : flags :=
  match u with
  | UseEnvClear b => mkFlags b (f_env_append f) (f_entrypoint f) (f_cmd f) (f_workdir f)
  | UseEnvAppend s => mkFlags (f_env_clear f) (add_elem (f_env_append f) s) (f_entrypoint f) (f_cmd f) (f_workdir f)
  | UseEntrypoint s => mkFlags (f_env_clear f) (f_env_append f) (add_elem (f_entrypoint f) s) (f_cmd f) (f_workdir f)
  | UseCmd s => mkFlags (f_env_clear f) (f_env_append f) (f_entrypoint f) (add_elem (f_cmd f) s) (f_workdir f)
  | UseWorkdir s => mkFlags (f_env_clear f) (f_env_append f) (f_entrypoint f) (f_cmd f) s
  end.
Definition parse_flags (uses : list flag_use) : flags := fold_left set_flag uses no_flags.

(** ** The image.  mutate.AppendLayers and mutate.Config (go-containerregistry): layers are
    appended, the configuration is replaced. *)
Record image (others layer : Type) : Type := mkImage { im_layers : list layer; im_config : config others }.
Arguments mkImage {others layer}. Arguments im_layers {others layer}. Arguments im_config {others layer}.
(** cmd_image_build.go:133-184 RunE without the errors and without the tag; [base] is
    empty.Image or the image that --base names *)
Definition image_build {others layer} (uses : list flag_use) (base : image others layer) (layers : list layer) : image others layer :=
  let img := mkImage (im_layers base ++ layers) (im_config base) in
  let f := parse_flags uses in
  if negb (is_zero f) then mkImage (im_layers img) (apply_to f (im_config img)) else img.
