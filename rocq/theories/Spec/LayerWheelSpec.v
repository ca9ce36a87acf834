(** Wheels whose entry points have ordinary names. *)
From Coq Require Import String Ascii List Bool NArith ZArith.
From Verif.Model Require Import GoStr GoPath Tar Stat Layer ConfigParser Platform WheelFile EntryPoints Wheel.
From Verif.Spec Require Import PathSpec WheelSpec EntryPointsSpec.
Import ListNotations.

(** [text] is what is installed as entry_points.txt *)
Definition entry_points_text (pl : platform) (wh : list zfile) (root info text : str) : Prop :=
  exists f key raw ok, In f wh /\
  destination (pl_scheme pl) root (data_name info) (z_name (zf_header f)) = Some (key, join $"/" (clean_comps root ++ [info; $"entry_points.txt"])) /\
  zf_content f = Bytes raw ok /\ text = if is_script key then shebang_line (pl_console pl) (pl_graphical pl) raw else raw.
(** All scripts have different names, without slash, and none is called RECORD. *)
Definition tidy_entry_points (pl : platform) (wh : list zfile) : Prop :=
  forall info root text cfg, info_of wh info -> root_of (pl_scheme pl) root -> entry_points_text pl wh root info text ->
  parse_config ep_parser text false = COk cfg ->
  NoDup (map fst (all_entries cfg)) /\ Forall (fun kv => plain_comp (fst kv) /\ fst kv <> $"RECORD") (all_entries cfg).
