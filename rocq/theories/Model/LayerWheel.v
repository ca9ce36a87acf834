(** cmd_layer_wheel.go: "ocibuild layer wheel" *)
From Coq Require Import String Ascii List Bool NArith ZArith.
From Verif.Model Require Import GoStr GoPath Tar Stat Layer ConfigParser Platform WheelFile EntryPoints Wheel DirectURL Record.
Import ListNotations.

(** entry_points.go:48 CreateScripts as a hook; which error it is does not matter here *)
Definition scripts_hook (outer : list (str * str) -> list (str * str)) (order : str -> section -> section) (pl : platform) : hook :=
  fun t fs info => match create_scripts outer order pl t fs info with inl fs => Some fs | inr _ => None end.
(** cmd_layer_wheel.go:86-93: the hooks *)
Definition command_hook (space : str -> bool) (digest : str -> str -> str) (range : vfs -> vfs)
    (sort : (list str -> list str -> bool) -> list (list str) -> list (list str))
    (outer : list (str * str) -> list (str * str)) (order : str -> section -> section) (pl : platform) : hook :=
  run_hooks [scripts_hook outer order pl; record_hook space digest range sort $"sha256" $"ocibuild layer wheel" None].
(** The result of the command for an archive that can be opened: the entries of the layer.
    [o] without its hook *)
Definition layer_wheel (o : outside) (space : str -> bool) (range : vfs -> vfs)
    (sort : (list str -> list str -> bool) -> list (list str) -> list (list str))
    (outer : list (str * str) -> list (str * str)) (order : str -> section -> section)
    (fuel : nat) (pl : platform) (wh : list zfile) : ires (list entry) :=
  install_wheel (mkOut (o_csv o) (o_digest o) (o_wheel o) (o_now o) (o_compile o)
                   (command_hook space (o_digest o) range sort outer order pl) (o_encodable o)
                   (o_spread o) (o_parents o) (o_types o) (o_py o) (o_refs o) (o_sort o)) fuel pl None None wh.
