(** cmd_layer_dir.go: "ocibuild layer dir" *)
From Coq Require Import String Ascii List Bool ZArith.
From Verif.Model Require Import GoStr GoPath Tar Layer Dir.
Import ListNotations.

(** cmd_layer_dir.go:37-58: the flags, as they occur on the command line.  Simplified: their values are parsed
    already (github.com/spf13/pflag). *)
Inductive dir_flag : Type :=
| FPrefix (v : str) | FPrefixUid (v : Z) | FPrefixUname (v : str) | FPrefixGid (v : Z) | FPrefixGname (v : str)
| FChownUid (v : Z) | FChownUname (v : str) | FChownGid (v : Z) | FChownGname (v : str).
(** :16-17 the variables of the flags *)
Record dir_vars : Type := mkVars { v_prefix : prefix; v_chown : ownership }.
(** :37-58 their defaults; nothing sets flagPrefix.Mode *)
Definition dir_defaults : dir_vars := mkVars (mkPrefix [] 0 (mkOwner 0 $"root" 0 $"root")) (mkOwner (-1) [] (-1) $"root").
(** Setting a flag (github.com/spf13/pflag): the variable that StringVar or IntVar was given *)
Definition set_flag (v : dir_vars) (f : dir_flag) : dir_vars :=
  let '(mkVars (mkPrefix p m (mkOwner pu pn pg pm)) (mkOwner cu cn cg cm)) := v in
  match f with
  | FPrefix x => mkVars (mkPrefix x m (mkOwner pu pn pg pm)) (mkOwner cu cn cg cm)
  | FPrefixUid x => mkVars (mkPrefix p m (mkOwner x pn pg pm)) (mkOwner cu cn cg cm)
  | FPrefixUname x => mkVars (mkPrefix p m (mkOwner pu x pg pm)) (mkOwner cu cn cg cm)
  | FPrefixGid x => mkVars (mkPrefix p m (mkOwner pu pn x pm)) (mkOwner cu cn cg cm)
  | FPrefixGname x => mkVars (mkPrefix p m (mkOwner pu pn pg x)) (mkOwner cu cn cg cm)
  | FChownUid x => mkVars (mkPrefix p m (mkOwner pu pn pg pm)) (mkOwner x cn cg cm)
  | FChownUname x => mkVars (mkPrefix p m (mkOwner pu pn pg pm)) (mkOwner cu x cg cm)
  | FChownGid x => mkVars (mkPrefix p m (mkOwner pu pn pg pm)) (mkOwner cu cn x cm)
  | FChownGname x => mkVars (mkPrefix p m (mkOwner pu pn pg pm)) (mkOwner cu cn cg x)
  end.
Definition parse_flags (flags : list dir_flag) : dir_vars := fold_left set_flag flags dir_defaults.
(** :22-34 RunE for the tree [root]; [now]: the time that reproducible.Now returns.  The result: the entries of
    the layer that is written. *)
Definition layer_dir (encodable : header -> bool) (n : nat)
    (sort : (str * list wstep -> str * list wstep -> bool) -> list (str * list wstep) -> list (str * list wstep))
    (root : dnode) (now : Z) (flags : list dir_flag) : layer_result :=
  let v := parse_flags flags in
  let px := if str_eqb (px_name (v_prefix v)) [] then None else Some (v_prefix v) in
  layer_from_dir encodable n sort root px (Some (v_chown v)) (Some now).
