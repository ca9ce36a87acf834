(** C06, C07, C20: versions without zeros at the end of the release, specifier texts as the program reads them, and the versions
    that are passed over when a wheel is selected. *)
From Coq Require Import String Ascii List Bool ZArith.
From Verif.Model Require Import GoStr Pep440 Specifier WheelName SimpleAPI.
From Verif.Spec Require Import Pep440Spec SpecifierSpec WheelNameSpec SimpleAPISpec.
Import ListNotations.

(** The same version with the zeros at the end of the release removed. *)
Definition without_zeros (v : version) : version :=
  {| pub := {| epoch := epoch (pub v); release := strip_zeros (release (pub v));
               pre := pre (pub v); post := post (pub v); dev := dev (pub v) |};
     local := local v |}.

(** The clauses of a specifier text: between commas, without white space around them, if anything is left. *)
Definition parts (s : str) : list str := filter (fun t => negb (str_eqb t [])) (map trim_space (split_on ","%char s)).
(** How the program reads a clause: the operator and the version, but one more character is passed over after < and >. *)
Definition passed_over (op : cmpop) (x : str) : Prop :=
  match op with OpLT | OpGT => exists c, x = [c] /\ c <> "="%char | _ => x = [] end.
Definition read_as (p : str) (c : clause) : Prop := exists x t,
  p = clause_text (c_op c) x t /\ passed_over (c_op c) x /\ parse_version t = Some (c_ver c) /\ permitted (c_op c) (c_ver c) = true.

(** Versions that SelectWheel passes over: final releases of which a usable file is yanked. *)
Definition withdrawn (tags : list tag) (links : list link) (v : version) : Prop := ~ pre_or_dev v /\ yanked_version tags links v.
