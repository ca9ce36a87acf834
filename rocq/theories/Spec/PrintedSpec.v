(** What becomes of printed specifiers (C13). *)
From Coq Require Import String Ascii List Bool.
From Verif.Model Require Import GoStr Pep440 Specifier.
From Verif.Spec Require Import SpecifierSpec.
Import ListNotations.

(** As what a printed clause is read: prefix clauses have lost their ".*", so they are exact ones, and the
    first digit of the version after < and > is passed over. *)
Definition read_again (c d : clause) : Prop :=
  match c_op c with
  | OpPrefixMatch => d = mkClause OpStrictMatch (c_ver c)
  | OpPrefixExclude => d = mkClause OpStrictExclude (c_ver c)
  | OpLT | OpGT => c_op d = c_op c /\ parse_version (tl (version_string (c_ver c))) = Some (c_ver d) /\ permitted (c_op d) (c_ver d) = true
  | OpCompatible | OpStrictMatch | OpStrictExclude | OpLE | OpGE => d = c
  end.
