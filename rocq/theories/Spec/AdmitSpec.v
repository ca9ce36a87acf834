(** Which versions a specifier admits according to PEP 440 (C104). *)
From Coq Require Import String Ascii List Bool ZArith.
From Verif.Model Require Import GoStr Pep440 Specifier.
From Verif.Spec Require Import Pep440Spec VersionGrammar SpecifierSpec.
Import ListNotations.
Local Open Scope Z_scope.

Definition pep440_admits (c : clause) (v : version) : Prop :=
  match c_op c with
  | OpCompatible => at_least (c_ver c) v /\ prefix_agrees (series (c_ver c)) v
  | OpStrictMatch => strictly_equal (c_ver c) v
  | OpPrefixMatch => prefix_agrees (c_ver c) v
  | OpStrictExclude => ~ strictly_equal (c_ver c) v
  | OpPrefixExclude => ~ prefix_agrees (c_ver c) v
  | OpLE => at_most (c_ver c) v
  | OpGE => at_least (c_ver c) v
  | OpLT => below (c_ver c) v
  | OpGT => above (c_ver c) v
  end.
(** Where the program and PEP 440 part: a local version of V with "<= V", a lower pre-release of V with "< V", and a higher
    post-release or local version of V with "> V". *)
Definition deviates (c : clause) (v : version) : Prop :=
  match c_op c with
  | OpLE => local v <> [] /\ public_compare (pub v) (pub (c_ver c)) = Eq
  | OpLT => pep440_compare v (c_ver c) = Lt /\ pre_or_dev v /\ ~ pre_or_dev (c_ver c) /\ same_base v (c_ver c)
  | OpGT => pep440_compare v (c_ver c) = Gt /\ same_base v (c_ver c) /\ (is_post v /\ ~ is_post (c_ver c) \/ local v <> [])
  | _ => False
  end.

(** A clause as it is written: the operator, blanks (at least one after < and >), the version *)
Definition written (p : str) (c : clause) : Prop := exists blanks t,
  p = clause_text (c_op c) blanks t /\ forallb blank blanks = true /\ trimmed t /\ parse_version t = Some (c_ver c) /\
  permitted (c_op c) (c_ver c) = true /\ (c_op c = OpLT \/ c_op c = OpGT -> blanks <> []).

(** Example data: the clauses of "~=1.4, != 1.4.5 ,< 1.6" *)
Definition ex_admit_text : str := $"~=1.4, != 1.4.5 ,< 1.6".
Definition ex_version (t : str) : version :=
  match parse_version t with Some v => v | None => mkVersion (mkPublic 0 [] None None None) [] end.
Definition ex_admit_clauses : list clause :=
  [ mkClause OpCompatible (ex_version $"1.4"); mkClause OpStrictExclude (ex_version $"1.4.5"); mkClause OpLT (ex_version $"1.6") ].
