(** pkg/python/pep345/metadata.go: Requires-Python. *)
From Coq Require Import String Ascii List Bool ZArith NArith.
From Verif.Model Require Import GoStr Pep440 Specifier.
Import ListNotations.
Open Scope Z_scope.

(** metadata.go:49-58 type CmpOp; :75-78 type VersionSpecifierClause *)
Inductive pyop : Type := PyLT | PyGT | PyLE | PyGE | PyEQ | PyNE.
Record pyclause : Type := mkPyClause { py_op : pyop; py_ver : version }.

(** metadata.go:80-111 parseVersionSpecifierClause.  The slicing is behind a
    HasPrefix of at least the same length, so it cannot panic. *)
Definition pyclause_operator (s : str) : pyop * str :=
  if has_prefix $"<" s && negb (has_prefix $"<=" s) then (PyLT, skipn 1 s)
  else if has_prefix $">" s && negb (has_prefix $">=" s) then (PyGT, skipn 1 s)
  else if has_prefix $"<=" s then (PyLE, skipn 2 s)
  else if has_prefix $">=" s then (PyGE, skipn 2 s)
  else if has_prefix $"==" s then (PyEQ, skipn 2 s)
  else if has_prefix $"!=" s then (PyNE, skipn 2 s)
  else (PyEQ, s).
Definition parse_pyclause (s : str) : option pyclause :=
  let '(op, s) := pyclause_operator (trim_space s) in
  match parse_version s with
  | None => None
  | Some v => Some {| py_op := op; py_ver := v |}
  end.

(** metadata.go:27-38 ParseVersionSpecifier; [None] is the error return *)
Fixpoint parse_pyclauses (l : list str) : option (list pyclause) :=
  match l with
  | [] => Some []
  | s :: l' =>
      match parse_pyclause s with
      | None => None
      | Some c =>
          match parse_pyclauses l' with
          | None => None
          | Some cs => Some (c :: cs)
          end
      end
  end.
Definition parse_pyspecifier (s : str) : option (list pyclause) :=
  parse_pyclauses (fields_func (fun c => byte_eqb c ","%char) s).

(** metadata.go:113-160 VersionSpecifierClause.Match *)
Definition base_clause (strict prefix : cmpop) (spec : version) : clause :=
  {| c_op := if (0 <? length (local spec))%nat || is_some (dev (pub spec)) then strict else prefix;
     c_ver := spec |}.
Definition match_pyeq (spec ver : version) : bool :=
  if negb (match_clause (base_clause OpStrictMatch OpPrefixMatch spec) ver) then false
  else
    let s := pub spec in
    let v := pub ver in
    if is_some (dev s) then true
    else if is_some (post s) then negb (is_some (dev v))
    else if is_some (pre s) then negb (is_some (dev v)) && negb (is_some (post v))
    else negb (is_some (dev v)) && negb (is_some (post v)) && negb (is_some (pre v)).
Definition match_pyclause (c : pyclause) (ver : version) : bool :=
  let spec := py_ver c in
  match py_op c with
  | PyLT => (cmp ver spec <? 0) && match_clause (base_clause OpStrictExclude OpPrefixExclude spec) ver
  | PyLE => cmp ver spec <=? 0
  | PyGT => 0 <? cmp ver spec
  | PyGE => 0 <=? cmp ver spec
  | PyEQ => match_pyeq spec ver
  | PyNE => negb (match_pyeq spec ver)
  end.
(** metadata.go:40-47 VersionSpecifier.Match *)
Fixpoint match_pyspecifier (s : list pyclause) (ver : version) : bool :=
  match s with
  | [] => true
  | c :: s' => if negb (match_pyclause c ver) then false else match_pyspecifier s' ver
  end.

(** metadata.go:17-23 HaveRequiredPython *)
Definition have_required_python (have : version) (requirement : str) : option bool :=
  match parse_pyspecifier requirement with
  | None => None
  | Some req => Some (match_pyspecifier req have)
  end.
