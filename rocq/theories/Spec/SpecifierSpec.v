(** PEP 440 version specifiers and PEP 345 Requires-Python, written from the
    PEPs in terms of the version order of Spec/Pep440Spec.v. *)
From Coq Require Import String Ascii List Bool ZArith.
From Verif.Model Require Import GoStr Pep440 Specifier Pep345.
From Verif.Spec Require Import Pep440Spec.
Import ListNotations.
Open Scope Z_scope.

(** The text of the comparison operators; the prefix variants of == and != are
    selected by a trailing ".*" instead. *)
Definition operator_text (op : cmpop) : str :=
  match op with
  | OpCompatible => $"~="
  | OpStrictMatch | OpPrefixMatch => $"=="
  | OpStrictExclude | OpPrefixExclude => $"!="
  | OpLE => $"<="
  | OpGE => $">="
  | OpLT => $"<"
  | OpGT => $">"
  end.
Definition clause_text (op : cmpop) (ws v : str) : str :=
  operator_text op ++ ws ++ v ++
  match op with OpPrefixMatch | OpPrefixExclude => $".*" | _ => [] end.
(** What PEP 440 requires of the version in a clause: at least two release
    components after ~=, a local label only for strict == and !=, no dev part
    before ".*". *)
Definition permitted (op : cmpop) (v : version) : bool :=
  match op with
  | OpStrictMatch | OpStrictExclude => true
  | OpPrefixMatch | OpPrefixExclude =>
      match dev (pub v), local v with None, [] => true | _, _ => false end
  | OpCompatible => (2 <=? length (release (pub v)))%nat && match local v with [] => true | _ => false end
  | OpLE | OpGE | OpLT | OpGT => match local v with [] => true | _ => false end
  end.
(** No white space at either end. *)
Definition trimmed (s : str) : Prop := trim_space s = s.

(** Same release, missing components counting as zero. *)
Definition same_release (a b : list Z) : Prop := forall i, nth i a 0 = nth i b 0.
Definition same_base (a b : version) : Prop :=
  epoch (pub a) = epoch (pub b) /\ same_release (release (pub a)) (release (pub b)).
(** Same pre-release part: a, b or rc, and the number. *)
Definition same_pre (a b : option (str * Z)) : Prop :=
  match a, b with
  | None, None => True
  | Some (l, n), Some (m, k) => letter_rank l = letter_rank m /\ n = k
  | _, _ => False
  end.

(** "P.*": the last part given in P, and everything before it, agrees. *)
Definition prefix_agrees (p v : version) : Prop :=
  epoch (pub p) = epoch (pub v) /\
  match pre (pub p), post (pub p) with
  | None, None =>
      forall i, (i < length (release (pub p)))%nat ->
        nth i (release (pub v)) 0 = nth i (release (pub p)) 0
  | Some _, None =>
      same_release (release (pub p)) (release (pub v)) /\ same_pre (pre (pub p)) (pre (pub v))
  | _, Some n =>
      same_release (release (pub p)) (release (pub v)) /\ same_pre (pre (pub p)) (pre (pub v)) /\
      post (pub v) = Some n
  end.

(** "== V": the candidate's local label counts only when V has one. *)
Definition strictly_equal (V v : version) : Prop :=
  match local V with
  | [] => public_compare (pub V) (pub v) = Eq
  | _ => pep440_compare V v = Eq
  end.

(** V without the last release component and without suffixes. *)
Definition series (V : version) : version :=
  {| pub := {| epoch := epoch (pub V); release := firstn (length (release (pub V)) - 1) (release (pub V));
               pre := None; post := None; dev := None |};
     local := [] |}.

(** Ordered comparisons.  "<=" and ">=" ignore the local label of the candidate. *)
Definition at_most (V v : version) : Prop := public_compare (pub v) (pub V) <> Gt.
Definition at_least (V v : version) : Prop := public_compare (pub v) (pub V) <> Lt.
Definition pre_or_dev (v : version) : Prop := pre (pub v) <> None \/ dev (pub v) <> None.
Definition is_post (v : version) : Prop := post (pub v) <> None.
(** "< V" does not allow a pre-release of V unless V is one itself *)
Definition below (V v : version) : Prop :=
  pep440_compare v V = Lt /\ ~ (pre_or_dev v /\ ~ pre_or_dev V /\ same_base v V).
(** "> V" does not allow a post-release of V unless V is one itself, and no
    local version of V *)
Definition above (V v : version) : Prop :=
  pep440_compare v V = Gt /\ ~ (is_post v /\ ~ is_post V /\ same_base v V) /\
  ~ (local v <> [] /\ same_base v V).

(** X with its last release component increased by one: the end of the
    half-open range that PEP 345 documents for a bare X. *)
Definition bump (X : version) : version :=
  {| pub := {| epoch := epoch (pub X);
               release := removelast (release (pub X)) ++ [last (release (pub X)) 0 + 1];
               pre := None; post := None; dev := None |};
     local := [] |}.
Definition plain (v : version) : Prop :=
  pre (pub v) = None /\ post (pub v) = None /\ dev (pub v) = None.

(** PEP 345 clauses: the candidate has no suffix that X does not have. *)
Definition same_suffix (X v : version) : Prop :=
  dev (pub v) = None /\
  (post (pub X) = None -> post (pub v) = None) /\
  (pre (pub X) = None -> post (pub X) = None -> pre (pub v) = None).
Definition py_text (op : pyop) : str :=
  match op with PyLT => $"<" | PyGT => $">" | PyLE => $"<=" | PyGE => $">=" | PyEQ => $"==" | PyNE => $"!=" end.

(** Operators whose printed form the parser reads back. *)
Definition printable_op (op : cmpop) : Prop :=
  match op with OpCompatible | OpStrictMatch | OpStrictExclude | OpLE | OpGE => True | _ => False end.
