(** PEP 440 ordering, written from the PEP (and the reference implementation's
    sort key), independently of the comparison functions of the model. *)
From Coq Require Import String Ascii List Bool ZArith.
From Verif.Model Require Import GoStr Pep440.
Import ListNotations.
Open Scope Z_scope.

(** Values extended with -infinity and +infinity. *)
Inductive ext (A : Type) : Type := NegInf | Fin (a : A) | PosInf.
Arguments NegInf {A}.  Arguments Fin {A} a.  Arguments PosInf {A}.

Definition cmp_ext {A} (c : A -> A -> comparison) (x y : ext A) : comparison :=
  match x, y with
  | NegInf, NegInf => Eq | NegInf, _ => Lt | _, NegInf => Gt
  | Fin a, Fin b => c a b
  | PosInf, PosInf => Eq | PosInf, _ => Gt | _, PosInf => Lt
  end.

(** Lexicographic combinations. *)
Definition lex (c d : comparison) : comparison := match c with Eq => d | _ => c end.
Definition cmp_pair {A B} (ca : A -> A -> comparison) (cb : B -> B -> comparison)
    (x y : A * B) : comparison :=
  lex (ca (fst x) (fst y)) (cb (snd x) (snd y)).
Fixpoint cmp_list {A} (c : A -> A -> comparison) (x y : list A) : comparison :=
  match x, y with
  | [], [] => Eq
  | [], _ :: _ => Lt
  | _ :: _, [] => Gt
  | a :: x', b :: y' => lex (c a b) (cmp_list c x' y')
  end.

(** "alpha" is a, "beta" is b, "c", "pre" and "preview" are rc; a < b < rc. *)
Definition letter_rank (l : str) : option Z :=
  if str_eqb l $"a" then Some 0 else if str_eqb l $"alpha" then Some 0
  else if str_eqb l $"b" then Some 1 else if str_eqb l $"beta" then Some 1
  else if str_eqb l $"rc" then Some 2 else if str_eqb l $"c" then Some 2
  else if str_eqb l $"pre" then Some 2 else if str_eqb l $"preview" then Some 2
  else None.
Definition rank (l : str) : Z := match letter_rank l with Some r => r | None => -1 end.

(** Release segment without trailing zeros. *)
Fixpoint strip_zeros (r : list Z) : list Z :=
  match r with
  | [] => []
  | x :: r' =>
      match strip_zeros r' with
      | [] => if x =? 0 then [] else [x]
      | r'' => x :: r''
      end
  end.

(** Sort key of a version:
    - a development release of a final release sorts before its pre-releases;
      a version without pre-release part otherwise sorts after them;
    - no post part sorts before any post part;
    - no dev part sorts after any dev part;
    - no local part sorts before any local part; inside it numeric segments sort
      after alphanumeric ones. *)
Definition pre_key (v : public) : ext (Z * Z) :=
  match pre v, post v, dev v with
  | Some (l, n), _, _ => Fin (rank l, n)
  | None, None, Some _ => NegInf
  | None, _, _ => PosInf
  end.
Definition post_key (v : public) : ext Z := match post v with None => NegInf | Some n => Fin n end.
Definition dev_key (v : public) : ext Z := match dev v with None => PosInf | Some n => Fin n end.
Definition seg_key (s : intorstr) : ext Z * str :=
  match s with SInt i => (Fin i, []) | SStr s => (NegInf, s) end.
Definition local_key (l : list intorstr) : ext (list (ext Z * str)) :=
  match l with [] => NegInf | _ => Fin (map seg_key l) end.

Definition public_compare (a b : public) : comparison :=
  lex (Z.compare (epoch a) (epoch b))
  (lex (cmp_list Z.compare (strip_zeros (release a)) (strip_zeros (release b)))
  (lex (cmp_ext (cmp_pair Z.compare Z.compare) (pre_key a) (pre_key b))
  (lex (cmp_ext Z.compare (post_key a) (post_key b))
       (cmp_ext Z.compare (dev_key a) (dev_key b))))).

Definition pep440_compare (a b : version) : comparison :=
  lex (public_compare (pub a) (pub b))
      (cmp_ext (cmp_list (cmp_pair (cmp_ext Z.compare) str_compare))
         (local_key (local a)) (local_key (local b))).

(** Sign of a Go comparison result. *)
Definition sign (z : Z) : comparison := Z.compare z 0.

(** Ranges.  [ranged_public]: what the parser can return: non-negative machine
    integers, at least one release component, a known pre-release letter.
    [wf_version] additionally excludes the values on which the Go subtractions
    overflow: a post number 2^63-1 (subtracting the -1 that stands for "none")
    and numeric local segments outside int32. *)
Definition int64_ok (z : Z) : Prop := 0 <= z < 2 ^ 63.
Definition int32_ok (z : Z) : Prop := 0 <= z < 2 ^ 31.
Definition ranged_public (v : public) : Prop :=
  int64_ok (epoch v) /\ release v <> [] /\ Forall int64_ok (release v) /\
  (forall l n, pre v = Some (l, n) -> letter_rank l <> None /\ int64_ok n) /\
  (forall n, post v = Some n -> int64_ok n) /\
  (forall n, dev v = Some n -> int64_ok n).
Definition wf_public (v : public) : Prop :=
  ranged_public v /\ post v <> Some (2 ^ 63 - 1).
Definition wf_seg (s : intorstr) : Prop :=
  match s with SInt i => int32_ok i | SStr _ => True end.
Definition wf_version (v : version) : Prop := wf_public (pub v) /\ Forall wf_seg (local v).

(** Everything the parser returns (numeric local segments are truncated to int32). *)
Definition ranged_seg (s : intorstr) : Prop :=
  match s with SInt i => - 2 ^ 31 <= i < 2 ^ 31 | SStr _ => True end.
Definition ranged_version (v : version) : Prop := ranged_public (pub v) /\ Forall ranged_seg (local v).

(** Normal form: the letter is spelled a, b or rc, and alphanumeric local
    segments are non-empty lower-case strings that are not numbers fitting a
    machine integer. *)
Definition lower_alnum (c : ascii) : bool := is_lower_alpha c || is_digit c.
Definition canonical_letter (l : str) : Prop := l = $"a" \/ l = $"b" \/ l = $"rc".
Definition canonical_seg (s : intorstr) : Prop :=
  match s with
  | SInt i => int32_ok i
  | SStr s => s <> [] /\ forallb lower_alnum s = true /\ atoi s = None
  end.
Definition canonical (v : version) : Prop :=
  ranged_public (pub v) /\
  (forall l n, pre (pub v) = Some (l, n) -> canonical_letter l) /\
  Forall canonical_seg (local v).

(** The same version with n zeros appended to the release. *)
Definition add_zeros (n : nat) (v : version) : version :=
  {| pub := {| epoch := epoch (pub v); release := release (pub v) ++ repeat 0 n;
               pre := pre (pub v); post := post (pub v); dev := dev (pub v) |};
     local := local v |}.

(** No number at the edge of its machine type: the numeric local segments have
    not been wrapped into the negative int32 range, and the post number is not
    2^63-1. *)
Definition nonneg_seg (s : intorstr) : Prop := match s with SInt i => 0 <= i | SStr _ => True end.
Definition no_overflow (v : version) : Prop :=
  post (pub v) <> Some (2 ^ 63 - 1) /\ Forall nonneg_seg (local v).
