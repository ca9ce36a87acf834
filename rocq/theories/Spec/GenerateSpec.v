(** Random versions: what the property tests of the project rely on. *)
From Coq Require Import String Ascii List Bool ZArith NArith.
From Verif.Model Require Import GoStr Pep440 Specifier Generate.
From Verif.Spec Require Import Pep440Spec.
Import ListNotations.
Open Scope Z_scope.

(** A source of randomness: whatever its state, it answers with a number below the bound. *)
Definition in_range {R : Type} (src : R -> Z -> Z * R) : Prop := forall r n, 0 < n -> 0 <= fst (src r n) < n.
(** The source that answers with given numbers. *)
Definition dice (r : list Z) (n : Z) : Z * list Z :=
  match r with [] => (0, []) | d :: r' => (d mod n, r') end.

Definition small (n : Z) : Prop := 0 <= n < 3000.
Definition small_public (v : public) : Prop :=
  small (epoch v) /\ (1 <= length (release v) <= 10)%nat /\ Forall small (release v) /\
  (forall l n, pre v = Some (l, n) -> canonical_letter l /\ small n) /\
  (forall n, post v = Some n -> small n) /\ (forall n, dev v = Some n -> small n).
Definition small_seg (s : intorstr) : Prop :=
  match s with
  | SInt n => small n
  | SStr [] => False
  | SStr (c :: s) => is_lower_alpha c = true /\ forallb lower_alnum s = true /\ (length s <= 9)%nat
  end.
(** Numbers below 3000, up to ten numbers in the release, up to ten local segments of up to ten letters and
    digits that start with a letter. *)
Definition small_version (v : version) : Prop :=
  small_public (pub v) /\ (length (local v) <= 10)%nat /\ Forall small_seg (local v).
