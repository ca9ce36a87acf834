(** Strings without certain letters. *)
From Coq Require Import String Ascii List.
From Verif.Model Require Import GoStr Pep440 Unicode.
From Verif.Spec Require Import WhiteSpaceSpec.
Import ListNotations.

(** None of the words occurs in [s]. *)
Definition avoids (words : list str) (s : str) : Prop := forall w a b, In w words -> s <> a ++ w ++ b.
(** The letters outside ASCII that are taken for letters of ASCII, and white space outside ASCII. *)
Definition odd_letters : list str := [long_s; kelvin].
Definition odd_characters : list str := odd_letters ++ wide_spaces.
(** [t'] is [t] with white space around it *)
Definition padded (t t' : str) : Prop := exists a b, blanks a /\ blanks b /\ t' = a ++ t ++ b.
(** clauses: no comma in them *)
Definition clauses (l : list str) : Prop := Forall (fun t => ~ In ","%char t) l.
(** [t'] is [t] with the letters s and k written as the odd letters in some places *)
Inductive spelt : str -> str -> Prop :=
| spelt_nil : spelt [] []
| spelt_same c t t' : spelt t t' -> spelt (c :: t) (c :: t')
| spelt_s t t' : spelt t t' -> spelt ("s"%char :: t) (long_s ++ t')
| spelt_k t t' : spelt t t' -> spelt ("k"%char :: t) (kelvin ++ t').
(** Segments of local labels: the same number, or the same text with some s written as long s *)
Definition seg_spelt (x x' : intorstr) : Prop :=
  match x, x' with
  | SInt i, SInt i' => i = i'
  | SStr t, SStr t' => spelt t t' /\ avoids [kelvin] t'
  | _, _ => False
  end.
