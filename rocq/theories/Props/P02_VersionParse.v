(** C03, C04, C05: parsing and printing PEP 440 versions. *)
From Coq Require Import String Ascii List Bool ZArith.
From Verif.Model Require Import GoStr Pep440.
From Verif.Spec Require Import Pep440Spec VersionGrammar.
From Verif.Proofs Require Import Pep440Sound.
Import ListNotations.

(** C03.  Printing a version in normal form and parsing it gives it back. *)
Theorem C03_parse_of_string : forall v, canonical v -> parse_version (version_string v) = Some v.
Proof. exact parse_string. Qed.
Print Assumptions C03_parse_of_string.

(** C04.  Parsing is idempotent through String, unless a numeric local segment
    was wrapped to a negative int32. *)
Theorem C04_normalization_idempotent_partial : forall s v,
  parse_version s = Some v -> Forall nonneg_seg (local v) ->
  parse_version (version_string v) = Some v.
Proof. exact parse_idempotent. Qed.
Print Assumptions C04_normalization_idempotent_partial.

Theorem C04_normalization_idempotent_refuted : exists s v,
  parse_version s = Some v /\ parse_version (version_string v) = None.
Proof. exact reparse_fails. Qed.
Print Assumptions C04_normalization_idempotent_refuted.

(** C05.  The accepted strings are exactly the spellings of versions in the
    PEP 440 grammar (Spec/VersionGrammar.v) whose numbers fit a machine integer. *)
Theorem C05_accepts_exactly_the_grammar : forall s, parse_version s <> None <-> is_version s.
Proof. exact parse_accepts. Qed.
Print Assumptions C05_accepts_exactly_the_grammar.

(** ... and the value is the meaning of the spelling. *)
Theorem C05_value_of_spelling : forall x, wf_surface x -> munch x -> locals_fit x ->
  parse_version (render x) = value x.
Proof. exact parse_render_value. Qed.
Print Assumptions C05_value_of_spelling.

(** The specification itself is consistent: every accepted string has a
    longest-match derivation, and any two of them mean the same. *)
Theorem C05_longest_match_exists : forall x, wf_surface x ->
  exists y, wf_surface y /\ munch y /\ render y = render x /\ (numbers_fit x -> numbers_fit y).
Proof. exact munch_exists. Qed.
Print Assumptions C05_longest_match_exists.
Theorem C05_grammar_unambiguous : forall x y, wf_surface x -> munch x -> locals_fit x ->
  wf_surface y -> munch y -> locals_fit y -> render x = render y -> value x = value y.
Proof. exact grammar_unambiguous. Qed.
Print Assumptions C05_grammar_unambiguous.

(** A derivation that uses most of the alternate spellings. *)
Example grammar_example : exists x, wf_surface x /\ munch x /\ locals_fit x /\ numbers_fit x /\
  render x = $" v1!02.0.10-Alpha_-7.DEV003+Ubuntu-016_x86" /\
  value x = Some {| pub := {| epoch := 1; release := [2; 0; 10]; pre := Some ($"a", 0);
                              post := Some 7; dev := Some 3 |};
                    local := [SStr $"ubuntu"; SInt 16; SStr $"x86"] |}%Z.
Proof. exact (ex_intro _ _ example_surface_ok). Qed.
(** ... and its parse is in normal form with nothing wrapped. *)
Example canonical_example : exists v, parse_version (render example_surface) = Some v /\
  canonical v /\ Forall nonneg_seg (local v).
Proof. exact example_canonical. Qed.
