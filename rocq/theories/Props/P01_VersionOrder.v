(** C01, C02, C06: comparison of PEP 440 versions. *)
From Coq Require Import String Ascii List Bool ZArith.
From Verif.Model Require Import GoStr Pep440.
From Verif.Spec Require Import Pep440Spec ExactSpec.
From Verif.Proofs Require Import Pep440Cmp Pep440Sound ExactFacts.
Import ListNotations.
Open Scope Z_scope.

(** C01, for versions obtained from ParseVersion.  [no_overflow]
    (Spec/Pep440Spec.v) leaves out the values on which the code's int64/int32
    arithmetic overflows; the refutations below are exactly about those. *)
Theorem C01_cmp_antisymmetric_partial : forall sa sb a b,
  parse_version sa = Some a -> parse_version sb = Some b -> no_overflow a -> no_overflow b ->
  Z.sgn (cmp b a) = - Z.sgn (cmp a b).
Proof. exact parsed_antisym. Qed.
Print Assumptions C01_cmp_antisymmetric_partial.

Theorem C01_cmp_reflexive : forall a, cmp a a = 0.
Proof. exact self_equal. Qed.
Print Assumptions C01_cmp_reflexive.

Theorem C01_cmp_transitive_partial : forall sa sb sc a b c,
  parse_version sa = Some a -> parse_version sb = Some b -> parse_version sc = Some c ->
  no_overflow a -> no_overflow b -> no_overflow c ->
  cmp a b <= 0 -> cmp b c <= 0 -> cmp a c <= 0.
Proof. exact parsed_trans. Qed.
Print Assumptions C01_cmp_transitive_partial.

(** versions that compare equal compare alike with everything *)
Theorem C01_cmp_congruence_partial : forall sa sb sc a b c,
  parse_version sa = Some a -> parse_version sb = Some b -> parse_version sc = Some c ->
  no_overflow a -> no_overflow b -> no_overflow c ->
  cmp a b = 0 -> Z.sgn (cmp a c) = Z.sgn (cmp b c).
Proof. exact parsed_congruence. Qed.
Print Assumptions C01_cmp_congruence_partial.

(** Two local versions, each "smaller" than the other. *)
Theorem C01_cmp_antisymmetric_refuted : exists a b,
  parse_version $"1+2147483648" = Some a /\ parse_version $"1+0" = Some b /\
  cmp a b < 0 /\ cmp b a < 0.
Proof. exact cmp_local_wraps. Qed.
Print Assumptions C01_cmp_antisymmetric_refuted.

(** A cycle: 1 > 1.post9223372036854775807 > 1.post0 > 1. *)
Theorem C01_cmp_transitive_refuted : exists a b c,
  parse_version $"1" = Some a /\ parse_version $"1.post9223372036854775807" = Some b /\
  parse_version $"1.post0" = Some c /\
  cmp b a < 0 /\ cmp a c < 0 /\ 0 < cmp b c.
Proof. exact cmp_post_wraps. Qed.
Print Assumptions C01_cmp_transitive_refuted.

(** C02.  The sign of Cmp is the comparison of the PEP 440 sort keys. *)
Theorem C02_cmp_is_pep440_order_partial : forall sa sb a b,
  parse_version sa = Some a -> parse_version sb = Some b -> no_overflow a -> no_overflow b ->
  sign (cmp a b) = pep440_compare a b.
Proof. exact parsed_sign. Qed.
Print Assumptions C02_cmp_is_pep440_order_partial.

(** ... also for versions built by hand. *)
Theorem C02_wf_cmp_is_pep440_order_partial : forall a b, wf_version a -> wf_version b ->
  sign (cmp a b) = pep440_compare a b.
Proof. exact cmp_sign. Qed.
Print Assumptions C02_wf_cmp_is_pep440_order_partial.

Theorem C02_public_cmp_is_pep440_order_partial : forall a b, wf_public a -> wf_public b ->
  sign (public_cmp a b) = public_compare a b.
Proof. exact public_cmp_sign. Qed.
Print Assumptions C02_public_cmp_is_pep440_order_partial.

(** PEP 440 orders 1+9223372036854775808 above 1+1; the code orders it below. *)
Theorem C02_cmp_is_pep440_order_refuted : exists a b,
  parse_version $"1+9223372036854775808" = Some a /\ parse_version $"1+1" = Some b /\ cmp a b < 0.
Proof. exact cmp_local_huge. Qed.
Print Assumptions C02_cmp_is_pep440_order_refuted.

(** C06.  Zeros at the end of the release of either version do not change the result, for all versions
    (with letters that the parser returns; with others the program panics, see [pre_order]). *)
Theorem C06_trailing_zeros : forall v w n m, cmp (add_zeros n v) (add_zeros m w) = cmp v w.
Proof. exact zeros_irrelevant. Qed.
Print Assumptions C06_trailing_zeros.
(** Versions are equal exactly if they are the same without these zeros. *)
Theorem C06_equal : forall s t v w, parse_version s = Some v -> parse_version t = Some w ->
  (cmp v w = 0 <-> without_zeros v = without_zeros w).
Proof. exact equal_without_zeros. Qed.
Print Assumptions C06_equal.
Example C06_case : exists v w, parse_version $"1.0.0-alpha.2+Ab" = Some v /\ parse_version $"1a2+aB" = Some w /\ v <> w /\
  cmp v w = 0 /\ add_zeros 2 w = v.
Proof.
  eexists. eexists. split; [vm_compute; reflexivity|]. split; [vm_compute; reflexivity|]. split; [discriminate|]. split; vm_compute; reflexivity.
Qed.

(** Versions that meet the hypotheses. *)
Example wf_examples : exists a b c,
  parse_version $"2!1.0.dev3" = Some a /\ parse_version $"v1.0-RC.1.post7+ubuntu.14" = Some b /\
  parse_version $"1.0.0" = Some c /\ wf_version a /\ wf_version b /\ wf_version c /\
  cmp b a < 0 /\ cmp b c < 0.
Proof. exact wf_version_examples. Qed.
