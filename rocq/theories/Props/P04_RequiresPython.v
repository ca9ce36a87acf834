(** C21: Requires-Python. *)
From Coq Require Import String Ascii List Bool ZArith.
From Verif.Model Require Import GoStr Pep440 Specifier Pep345.
From Verif.Spec Require Import Pep440Spec VersionGrammar SpecifierSpec.
From Verif.Proofs Require Import SpecifierMatch Pep345Facts.
Import ListNotations.
Open Scope Z_scope.

(** A bare X (X without suffixes), for candidates without suffixes: exactly the
    half-open range from X up to X with its last component increased. *)
Theorem C21_bare_is_range_partial : forall s X v b,
  trimmed s -> parse_version s = Some X -> plain X -> local X = [] ->
  ranged_version v -> plain v -> have_required_python v s = Some b ->
  (b = true <-> pep440_compare X v <> Gt /\ pep440_compare v (bump X) = Lt).
Proof. exact required_range. Qed.
Print Assumptions C21_bare_is_range_partial.

(** Candidates with a pre, post or dev suffix are never accepted by a bare X ... *)
Theorem C21_bare_excludes_suffixes_partial : forall s X v,
  trimmed s -> parse_version s = Some X -> plain X -> local X = [] ->
  ranged_version v -> ~ plain v -> have_required_python v s = Some false.
Proof. exact required_suffixed. Qed.
Print Assumptions C21_bare_excludes_suffixes_partial.

(** ... although some of them are in the documented range. *)
Theorem C21_bare_is_range_refuted : exists v, parse_version $"2.6.2.post1" = Some v /\
  have_required_python v $"2.6.2" = Some false /\
  have_required_python v $">=2.6.2,<2.6.3" = Some true.
Proof. exact range_not_exact. Qed.
Print Assumptions C21_bare_is_range_refuted.

(** X with pre or post part *)
Theorem C21_equal_partial : forall X v,
  ranged_version X -> ranged_version v -> dev (pub X) = None -> local X = [] ->
  match_pyeq X v = true <-> prefix_agrees X v /\ same_suffix X v.
Proof. exact pyeq_spec. Qed.
Print Assumptions C21_equal_partial.

Theorem C21_bare_means_equal_partial : forall s X v, trimmed s -> parse_version s = Some X ->
  have_required_python v s = have_required_python v ($"==" ++ s).
Proof. exact required_bare. Qed.
Print Assumptions C21_bare_means_equal_partial.

Theorem C21_clause_text_partial : forall op ws s X v,
  forallb blank ws = true -> trimmed s -> parse_version s = Some X ->
  have_required_python v (py_text op ++ ws ++ s) = Some (match_pyclause {| py_op := op; py_ver := X |} v).
Proof. exact required_clause. Qed.
Print Assumptions C21_clause_text_partial.

Theorem C21_not_equal_is_complement_partial : forall v s, ~ In ","%char s ->
  have_required_python v ($"!=" ++ s) = option_map negb (have_required_python v ($"==" ++ s)).
Proof. exact required_ne_text. Qed.
Print Assumptions C21_not_equal_is_complement_partial.

Theorem C21_less_than_partial : forall s ws X v,
  forallb blank ws = true -> trimmed s -> parse_version s = Some X ->
  no_overflow X -> wf_version v -> dev (pub X) = None -> local X = [] ->
  exists b, have_required_python v ($"<" ++ ws ++ s) = Some b /\
  (b = true <-> pep440_compare v X = Lt /\ ~ prefix_agrees X v).
Proof. exact required_lt. Qed.
Print Assumptions C21_less_than_partial.

(** "<X" accepts nothing with the release of X, so no pre-release of X *)
Theorem C21_less_than_no_prerelease_partial : forall s ws X v,
  forallb blank ws = true -> trimmed s -> parse_version s = Some X ->
  no_overflow X -> wf_version v -> plain X -> local X = [] ->
  have_required_python v ($"<" ++ ws ++ s) = Some true -> ~ same_base v X.
Proof. exact required_lt_base. Qed.
Print Assumptions C21_less_than_no_prerelease_partial.

(** ... unless X carries a local label *)
Theorem C21_less_than_local_refuted : exists v, parse_version $"3.1rc1" = Some v /\
  have_required_python v $"<3.1" = Some false /\ have_required_python v $"<3.1+local" = Some true.
Proof. exact lt_local_prerelease. Qed.
Print Assumptions C21_less_than_local_refuted.

Theorem C21_ordered_partial : forall X v, wf_version X -> wf_version v ->
  (match_pyclause {| py_op := PyLE; py_ver := X |} v = true <-> pep440_compare v X <> Gt) /\
  (match_pyclause {| py_op := PyGE; py_ver := X |} v = true <-> pep440_compare v X <> Lt) /\
  (match_pyclause {| py_op := PyGT; py_ver := X |} v = true <-> pep440_compare v X = Gt).
Proof. exact pycmp_spec. Qed.
Print Assumptions C21_ordered_partial.

Theorem C21_comma_is_conjunction_partial : forall v a b,
  have_required_python v (a ++ $"," ++ b) =
  match have_required_python v a, have_required_python v b with
  | Some x, Some y => Some (x && y)
  | _, _ => None
  end.
Proof. exact required_conj. Qed.
Print Assumptions C21_comma_is_conjunction_partial.

Example C21_case : exists X v, parse_version $"3.1" = Some X /\ parse_version $"3.1.2" = Some v /\
  trimmed $"3.1" /\ plain X /\ local X = [] /\ ranged_version v /\ plain v /\
  no_overflow X /\ wf_version v /\ have_required_python v $"3.1,!=3.1.3" = Some true.
Proof.
  exists (ver_of $"3.1"), (ver_of $"3.1.2").
  split; [reflexivity|]. split; [reflexivity|]. split; [reflexivity|]. split; [repeat split|].
  split; [reflexivity|]. split; [eapply parsed_ranged with (s := $"3.1.2"); reflexivity|].
  split; [repeat split|]. split; [split; [discriminate|constructor]|].
  split; [apply wf_check; reflexivity|]. vm_compute. reflexivity.
Qed.
