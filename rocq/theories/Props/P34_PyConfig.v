(** C101: configuration files mean what Python's configparser takes them to mean.
    [parse_config p text false] is the parser of the repository with the settings [p];
    [py_read] is Python's (Spec/PyConfigSpec.v).  No result stands for an error. *)
From Coq Require Import String Ascii List Bool NArith.
From Verif.Model Require Import GoStr ConfigParser EntryPoints.
From Verif.Spec Require Import PyConfigSpec.
From Verif.Proofs Require Import PyConfigFacts.
Import ListNotations.

(** ** C101: the same sections, options and values, and errors for the same files *)
Theorem C101_python_partial : forall p text, plain_parser p -> Forall usual_byte text -> whole_ends text ->
  Forall (agreed_line (p_delims p)) (py_lines text) ->
  result (parse_config p text false) = py_read (p_delims p) (p_comments p) (p_strict p) (p_transform p) text.
Proof. exact read_same. Qed.
Print Assumptions C101_python_partial.
(** the two parsers that the repository makes *)
Theorem C101_parsers : plain_parser new_config_parser /\ plain_parser ep_parser.
Proof. exact parsers_plain. Qed.
Print Assumptions C101_parsers.
Example C101_case : plain_parser new_config_parser /\ Forall usual_byte ex_ini /\ whole_ends ex_ini /\
  Forall (agreed_line (p_delims new_config_parser)) (py_lines ex_ini) /\
  result (parse_config new_config_parser ex_ini false) =
    Some [($"console_scripts", [($"foo", $"a.b:c" ++ ["010"%char] ++ $"[x]"); ($"bar", $"d:e")]); ($"t", [($"k", $"1 ; 2")])].
Proof. exact ex_ini_agrees. Qed.
Print Assumptions C101_case.
Example C101_error_case : Forall usual_byte ex_bad_ini /\ whole_ends ex_bad_ini /\ Forall (agreed_line (p_delims new_config_parser)) (py_lines ex_bad_ini) /\
  result (parse_config new_config_parser ex_bad_ini false) = None.
Proof. exact ex_bad_agrees. Qed.
Print Assumptions C101_error_case.

(** Not so for a header with text behind it, which Python ignores, *)
Theorem C101_header_refuted : exists text, Forall usual_byte text /\ whole_ends text /\
  result (parse_config new_config_parser text false) = None /\
  py_read [$"="; $":"] [$"#"; $";"] true to_lower text = Some [($"a", [($"k", $"v")])].
Proof. exact header_refuted. Qed.
Print Assumptions C101_header_refuted.
(** for empty names of sections and options, which are errors in Python, *)
Theorem C101_empty_refuted : exists text text', Forall usual_byte text /\ whole_ends text /\ Forall usual_byte text' /\ whole_ends text' /\
  result (parse_config new_config_parser text false) = Some [([], [])] /\ py_read [$"="; $":"] [$"#"; $";"] true to_lower text = None /\
  result (parse_config new_config_parser text' false) = Some [($"a", [([], $"v")])] /\ py_read [$"="; $":"] [$"#"; $";"] true to_lower text' = None.
Proof. exact empty_refuted. Qed.
Print Assumptions C101_empty_refuted.
(** for the section DEFAULT, which gives options to the other ones, *)
Theorem C101_default_refuted : exists text, Forall usual_byte text /\ whole_ends text /\
  result (parse_config new_config_parser text false) = Some [($"DEFAULT", [($"k", $"v")]); ($"a", [])] /\
  py_read [$"="; $":"] [$"#"; $";"] true to_lower text = Some [($"a", [($"k", $"v")])].
Proof. exact default_refuted. Qed.
Print Assumptions C101_default_refuted.
(** and for the separators that only Python takes for white space, and carriage returns inside lines. *)
Theorem C101_bytes_refuted : exists text text', whole_ends text /\ Forall usual_byte text' /\
  result (parse_config new_config_parser text false) = Some [($"a", [($"k", $"v" ++ ["028"%char])])] /\
  py_read [$"="; $":"] [$"#"; $";"] true to_lower text = Some [($"a", [($"k", $"v")])] /\
  result (parse_config new_config_parser text' false) = Some [($"a", [($"k", $"v" ++ ["013"%char] ++ $"l = w")])] /\
  py_read [$"="; $":"] [$"#"; $";"] true to_lower text' = Some [($"a", [($"k", $"v"); ($"l", $"w")])].
Proof. exact bytes_refuted. Qed.
Print Assumptions C101_bytes_refuted.
