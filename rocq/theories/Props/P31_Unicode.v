(** C05, C07 and C21 outside ASCII.  [parse_version_fold] is ParseVersion with the case folding of Go, which takes two letters
    outside ASCII for s and k ([odd_letters]: U+017F and U+212A); [parse_specifier_u] and [have_required_python_u] are
    ParseSpecifier and HaveRequiredPython with that and with white space of Unicode ([odd_characters]).  On all other strings they
    are the functions [parse_version], [parse_specifier] and [have_required_python] of the other theorems. *)
From Coq Require Import String Ascii List Bool ZArith NArith.
From Verif.Model Require Import GoStr Pep440 Specifier Pep345 Unicode.
From Verif.Spec Require Import Pep440Spec VersionGrammar WhiteSpaceSpec UnicodeSpec.
From Verif.Proofs Require Import Order GoStrFacts Pep440Parse Pep440Sound WhiteSpaceFacts UnicodeFacts UnicodeBlanks UnicodeExact.
Import ListNotations.
Open Scope Z_scope.

(** Without the two letters exactly the spellings of PEP 440 are accepted, ... *)
Theorem C05_letters_partial : forall s, avoids odd_letters s -> (parse_version_fold s <> None <-> is_version s).
Proof. exact parse_fold_accepts. Qed.
Print Assumptions C05_letters_partial.
(** ... with the same value. *)
Theorem C05_same_value_partial : forall s, avoids odd_letters s -> parse_version_fold s = parse_version s.
Proof. exact parse_fold. Qed.
Print Assumptions C05_same_value_partial.
(** What is accepted beyond PEP 440 has one of the two letters in it. *)
Theorem C05_beyond_partial : forall s, parse_version_fold s <> None -> ~ is_version s -> exists a w b, In w odd_letters /\ s = a ++ w ++ b.
Proof. exact parse_fold_odd. Qed.
Print Assumptions C05_beyond_partial.
(** And there are such strings: a local label with a long s (U+017F), and one with a Kelvin sign (U+212A, which becomes a k). *)
Theorem C05_letters_refuted : let s := $"1.0+" ++ encode 383 in let s' := $"1.0+" ++ encode 8490 in exists v v',
  parse_version_fold s = Some v /\ local v = [SStr (encode 383)] /\ ~ is_version s /\
  parse_version_fold s' = Some v' /\ local v' = [SStr $"k"] /\ ~ is_version s'.
Proof.
  intros s s'. eexists. eexists.
  split; [vm_compute; reflexivity|]. split; [reflexivity|]. split; [intros H; apply parse_accepts in H; apply H; vm_compute; reflexivity|].
  split; [vm_compute; reflexivity|]. split; [reflexivity|]. intros H. apply parse_accepts in H. apply H. vm_compute. reflexivity.
Qed.
Print Assumptions C05_letters_refuted.
(** Exactly which strings: those of PEP 440, and those with some s and k of the local label written as the two letters. *)
Theorem C05_wide : forall s, parse_version_fold s <> None <->
  is_version s \/ exists a l l', is_version (a ++ $"+" ++ l) /\ spelt l l' /\ s = a ++ $"+" ++ l'.
Proof. exact parse_wide_accepts. Qed.
Print Assumptions C05_wide.
(** The value is that of the plain spelling, except that a long s stays one. *)
Theorem C05_wide_value : forall a l l' v, parse_version (a ++ $"+" ++ l) = Some v -> spelt l l' ->
  exists v', parse_version_fold (a ++ $"+" ++ l') = Some v' /\ pub v' = pub v /\ Forall2 seg_spelt (local v) (local v').
Proof. exact parse_wide. Qed.
Print Assumptions C05_wide_value.
Example C05_wide_case : is_version ($"v1.post2" ++ $"+" ++ $"Disk.7-task") /\ spelt $"Disk.7-task" ($"Di" ++ long_s ++ kelvin ++ $".7-tas" ++ kelvin) /\
  option_map local (parse_version_fold ($"v1.post2" ++ $"+" ++ $"Di" ++ long_s ++ kelvin ++ $".7-tas" ++ kelvin)) = Some [SStr ($"di" ++ long_s ++ $"k"); SInt 7; SStr $"task"] /\
  parse_version_fold ($"1.po" ++ long_s ++ $"t2") = None.
Proof.
  split; [apply parse_accepts; vm_compute; discriminate|]. split; [|split; vm_compute; reflexivity].
  do 2 apply spelt_same. apply spelt_s. apply spelt_k. do 6 apply spelt_same. apply (spelt_k [] []). constructor.
Qed.
Theorem C07_unicode_partial : forall s, avoids odd_characters s -> parse_specifier_u s = parse_specifier s.
Proof. exact parse_specifier_plain. Qed.
Print Assumptions C07_unicode_partial.
Theorem C21_unicode_partial : forall have s, avoids odd_characters s -> have_required_python_u have s = have_required_python have s.
Proof. exact required_plain. Qed.
Print Assumptions C21_unicode_partial.
(** White space of Unicode around the clauses does not count.  (For Requires-Python a clause of white space alone is an error, an
    empty one is not.) *)
Theorem C07_blanks_partial : forall l l', clauses l -> Forall2 padded l l' ->
  parse_specifier_u (join [","%char] l') = parse_specifier_u (join [","%char] l).
Proof. exact specifier_blanks. Qed.
Print Assumptions C07_blanks_partial.
Theorem C21_blanks_partial : forall have l l', clauses l -> Forall (fun t => t <> []) l -> Forall2 padded l l' ->
  have_required_python_u have (join [","%char] l') = have_required_python_u have (join [","%char] l).
Proof. exact required_blanks. Qed.
Print Assumptions C21_blanks_partial.
Example C07_blanks_case : clauses [$">=3.6"; $"!=4"] /\ Forall (fun t => t <> []) [$">=3.6"; $"!=4"] /\
  Forall2 padded [$">=3.6"; $"!=4"] [encode 12288 ++ $">=3.6 "; $"!=4" ++ encode 160 ++ encode 160] /\
  (exists c, parse_specifier_u ($">=3.6,!=4" ++ encode 160) = Ok [c; mkClause OpStrictExclude (mkVersion (mkPublic 0 [4] None None None) [])]) /\
  (exists v, parse_version $"3.8" = Some v /\ have_required_python_u v $">=3.6, " = None /\ have_required_python_u v $">=3.6," = Some true).
Proof.
  assert (W : forall c, In c white_space -> blanks (encode c)).
  { intros c H. rewrite <- (app_nil_r (encode c)). apply blanks_app; [now exists c|apply blanks_nil]. }
  split; [repeat constructor; cbn; intuition discriminate|]. split; [repeat constructor; discriminate|].
  split; [|split; [eexists; vm_compute; reflexivity|eexists; split; [vm_compute; reflexivity|split; vm_compute; reflexivity]]].
  constructor; [|constructor; [|constructor]].
  - exists (encode 12288), $" ". split; [apply W; vm_compute; tauto|]. split; [now apply blanks_bytes|reflexivity].
  - exists [], (encode 160 ++ encode 160). split; [constructor|]. split; [|reflexivity]. apply blanks_both; apply W; vm_compute; tauto.
Qed.

(** Beside these: a string in UTF-8 without odd letters; odd letters that are not accepted; white space outside ASCII that is removed *)
Example C05_letters_case : avoids odd_letters ($"1.0" ++ utf8 [195; 169]%N) /\ parse_version_fold ($"1.0" ++ utf8 [195; 169]%N) = None /\
  parse_version_fold ($"1.0.po" ++ long_s ++ $"t1") = None /\ parse_version_fold $"1.0.POST1" <> None /\
  (exists v, parse_version $"3.8" = Some v /\ have_required_python_u v ($">=3.6" ++ utf8 [194; 160]%N) = Some true /\
             have_required_python v ($">=3.6" ++ utf8 [194; 160]%N) = None).
Proof.
  split; [apply avoids_bytes; vm_compute; reflexivity|].
  split; [vm_compute; reflexivity|]. split; [vm_compute; reflexivity|]. split; [vm_compute; discriminate|].
  eexists. split; [vm_compute; reflexivity|]. split; vm_compute; reflexivity.
Qed.
