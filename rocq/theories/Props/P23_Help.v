(** C86: help texts; C87: comparing layers in tests. *)
From Coq Require Import String Ascii List Bool ZArith.
From Verif.Model Require Import GoStr Tar Wrap Help AssertLayers.
From Verif.Spec Require Import WrapSpec HelpSpec AssertLayersSpec.
From Verif.Proofs Require Import WrapFacts HelpFacts AssertLayersFacts.
Import ListNotations.
Local Open Scope nat_scope.

(** ** C86: help texts *)
(** For every width there is a help text without panic, and it has exactly the words of the usage, the descriptions,
    the aliases, the examples, the shown commands with their descriptions, the flags and the topics, in this order. *)
Theorem C86_words_partial : forall w c, exists out, help w c = Some out /\ tokens out = help_tokens w c.
Proof. exact help_says. Qed.
Print Assumptions C86_words_partial.
(** The description of a command begins right of the longest name, and so does each of its lines; if its words are
    short no line exceeds the width.  Missing: widths too small for that, for which see C59. *)
Theorem C86_columns_partial : forall w c s out, help w c = Some out -> some_available c = true -> In s (subs c) -> shown s = true ->
  let col := column (map sc_name (subs c)) in
  (w = 0 \/ Z.of_nat col + 24 <= w)%Z ->
  exists pre lead o post, out = pre ++ nl ++ lead ++ o ++ nl ++ post /\ lead_in col (sc_name s) lead /\ reflow col (sc_short s) o /\
    (w <> 0%Z -> short_words (w - Z.of_nat col - 6) (sc_short s) -> fits (w - Z.of_nat col) w o).
Proof. exact help_columns. Qed.
Print Assumptions C86_columns_partial.
(** The same is not true of help topics: their further lines are indented as for commands. *)
Theorem C86_topics_refuted : exists w c s out, help w c = Some out /\ In s (subs c) /\ sc_topic s = true /\
  let col := column (map sc_path (subs c)) in
  (Z.of_nat col + 24 <= w)%Z /\ short_words (w - Z.of_nat col - 6) (sc_short s) /\
  ~ exists pre lead o post, out = pre ++ nl ++ lead ++ o ++ nl ++ post /\ lead_in col (sc_path s) lead /\ reflow col (sc_short s) o.
Proof. exact topics_refuted. Qed.
Print Assumptions C86_topics_refuted.
(** The description of a topic begins right of the longest path. *)
Theorem C86_topics_partial : forall w c s out, help w c = Some out -> In s (subs c) -> sc_topic s = true ->
  let col := column (map sc_name (subs c)) in
  (w = 0 \/ Z.of_nat col + 24 <= w)%Z ->
  exists pre lead o post, out = pre ++ nl ++ lead ++ o ++ nl ++ post /\ lead_in (column (map sc_path (subs c))) (sc_path s) lead /\ reflow col (sc_short s) o.
Proof. exact help_topics. Qed.
Print Assumptions C86_topics_partial.
(** The other sections: a blank line, the heading and the text, each on lines of its own. *)
Theorem C86_sections_partial : forall w c out, help w c = Some out ->
  let has h body := exists pre post, out = pre ++ nl ++ nl ++ h ++ nl ++ body ++ nl ++ post in
  (forall s, name_and_aliases c = Some s -> has $"Aliases:" ($"  " ++ s)) /\
  (cmd_example c <> [] -> has $"Examples:" (cmd_example c)) /\
  (forall f, local_flags c = Some f -> has $"Flags:" (trim_trailing (f w))) /\
  (forall f, inherited_flags c = Some f -> has $"Global Flags:" (trim_trailing (f w))).
Proof. exact help_sections. Qed.
Print Assumptions C86_sections_partial.
(** The width: COLUMNS if it is a number, else that of the terminal, else 80 on a terminal and 0 (do not wrap) elsewhere. *)
Theorem C86_width_partial : forall columns size tty,
  (forall n, numeral columns n -> fits_int n -> terminal_width columns size tty = n) /\
  ((forall n, numeral columns n -> ~ fits_int n) ->
    (forall n, size = Some n -> terminal_width columns size tty = n) /\
    (size = None -> terminal_width columns size tty = if tty then 80 else 0)%Z).
Proof. exact width_is. Qed.
Print Assumptions C86_width_partial.
Example C86_case : option_map lines (help (terminal_width $"80" (Some 132%Z) true) frobnicate) = Some
  [ $"Usage: frobnicate [flags] VARS_ARE_UNDERSCORE_AND_CAPITAL";
    $"One line description of program, no period";
    $"";
    $"Longer description of program.  This is a paragraph.  Because it is a";
    $"paragraph, it may be quite long and may need to be word-wrapped.";
    $"";
    $"Available Commands:";
    $"  example-subcommand   One line description of subcommand, one line on";
    $"                       own, but wrapped in table";
    $"";
    $"Flags:";
    $"  -b, --bar   Barzooble the baz";
    $"";
    $"Use ""frobnicate [command] --help"" for more information about a command.";
    $"" ] /\
  column (map sc_name (subs frobnicate)) = 23 /\ some_available frobnicate = true /\
  terminal_width [] (Some 132%Z) true = 132%Z /\ terminal_width $"wide" None true = 80%Z /\ terminal_width [] None false = 0%Z.
Proof. vm_compute. repeat split. Qed.

(** ** C87: comparing layers in tests.  [full] and [listing] are the texts that are compared, [saved] the reports of
    saving the layers.  The result is true exactly if both layers can be read and are the same... *)
Theorem C87_result : forall full listing saved diff a b, tells_apart full a b ->
  fst (assert_equal full listing saved diff a b) = true <-> same_layer a b.
Proof. exact assert_true. Qed.
Print Assumptions C87_result.
(** ...and otherwise the test fails. *)
Theorem C87_reports : forall full listing saved diff a b, tells_apart full a b ->
  (same_layer a b -> snd (assert_equal full listing saved diff a b) = saved) /\
  (~ same_layer a b -> exists r rest, snd (assert_equal full listing saved diff a b) = saved ++ r :: rest).
Proof. exact assert_reports. Qed.
Print Assumptions C87_reports.
(** Layers that can be read: if their listings differ that is reported, and the contents are compared only if the
    diff of the listings changes one line; if the listings are the same the contents are compared. *)
Theorem C87_details : forall full listing saved diff a b es t es' t', reads a es t -> reads b es' t' ->
  let out := snd (assert_equal full listing saved diff a b) in
  let la := listing (map fst es) in let lb := listing (map fst es') in
  let contents := if str_eqb (full es t) (full es' t') then [] else [ContentsDiffer] in
  (la = lb -> out = saved ++ contents) /\
  (la <> lb -> one_changed (diff la lb) -> out = saved ++ ListingsDiffer :: contents) /\
  (la <> lb -> ~ one_changed (diff la lb) -> out = saved ++ [ListingsDiffer]).
Proof. exact assert_details. Qed.
Print Assumptions C87_details.
Example C87_diffs : one_changed diff_one /\ ~ one_changed diff_two.
Proof. exact diff_cases. Qed.
Example C87_nonvacuous : (tells_apart brief layer_a layer_b /\ ~ same_layer layer_a layer_b) /\ (tells_apart brief layer_a layer_a /\ same_layer layer_a layer_a).
Proof. exact (conj example_apart example_same). Qed.
Example C87_case : assert_equal brief (fun _ => []) [] (fun _ _ => []) layer_a layer_a = (true, []) /\
  assert_equal brief (fun _ => []) [] (fun _ _ => []) layer_a layer_b = (false, [ContentsDiffer]) /\
  assert_equal brief (fun _ => []) [] (fun _ _ => []) layer_a layer_c = (false, [NotDumped 5]).
Proof. vm_compute. auto. Qed.
