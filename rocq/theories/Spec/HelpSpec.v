(** What a help text says: its words in order, whatever the layout. *)
From Coq Require Import String Ascii List Bool ZArith.
From Verif.Model Require Import GoStr Wrap Help.
From Verif.Spec Require Import WrapSpec.
Import ListNotations.

(** White space: tab, line feed, vertical tab, form feed, carriage return and blank *)
Definition spaceb (c : ascii) : bool := existsb (Ascii.eqb c) ["009"; "010"; "011"; "012"; "013"; " "]%char.
(** The texts between white space; [w] is the beginning of the current one, reversed *)
Fixpoint tokens_from (w s : str) : list str :=
  let done := match w with [] => [] | _ => [rev w] end in
  match s with
  | [] => done
  | c :: s => if spaceb c then done ++ tokens_from [] s else tokens_from (c :: w) s
  end.
Definition tokens (s : str) : list str := tokens_from [] s.

(** A command is shown if it is available or called "help". *)
Definition shown (s : subcommand) : bool := sc_available s || str_eqb (sc_name s) $"help".
Definition some_available (c : command) : bool := existsb sc_available (subs c).
Definition some_topic (c : command) : bool := existsb sc_topic (subs c).
(** A heading with what is below it, if there is anything *)
Definition headed (h : str) (o : option (list str)) : list str := match o with Some l => tokens h ++ l | None => [] end.
Definition only (b : bool) {A} (x : A) : option A := if b then Some x else None.
Definition nonempty (s : str) : bool := negb (str_eqb s []).
(** The words of the help of [c], with what the flags library tells for width [w] *)
Definition help_tokens (w : Z) (c : command) : list str :=
  $"Usage:" :: tokens (use_line c) ++ tokens (cmd_short c) ++ tokens (cmd_long c) ++
  headed $"Aliases:" (option_map tokens (name_and_aliases c)) ++
  headed $"Examples:" (only (nonempty (cmd_example c)) (tokens (cmd_example c))) ++
  headed $"Available Commands:"
    (only (some_available c) (flat_map (fun s => tokens (sc_name s) ++ tokens (sc_short s)) (filter shown (subs c)))) ++
  headed $"Flags:" (option_map (fun f => tokens (f w)) (local_flags c)) ++
  headed $"Global Flags:" (option_map (fun f => tokens (f w)) (inherited_flags c)) ++
  headed $"Additional help topics:"
    (only (some_topic c) (flat_map (fun s => tokens (sc_path s) ++ tokens (sc_short s)) (filter sc_topic (subs c)))) ++
  (if some_available c then tokens ($"Use """ ++ cmd_path c ++ $" [command] --help"" for more information about a command.") else []).

(** The column in which descriptions begin: two blanks, the longest name (at least 11) and three blanks *)
Definition longest (l : list str) : nat := list_max (map (@length ascii) l).
Definition column (names : list str) : nat := 5 + Nat.max 11 (longest names).
(** [lead] is the beginning of a line of [n] characters with [name] after two blanks *)
Definition lead_in (n : nat) (name lead : str) : Prop := length lead = n /\ exists k, lead = $"  " ++ name ++ repeat " "%char (3 + k).

(** A whole number in decimal, with or without a sign *)
Inductive digits : str -> Z -> Prop :=
| one_digit c k : (k < 10)%nat -> c = ascii_of_nat (48 + k) -> digits [c] (Z.of_nat k)
| more_digits s n c k : digits s n -> (k < 10)%nat -> c = ascii_of_nat (48 + k) -> digits (s ++ [c]) (10 * n + Z.of_nat k).
Inductive numeral : str -> Z -> Prop :=
| num_plain d n : digits d n -> numeral d n
| num_plus d n : digits d n -> numeral ("+"%char :: d) n
| num_minus d n : digits d n -> numeral ("-"%char :: d) (- n).
Definition fits_int (n : Z) : Prop := (- 2 ^ 63 <= n < 2 ^ 63)%Z.

(** Examples: a command of the project's own tests, and one with a help topic *)
Definition frobnicate : command := {|
  use_line := $"frobnicate [flags] VARS_ARE_UNDERSCORE_AND_CAPITAL";
  cmd_short := $"One line description of program, no period";
  cmd_long := $"Longer description of program.  This is a paragraph.  Because it is a paragraph, it may be quite long and may need to be word-wrapped.";
  name_and_aliases := None; cmd_example := []; cmd_path := $"frobnicate";
  subs := [mkSub $"example-subcommand" $"frobnicate example-subcommand" $"One line description of subcommand, one line on own, but wrapped in table" true false];
  local_flags := Some (fun _ => $"  -b, --bar   Barzooble the baz" ++ ["010"%char]); inherited_flags := None |}.
Definition with_topic : command := {|
  use_line := $"ocibuild"; cmd_short := []; cmd_long := []; name_and_aliases := None; cmd_example := []; cmd_path := $"ocibuild";
  subs := [mkSub $"formats" $"ocibuild formats" $"All about the layer files, the image files and the platform files" false true];
  local_flags := None; inherited_flags := None |}.
