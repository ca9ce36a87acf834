(** pkg/cliutil/term.go and cobra_tmpl.go: the width of the terminal and the help texts. *)
From Coq Require Import String Ascii List Bool ZArith.
From Verif.Model Require Import GoStr Wrap.
Import ListNotations.

(** term.go:11-36 GetTerminalWidth.  [columns] is the value of COLUMNS ("" if unset), [size] the
    width that term.GetSize(1) tells ([None]: an error), [tty] is term.IsTerminal(1). *)
Definition terminal_width (columns : str) (size : option Z) (tty : bool) : Z :=
  match atoi columns with
  | Some cols => cols
  | None => match size with
            | Some cols => cols
            | None => if tty then 80%Z else 0%Z
            end
  end.

(** What the template asks of a subcommand (cobra): Name, CommandPath, Short, IsAvailableCommand,
    IsAdditionalHelpTopicCommand. *)
Record subcommand : Type := mkSub { sc_name : str; sc_path : str; sc_short : str; sc_available : bool; sc_topic : bool }.
(** What it asks of the command.  [None]: there are no aliases (flags); flags are given as
    pflag's FlagUsagesWrapped. *)
Record command : Type := mkCommand {
  use_line : str; cmd_short : str; cmd_long : str; name_and_aliases : option str; cmd_example : str; cmd_path : str;
  subs : list subcommand; local_flags : option (Z -> str); inherited_flags : option (Z -> str) }.

(** cobra's rpad, with bytes for characters *)
Definition rpad (s : str) (n : nat) : str := s ++ spaces (n - length s).
(** cobra's NamePadding and CommandPathPadding, of any subcommand: the longest, but at least 11 *)
Definition name_padding (c : command) : nat := fold_right Nat.max 11%nat (map (fun s => length (sc_name s)) (subs c)).
Definition path_padding (c : command) : nat := fold_right Nat.max 11%nat (map (fun s => length (sc_path s)) (subs c)).
(** cobra's trimTrailingWhitespaces *)
Definition trim_trailing (s : str) : str := trim_right is_space s.

(** Text in sequence; [None] is a panic. *)
Definition omap (f : str -> str) (o : option str) : option str := match o with Some s => Some (f s) | None => None end.
Fixpoint seq (l : list (option str)) : option str :=
  match l with
  | [] => Some []
  | o :: l => match o, seq l with Some s, Some s' => Some (s ++ s') | _, _ => None end
  end.
Definition when (b : bool) (o : option str) : option str := if b then o else Some [].
Definition is_empty (s : str) : bool := match s with [] => true | _ => false end.
Definition nl : str := [newline].

(** cobra_tmpl.go:55, 80: a line for a subcommand; both use NamePadding for the indentation *)
Definition sub_line (w : Z) (c : command) (name : str) (padding : nat) (short : str) : option str :=
  omap (fun text => nl ++ $"  " ++ rpad name padding ++ $"   " ++ text)
    (wrap_indent (Z.of_nat (name_padding c) + 5) w short).
(** cobra_tmpl.go:54 *)
Definition listed (s : subcommand) : bool := sc_available s || str_eqb (sc_name s) $"help".
(** cobra_tmpl.go:22-90 HelpTemplate, for a terminal of width [w].  The text between the actions is
    what is left after the template package has removed white space beside "{{-". *)
Definition help (w : Z) (c : command) : option str :=
  seq
    [ Some ($"Usage: " ++ use_line c);
      when (negb (is_empty (cmd_short c))) (Some (nl ++ cmd_short c));
      when (negb (is_empty (cmd_long c))) (omap (fun s => nl ++ nl ++ trim_trailing s) (wrap_text w (cmd_long c)));
      match name_and_aliases c with Some s => Some (nl ++ nl ++ $"Aliases:" ++ nl ++ $"  " ++ s) | None => Some [] end;
      when (negb (is_empty (cmd_example c))) (Some (nl ++ nl ++ $"Examples:" ++ nl ++ cmd_example c));
      when (existsb sc_available (subs c))
        (seq (Some (nl ++ nl ++ $"Available Commands:") ::
              map (fun s => when (listed s) (sub_line w c (sc_name s) (name_padding c) (sc_short s))) (subs c)));
      match local_flags c with Some f => Some (nl ++ nl ++ $"Flags:" ++ nl ++ trim_trailing (f w)) | None => Some [] end;
      match inherited_flags c with Some f => Some (nl ++ nl ++ $"Global Flags:" ++ nl ++ trim_trailing (f w)) | None => Some [] end;
      when (existsb sc_topic (subs c))
        (seq (Some (nl ++ nl ++ $"Additional help topics:") ::
              map (fun s => when (sc_topic s) (sub_line w c (sc_path s) (path_padding c) (sc_short s))) (subs c)));
      when (existsb sc_available (subs c))
        (Some (nl ++ nl ++ $"Use """ ++ cmd_path c ++ $" [command] --help"" for more information about a command."));
      Some nl ].
