(** main.go, pkg/cliutil/cobra.go: how a command line becomes an exit status; pkg/htmlutil/htmlutil.go.

    The command-line library (github.com/spf13/cobra) is represented by the answers of [library]; every
    theorem quantifies over them. *)
From Coq Require Import String Ascii List Bool ZArith NArith.
From Verif.Model Require Import GoStr SimpleAPI.
Import ListNotations.
Open Scope Z_scope.

(** What a RunE function does: the bytes that it writes to its outputs, and the error that it returns. *)
Record run : Type := mkRun { r_out : str; r_err : str; r_error : option str }.
(** The commands: groups (main.go:17-51, image, layer and python) and the commands proper, with their
    Args function ([Some]: the text of the error) and their RunE function. *)
Inductive command : Type :=
| Group
| Leaf (check : list str -> option str) (body : list str -> run).
(** Command.ParseFlags: an error, a request for help, or the positional arguments. *)
Inductive flags : Type := FlagError (msg : str) | FlagHelp | FlagArgs (args : list str).
Record library : Type := mkLibrary {
  find : list str -> str * command * list str;   (* Command.Find: CommandPath, the command, the rest of the command line *)
  parse : str -> list str -> flags;              (* Command.ParseFlags, and the value of --help *)
  help : str -> str;                             (* what HelpFunc prints *)
  suggest : str -> str -> list str;              (* Command.SuggestionsFor *)
  quote : str -> str                             (* strconv.Quote *)
}.
(** What the process does: its exit status, its outputs, and the arguments with which a RunE function was called. *)
Record outcome : Type := mkOutcome { status : Z; out : str; err : str; ran : option (list str) }.

(** strings.TrimRight(s, "\n") *)
Definition newline : ascii := "010"%char.
Fixpoint trim_newlines (s : str) : str :=
  match s with
  | [] => []
  | c :: s' => match trim_newlines s' with
               | [] => if byte_eqb c newline then [] else [c]
               | t => c :: t
               end
  end.
(** cobra.go:60-71 FlagErrorFunc for an error with text [msg]: it ends the process *)
Definition flag_error (path msg : str) : outcome :=
  let e := trim_newlines msg in
  let e := if contains_byte newline e then e ++ [newline] else e in
  mkOutcome 2 [] (path ++ $": " ++ e ++ [newline] ++ $"See '" ++ path ++ $" --help' for more information." ++ [newline]) None.
(** :13-29 OnlySubcommands: the text of its error *)
Definition only_subcommands (lib : library) (path : str) (args : list str) : option str :=
  match args with
  | [] => None
  | a :: _ =>
      let e := $"invalid subcommand " ++ quote lib a in
      match suggest lib path a with
      | [] => Some e
      | l => Some (e ++ [newline] ++ $"Did you mean one of these?" ++ [newline; "009"%char] ++ join [newline; "009"%char] l)
      end
  end.
(** :33-37 WrapPositionalArgs, as every command has it; [Some]: the process ends *)
Definition validate (lib : library) (path : str) (cmd : command) (args : list str) : option outcome :=
  match (match cmd with Group => only_subcommands lib path args | Leaf check _ => check args end) with
  | Some msg => Some (flag_error path msg)
  | None => None
  end.
(** :43-49 RunSubcommands; main.go:61-73 main; Command.ExecuteC of the library: flags, help, positional
    arguments, RunE, in that order *)
Definition main (lib : library) (argv : list str) : outcome :=
  let '(path, cmd, rest) := find lib argv in
  match parse lib path rest with
  | FlagError msg => flag_error path msg
  | FlagHelp => mkOutcome 0 (help lib path) [] None
  | FlagArgs args =>
      match validate lib path cmd args with
      | Some o => o
      | None =>
          match cmd with
          | Group => mkOutcome 2 [] (help lib path) None
          | Leaf _ body =>
              let r := body args in
              match r_error r with
              | None => mkOutcome 0 (r_out r) (r_err r) (Some args)
              | Some msg => mkOutcome 1 (r_out r) (r_err r ++ $"ocibuild: error: " ++ msg ++ [newline]) (Some args)
              end
          end
      end
  end.

(** ** pkg/htmlutil/htmlutil.go *)
(** :7-24 VisitHTML (and pep503/simple_repo_api.go:115-132 visitHTML).  The callbacks have a state [S]; they
    return an error or not. *)
Section Visit.
Context {S E : Type}.
Definition callback : Type := option (node -> S -> S * option E).
Definition call (f : callback) (n : node) (s : S) : S * option E := match f with Some f => f n s | None => (s, None) end.
Fixpoint visit (before after : callback) (n : node) (s : S) : S * option E :=
  match n with
  | Node _ _ _ children =>
      match call before n s with
      | (s, Some e) => (s, Some e)
      | (s, None) =>
          match (fix each (l : list node) (s : S) : S * option E :=
                   match l with
                   | [] => (s, None)
                   | c :: l' => match visit before after c s with (s, None) => each l' s | r => r end
                   end) children s with
          | (s, Some e) => (s, Some e)
          | (s, None) => call after n s
          end
      end
  end.
End Visit.
(** :26-36 GetAttr; [None]: a nil node *)
Fixpoint first_attr (ns name : str) (l : list attr) : option str :=
  match l with
  | [] => None
  | a :: l' => if str_eqb (a_ns a) ns && str_eqb (a_key a) name then Some (a_val a) else first_attr ns name l'
  end.
Definition get_attr (n : option node) (ns name : str) : option str :=
  match n with None => None | Some n => first_attr ns name (n_attrs n) end.
(** pep503/simple_repo_api.go:158-196: the callback of getHTML5Index; the state is the list of links so far,
    the error that of the URL *)
Definition add_link (resolve : str -> option str) (n : node) (links : list link) : list link * option unit :=
  if is_element $"a" n then
    match link_attrs resolve (n_attrs n) [] [] with
    | None => (links, Some tt)
    | Some (href, data) => (links ++ [mkLink (link_text n) href data], None)
    end
  else (links, None).
