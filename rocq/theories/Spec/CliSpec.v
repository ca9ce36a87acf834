(** Command lines, after the GNU conventions: status 2 for wrong usage, 1 for failures, 0 otherwise. *)
From Coq Require Import String Ascii List Bool ZArith.
From Verif.Model Require Import GoStr SimpleAPI Cli.
Import ListNotations.
Open Scope Z_scope.

(** The command line is wrong: a wrong flag; or arguments that the command does not take; or the name of a
    command is missing or wrong. *)
Definition usage_error (lib : library) (argv : list str) : Prop :=
  let '(path, cmd, rest) := find lib argv in
  (exists msg, parse lib path rest = FlagError msg) \/
  (exists args, parse lib path rest = FlagArgs args /\
     match cmd with Group => True | Leaf check _ => check args <> None end).
Definition asks_help (lib : library) (argv : list str) : Prop :=
  let '(path, cmd, rest) := find lib argv in parse lib path rest = FlagHelp.
(** The command line is right: it calls for [body] with [args]. *)
Definition calls (lib : library) (argv : list str) (body : list str -> run) (args : list str) : Prop :=
  exists path check rest, find lib argv = (path, Leaf check body, rest) /\ parse lib path rest = FlagArgs args /\ check args = None.

(** ** Visiting a document *)
Inductive event : Type := Enter (n : node) | Leave (n : node).
Fixpoint events (n : node) : list event :=
  match n with Node _ _ _ children => Enter n :: flat_map events children ++ [Leave n] end.
(** The nodes that are entered, and those that are left, in order. *)
Fixpoint entered (l : list event) : list node := match l with [] => [] | Enter n :: l => n :: entered l | Leave _ :: l => entered l end.
Fixpoint left_ (l : list event) : list node := match l with [] => [] | Leave n :: l => n :: left_ l | Enter _ :: l => left_ l end.
(** Handling events one after the other, up to the first error. *)
Fixpoint handle {S E : Type} (on : event -> S -> S * option E) (l : list event) (s : S) : S * option E :=
  match l with
  | [] => (s, None)
  | e :: l' => match on e s with (s, None) => handle on l' s | r => r end
  end.

(** An example: "ocibuild", and "ocibuild cat" with one argument, which prints it and fails for "x". *)
Definition a_library : library := mkLibrary
  (fun argv => match argv with
               | a :: rest => if str_eqb a $"cat" then ($"ocibuild cat", Leaf (fun args => match args with [_] => None | _ => Some $"accepts 1 arg" end)
                                (fun args => mkRun (concat args) [] (if str_eqb (concat args) $"x" then Some $"no x" else None)), rest)
                              else ($"ocibuild", Group, argv)
               | [] => ($"ocibuild", Group, [])
               end)
  (fun path args => if existsb (str_eqb $"--help") args then FlagHelp else if existsb (has_prefix $"-") args then FlagError $"unknown flag" else FlagArgs args)
  (fun path => $"Usage: " ++ path) (fun _ _ => [$"cat"]) (fun s => $"""" ++ s ++ $"""").
