(** main_aux.go: the commands that generate the documentation.

    The tree of commands is data; the text of a page (doc.GenManTree, doc.GenMarkdownTree of
    github.com/spf13/cobra/doc, version of go.mod) is a parameter, and so are the failures of the host. *)
From Coq Require Import String Ascii List Bool Arith.
From Verif.Model Require Import GoStr.
Import ListNotations.

(** A cobra.Command as the generator looks at it: Name(), Hidden, whether Deprecated is set, Runnable(),
    Commands().  The help command of the root, which IsAvailableCommand leaves out, counts as hidden. *)
Inductive cmd : Type := Cmd (name : str) (hidden deprecated runnable : bool) (subs : list cmd).
Definition cmd_name (c : cmd) : str := let 'Cmd n _ _ _ _ := c in n.
(** Command.IsAvailableCommand, with HasAvailableSubCommands *)
Fixpoint available (c : cmd) : bool :=
  let 'Cmd _ hidden deprecated runnable subs := c in
  negb deprecated && negb hidden && (runnable || existsb available subs).
(** Command.IsAdditionalHelpTopicCommand *)
Fixpoint help_topic (c : cmd) : bool :=
  let 'Cmd _ hidden deprecated runnable subs := c in
  negb runnable && negb deprecated && negb hidden && forallb help_topic subs.
(** doc.GenManTreeFromOpts and doc.GenMarkdownTreeCustom: the commands with a page, in the order in
    which the pages are written; [path]: the names of the command and of those above it, which stand for the
    command (so no two commands next to each other have the same name) *)
Fixpoint pages (path : list str) (c : cmd) : list (list str) :=
  let 'Cmd _ _ _ _ subs := c in
  flat_map (fun s => if negb (available s) || help_topic s then [] else pages (path ++ [cmd_name s]) s) subs ++ [path].
(** Command.CommandPath, with its spaces replaced (strings.ReplaceAll), and the extension *)
Definition page_file (sep : ascii) (ext : str) (path : list str) : str :=
  map (fun c => if byte_eqb c " "%char then sep else c) (join $" " path) ++ ext.

(** What is under a name on the host. *)
Inductive thing : Type := Absent | AFile (text : str) | ADir (entries : list (str * thing)).
(** What the host does: [removal]: [Some t] if os.RemoveAll fails and leaves [t]; [mkdir_ok]: whether the
    directory can be made; [create_ok]: whether a file can be made; [writing]: after how many bytes
    writing it fails. *)
Record host : Type := mkHost { removal : option thing; mkdir_ok : bool; create_ok : str -> bool; writing : str -> option nat }.
(** os.RemoveAll *)
Definition remove_all (h : host) (t : thing) : thing * bool :=
  match removal h with Some t => (t, false) | None => (Absent, true) end.
(** os.MkdirAll *)
Definition mkdir_all (h : host) (t : thing) : thing * bool :=
  match t with
  | ADir l => (ADir l, true)
  | AFile text => (AFile text, false)
  | Absent => if mkdir_ok h then (ADir [], true) else (Absent, false)
  end.
(** os.Create of a file in a directory, and writing it: an older file of the name is replaced *)
Fixpoint put (name : str) (t : thing) (l : list (str * thing)) : list (str * thing) :=
  match l with
  | [] => [(name, t)]
  | (n, u) :: l => if str_eqb n name then (name, t) :: l else (n, u) :: put name t l
  end.
Definition write_page (h : host) (name text : str) (l : list (str * thing)) : list (str * thing) * bool :=
  if create_ok h name then
    match writing h name with
    | Some k => (put name (AFile (firstn k text)) l, false)
    | None => (put name (AFile text) l, true)
    end
  else (l, false).
(** The generators call themselves for the subcommands; the first error ends them, so the pages are
    written one after the other. *)
Fixpoint write_pages (h : host) (file : list str -> str) (page : list str -> str) (todo : list (list str)) (l : list (str * thing))
    : list (str * thing) * bool :=
  match todo with
  | [] => (l, true)
  | p :: todo =>
      let '(l, ok) := write_page h (file p) (page p) l in
      if ok then write_pages h file page todo l else (l, false)
  end.
(** main_aux.go:27-45 and :54-68: RemoveAll, MkdirAll, the pages.  [root]: cmd.Root(); the result: what
    is at OUT_DIRECTORY afterwards, and whether the command succeeds. *)
Definition generate (h : host) (sep : ascii) (ext : str) (page : list str -> str) (root : cmd) (before : thing) : thing * bool :=
  let '(t, ok) := remove_all h before in
  if ok then
    let '(t, ok) := mkdir_all h t in
    if ok then
      match t with
      | ADir l => let '(l, ok) := write_pages h (page_file sep ext) page (pages [cmd_name root] root) l in (ADir l, ok)
      | _ => (t, false)
      end
    else (t, false)
  else (t, false).
(** :40 doc.GenManTree: separator "-", section 1; :66 doc.GenMarkdownTree *)
Definition man (h : host) := generate h "-"%char $".1".
Definition mddoc (h : host) := generate h "_"%char $".md".

(** The commands of the program built with the tag aux: main.go:17-59, cmd_*.go, main_aux.go:14-69; the
    help command and the completion command (hidden by main_aux.go:16-19) are added by the library.
    Command.Commands sorts them by name. *)
Definition leaf (name : str) : cmd := Cmd name false false true [].
Definition the_commands : cmd :=
  Cmd $"ocibuild" false false true [
    Cmd $"completion" true false false [leaf $"bash"; leaf $"fish"; leaf $"powershell"; leaf $"zsh"];
    Cmd $"help" true false true [];
    Cmd $"image" false false true [leaf $"build"];
    Cmd $"layer" false false true [leaf $"dir"; leaf $"gobuild"; leaf $"squash"; leaf $"wheel"];
    Cmd $"man" true false true [];
    Cmd $"mddoc" true false true [];
    Cmd $"python" false false true [leaf $"getwheel"; leaf $"inspect"]].
