(** C82: exit statuses; C83: visiting documents.  [main lib argv] models the program run with the command
    line [argv]; [lib] is what the command-line library makes of it. *)
From Coq Require Import String Ascii List Bool ZArith.
From Verif.Model Require Import GoStr SimpleAPI Cli.
From Verif.Spec Require Import SimpleAPISpec CliSpec.
From Verif.Proofs Require Import CliFacts.
Import ListNotations.
Local Open Scope Z_scope.

(** ** C82: exit statuses *)
(** Every command line is wrong, asks for help, or calls for a command. *)
Theorem C82_cases : forall lib argv, usage_error lib argv \/ asks_help lib argv \/ exists body args, calls lib argv body args.
Proof. exact status_cases. Qed.
Print Assumptions C82_cases.
(** The status is 2 exactly for wrong command lines; then no command runs and the output is empty. *)
Theorem C82_usage : forall lib argv, usage_error lib argv <-> status (main lib argv) = 2.
Proof. exact status_usage. Qed.
Print Assumptions C82_usage.
Theorem C82_usage_harmless : forall lib argv, status (main lib argv) = 2 -> out (main lib argv) = [] /\ ran (main lib argv) = None.
Proof. exact usage_harmless. Qed.
Print Assumptions C82_usage_harmless.
Theorem C82_help : forall lib argv, asks_help lib argv -> main lib argv = mkOutcome 0 (help lib (fst (fst (find lib argv)))) [] None.
Proof. exact status_help. Qed.
Print Assumptions C82_help.
(** Otherwise the command runs, and the status and the last line of the error output tell whether it failed. *)
Theorem C82_run : forall lib argv body args, calls lib argv body args ->
  let r := body args in let o := main lib argv in
  ran o = Some args /\ out o = r_out r /\
  match r_error r with
  | None => status o = 0 /\ err o = r_err r
  | Some msg => status o = 1 /\ err o = r_err r ++ $"ocibuild: error: " ++ msg ++ [newline]
  end.
Proof. exact status_run. Qed.
Print Assumptions C82_run.
(** A group of commands without a subcommand shows its help as an error; with an unknown one, its name and similar names. *)
Theorem C82_group : forall lib argv path rest args, find lib argv = (path, Group, rest) -> parse lib path rest = FlagArgs args ->
  main lib argv = match args with
                  | [] => mkOutcome 2 [] (help lib path) None
                  | a :: _ => flag_error path ($"invalid subcommand " ++ quote lib a ++
                      match suggest lib path a with [] => [] | l => [newline] ++ $"Did you mean one of these?" ++ concat (map (fun s => [newline; "009"%char] ++ s) l) end)
                  end.
Proof. exact group_runs. Qed.
Print Assumptions C82_group.
(** The text for wrong usage: newlines at the end of the message do not matter, and a message of several lines
    is followed by an empty line. *)
Theorem C82_message : forall path msg, let o := flag_error path msg in
  exists text tail, msg = text ++ tail /\ Forall (eq newline) tail /\ (forall t, text <> t ++ [newline]) /\
    err o = path ++ $": " ++ text ++ (if contains_byte newline text then [newline; newline] else [newline]) ++
            $"See '" ++ path ++ $" --help' for more information." ++ [newline].
Proof. exact message_text. Qed.
Print Assumptions C82_message.
Example C82_nonvacuous : usage_error a_library [$"cat"] /\ usage_error a_library [] /\ usage_error a_library [$"cta"] /\ usage_error a_library [$"cat"; $"-x"] /\
  asks_help a_library [$"cat"; $"--help"] /\ (exists body, calls a_library [$"cat"; $"y"] body [$"y"]) /\
  main a_library [$"cat"; $"y"] = mkOutcome 0 $"y" [] (Some [$"y"]) /\
  main a_library [$"cat"; $"x"] = mkOutcome 1 $"x" ($"ocibuild: error: no x" ++ [newline]) (Some [$"x"]) /\
  err (main a_library [$"cta"]) = $"ocibuild: invalid subcommand ""cta""" ++ [newline] ++ $"Did you mean one of these?" ++ [newline; "009"%char] ++ $"cat" ++ [newline; newline] ++
    $"See 'ocibuild --help' for more information." ++ [newline] /\
  snd (fst (find a_library [])) = Group /\ main a_library [] = mkOutcome 2 [] (help a_library $"ocibuild") None.
Proof.
  split; [right; exists []; split; [reflexivity|discriminate]|]. split; [right; exists []; split; reflexivity|]. split; [right; exists [$"cta"]; split; reflexivity|].
  split; [left; exists $"unknown flag"; reflexivity|]. split; [reflexivity|]. split; [eexists _, _, _, _; repeat split; reflexivity|]. repeat split; reflexivity.
Qed.

(** ** C83: visiting documents *)
(** The callbacks are called for every node when it is entered and left, up to the first error. *)
Theorem C83_visit : forall S E (before after : callback (S := S) (E := E)) n s,
  visit before after n s = handle (fun e => match e with Enter n => call before n | Leave n => call after n end) (events n) s.
Proof. exact (fun S E => @visit_events S E). Qed.
Print Assumptions C83_visit.
(** Nodes are entered in document order, each once, and left children first. *)
Theorem C83_order : forall n, entered (events n) = document_order n /\ left_ (events n) = visit_after n.
Proof. exact (fun n => conj (events_entered n) (events_left n)). Qed.
Print Assumptions C83_order.
(** The links of an index page are those that the visitor collects (C23 is about [collect_links]). *)
Theorem C83_links : forall resolve doc, match collect_links resolve (visit_after doc) with
  | Some links => visit None (Some (add_link resolve)) doc [] = (links, None)
  | None => snd (visit None (Some (add_link resolve)) doc []) = Some tt
  end.
Proof. exact visit_links. Qed.
Print Assumptions C83_links.
(** The value of an attribute is that of the first with this name and name space. *)
Theorem C83_attribute : forall n ns name v, get_attr (Some n) ns name = Some v <->
  exists before a after, n_attrs n = before ++ a :: after /\ a_ns a = ns /\ a_key a = name /\ a_val a = v /\
    Forall (fun b => ~ (a_ns b = ns /\ a_key b = name)) before.
Proof. exact attr_first. Qed.
Print Assumptions C83_attribute.
Theorem C83_no_attribute : forall n ns name, get_attr (Some n) ns name = None <-> Forall (fun b => ~ (a_ns b = ns /\ a_key b = name)) (n_attrs n).
Proof. exact attr_none. Qed.
Print Assumptions C83_no_attribute.
Example C83_nonvacuous : let t := Node TextNode $"t" [] [] in let a := Node ElementNode $"a" [mkAttr [] $"href" $"1"; mkAttr [] $"href" $"2"] [t] in let d := Node OtherNode [] [] [a; t] in
  events d = [Enter d; Enter a; Enter t; Leave t; Leave a; Enter t; Leave t; Leave d] /\
  visit (Some (fun n s => (s ++ [n_data n], if str_eqb (n_data n) $"a" then Some tt else None))) None d [] = ([[]; $"a"], Some tt) /\
  get_attr (Some a) [] $"href" = Some $"1" /\ get_attr (Some a) $"svg" $"href" = None.
Proof. repeat split; reflexivity. Qed.
