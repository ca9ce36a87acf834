(** Proofs about Model/Cli.v. *)
From Coq Require Import String Ascii List Bool ZArith Lia.
From Verif.Model Require Import GoStr SimpleAPI Cli.
From Verif.Spec Require Import SimpleAPISpec CliSpec.
From Verif.Proofs Require Import Order GoStrFacts SimpleAPIFacts.
Import ListNotations.
Local Open Scope Z_scope.

Theorem status_usage lib argv : usage_error lib argv <-> status (main lib argv) = 2.
Proof.
  unfold usage_error, main. destruct (find lib argv) as [[path cmd] rest]. destruct (parse lib path rest) as [msg| |args].
  - split; [reflexivity|eauto].
  - split; [intros [(m & [=])|(a & [=] & _)]|discriminate].
  - unfold validate. destruct cmd as [|check body].
    + split; [|eauto]. intros _. destruct (only_subcommands lib path args); reflexivity.
    + destruct (check args) as [msg|] eqn:C.
      * split; [reflexivity|]. intros _. right. exists args. split; auto. congruence.
      * split; [intros [(m & [=])|(a & [= <-] & H)]; congruence|]. destruct (r_error (body args)); discriminate.
Qed.
Theorem status_help lib argv : asks_help lib argv -> main lib argv = mkOutcome 0 (help lib (fst (fst (find lib argv)))) [] None.
Proof. unfold asks_help, main. destruct (find lib argv) as [[path cmd] rest]. now intros ->. Qed.
Theorem status_run lib argv body args : calls lib argv body args ->
  let r := body args in let o := main lib argv in
  ran o = Some args /\ out o = r_out r /\
  match r_error r with
  | None => status o = 0 /\ err o = r_err r
  | Some msg => status o = 1 /\ err o = r_err r ++ $"ocibuild: error: " ++ msg ++ [newline]
  end.
Proof.
  intros (path & check & rest & F & P & C). unfold main. rewrite F, P. unfold validate. rewrite C. cbv zeta.
  destruct (r_error (body args)); auto.
Qed.
Theorem status_cases lib argv : usage_error lib argv \/ asks_help lib argv \/ exists body args, calls lib argv body args.
Proof.
  unfold usage_error, asks_help, calls. destruct (find lib argv) as [[path cmd] rest]. destruct (parse lib path rest) as [msg| |args] eqn:P; eauto.
  destruct cmd as [|check body]; [left; eauto|]. destruct (check args) as [msg|] eqn:C.
  - left. right. exists args. split; auto. congruence.
  - right. right. exists body, args, path, check, rest. auto.
Qed.
Theorem usage_harmless lib argv : status (main lib argv) = 2 -> out (main lib argv) = [] /\ ran (main lib argv) = None.
Proof.
  intros H. apply status_usage in H. unfold usage_error in H. unfold main. destruct (find lib argv) as [[path cmd] rest].
  destruct H as [(m & ->)|(args & -> & H)]; [auto|]. unfold validate. destruct cmd as [|check body].
  - destruct (only_subcommands lib path args); auto.
  - destruct (check args); [auto|congruence].
Qed.

Theorem group_runs lib argv path rest args : find lib argv = (path, Group, rest) -> parse lib path rest = FlagArgs args ->
  main lib argv = match args with
                  | [] => mkOutcome 2 [] (help lib path) None
                  | a :: _ => flag_error path ($"invalid subcommand " ++ quote lib a ++
                      match suggest lib path a with [] => [] | l => [newline] ++ $"Did you mean one of these?" ++ concat (map (fun s => [newline; "009"%char] ++ s) l) end)
                  end.
Proof.
  intros F P. unfold main. rewrite F, P. unfold validate, only_subcommands. destruct args as [|a args]; [reflexivity|].
  destruct (suggest lib path a) as [|x l]; [now rewrite app_nil_r|]. f_equal.
  assert (J : forall (sep y : str) m, join sep (y :: m) = y ++ concat (map (fun s => sep ++ s) m)).
  { intros sep y m. revert y. induction m as [|z m IH]; intros y; [cbn; now rewrite app_nil_r|]. change (join sep (y :: z :: m)) with (y ++ sep ++ join sep (z :: m)). rewrite IH. cbn [map concat]. now rewrite <- app_assoc. }
  rewrite J. cbn [map concat]. now rewrite <- !app_assoc.
Qed.

(** The text of the message *)
Lemma trim_newlines_spec s : exists tail, s = trim_newlines s ++ tail /\ Forall (eq newline) tail /\
  (forall t, trim_newlines s <> t ++ [newline]).
Proof.
  induction s as [|c s (tail & E & F & N)]; cbn [trim_newlines].
  { exists []. repeat split; auto. intros [|x t]; discriminate. }
  destruct (trim_newlines s) as [|d t0] eqn:T.
  - cbn [app] in E. subst tail. destruct (byte_eqb c newline) eqn:B.
    + apply byte_eqb_eq in B. subst c. exists (newline :: s). repeat split; auto.
    + exists s. repeat split; auto. intros [|x [|y t]] H; try discriminate. injection H as ->. now rewrite byte_eqb_refl in B.
  - exists tail. split; [cbn [app] in *; now rewrite E|]. split; auto. intros [|x t] H; [discriminate|]. injection H as -> H. exact (N t H).
Qed.
Theorem message_text path msg : let o := flag_error path msg in
  exists text tail, msg = text ++ tail /\ Forall (eq newline) tail /\ (forall t, text <> t ++ [newline]) /\
    err o = path ++ $": " ++ text ++ (if contains_byte newline text then [newline; newline] else [newline]) ++
            $"See '" ++ path ++ $" --help' for more information." ++ [newline].
Proof.
  intros o. destruct (trim_newlines_spec msg) as (tail & E & F & N). exists (trim_newlines msg), tail. repeat split; auto.
  subst o. unfold flag_error. cbn [err]. destruct (contains_byte newline (trim_newlines msg)); [|reflexivity].
  repeat rewrite <- app_assoc. reflexivity.
Qed.

(** ** Visiting *)
Lemma handle_app {S E} (on : event -> S -> S * option E) a b s : handle on (a ++ b) s = match handle on a s with (s, None) => handle on b s | r => r end.
Proof.
  revert s. induction a as [|e a IH]; intros s; [reflexivity|]. cbn [app handle]. destruct (on e s) as [s' [x|]]; auto.
Qed.
Theorem visit_events {S E} (before after : callback (S := S) (E := E)) n s :
  visit before after n s = handle (fun e => match e with Enter n => call before n | Leave n => call after n end) (events n) s.
Proof.
  revert s. induction n as [ty d a ch IH] using node_ind2. intros s. cbn [visit events handle].
  destruct (call before (Node ty d a ch) s) as [s1 [x|]]; auto.
  rewrite handle_app. set (on := fun e => match e with Enter n => call before n | Leave n => call after n end).
  assert (H : forall s, (fix each (l : list node) (s : S) : S * option E :=
                   match l with
                   | [] => (s, None)
                   | c :: l' => match visit before after c s with (s, None) => each l' s | r => r end
                   end) ch s = handle on (flat_map events ch) s).
  { induction IH as [|c l Hc _ IHl]; intros s'; [reflexivity|]. cbn [flat_map]. rewrite handle_app, <- IHl || rewrite handle_app.
    rewrite Hc. fold on. destruct (handle on (events c) s') as [s2 [y|]]; auto. }
  rewrite H. destruct (handle on (flat_map events ch) s1) as [s2 [y|]]; auto. cbn [handle]. unfold on at 1. destruct (call after _ s2) as [s3 [z|]]; reflexivity.
Qed.
Lemma entered_app a b : entered (a ++ b) = entered a ++ entered b.
Proof. induction a as [|[n|n] a IH]; cbn [app entered]; rewrite ?IH; auto. Qed.
Lemma left_app a b : left_ (a ++ b) = left_ a ++ left_ b.
Proof. induction a as [|[n|n] a IH]; cbn [app left_]; rewrite ?IH; auto. Qed.
Theorem events_entered n : entered (events n) = document_order n.
Proof.
  induction n as [ty d a ch IH] using node_ind2. cbn [events entered document_order]. f_equal. rewrite entered_app. cbn [entered]. rewrite app_nil_r.
  induction IH as [|c l Hc _ IHl]; auto. cbn [flat_map]. now rewrite entered_app, Hc, IHl.
Qed.
Theorem events_left n : left_ (events n) = visit_after n.
Proof.
  induction n as [ty d a ch IH] using node_ind2. cbn [events left_ visit_after]. rewrite left_app. cbn [left_]. f_equal.
  induction IH as [|c l Hc _ IHl]; auto. cbn [flat_map]. now rewrite left_app, Hc, IHl.
Qed.
Theorem attr_first n ns name v : get_attr (Some n) ns name = Some v <->
  exists before a after, n_attrs n = before ++ a :: after /\ a_ns a = ns /\ a_key a = name /\ a_val a = v /\
    Forall (fun b => ~ (a_ns b = ns /\ a_key b = name)) before.
Proof.
  unfold get_attr. induction (n_attrs n) as [|a l IH]; cbn [first_attr].
  { split; [discriminate|]. intros ([|] & a' & r & H & _); discriminate. }
  destruct (str_eqb (a_ns a) ns && str_eqb (a_key a) name) eqn:E.
  - apply andb_prop in E as [E1 E2]. apply str_eqb_eq in E1, E2. split.
    + intros [= <-]. exists [], a, l. auto 6.
    + intros ([|b before] & a' & r & H & A & B & C & F); cbn [app] in H; injection H as -> H; [now f_equal|]. inversion F; tauto.
  - assert (N : ~ (a_ns a = ns /\ a_key a = name)) by (intros [<- <-]; now rewrite !str_eqb_refl in E). rewrite IH. split.
    + intros (b & a' & r & -> & A & B & C & F). exists (a :: b), a', r. repeat split; auto.
    + intros ([|b before] & a' & r & H & A & B & C & F); cbn [app] in H; injection H as -> H; [exfalso; auto|].
      exists before, a', r. inversion F. auto 6.
Qed.
Theorem attr_none n ns name : get_attr (Some n) ns name = None <-> Forall (fun b => ~ (a_ns b = ns /\ a_key b = name)) (n_attrs n).
Proof.
  unfold get_attr. induction (n_attrs n) as [|a l IH]; cbn [first_attr]; [split; auto|].
  destruct (str_eqb (a_ns a) ns && str_eqb (a_key a) name) eqn:E.
  - apply andb_prop in E as [E1 E2]. apply str_eqb_eq in E1, E2. split; [discriminate|]. intros F. inversion F. tauto.
  - assert (N : ~ (a_ns a = ns /\ a_key a = name)) by (intros [<- <-]; now rewrite !str_eqb_refl in E). rewrite IH. split; [auto|]. intros F. now inversion F.
Qed.
(** The visitor of the package index *)
Lemma handle_links resolve l : forall acc, handle (fun e => match e with Enter n => call None n | Leave n => call (Some (add_link resolve)) n end) l acc =
  match collect_links resolve (left_ l) with
  | Some links => (acc ++ links, None)
  | None => (fst (handle (fun e => match e with Enter n => call None n | Leave n => call (Some (add_link resolve)) n end) l acc), Some tt)
  end.
Proof.
  induction l as [|[n|n] l IH]; intros acc; cbn [handle left_ collect_links]; [now rewrite app_nil_r| |].
  - cbn [call]. apply IH.
  - cbn [call]. unfold add_link at 1 3. destruct (is_element $"a" n); [|apply IH].
    destruct (link_attrs resolve (n_attrs n) [] []) as [[href data]|]; [|reflexivity]. rewrite IH.
    destruct (collect_links resolve (left_ l)) as [links|]; [now rewrite <- app_assoc|reflexivity].
Qed.
Theorem visit_links resolve doc : match collect_links resolve (visit_after doc) with
  | Some links => visit None (Some (add_link resolve)) doc [] = (links, None)
  | None => snd (visit None (Some (add_link resolve)) doc []) = Some tt
  end.
Proof.
  rewrite visit_events, <- events_left, handle_links. destruct (collect_links resolve (left_ (events doc))); reflexivity.
Qed.
