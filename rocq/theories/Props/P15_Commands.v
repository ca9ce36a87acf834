(** C59, C61, C62, C63, C72: the command line program. *)
From Coq Require Import String Ascii List Bool NArith ZArith.
From Verif.Model Require Import GoStr Tar Layer Wrap ImageConfig Clock GoBuild.
From Verif.Spec Require Import LayerSpec WrapSpec ImageConfigSpec ClockSpec GoBuildSpec.
From Verif.Proofs Require Import LayerFacts WrapFacts ImageConfigFacts ClockFacts GoBuildFacts.
Import ListNotations.
Local Open Scope nat_scope.

(** ** C59: wrapping.  [wrap_indent i w s] is WrapIndent(i, w, s), and Wrap(w, s) is
    [wrap_text w s]; [None] is a panic or an endless loop. *)
(** Wrap ends without a panic, keeps the words, changes only white space and keeps to the width if it can. *)
Theorem C59_wrap_partial : forall w s, exists out k o, wrap_text w s = Some out /\ words out = words s /\ reflow k s o /\
  (out = o /\ k = 0 \/ (w < 24)%Z) /\ ((24 <= w)%Z -> short_words (w - 6) s -> fits w w out).
Proof. exact wrap_text_ok. Qed.
Print Assumptions C59_wrap_partial.
(** All words are kept, in their order. *)
Theorem C59_words_partial : forall i w s out, wrap_indent i w s = Some out -> words out = words s.
Proof. exact wrap_words. Qed.
Print Assumptions C59_words_partial.
(** It ends, and it changes nothing but white space to line breaks (and to the indentation after them). *)
Theorem C59_reflow_partial : forall i w s, (0 <= i)%Z -> exists out k o, wrap_indent i w s = Some out /\ reflow k s o /\
  (k = Z.to_nat i \/ k = 16 /\ (w < i + 24)%Z) /\ (out = o \/ out = new_line 16 ++ o /\ k = 16 /\ (w < i + 24)%Z).
Proof. exact wrap_flow. Qed.
Print Assumptions C59_reflow_partial.
(** It panics for some negative indentations only. *)
Theorem C59_panics_partial : forall i w s, wrap_indent i w s = None <-> (i < 0 /\ (w = 0 \/ 24 <= w - i))%Z.
Proof. exact wrap_panics. Qed.
Print Assumptions C59_panics_partial.
(** Lines are not longer than the width if all words are at least seven characters shorter; the first
    line leaves room for the indentation. *)
Theorem C59_width_partial : forall i w s out, (0 <= i)%Z -> (24 <= w - i)%Z -> short_words (w - i - 6) s -> wrap_indent i w s = Some out -> fits (w - i) w out.
Proof. exact wrap_width. Qed.
Print Assumptions C59_width_partial.
(** The same if the indentation leaves too little room: then all text is on lines of its own, indented
    by 16.  Missing: widths below 40 with too little room, below which nothing is wrapped. *)
Theorem C59_width_block_partial : forall i w s out, (w - i < 24)%Z -> (40 <= w)%Z -> short_words (w - 22) s -> wrap_indent i w s = Some out -> fits 0 w out.
Proof. exact wrap_width_block. Qed.
Print Assumptions C59_width_block_partial.
(** After a word as long as a line nothing is wrapped any more: a line of many words can exceed
    the width. *)
Theorem C59_overlong_refuted : forall w rest, (24 <= w)%Z -> ~ In "010"%char rest -> let s := repeat "a"%char (Z.to_nat w) ++ " "%char :: rest in
  wrap_text w s = Some s /\ lines s = [s] /\ (w < Z.of_nat (length s))%Z.
Proof. exact wrap_overlong. Qed.
Print Assumptions C59_overlong_refuted.
Example C59_case :
  let s := $"the quick brown fox jumps over the lazy dog and runs" in
  short_words (30 - 2 - 6) s /\
  wrap_indent 2 30 s = Some ($"the quick brown fox" ++ ["010"%char] ++ $"  jumps over the lazy" ++ ["010"%char] ++ $"  dog and runs") /\
  words s = [$"the"; $"quick"; $"brown"; $"fox"; $"jumps"; $"over"; $"the"; $"lazy"; $"dog"; $"and"; $"runs"].
Proof. split; [vm_compute; repeat (apply Forall_cons; [reflexivity|]); apply Forall_nil|]. vm_compute. auto. Qed.

(** ** C61: configuration flags.  [uses] are the flags on the command line, [parse_flags uses] is
    the configFlags after parsing, [apply_to] is ApplyTo and [is_zero] is IsZero. *)
(** The environment: the given variables are appended, to nothing if the last --config.Env.clear is true. *)
Theorem C61_env_partial : forall (others : Type) uses (c : config others), elems (cfg_env (apply_to (parse_flags uses) c)) = (if last (clear_args uses) false then [] else elems (cfg_env c)) ++ env_args uses.
Proof. exact @apply_env. Qed.
Print Assumptions C61_env_partial.
(** The other fields: the arguments of the flag, in order; for the working directory the last one. *)
Theorem C61_fields_partial : forall (others : Type) uses (c : config others), let c' := apply_to (parse_flags uses) c in
  cfg_entrypoint c' = (match entrypoint_args uses with [] => cfg_entrypoint c | l => Some l end) /\
  cfg_cmd c' = (match cmd_args uses with [] => cfg_cmd c | l => Some l end) /\
  cfg_workdir c' = (match last (workdir_args uses) [] with [] => cfg_workdir c | d => d end) /\
  cfg_others c' = cfg_others c.
Proof. exact @apply_fields. Qed.
Print Assumptions C61_fields_partial.
(** Fields that no flag names are unchanged. *)
Theorem C61_unnamed_partial : forall (others : Type) uses (c : config others), let c' := apply_to (parse_flags uses) c in
  (~ env_named uses -> cfg_env c' = cfg_env c) /\ (entrypoint_args uses = [] -> cfg_entrypoint c' = cfg_entrypoint c) /\
  (cmd_args uses = [] -> cfg_cmd c' = cfg_cmd c) /\ (~ workdir_named uses -> cfg_workdir c' = cfg_workdir c) /\ cfg_others c' = cfg_others c.
Proof. exact @apply_unnamed. Qed.
Print Assumptions C61_unnamed_partial.
(** The flags are zero exactly if they change nothing. *)
Theorem C61_zero_partial : forall (others : Type) (x : others) uses, is_zero (parse_flags uses) = true <-> forall c : config others, apply_to (parse_flags uses) c = c.
Proof. exact @zero_iff. Qed.
Print Assumptions C61_zero_partial.
(** The command: layers are appended, and the configuration is changed by the flags. *)
Theorem C61_build_partial : forall (others layer : Type) uses (base : image others layer) layers, let img := image_build uses base layers in
  im_layers img = im_layers base ++ layers /\ im_config img = apply_to (parse_flags uses) (im_config base).
Proof. exact @build_config. Qed.
Print Assumptions C61_build_partial.
(** The working directory cannot be set to the empty string, although a flag names it. *)
Theorem C61_empty_refuted : forall (others : Type) (c : config others), cfg_workdir (apply_to (parse_flags [UseWorkdir []]) c) = cfg_workdir c.
Proof. reflexivity. Qed.
Print Assumptions C61_empty_refuted.
Example C61_case :
  apply_to (parse_flags ex_uses) ex_config =
    mkCfg (Some [$"PATH=/bin"; $"A=1"; $"B=2"; $"C=3"]) (Some [$"/bin/x"; $"-v"]) (Some [$"sh"]) $"/srv" 7 /\
  env_named ex_uses /\ cmd_args ex_uses = [] /\ is_zero (parse_flags ex_uses) = false /\
  is_zero (parse_flags [UseEnvClear true; UseEnvClear false]) = true /\
  cfg_env (apply_to (parse_flags (UseEnvClear true :: ex_uses)) ex_config) = Some [$"B=2"; $"C=3"].
Proof. split; [reflexivity|]. split; [left; discriminate|]. repeat split. Qed.

(** ** C62: the clock.  An execution is a list of states, the last one first; in each step a
    goroutine goes on in Now or in sync.Once.Do, or the environment or the clock changes.  [p_log]
    are the results of the calls. *)
(** All calls return the same time.  It comes from the variable as it was at some moment or, if it was
    not a number then, from the clock. *)
Theorem C62_constant : forall p run, execution (p :: run) -> exists t, (forall i v, In (i, v) (p_log p) -> v = Some t) /\ (p_log p <> [] -> source (p :: run) t).
Proof. exact clock_constant. Qed.
Print Assumptions C62_constant.
(** If the variable is a number throughout, that is the time. *)
Theorem C62_epoch : forall p run n, execution (p :: run) -> Forall (fun q => number (p_env q) n) (p :: run) -> forall i v, In (i, v) (p_log p) -> v = Some (n * 1000000000)%Z.
Proof. exact clock_epoch. Qed.
Print Assumptions C62_epoch.
(** If it is not, the time is one the clock has shown. *)
Theorem C62_system : forall p run, execution (p :: run) -> Forall (fun q => forall n, ~ number (p_env q) n) (p :: run) -> forall i v, In (i, v) (p_log p) -> exists q, In q (p :: run) /\ v = Some (p_clock q).
Proof. exact clock_system. Qed.
Print Assumptions C62_system.
(** Numbers are read as such. *)
Theorem C62_number : forall s n, atoi s = Some n <-> number s n.
Proof. exact atoi_number. Qed.
Print Assumptions C62_number.
(** Nobody waits for ever: any goroutine can go on, or the one that has the lock can. *)
Theorem C62_progress : forall p run i, execution (p :: run) -> moves i p \/ exists j, j <> i /\ p_lock p = Some j /\ moves j p.
Proof. exact clock_progress. Qed.
Print Assumptions C62_progress.
Example C62_case : exists p run, execution (p :: run) /\ In ex_start run /\
  p_env p = $"x" /\ p_log p = [(1, Some 86400000000000%Z); (2, Some 86400000000000%Z)].
Proof.
  pose proof (exec_start $"86400" 5) as E.
  pose proof (exec_step _ _ _ E (step_load _ _ _ _ _ _ _ 1 eq_refl)) as E1. pose proof (exec_step _ _ _ E1 (step_load _ _ _ _ _ _ _ 2 eq_refl)) as E2.
  pose proof (exec_step _ _ _ E2 (step_lock _ _ _ _ _ _ 1 eq_refl)) as E3. pose proof (exec_step _ _ _ E3 (step_check _ _ _ _ _ _ _ 1 eq_refl)) as E4.
  pose proof (exec_step _ _ _ E4 (step_getenv _ _ _ _ _ _ _ 1 eq_refl)) as E5. pose proof (exec_step _ _ _ E5 (step_parse _ _ _ _ _ _ _ 1 _ eq_refl)) as E6.
  pose proof (exec_step _ _ _ E6 (step_write _ _ _ _ _ _ _ 1 _ eq_refl)) as E7. pose proof (exec_step _ _ _ E7 (step_store _ _ _ _ _ _ _ 1 eq_refl)) as E8.
  pose proof (exec_step _ _ _ E8 (step_env _ _ _ _ _ _ _ $"x")) as E9. pose proof (exec_step _ _ _ E9 (step_unlock _ _ _ _ _ _ _ 1 eq_refl)) as E10.
  pose proof (exec_step _ _ _ E10 (step_return _ _ _ _ _ _ _ 1 eq_refl)) as E11. pose proof (exec_step _ _ _ E11 (step_lock _ _ _ _ _ _ 2 eq_refl)) as E12.
  pose proof (exec_step _ _ _ E12 (step_check _ _ _ _ _ _ _ 2 eq_refl)) as E13. pose proof (exec_step _ _ _ E13 (step_unlock _ _ _ _ _ _ _ 2 eq_refl)) as E14.
  pose proof (exec_step _ _ _ E14 (step_return _ _ _ _ _ _ _ 2 eq_refl)) as E15.
  eexists _, _. split; [exact E15|]. split; [do 14 right; left; reflexivity|]. split; reflexivity.
Qed.

(** ** C63: the output of "layer gobuild --output".  [gobuild n w file] gives the states of the
    output file after each system call that changes it, and the result of the command; [w] is the
    behaviour of the system: the layer that is built, errors, and the pieces in which it is written. *)
(** If the layers are equal up to the times, the output is not touched. *)
Theorem C63_same_partial : forall n w new old, w_build w = inr new -> w_open w old = None -> readable (w_untar w new) -> readable (w_untar w old) ->
  longest (w_untar w new) < n -> unchanged w new old -> gobuild n w (Some old) = ([], Done).
Proof. exact gobuild_same. Qed.
Print Assumptions C63_same_partial.
(** It is touched only if a layer was built that differs. *)
Theorem C63_touched_partial : forall n w old, fst (gobuild n w (Some old)) <> [] -> exists new, w_build w = inr new /\ ~ unchanged w new old.
Proof. exact gobuild_touched. Qed.
Print Assumptions C63_touched_partial.
(** If the command succeeds, the output is the new layer, or the old one which is equal up to times. *)
Theorem C63_done_partial : forall n w file, (forall new, w_build w = inr new -> copies new w) -> snd (gobuild n w file) = Done ->
  exists new, w_build w = inr new /\
    (final n w file = Some new \/ exists old, file = Some old /\ fst (gobuild n w file) = [] /\ unchanged w new old).
Proof. exact gobuild_done. Qed.
Print Assumptions C63_done_partial.
(** A crash leaves the old file, no file, or a beginning of the new layer. *)
Theorem C63_states_partial : forall n w file x, (forall new, w_build w = inr new -> copies new w) -> In x (crash_states n w file) ->
  x = file \/ x = None \/ exists new part rest, w_build w = inr new /\ new = part ++ rest /\ x = Some part.
Proof. exact gobuild_states. Qed.
Print Assumptions C63_states_partial.
(** Whenever the output is replaced there are moments at which it is missing or empty; and if the new
    file cannot be created, the command fails and the old one is lost. *)
Theorem C63_atomic_refuted : forall n w old, fst (gobuild n w (Some old)) <> [] ->
  In None (crash_states n w (Some old)) /\ (w_create w = None -> In (Some []) (crash_states n w (Some old))) /\
  (forall e, w_create w = Some e -> final n w (Some old) = None /\ snd (gobuild n w (Some old)) = Failed e).
Proof. exact gobuild_not_atomic. Qed.
Print Assumptions C63_atomic_refuted.
Example C63_case :
  let w := ex_world $"T2xyz" [$"T2"; $"xyz"] None in
  copies $"T2xyz" w /\ unchanged w $"T2xyz" $"T1xyz" /\ readable (w_untar w $"T1xyz") /\
  gobuild 5 w (Some $"T1xyz") = ([], Done) /\
  crash_states 5 w (Some $"T1xyy") = [Some $"T1xyy"; None; Some []; Some $"T2"; Some $"T2xyz"] /\ final 5 w (Some $"T1xyy") = Some $"T2xyz".
Proof.
  cbv zeta. split; [split; [exists []; reflexivity|reflexivity]|]. split; [constructor; [repeat split|constructor]|]. split; [repeat split; repeat constructor|]. vm_compute. auto.
Qed.

(** ** C72: repeating it after a crash *)
(** If the crash has left no file, or one that can be read, the command can be run again. *)
Theorem C72_again_partial : forall n w new file, w_build w = inr new -> copies new w -> w_remove w = None -> w_create w = None -> w_copy w = None -> w_close w = None ->
  readable (w_untar w new) -> longest (w_untar w new) < n ->
  (forall old, file = Some old -> w_open w old = None /\ readable (w_untar w old)) ->
  snd (gobuild n w file) = Done /\ (final n w file = Some new \/ exists old, file = Some old /\ final n w file = Some old /\ unchanged w new old).
Proof. exact gobuild_again. Qed.
Print Assumptions C72_again_partial.
(** If it has left a tar file that is cut off, the command fails until somebody removes that file. *)
Theorem C72_stuck_refuted : forall n w new old, w_build w = inr new -> readable (w_untar w new) -> longest (w_untar w new) < n -> cut_off (w_untar w new) (w_untar w old) ->
  exists e, gobuild n w (Some old) = ([], Failed e).
Proof. exact gobuild_stuck. Qed.
Print Assumptions C72_stuck_refuted.
Example C72_case :
  let w := ex_world $"T2xyz" [$"T2"; $"xyz"] None in
  In (Some $"T2") (crash_states 5 w None) /\ cut_off (w_untar w $"T2xyz") (w_untar w $"T2") /\ readable (w_untar w $"T2xyz") /\
  gobuild 5 w (Some $"T2") = ([], Failed 7) /\ snd (gobuild 5 w None) = Done.
Proof.
  cbv zeta. split; [vm_compute; auto|]. split.
  { split; [reflexivity|]. eexists [], [], _. split; [reflexivity|]. split; [constructor|]. split; [constructor|]. left. split; [reflexivity|discriminate]. }
  split; [repeat split; repeat constructor|]. vm_compute. auto.
Qed.
