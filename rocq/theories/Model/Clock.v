(** pkg/reproducible: the clock. *)
From Coq Require Import String Ascii List Bool ZArith.
From Verif.Model Require Import GoStr.
Import ListNotations.

(** time.Unix(secs, 0), in nanoseconds *)
Definition unix (secs : Z) : Z := (secs * 1000000000)%Z.
(** Where a goroutine is in source_date_epoch.go:16-26 Now and in sync.Once.Do and doSlow
    (standard library, Go 1.17) *)
Inductive pc : Type :=
| Idle                  (* before the call *)
| WantLock              (* done was 0: o.m.Lock() *)
| Locked                (* if o.done == 0 *)
| Call                  (* f(): os.Getenv *)
| Got (env : str)       (* strconv.ParseInt, time.Unix or time.Now *)
| Write (t : Z)         (* now = t *)
| Store                 (* atomic.StoreUint32(&o.done, 1) *)
| Unlock                (* o.m.Unlock() *)
| Return.               (* return now *)
(** The process: its environment (os.Getenv gives the empty string if the variable is not set), the
    system clock, the global variables (for [now], [None] is the zero time), the goroutines, and the
    times that were returned *)
Record process : Type := mkProc {
  p_env : str;
  p_clock : Z;
  p_done : bool;
  p_lock : option nat;
  p_now : option Z;
  p_threads : nat -> pc;
  p_log : list (nat * option Z)
}.
Definition set_pc (th : nat -> pc) (i : nat) (x : pc) : nat -> pc := fun j => if Nat.eqb j i then x else th j.
Inductive pstep : process -> process -> Prop :=
(* the environment and the clock change at any time *)
| step_env e c d l n th log e' : pstep (mkProc e c d l n th log) (mkProc e' c d l n th log)
| step_clock e c d l n th log c' : pstep (mkProc e c d l n th log) (mkProc e c' d l n th log)
| step_load e c d l n th log i : th i = Idle ->
    pstep (mkProc e c d l n th log) (mkProc e c d l n (set_pc th i (if d then Return else WantLock)) log)
| step_lock e c d n th log i : th i = WantLock ->
    pstep (mkProc e c d None n th log) (mkProc e c d (Some i) n (set_pc th i Locked) log)
| step_check e c d l n th log i : th i = Locked ->
    pstep (mkProc e c d l n th log) (mkProc e c d l n (set_pc th i (if d then Unlock else Call)) log)
| step_getenv e c d l n th log i : th i = Call ->
    pstep (mkProc e c d l n th log) (mkProc e c d l n (set_pc th i (Got e)) log)
| step_parse e c d l n th log i env : th i = Got env ->
    pstep (mkProc e c d l n th log)
          (mkProc e c d l n (set_pc th i (Write (match atoi env with Some secs => unix secs | None => c end))) log)
| step_write e c d l n th log i t : th i = Write t ->
    pstep (mkProc e c d l n th log) (mkProc e c d l (Some t) (set_pc th i Store) log)
| step_store e c d l n th log i : th i = Store ->
    pstep (mkProc e c d l n th log) (mkProc e c true l n (set_pc th i Unlock) log)
| step_unlock e c d l n th log i : th i = Unlock ->
    pstep (mkProc e c d l n th log) (mkProc e c d None n (set_pc th i Return) log)
| step_return e c d l n th log i : th i = Return ->
    pstep (mkProc e c d l n th log) (mkProc e c d l n (set_pc th i Idle) (log ++ [(i, n)])).
(** The states of an execution, the last one first *)
Inductive execution : list process -> Prop :=
| exec_start e c : execution [mkProc e c false None None (fun _ => Idle) []]
| exec_step p p' run : execution (p :: run) -> pstep p p' -> execution (p' :: p :: run).
