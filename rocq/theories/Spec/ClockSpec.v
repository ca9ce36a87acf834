(** Decimal numbers in environment variables. *)
From Coq Require Import String Ascii List Bool NArith ZArith.
From Verif.Model Require Import GoStr Clock.
Import ListNotations.

(** [digits_of ds n]: the digits [ds] stand for [n] *)
Inductive digits_of : str -> Z -> Prop :=
| one_digit k : (k < 10)%N -> digits_of [ascii_of_N (48 + k)] (Z.of_N k)
| more_digits ds n k : digits_of ds n -> (k < 10)%N -> digits_of (ds ++ [ascii_of_N (48 + k)]) (10 * n + Z.of_N k).
(** A decimal number of 64 bits with an optional sign *)
Definition number (s : str) (n : Z) : Prop :=
  (- 2 ^ 63 <= n < 2 ^ 63)%Z /\
  (digits_of s n \/ (exists ds, s = $"+" ++ ds /\ digits_of ds n) \/ (exists ds, s = $"-" ++ ds /\ digits_of ds (- n))).
(** Where a time comes from in an execution: from the variable as it was at some moment or, if it
    was not a number then, from the clock *)
Definition source (run : list process) (t : Z) : Prop :=
  (exists p n, In p run /\ number (p_env p) n /\ t = unix n) \/
  (exists p q, In p run /\ In q run /\ (forall n, ~ number (p_env p) n) /\ t = p_clock q).
(** The goroutine [i] can make a step. *)
Definition moves (i : nat) (p : process) : Prop := exists p', pstep p p' /\ p_threads p' i <> p_threads p i.

(** An example: two goroutines call Now; the first runs through, the variable changes, and then
    the second, which was waiting for the lock, goes on. *)
Definition ex_start : process := mkProc $"86400" 5 false None None (fun _ => Idle) [].
