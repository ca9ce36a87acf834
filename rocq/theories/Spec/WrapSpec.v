(** Words, lines and what it means to reflow a text. *)
From Coq Require Import String Ascii List Bool ZArith.
From Verif.Model Require Import GoStr.
Import ListNotations.

Definition white (c : ascii) : Prop := c = " "%char \/ c = "009"%char \/ c = "010"%char.
Definition whiteb (c : ascii) : bool := byte_eqb c " " || byte_eqb c "009" || byte_eqb c "010".
(** The words of a text; [w] is the beginning of the current word, reversed *)
Fixpoint words_from (w s : str) : list str :=
  let done := match w with [] => [] | _ => [rev w] end in
  match s with
  | [] => done
  | c :: s => if whiteb c then done ++ words_from [] s else words_from (c :: w) s
  end.
Definition words (s : str) : list str := words_from [] s.
Definition lines (s : str) : list str := split_on "010" s.
(** [out] is [s] with every line break, and some other white space, changed to a line break and
    [k] spaces *)
Inductive reflow (k : nat) : str -> str -> Prop :=
| flow_end : reflow k [] []
| flow_keep c s out : c <> "010"%char -> reflow k s out -> reflow k (c :: s) (c :: out)
| flow_break c s out : white c -> reflow k s out -> reflow k (c :: s) ("010"%char :: repeat " "%char k ++ out).
(** No line is longer than [b], the first not longer than [a]. *)
Definition fits (a b : Z) (out : str) : Prop :=
  match lines out with
  | [] => True
  | l :: ls => (Z.of_nat (length l) <= a)%Z /\ Forall (fun l => (Z.of_nat (length l) <= b)%Z) ls
  end.
(** All words are shorter than [n]. *)
Definition short_words (n : Z) (s : str) : Prop := Forall (fun w => (Z.of_nat (length w) < n)%Z) (words s).
