(** Package [regexp]: anchored matching with submatches.  Go's (RE2) default
    semantics is leftmost-first, i.e. the match a backtracking matcher finds
    first.  [run] is that backtracking matcher in continuation-passing style. *)
From Coq Require Import String Ascii List Bool Arith NArith.
From Verif.Model Require Import GoStr.
Import ListNotations.

Inductive re : Type :=
| REps
| RChr (p : ascii -> bool)         (* one byte in a class *)
| RSeq (a b : re)
| RAlt (a b : re)                  (* a|b, a preferred *)
| RStar (r : re)                   (* r*, greedy *)
| RGrp (name : string) (r : re).   (* (?P<name>r) *)

Definition ROpt (r : re) : re := RAlt r REps.        (* r? , greedy *)
Definition RPlus (r : re) : re := RSeq r (RStar r).  (* r+ , greedy *)
Definition RNone : re := RChr (fun _ => false).
Fixpoint RLit (p : ascii -> ascii -> bool) (s : str) : re :=
  match s with
  | [] => REps
  | c :: s' => RSeq (RChr (p c)) (RLit p s')
  end.
Fixpoint RSeqs (l : list re) : re :=
  match l with [] => REps | [r] => r | r :: l' => RSeq r (RSeqs l') end.
Fixpoint RAlts (l : list re) : re :=
  match l with [] => RNone | [r] => r | r :: l' => RAlt r (RAlts l') end.

(** Captures, most recent first. *)
Definition caps := list (string * str).

(** [run r s c k]: match a prefix of [s] against [r], then continue with [k] on
    the rest; alternatives are tried in priority order and the first success of
    the whole continuation wins.  The star requires progress in each iteration
    (the modelled expressions never iterate an empty match); its fuel is the
    length of the input. *)
Fixpoint run {X} (r : re) (s : str) (c : caps) (k : str -> caps -> option X) {struct r}
  : option X :=
  match r with
  | REps => k s c
  | RChr p =>
      match s with
      | x :: s' => if p x then k s' c else None
      | [] => None
      end
  | RSeq a b => run a s c (fun s' c' => run b s' c' k)
  | RAlt a b =>
      match run a s c k with
      | Some v => Some v
      | None => run b s c k
      end
  | RStar a =>
      (fix loop (fuel : nat) (s : str) (c : caps) {struct fuel} : option X :=
         match fuel with
         | O => k s c
         | S n =>
             match run a s c
                     (fun s' c' =>
                        if (length s' <? length s)%nat then loop n s' c' else None)
             with
             | Some v => Some v
             | None => k s c
             end
         end) (length s) s c
  | RGrp name a =>
      run a s c
        (fun s' c' => k s' ((name, firstn (length s - length s') s) :: c'))
  end.

(** Regexp.FindStringSubmatch for an expression of the form ^r$ *)
Definition full_match (r : re) (s : str) : option caps :=
  run r s [] (fun s' c => match s' with [] => Some c | _ => None end).

(** match[re.SubexpIndex(name)]: the text of the group, "" if it did not
    participate. *)
Fixpoint group (c : caps) (name : string) : str :=
  match c with
  | [] => []
  | (n, s) :: c' => if String.eqb n name then s else group c' name
  end.

(** Character classes *)
Definition cls_digit : ascii -> bool := is_digit.                       (* [0-9] *)
Definition cls_re_space (c : ascii) : bool :=                           (* \s *)
  in_set (map ascii_of_N [9; 10; 12; 13; 32]%N) c.
Definition eq_ci (a b : ascii) : bool := byte_eqb (lower a) (lower b).  (* (?i) *)
Definition lit_ci (s : str) : re := RLit eq_ci s.
Definition lit (s : str) : re := RLit byte_eqb s.
