(** sys.version_info *)
From Coq Require Import String Ascii List Bool ZArith.
From Verif.Model Require Import GoStr Platform.
Import ListNotations.

(** alpha < beta < candidate < final *)
Definition level_rank (l : str) : option Z :=
  if str_eqb l $"alpha" then Some 0%Z
  else if str_eqb l $"beta" then Some 1%Z
  else if str_eqb l $"candidate" then Some 2%Z
  else if str_eqb l $"final" then Some 3%Z
  else None.
(** tuples are compared member by member *)
Fixpoint tuple_compare (a b : list Z) : comparison :=
  match a, b with
  | x :: a, y :: b => match Z.compare x y with Eq => tuple_compare a b | c => c end
  | [], [] => Eq
  | [], _ => Lt
  | _, [] => Gt
  end.
Definition small (z : Z) : Prop := (0 <= z < 2 ^ 62)%Z.
Definition small_info (v : version_info) : Prop := small (vi_major v) /\ small (vi_minor v) /\ small (vi_micro v).
