(** pkg/python/pep440/generate.go: random versions for property tests; pkg/testutil/quick.go: the tests.

    The source of randomness is a parameter: [src r n] models rand.Intn(n) for n > 0, with the state of the
    source threaded through. *)
From Coq Require Import String Ascii List Bool ZArith NArith.
From Verif.Model Require Import GoStr Pep440 Specifier.
Import ListNotations.
Open Scope Z_scope.

(** A computation that draws random numbers; [None] is a panic. *)
Definition gen (R A : Type) : Type := R -> option (A * R).
Definition ret {R A} (a : A) : gen R A := fun r => Some (a, r).
Definition bind {R A B} (g : gen R A) (f : A -> gen R B) : gen R B :=
  fun r => match g r with None => None | Some (a, r') => f a r' end.

Section Source.
Context {R : Type} (src : R -> Z -> Z * R).

(** math/rand.Intn panics for n <= 0. *)
Definition intn (n : Z) : gen R Z := fun r => if n <=? 0 then None else Some (src r n).
(** generate.go:11-13 randBool *)
Definition rand_bool : gen R bool := bind (intn 2) (fun n => ret (n =? 1)).
(** :15-17 randSeg *)
Definition rand_seg : gen R Z := intn 3000.
(** :19-27 bound *)
Definition bound (low val high : Z) : Z :=
  let val := if val <? low then low else val in
  if high <? val then high else val.
(** make([]T, n) and the loops that fill every element; a negative n would panic but never occurs, as
    n = 1 + rand.Intn(...). *)
Fixpoint rand_list {A} (item : gen R A) (n : nat) : gen R (list A) :=
  match n with
  | O => ret []
  | S n' => bind item (fun x => bind (rand_list item n') (fun l => ret (x :: l)))
  end.
(** :29-54 PublicVersion.generate; [ver] is the receiver *)
Definition rand_option {A} (item : gen R A) (default : option A) : gen R (option A) :=
  bind rand_bool (fun b => if b then bind item (fun x => ret (Some x)) else ret default).
Definition generate_public (ver : public) (size : Z) : gen R public :=
  bind rand_bool (fun b =>
  bind (if b then rand_seg else ret (epoch ver)) (fun e =>
  bind (intn (bound 1 size 10)) (fun n =>
  bind (rand_list rand_seg (Z.to_nat (1 + n))) (fun rel =>
  bind (rand_option (bind (intn 3) (fun l => bind rand_seg (fun n => ret (nth (Z.to_nat l) [$"a"; $"b"; $"rc"] [], n)))) (pre ver)) (fun p =>
  bind (rand_option rand_seg (post ver)) (fun po =>
  bind (rand_option rand_seg (dev ver)) (fun d =>
  ret (mkPublic e rel p po d)))))))).
(** :61-83 the segments of the local version; size is an int, which does not overflow here: it is reduced
    by at most 110. *)
Definition alpha : str := $"abcdefghijklmnopqrstuvwxyz".
Definition alphadig : str := alpha ++ $"0123456789".
Definition rand_char (set : str) : gen R ascii := bind (intn (Z.of_nat (length set))) (fun i => ret (nth (Z.to_nat i) set zero)).
Fixpoint rand_locals (k : nat) (size : Z) : gen R (list intorstr * Z) :=
  match k with
  | O => ret ([], size)
  | S k' =>
      bind rand_bool (fun b =>
      bind (if b then bind rand_seg (fun n => ret (SInt n, size))
            else bind (intn (bound 1 size 10)) (fun n =>
                 bind (rand_char alpha) (fun c =>
                 bind (rand_list (rand_char alphadig) (Z.to_nat n)) (fun s => ret (SStr (c :: s), size - (1 + n)))))) (fun x =>
      bind (rand_locals k' (snd x)) (fun y => ret (fst x :: fst y, snd y))))
  end.
(** :60-88 LocalVersion.generate *)
Definition generate_version (ver : version) (size : Z) : gen R version :=
  bind rand_bool (fun b =>
  bind (if b then bind (intn (bound 1 size 10)) (fun n => rand_locals (Z.to_nat (1 + n)) (size - (1 + n)))
        else ret (local ver, size)) (fun x =>
  bind (generate_public (pub ver) (snd x)) (fun p => ret (mkVersion p (fst x))))).
(** :98-100 CmpOp.generate; the constants of 02_version_specifiers.go:81-93 in order *)
Definition all_ops : list cmpop :=
  [OpCompatible; OpStrictMatch; OpPrefixMatch; OpStrictExclude; OpPrefixExclude; OpLE; OpGE; OpLT; OpGT].
Definition generate_op : gen R cmpop :=
  bind (intn (Z.of_nat (length all_ops))) (fun i => match nth_error all_ops (Z.to_nat i) with Some op => ret op | None => fun _ => None end).
End Source.
(** The receiver of testing/quick: the zero value. *)
Definition zero_version : version := mkVersion (mkPublic 0 [] None None None) [].

(** ** pkg/testutil/quick.go *)
(** What quick.Check returns: nil, a quick.SetupError, or a failure, i.e. a quick.CheckError. *)
Inductive checked : Type := CheckPassed | SetupFailed | CheckFailed.
(** The effect of a test helper: it panics, or returns with the list of failures that it reported. *)
Inductive failure : Type := RandomFailure | WrongCount (i : nat) | StaticFailure (i : nat).
Definition effect : Type := option (list failure).
Section Values.
Context {V : Type}.
(** :28-30 the loop that fills args: args[j] = reflect.ValueOf(tc[i]), an index error if there is none *)
Fixpoint fill_args (n : nat) (i : nat) (tc : list V) : option (list V) :=
  match n with
  | O => Some []
  | S n' => match nth_error tc i, fill_args n' i tc with Some v, Some l => Some (v :: l) | _, _ => None end
  end.
(** :23-37 the static cases.  [fn args] is [None] if the function panics, or does not accept the values. *)
Fixpoint static_cases (nargs : nat) (fn : list V -> option bool) (i : nat) (cases : list (list V)) : effect :=
  match cases with
  | [] => Some []
  | tc :: cases' =>
      if negb (Nat.eqb (length tc) nargs) then
        match static_cases nargs fn (S i) cases' with Some l => Some (WrongCount i :: l) | None => None end
      else match fill_args (length tc) i tc with
           | None => None
           | Some args =>
               match fn args with
               | None => None
               | Some ok => match static_cases nargs fn (S i) cases' with
                            | Some l => Some (if ok then l else StaticFailure i :: l)
                            | None => None
                            end
               end
           end
  end.
(** :14-38 QuickCheck *)
Definition quick_check (random : checked) (nargs : nat) (fn : list V -> option bool) (cases : list (list V)) : effect :=
  let first := match random with CheckPassed => [] | _ => [RandomFailure] end in
  match random with
  | SetupFailed => Some first
  | _ => match static_cases nargs fn 0 cases with Some l => Some (first ++ l) | None => None end
  end.
(** :42-79 QuickCheckEqual; the results of both functions are compared with reflect.DeepEqual *)
Context {W : Type} (eqb : W -> W -> bool).
Fixpoint static_cases_equal (nargs : nat) (fn1 fn2 : list V -> option W) (i : nat) (cases : list (list V)) : effect :=
  match cases with
  | [] => Some []
  | tc :: cases' =>
      if negb (Nat.eqb (length tc) nargs) then
        match static_cases_equal nargs fn1 fn2 (S i) cases' with Some l => Some (WrongCount i :: l) | None => None end
      else match fn1 tc, fn2 tc, static_cases_equal nargs fn1 fn2 (S i) cases' with
           | Some a, Some b, Some l => Some (if eqb a b then l else StaticFailure i :: l)
           | _, _, _ => None
           end
  end.
Definition quick_check_equal (random : checked) (nargs : nat) (fn1 fn2 : list V -> option W) (cases : list (list V)) : effect :=
  let first := match random with CheckPassed => [] | _ => [RandomFailure] end in
  match random with
  | SetupFailed => Some first
  | _ => match static_cases_equal nargs fn1 fn2 0 cases with Some l => Some (first ++ l) | None => None end
  end.
End Values.
