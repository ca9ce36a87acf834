(** C84: random versions; C85: the helpers of the property tests. *)
From Coq Require Import String Ascii List Bool ZArith.
From Verif.Model Require Import GoStr Pep440 Specifier Generate.
From Verif.Spec Require Import Pep440Spec GenerateSpec.
From Verif.Proofs Require Import Pep440Parse Pep440Sound GenerateFacts.
Import ListNotations.
Local Open Scope Z_scope.

(** ** C84: random versions *)
(** For every source of randomness and every size, negative ones included, there is a version and no panic. *)
Theorem C84_generated : forall R (src : R -> Z -> Z * R), in_range src -> forall size r,
  exists v r', generate_version src zero_version size r = Some (v, r') /\ small_version v.
Proof. exact (fun R src H size r => version_yields src H size r). Qed.
Print Assumptions C84_generated.
(** These versions are in normal form, so that C01-C06 hold for them; in particular they are printed and read back. *)
Theorem C84_canonical : forall v, small_version v -> canonical v /\ parse_version (version_string v) = Some v.
Proof. exact (fun v H => conj (small_canonical v H) (parse_string v (small_canonical v H))). Qed.
Print Assumptions C84_canonical.
(** Every one of them can come out, if the size does not limit them. *)
Theorem C84_reached : forall v size, 120 <= size -> small_version v -> exists r, generate_version dice zero_version size r = Some (v, []).
Proof. exact version_reached. Qed.
Print Assumptions C84_reached.
Theorem C84_dice : in_range dice.
Proof. exact dice_range. Qed.
Print Assumptions C84_dice.
Theorem C84_operators : (forall R (src : R -> Z -> Z * R), in_range src -> forall r, exists op r', generate_op src r = Some (op, r')) /\
  forall op, exists r, generate_op dice r = Some (op, []).
Proof. exact (conj (fun R src H r => op_yields src H r) op_reached). Qed.
Print Assumptions C84_operators.
Example C84_nonvacuous : generate_version dice zero_version 50 [1; 1; 0; 2; 25; 0; 35; 1; 7; 1; 2; 2; 1; 2; 3; 1; 2; 4; 0; 1; 5] =
    Some (mkVersion (mkPublic 2 [1; 2; 3] (Some ($"rc", 4)) None (Some 5)) [SStr $"za9"; SInt 7], []) /\
  generate_version dice zero_version (-5) [1; 9; 0; 9; 3] = Some (mkVersion (mkPublic 0 [0] None None None) [SStr $"d"], []).
Proof. vm_compute. auto. Qed.

(** ** C85: the helpers of the property tests *)
(** A test with QuickCheckEqual passes exactly if the random check passes and both functions agree on all given cases. *)
Theorem C85_equal : forall V W (eqb : W -> W -> bool) random nargs (fn1 fn2 : list V -> option W) cases, quick_check_equal eqb random nargs fn1 fn2 cases = Some [] <->
  random = CheckPassed /\ forall tc, In tc cases -> length tc = nargs /\ exists a b, fn1 tc = Some a /\ fn2 tc = Some b /\ eqb a b = true.
Proof. exact (fun V W => @quick_equal_exact V W). Qed.
Print Assumptions C85_equal.
(** Otherwise it reports exactly the cases that are wrong, unless a function panics or quick.Check does not accept it. *)
Theorem C85_equal_reports : forall V W (eqb : W -> W -> bool) random nargs (fn1 fn2 : list V -> option W) cases, random <> SetupFailed ->
  (forall tc, In tc cases -> length tc = nargs -> fn1 tc <> None /\ fn2 tc <> None) ->
  exists l, quick_check_equal eqb random nargs fn1 fn2 cases = Some l /\ (In RandomFailure l <-> random = CheckFailed) /\
  (forall i, In (WrongCount i) l <-> exists tc, nth_error cases i = Some tc /\ length tc <> nargs) /\
  (forall i, In (StaticFailure i) l <-> exists tc a b, nth_error cases i = Some tc /\ length tc = nargs /\ fn1 tc = Some a /\ fn2 tc = Some b /\ eqb a b = false).
Proof. exact (fun V W => @quick_equal_reports V W). Qed.
Print Assumptions C85_equal_reports.
(** With QuickCheck that holds for a single case of a function of one argument. *)
Theorem C85_check_partial : forall V random (fn : list V -> option bool) (v : V),
  quick_check random 1 fn [[v]] = Some [] <-> random = CheckPassed /\ fn [v] = Some true.
Proof. exact (fun V => @quick_check_one V). Qed.
Print Assumptions C85_check_partial.
(** In general it calls the function for the case number i with its i-th value in place of every argument. *)
Theorem C85_actual_partial : forall V random nargs (fn : list V -> option bool) cases, quick_check random nargs fn cases = Some [] <->
  random = CheckPassed /\ forall i tc, nth_error cases i = Some tc -> length tc = nargs /\
    (nargs = 0%nat /\ fn [] = Some true \/ exists v, nth_error tc i = Some v /\ fn (repeat v nargs) = Some true).
Proof. exact (fun V => @quick_check_actual V). Qed.
Print Assumptions C85_actual_partial.
Theorem C85_actual_reports_partial : forall V random nargs (fn : list V -> option bool) cases, random <> SetupFailed ->
  (forall i tc, nth_error cases i = Some tc -> length tc = nargs -> nargs = 0%nat /\ fn [] <> None \/ exists v, nth_error tc i = Some v /\ fn (repeat v nargs) <> None) ->
  exists l, quick_check random nargs fn cases = Some l /\ (In RandomFailure l <-> random = CheckFailed) /\
  (forall i, In (WrongCount i) l <-> exists tc, nth_error cases i = Some tc /\ length tc <> nargs) /\
  (forall i, In (StaticFailure i) l <-> exists tc, nth_error cases i = Some tc /\ length tc = nargs /\
     (nargs = 0%nat /\ fn [] = Some false \/ exists v, nth_error tc i = Some v /\ fn (repeat v nargs) = Some false)).
Proof. exact (fun V => @quick_check_reports V). Qed.
Print Assumptions C85_actual_reports_partial.
(** So two cases of a function of one argument make it panic, whatever the function; and a case for which a
    function of two arguments returns false can pass. *)
Theorem C85_check_refuted : (forall V random (fn : list V -> option bool) (v w : V) rest, random <> SetupFailed -> quick_check random 1 fn ([v] :: [w] :: rest) = None) /\
  exists (fn : list Z -> option bool) tc, length tc = 2%nat /\ fn tc = Some false /\ quick_check CheckPassed 2 fn [tc] = Some [].
Proof.
  split; [exact (fun V => @quick_check_two V)|]. exists (fun l => match l with [a; b] => Some (a =? b) | _ => None end), [1; 2]. repeat split; reflexivity.
Qed.
Print Assumptions C85_check_refuted.
Example C85_nonvacuous : quick_check_equal Z.eqb CheckPassed 2 (fun l => Some (fold_right Z.add 0 l)) (fun l => Some (fold_left Z.add l 0)) [[1; 2]; [3; 4]; [5; 6]] = Some [] /\
  quick_check_equal Z.eqb CheckPassed 2 (fun l => Some (fold_right Z.sub 0 l)) (fun l => Some (fold_left Z.sub l 0)) [[0; 0]; [3; 4]; [5]] = Some [StaticFailure 1; WrongCount 2] /\
  quick_check CheckPassed 1 (fun l => match l with [a] => Some (0 <? a) | _ => None end) [[1]] = Some [] /\
  quick_check CheckFailed 1 (fun l => match l with [a] => Some (0 <? a) | _ => None end) [[0]] = Some [RandomFailure; StaticFailure 0].
Proof. repeat split; reflexivity. Qed.
