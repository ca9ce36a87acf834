(** Runs of calls on an open file: they never get stuck, and one goroutine alone. *)
From Coq Require Import String Ascii List Bool ZArith Lia.
From Verif.Model Require Import GoStr GoPath Tar Squash VfsFS.
From Verif.Spec Require Import PathSpec SquashSpec VfsFSSpec.
From Verif.Proofs Require Import VfsFSFacts.
Import ListNotations.

Section runs.
  Context (sort : (dirent -> dirent -> bool) -> list dirent -> list dirent) (f : handle).
  Theorem never_stuck programs c i : reachable sort f programs c -> c_threads c i <> (Idle, []) -> exists c', step sort f c c'.
  Proof.
    intros R N. apply reachable_inv in R as (s & _ & _ & B & L & M). destruct c as [th l st log]. cbn [c_threads c_lock c_state c_log] in *.
    destruct l as [j|].
    - destruct (th j) as [p rest] eqn:T. cbn [fst] in M. destruct p as [| |c|c s'|c r]; try (now destruct M).
      + eexists. eapply step_load. exact T.
      + eexists. eapply step_store. exact T.
      + eexists. eapply step_unlock. exact T.
    - destruct (th i) as [p rest] eqn:T. specialize (L i). rewrite T in L. cbn [fst] in L. destruct p as [|c|c|c s'|c r]; cbn [busy] in L; try (now specialize (L eq_refl)).
      + destruct rest as [|c rest]; [congruence|]. destruct (before_lock f c) as [r|] eqn:E; eexists; [eapply step_fail|eapply step_call]; eauto.
      + eexists. eapply step_lock. exact T.
  Qed.
  (** Once it is over, every goroutine has made all its calls. *)
  Theorem finished_calls programs c i : reachable sort f programs c -> c_threads c i = (Idle, []) -> calls_of i (c_log c) = programs i.
  Proof. intros R T. apply reachable_inv in R as (s & _ & P & _). specialize (P i). rewrite T in P. cbn [fst snd current app] in P. now rewrite app_nil_r in P. Qed.

  (** One goroutine alone. *)
  Fixpoint alone (s : rstate) (calls : list call) : list (nat * call * result) :=
    match calls with
    | [] => []
    | c :: calls' =>
        match before_lock f c with
        | Some r => (0%nat, c, r) :: alone s calls'
        | None => (0%nat, c, snd (in_lock sort f s c)) :: alone (fst (in_lock sort f s c)) calls'
        end
    end.
  Definition only (calls : list call) : nat -> list call := fun i => match i with O => calls | S _ => [] end.
  Lemma alone_from programs calls : forall th s log, th 0%nat = (Idle, calls) -> reachable sort f programs (mkConfig th None s log) ->
    exists c, reachable sort f programs c /\ c_log c = log ++ alone s calls.
  Proof.
    induction calls as [|c calls IH]; intros th s log T R.
    - eexists. split; [exact R|]. cbn [alone c_log]. now rewrite app_nil_r.
    - cbn [alone]. destruct (before_lock f c) as [r|] eqn:E.
      + edestruct IH as (c' & R' & L'); [|eapply reach_step; [exact R|eapply step_fail; eauto]|]; [reflexivity|]. exists c'. split; auto. now rewrite L', <- app_assoc.
      + assert (R1 : reachable sort f programs (mkConfig (set_thread th 0 (Waiting c, calls)) None s log)) by (eapply reach_step; [exact R|now apply step_call]).
        assert (R2 : reachable sort f programs (mkConfig (set_thread (set_thread th 0 (Waiting c, calls)) 0 (Locked c, calls)) (Some 0%nat) s log)) by (eapply reach_step; [exact R1|now apply step_lock]).
        eapply reach_step in R2; [|now eapply step_load with (i := 0%nat)]. eapply reach_step in R2; [|now eapply step_store with (i := 0%nat)].
        eapply reach_step in R2; [|now eapply step_unlock with (i := 0%nat)].
        edestruct IH as (c' & R' & L'); [|exact R2|]; [reflexivity|]. exists c'. split; auto. now rewrite L', <- app_assoc.
  Qed.
  Theorem alone_reachable calls : exists c, reachable sort f (only calls) c /\ c_log c = alone just_opened calls.
  Proof. destruct (alone_from (only calls) calls (fun i => (Idle, only calls i)) just_opened []) as (c & R & L); [reflexivity|apply reach_start|]. eauto. Qed.
End runs.
