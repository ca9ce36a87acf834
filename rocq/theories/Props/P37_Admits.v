(** C104: a specifier, as it is written, admits exactly the versions that PEP 440 says ([pep440_admits], Spec/AdmitSpec.v). *)
From Coq Require Import String Ascii List Bool ZArith NArith Lia.
From Verif.Model Require Import GoStr Pep440 Specifier.
From Verif.Spec Require Import Pep440Spec VersionGrammar SpecifierSpec ExactSpec AdmitSpec.
From Verif.Proofs Require Import AdmitFacts.
Import ListNotations.

(** ** C104: a specifier admits the versions that every clause admits, but for the three listed deviations *)
Theorem C104_pep440_partial : forall s cs t v,
  Forall2 AdmitSpec.written (parts s) cs -> parse_version t = Some v -> no_overflow v -> Forall (fun c => no_overflow (c_ver c)) cs ->
  Forall (fun c => ~ deviates c v) cs ->
  parse_specifier s = Ok cs /\ (match_specifier cs v = true <-> Forall (fun c => pep440_admits c v) cs).
Proof. exact admits_plain. Qed.
Print Assumptions C104_pep440_partial.
(** A clause that deviates answers the opposite of what PEP 440 says, so these are all the deviations *)
Theorem C104_exact_partial : forall s cs t v,
  Forall2 AdmitSpec.written (parts s) cs -> parse_version t = Some v -> no_overflow v -> Forall (fun c => no_overflow (c_ver c)) cs ->
  parse_specifier s = Ok cs /\
  (match_specifier cs v = true <->
   Forall (fun c => (pep440_admits c v /\ ~ deviates c v) \/ (~ pep440_admits c v /\ deviates c v)) cs).
Proof. exact admits_exact. Qed.
Print Assumptions C104_exact_partial.
Example C104_case : Forall2 AdmitSpec.written (parts ex_admit_text) ex_admit_clauses /\ Forall (fun c => no_overflow (c_ver c)) ex_admit_clauses /\
  Forall (fun c => ~ deviates c (ex_version $"1.4.7.post1")) ex_admit_clauses /\ no_overflow (ex_version $"1.4.7.post1") /\
  match_specifier ex_admit_clauses (ex_version $"1.4.7.post1") = true /\ match_specifier ex_admit_clauses (ex_version $"1.4.5+x") = false /\
  match_specifier ex_admit_clauses (ex_version $"1.6") = false /\ match_specifier ex_admit_clauses (ex_version $"1.4rc1") = false.
Proof.
  split; [exact ex_admit_written|]. split; [repeat constructor; vm_compute; discriminate|].
  split; [|split; [split; [vm_compute; discriminate|repeat constructor]|repeat split; vm_compute; reflexivity]].
  constructor; [|constructor; [|constructor; [|constructor]]]; [now intros H|now intros H|].
  intros (_ & [H|H] & _); apply H; vm_compute; reflexivity.
Qed.

(** PEP 440 does not let "< 1.6" admit 1.6rc1; the program does. *)
Theorem C104_prerelease_refuted : exists s cs t v, Forall2 AdmitSpec.written (parts s) cs /\ parse_version t = Some v /\
  no_overflow v /\ Forall (fun c => no_overflow (c_ver c)) cs /\
  match_specifier cs v = true /\ ~ Forall (fun c => pep440_admits c v) cs.
Proof. exact prerelease_wrong. Qed.
Print Assumptions C104_prerelease_refuted.
