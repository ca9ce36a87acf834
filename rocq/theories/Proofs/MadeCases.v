(** Examples for squashing layers that were made from files. *)
From Coq Require Import String Ascii List Bool ZArith Sorted Permutation Lia.
From Verif.Model Require Import GoStr GoPath Tar Stat Layer Dir Squash ConfigParser Platform WheelFile Wheel.
From Verif.Spec Require Import PathSpec SimpleAPISpec SquashSpec LayerSpec WheelSpec WheelExamples DirSpec MadeSpec.
From Verif.Proofs Require Import Order GoStrFacts GoPathFacts SimpleAPIFacts WheelCases SquashSources SquashMade SquashWheel.
Import ListNotations.
Local Open Scope nat_scope.

Lemma a_disk_paths p : file_at a_disk p <> None -> In p [[]; [$"z"]; [$"a"]; [$"a"; $"y"]; [$"a"; $"e"]; [$"a-b"]].
Proof.
  unfold a_disk, a_disk_dir, a_disk_file. intros H.
  repeat (destruct p as [|? p]; [cbn; tauto|]; cbn [file_at] in H; try congruence;
    repeat match type of H with (if str_eqb ?k ?c then _ else _) <> _ => destruct (str_eqb k c) eqn:?; [match goal with E : str_eqb k c = true |- _ => apply str_eqb_eq in E; subst c end|] end; try congruence; cbn [file_at] in H).
  all: destruct p; cbn [file_at] in H; try congruence; cbn; tauto.
Qed.
Lemma a_disk_names : disk_names a_disk.
Proof.
  assert (P : forall c : str, forallb (fun x => negb (byte_eqb x slash)) c = true -> c <> [] -> c <> dot -> c <> dotdot -> plain_comp c).
  { intros c F N D DD. split; auto. split; auto. intros I. rewrite forallb_forall in F. specialize (F _ I). discriminate. }
  repeat (constructor; cbn [map fst]); try (cbn; intuition discriminate); try (apply P; [reflexivity|discriminate|discriminate|discriminate]).
  intros c d I. cbn [In] in I. repeat destruct I as [[= <- <-]|I]; try tauto; repeat (constructor; cbn [map fst]);
    try (cbn; intuition discriminate); try (apply P; [reflexivity|discriminate|discriminate|discriminate]).
  intros c d I. cbn [In] in I. repeat destruct I as [[= <- <-]|I]; try tauto; repeat (constructor; cbn [map fst]). intros c d [].
Qed.
Lemma a_disk_true : true_directories a_disk.
Proof.
  intros p i r ch E. assert (I : file_at a_disk p <> None) by congruence. apply a_disk_paths in I. cbn [In] in I.
  repeat destruct I as [<-|I]; try tauto; vm_compute in E; try discriminate; injection E as <- _ _; (split; [eexists; split; reflexivity|]);
    intros q j J D; (assert (I : file_at a_disk q <> None) by (intros X; unfold info_at in J; rewrite X in J; discriminate));
    apply a_disk_paths in I; cbn [In] in I; repeat destruct I as [<-|I]; try tauto; vm_compute in J; injection J as <-; vm_compute in D; try discriminate; reflexivity.
Qed.
Lemma a_disk_markers : no_markers_in a_disk.
Proof. intros p I. apply a_disk_paths in I. cbn [In] in I. repeat destruct I as [<-|I]; try tauto; repeat constructor. Qed.

Definition names_b (name : str) : bool :=
  let p := split_on slash name in
  negb (str_eqb name []) && forallb (fun c => negb (str_eqb c []) && negb (str_eqb c dot) && negb (str_eqb c dotdot) && negb (marker_name c)) p.
Lemma names_ok name : names_b name = true -> exists p, names_path name p.
Proof.
  unfold names_b. rewrite andb_true_iff, negb_true_iff, forallb_forall. intros [N F]. exists (split_on slash name). split; [apply split_on_nonempty|].
  split; [|symmetry; apply join_split_on]. pose proof (split_on_no_sep slash name) as S. rewrite Forall_forall in S.
  split; apply Forall_forall; intros c I; specialize (F c I); rewrite !andb_true_iff, !negb_true_iff in F; destruct F as (((F1 & F2) & F3) & F4); auto.
  apply str_eqb_neq in F1, F2, F3. repeat split; auto.
Qed.
Lemma dirs_ok l : forallb (fun e => forallb (fun e' => is_dir e || negb (has_prefix (th_name (fst e) ++ $"/") (th_name (fst e')))) l) l = true ->
  Forall (fun e => exists p, names_path (th_name (fst e)) p) l ->
  forall e e', In e l -> In e' l -> LayerSpec.below (th_name (fst e)) (th_name (fst e')) -> is_dir e = true.
Proof.
  intros F NP e e' I I' (x & [B|(B & _)]).
  - rewrite forallb_forall in F. specialize (F e I). rewrite forallb_forall in F. specialize (F e' I'). apply orb_true_iff in F as [F|F]; auto.
    rewrite B in F. rewrite app_assoc, has_prefix_app in F. discriminate.
  - rewrite Forall_forall in NP. destruct (NP e I) as (p & N). apply names_rel in N. rewrite B in N. discriminate.
Qed.
Lemma a_wheel : exists l, install_wheel ex_out 9 ex_platform None None ex_good = IOk l /\ 9 <= length l /\
  Forall (fun e => exists p, names_path (th_name (fst e)) p) l /\
  (forall e e', In e l -> In e' l -> LayerSpec.below (th_name (fst e)) (th_name (fst e')) -> is_dir e = true) /\ Forall in_root l.
Proof.
  destruct (install_wheel ex_out 9 ex_platform None None ex_good) as [l| | |] eqn:E; try (vm_compute in E; discriminate). exists l. split; auto.
  vm_compute in E. injection E as <-.
  match goal with |- _ /\ Forall _ ?l /\ _ => assert (NP : Forall (fun e => exists p, names_path (th_name (fst e)) p) l) by
    (apply Forall_forall; intros e I; apply names_ok; assert (X : forallb (fun e => names_b (th_name (fst e))) l = true) by (vm_compute; reflexivity);
     rewrite forallb_forall in X; now apply X) end.
  split; [vm_compute; lia|]. split; [exact NP|]. split.
  - apply dirs_ok; [vm_compute; reflexivity|exact NP].
  - eapply Forall_impl; [|exact NP]. intros e (p & N). pose proof (names_rel _ _ N). split; auto. unfold entry_path. rewrite (names_comps _ _ N). apply N.
Qed.
