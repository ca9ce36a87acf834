(** Layers that are written through the links of the image below. *)
From Coq Require Import String Ascii List Bool ZArith Sorted Permutation Lia.
From Verif.Model Require Import GoStr GoPath Tar Squash VfsFS.
From Verif.Spec Require Import PathSpec SimpleAPISpec SquashSpec VfsFSSpec OverlaySpec.
From Verif.Proofs Require Import SquashStack SquashFinal SquashMore SquashBack SquashCreate SquashCheck SquashHard OverlayFacts.
Import ListNotations.
Local Open Scope nat_scope.

Lemma aat_in_order fs l l' : all_at_target fs l l' -> in_order l' = l' -> in_order l = l.
Proof.
  intros A E. apply aat_marks in A. unfold in_order in *.
  assert (X : forall m m' : list entry, map is_marker m = map is_marker m' -> filter is_marker m ++ filter (fun e => negb (is_marker e)) m = m ->
    filter is_marker m' ++ filter (fun e => negb (is_marker e)) m' = m').
  { clear. intros m m' M E.
    assert (K : forall n, filter is_marker n ++ filter (fun e => negb (is_marker e)) n = n <-> StronglySorted (fun a b => implb b a = true) (map is_marker n)).
    { intros n. split.
      - intros <-. rewrite map_app. induction n as [|x n IH]; [constructor|]. cbn [filter]. destruct (is_marker x) eqn:X; cbn [negb app map].
        + constructor; [exact IH|]. rewrite X. apply Forall_forall. intros [] _; reflexivity.
        + assert (G : forall a b, StronglySorted (fun a b => implb b a = true) (a ++ b) -> Forall (eq true) a -> Forall (eq false) b -> StronglySorted (fun a b => implb b a = true) (a ++ false :: b)).
          { clear. induction a as [|y a IH]; intros b S Fa Fb; cbn [app] in *.
            - constructor; [exact S|]. eapply Forall_impl; [|exact Fb]. intros ? <-. reflexivity.
            - inversion S as [|? ? S1 S2]; subst. inversion Fa; subst. constructor; [now apply IH|]. apply Forall_forall. intros [] _; reflexivity. }
          rewrite X. apply G; [exact IH| |]; apply Forall_forall; intros b I; apply in_map_iff in I as (y & <- & I); apply filter_In in I as [_ I]; [now symmetry|]. now apply negb_true_iff in I.
      - induction n as [|x n IH]; intros S; [reflexivity|]. cbn [map] in S. inversion S as [|? ? S1 S2]; subst. cbn [filter]. destruct (is_marker x) eqn:X; cbn [negb app].
        + now rewrite IH.
        + assert (Z : filter is_marker n = []).
          { rewrite Forall_forall in S2. destruct (filter is_marker n) as [|y r] eqn:Q; [reflexivity|]. exfalso.
            assert (I : In y (filter is_marker n)) by (rewrite Q; now left). apply filter_In in I as [I Y].
            specialize (S2 (is_marker y) (in_map _ _ _ I)). now rewrite Y in S2. }
          rewrite Z in IH |- *. cbn [app] in *. now rewrite IH. }
    apply K. rewrite <- M. now apply K. }
  now apply (X l' l).
Qed.
Lemma all_over base l : all_entries (base ++ [l]) = all_entries base ++ in_order l.
Proof. unfold all_entries. rewrite flat_map_app. cbn [flat_map]. now rewrite app_nil_r. Qed.
Theorem over_through sort order base l l' : sorts sort -> permutes order -> plain_stack base -> Forall in_root l -> tree_layer l' ->
  all_at_target (unpack empty_root base) l l' -> past_links (unpack empty_root base) l' ->
  exists N out, (forall n, N <= n -> squash n sort order (base ++ [l]) = Ret out) /\
    forall p, real_path p -> exists x, laid_over l' (unpack empty_root base) p x /\ agree x (unpack empty_root [out] p).
Proof.
  intros HS HO P I T A PL. pose proof (plain_over base l' P T PL) as P'.
  destruct (squash_links sort order (base ++ [l]) (base ++ [l'])) as [N H]; auto.
  - destruct P as [G _]. apply Forall_app. split; [|constructor; auto]. eapply Forall_impl; [|exact G]. intros m. apply Forall_impl. intros e E. now apply good_inside in E.
  - rewrite !all_over. pose proof (tree_in_order l' T) as O. rewrite O, (aat_in_order _ _ _ A O).
    apply aat_join.
    + apply aat_same, good_all. exact (proj1 P).
    + rewrite unpack_empty in A. exact A.
  - destruct (squash_over N sort order base l' HS HO P T PL) as (out & E & K). exists (4 + N), out. split; [|exact K].
    intros n L. rewrite H by lia. now apply (more_squash (4 + N)).
Qed.
Lemma bin_at_target : all_at_target (unpack empty_root a_base) [a_file $"bin/run" $"x"; a_file $"opt" $"y"] [a_file $"usr/bin/run" $"x"; a_file $"opt" $"y"].
Proof.
  set (fs := unpack empty_root a_base). apply aat_cons; [|apply aat_cons; [now apply stays|apply aat_nil]].
  split; [reflexivity|]. split; [reflexivity|]. split; [reflexivity|]. right. exists [$"bin"], [$"bin"], [$"usr"; $"bin"], [$"run"].
  split; [reflexivity|]. split; [discriminate|]. split; [|split; [|reflexivity]].
  - apply (reaches_last fs [] $"bin"); [eapply dir_at; vm_compute; reflexivity|apply pc; reflexivity].
  - eapply leads_link with (q := [$"usr"; $"bin"]); [vm_compute; reflexivity|reflexivity|vm_compute; discriminate| |apply leads_end, not_link_at; vm_compute; reflexivity].
    change (clean_comps _) with [$"usr"; $"bin"]. cbn. eapply reaches_down with (d' := [$"usr"]); [eapply dir_at; vm_compute; reflexivity|apply pc; reflexivity| |discriminate|].
    + apply leads_end, not_link_at. vm_compute. reflexivity.
    + apply (reaches_last fs [$"usr"] $"bin"); [eapply dir_at; vm_compute; reflexivity|apply pc; reflexivity].
Qed.
