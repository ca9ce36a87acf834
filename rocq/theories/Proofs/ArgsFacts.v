(** Facts about the arguments of concurrent calls. *)
From Coq Require Import String Ascii List Bool Arith Lia.
From Verif.Model Require Import GoStr Args.
Import ListNotations.

Lemma upd_same {A} (f : nat -> A) i a : upd f i a i = a. Proof. unfold upd. now rewrite Nat.eqb_refl. Qed.
Lemma upd_other {A} (f : nat -> A) i j a : j <> i -> upd f i a j = f j. Proof. intros H. unfold upd. now apply Nat.eqb_neq in H as ->. Qed.
Lemma set_nth_length k x l : length (set_nth k x l) = length l.
Proof. revert l. induction k as [|k IH]; intros [|y l]; cbn; auto. Qed.
Theorem no_room tmp room sched i : length room < 5 ->
  let c := call_run tmp room sched in mem c = room /\ (pc c i = 10 -> got c i = items (tmp i)) /\ (In i sched -> pc c i = 10).
Proof.
  intros R c. subst c. unfold call_run. induction sched as [|j sched IH] using rev_ind; [cbn; repeat split; auto; [discriminate|tauto]|].
  rewrite fold_left_app. cbn [fold_left]. set (c := fold_left _ sched _) in *. destruct IH as (M & G & P). unfold call_step. rewrite M. apply Nat.ltb_lt in R. rewrite R. cbn [mem pc got].
  split; auto. destruct (Nat.eq_dec i j) as [->|N]; [rewrite !upd_same; auto|]. rewrite !upd_other by auto. split; auto. intros J. apply in_app_or in J. destruct J as [J|[->|[]]]; [auto|congruence].
Qed.
Lemma fold_step tmp i l c d : call_step tmp c i = d -> fold_left (call_step tmp) (i :: l) c = fold_left (call_step tmp) l d.
Proof. now intros <-. Qed.
(** One call alone *)
Lemma one_call tmp c i a1 a2 a3 a4 a5 rest : mem c = a1 :: a2 :: a3 :: a4 :: a5 :: rest -> pc c i = 0 -> got c i = [] ->
  let c' := fold_left (call_step tmp) (repeat i 10) c in
  mem c' = items (tmp i) ++ rest /\ pc c' i = 10 /\ got c' i = items (tmp i) /\ forall j, j <> i -> pc c' j = pc c j /\ got c' j = got c j.
Proof.
  intros M P G c'. assert (L : length (mem c) <? 5 = false) by (rewrite M; reflexivity).
  assert (W : forall c k, k < 5 -> pc c i = k -> 5 <= length (mem c) -> call_step tmp c i = mkCalls (set_nth k (nth k (items (tmp i)) []) (mem c)) (upd (pc c) i (S k)) (got c)).
  { intros d k K PK LE. unfold call_step. apply Nat.ltb_ge in LE. rewrite LE, PK. apply Nat.ltb_lt in K. now rewrite K. }
  assert (Rd : forall c k, k < 5 -> pc c i = 5 + k -> 5 <= length (mem c) -> call_step tmp c i = mkCalls (mem c) (upd (pc c) i (S (5 + k))) (upd (got c) i (got c i ++ [nth k (mem c) []]))).
  { intros d k K PK LE. unfold call_step. apply Nat.ltb_ge in LE. rewrite LE, PK. replace (5 + k <? 5) with false by (symmetry; apply Nat.ltb_ge; lia).
    replace (5 + k <? 10) with true by (symmetry; apply Nat.ltb_lt; lia). now replace (5 + k - 5) with k by lia. }
  assert (LE : 5 <= length (mem c)) by (now apply Nat.ltb_ge). subst c'. cbn [repeat].
  erewrite fold_step; [|apply (W c 0); auto; lia]. rewrite M. cbn [set_nth].
  erewrite fold_step; [|apply (W _ 1); cbn [mem pc length]; rewrite ?upd_same; auto; lia]. cbn [mem pc got set_nth].
  erewrite fold_step; [|apply (W _ 2); cbn [mem pc length]; rewrite ?upd_same; auto; lia]. cbn [mem pc got set_nth].
  erewrite fold_step; [|apply (W _ 3); cbn [mem pc length]; rewrite ?upd_same; auto; lia]. cbn [mem pc got set_nth].
  erewrite fold_step; [|apply (W _ 4); cbn [mem pc length]; rewrite ?upd_same; auto; lia]. cbn [mem pc got set_nth].
  erewrite fold_step; [|apply (Rd _ 0); cbn [mem pc length]; rewrite ?upd_same; auto; lia]. cbn [mem pc got nth].
  erewrite fold_step; [|apply (Rd _ 1); cbn [mem pc length]; rewrite ?upd_same; auto; lia]. cbn [mem pc got nth].
  erewrite fold_step; [|apply (Rd _ 2); cbn [mem pc length]; rewrite ?upd_same; auto; lia]. cbn [mem pc got nth].
  erewrite fold_step; [|apply (Rd _ 3); cbn [mem pc length]; rewrite ?upd_same; auto; lia]. cbn [mem pc got nth].
  erewrite fold_step; [|apply (Rd _ 4); cbn [mem pc length]; rewrite ?upd_same; auto; lia]. cbn [mem pc got nth].
  cbn [fold_left mem pc got]. rewrite !upd_same, G. split; [reflexivity|]. split; [reflexivity|]. split; [reflexivity|]. intros j N. now rewrite !upd_other.
Qed.
Lemma five (l : list str) : 5 <= length l -> exists a1 a2 a3 a4 a5 rest, l = a1 :: a2 :: a3 :: a4 :: a5 :: rest.
Proof. destruct l as [|a1 [|a2 [|a3 [|a4 [|a5 rest]]]]]; cbn; try lia. intros _. exists a1, a2, a3, a4, a5, rest. reflexivity. Qed.
(** One call after the other *)
Theorem one_by_one tmp room order : NoDup order -> let c := call_run tmp room (concat (map (fun i => repeat i 10) order)) in
  forall i, In i order -> pc c i = 10 /\ got c i = items (tmp i).
Proof.
  intros ND c i J. destruct (Nat.lt_ge_cases (length room) 5) as [R|R].
  - subst c. destruct (no_room tmp room (concat (map (fun i => repeat i 10) order)) i R) as (_ & G & P).
    assert (IS : In i (concat (map (fun i => repeat i 10) order))) by (apply in_concat; exists (repeat i 10); split; [apply in_map_iff; eauto|now left]). auto.
  - subst c. unfold call_run.
    assert (G : forall order c, NoDup order -> 5 <= length (mem c) -> (forall j, In j order -> pc c j = 0 /\ got c j = []) ->
       let c' := fold_left (call_step tmp) (concat (map (fun i => repeat i 10) order)) c in
       (forall j, In j order -> pc c' j = 10 /\ got c' j = items (tmp j)) /\ (forall j, ~ In j order -> pc c' j = pc c j /\ got c' j = got c j)).
    2:{ apply (G order); auto. }
    clear. induction order as [|i order IH]; intros c ND LE H; [split; [now intros j []|auto]|].
    cbn [map concat]. rewrite fold_left_app. destruct (five _ LE) as (a1 & a2 & a3 & a4 & a5 & rest & M).
    destruct (H i (or_introl eq_refl)) as [P0 G0]. destruct (one_call tmp c i _ _ _ _ _ _ M P0 G0) as (M' & P' & G' & O'). set (c1 := fold_left (call_step tmp) (repeat i 10) c) in *.
    inversion ND as [|? ? NI ND']; subst. destruct (IH c1) as [A B]; auto.
    { rewrite M', app_length. cbn. lia. }
    { intros j J. assert (j <> i) by (intros ->; auto). destruct (O' j) as [-> ->]; auto. apply H. now right. }
    split.
    + intros j [<-|J]; [destruct (B i NI) as [-> ->]; auto|auto].
    + intros j J. destruct (B j) as [-> ->]; [intros X; apply J; now right|]. apply O'. intros ->. apply J. now left.
Qed.
(** With room, two calls can get in each other's way. *)
Theorem mixed_up tmp room : 5 <= length room -> exists sched, let c := call_run tmp room sched in
  pc c 0 = 10 /\ pc c 1 = 10 /\ got c 0 = items (tmp 1) /\ got c 1 = items (tmp 1).
Proof.
  intros R. destruct (five _ R) as (a1 & a2 & a3 & a4 & a5 & rest & ->).
  exists (repeat 0 5 ++ repeat 1 10 ++ repeat 0 5). repeat split.
Qed.
(** And one call alone changes what belongs to the caller. *)
Theorem overwrites tmp room : 5 <= length room -> firstn 5 (mem (call_run tmp room (repeat 0 10))) = items (tmp 0).
Proof. intros R. destruct (five _ R) as (a1 & a2 & a3 & a4 & a5 & rest & ->). reflexivity. Qed.
