(** The backtracking matcher: unfolding, soundness, completeness. *)
From Coq Require Import String Ascii List Bool Arith Lia.
From Verif.Model Require Import GoStr Regex.
From Verif.Proofs Require Import Order GoStrFacts.
Import ListNotations.

Definition star_loop {X} (f : str -> caps -> (str -> caps -> option X) -> option X)
    (k : str -> caps -> option X) : nat -> str -> caps -> option X :=
  fix loop (fuel : nat) (s : str) (c : caps) {struct fuel} : option X :=
  match fuel with
  | O => k s c
  | S n =>
      match f s c (fun s' c' => if (length s' <? length s)%nat then loop n s' c' else None) with
      | Some v => Some v
      | None => k s c
      end
  end.
Lemma run_star_loop {X} a s c (k : str -> caps -> option X) :
  run (RStar a) s c k = star_loop (fun s c k => run a s c k) k (length s) s c.
Proof. reflexivity. Qed.

Lemma run_ext {X} r : forall s c (k1 k2 : str -> caps -> option X),
  (forall s' c', k1 s' c' = k2 s' c') -> run r s c k1 = run r s c k2.
Proof.
  induction r as [|p|a IHa b IHb|a IHa b IHb|r IH|name r IH]; intros s c k1 k2 H.
  - simpl. auto.
  - simpl. destruct s as [|x s]; auto. destruct (p x); auto.
  - simpl. apply IHa. intros. apply IHb. auto.
  - simpl. rewrite (IHa s c k1 k2 H). destruct (run a s c k2); auto.
  - rewrite !run_star_loop. generalize (length s). intros n. revert s c.
    induction n as [|n IHn]; intros s c; cbn [star_loop]; auto.
    rewrite (IH s c _ (fun s' c' => if length s' <? length s then
       star_loop (fun s c k => run r s c k) k2 n s' c' else None)).
    + destruct (run r s c _); auto.
    + intros. destruct (length s' <? length s); auto.
  - simpl. apply IH. intros. apply H.
Qed.

Lemma run_none {X} r : forall s c, run r s c (fun _ _ => @None X) = None.
Proof.
  induction r as [|p|a IHa b IHb|a IHa b IHb|r IH|name r IH]; intros s c.
  - reflexivity.
  - simpl. destruct s as [|x s]; auto. destruct (p x); auto.
  - simpl. rewrite (run_ext a s c _ (fun _ _ => None)) by auto. auto.
  - simpl. rewrite IHa; auto.
  - rewrite run_star_loop. generalize (length s). intros n. revert s c.
    induction n as [|n IHn]; intros s c; cbn [star_loop]; auto.
    rewrite (run_ext r s c _ (fun _ _ => None)).
    + now rewrite IH.
    + intros. destruct (length s' <? length s); auto.
  - simpl. apply IH.
Qed.

Lemma star_loop_fuel {X} r (k : str -> caps -> option X) n m s c :
  length s <= n -> length s <= m ->
  star_loop (fun s c k => run r s c k) k n s c = star_loop (fun s c k => run r s c k) k m s c.
Proof.
  assert (E : forall n s c, length s = 0 ->
            star_loop (fun s c k => run r s c k) k n s c = k s c).
  { intros n' s' c' H. destruct n'; auto. cbn [star_loop].
    rewrite (run_ext r s' c' _ (fun _ _ => None)); [now rewrite run_none|].
    intros. now rewrite H. }
  revert m s c. induction n as [|n IH]; intros m s c Hn Hm.
  - now rewrite !E by lia.
  - destruct m as [|m]; [now rewrite !E by lia|].
    cbn [star_loop].
    rewrite (run_ext r s c _ (fun s' c' => if length s' <? length s then
       star_loop (fun s c k => run r s c k) k m s' c' else None)); auto.
    intros. destruct (Nat.ltb_spec (length s') (length s)); auto. apply IH; lia.
Qed.

(** Unfolding of the star. *)
Lemma run_star {X} r s c (k : str -> caps -> option X) :
  run (RStar r) s c k =
  match run r s c (fun s' c' => if length s' <? length s then run (RStar r) s' c' k else None) with
  | Some v => Some v
  | None => k s c
  end.
Proof.
  rewrite run_star_loop. rewrite (star_loop_fuel r k (length s) (S (length s))) by lia.
  cbn [star_loop].
  rewrite (run_ext r s c _ (fun s' c' => if length s' <? length s then run (RStar r) s' c' k else None)); auto.
  intros. destruct (Nat.ltb_spec (length s') (length s)); auto.
  rewrite run_star_loop. apply star_loop_fuel; lia.
Qed.

(** Declarative meaning: [M r s s' c c'] -- [r] can consume [s] up to [s']. *)
Inductive M : re -> str -> str -> caps -> caps -> Prop :=
| M_eps s c : M REps s s c c
| M_chr p x s c : p x = true -> M (RChr p) (x :: s) s c c
| M_seq a b s s1 s2 c c1 c2 : M a s s1 c c1 -> M b s1 s2 c1 c2 -> M (RSeq a b) s s2 c c2
| M_altl a b s s1 c c1 : M a s s1 c c1 -> M (RAlt a b) s s1 c c1
| M_altr a b s s1 c c1 : M b s s1 c c1 -> M (RAlt a b) s s1 c c1
| M_star0 r s c : M (RStar r) s s c c
| M_star1 r s s1 s2 c c1 c2 : M r s s1 c c1 -> length s1 < length s ->
    M (RStar r) s1 s2 c1 c2 -> M (RStar r) s s2 c c2
| M_grp n r s s1 c c1 : M r s s1 c c1 ->
    M (RGrp n r) s s1 c ((n, firstn (length s - length s1) s) :: c1).

Lemma run_sound {X} r : forall s c (k : str -> caps -> option X) v,
  run r s c k = Some v -> exists s' c', M r s s' c c' /\ k s' c' = Some v.
Proof.
  induction r as [|p|a IHa b IHb|a IHa b IHb|r IH|name r IH]; intros s c k v H.
  - simpl in H. eauto using M.
  - simpl in H. destruct s as [|x s]; [congruence|]. destruct (p x) eqn:E; [|congruence].
    eauto using M.
  - simpl in H. apply IHa in H as (s1 & c1 & H1 & H2). apply IHb in H2 as (s2 & c2 & H2 & H3).
    eauto using M.
  - simpl in H. destruct (run a s c k) eqn:E.
    + injection H as ->. apply IHa in E as (s1 & c1 & H1 & H2). eauto using M.
    + apply IHb in H as (s1 & c1 & H1 & H2). eauto using M.
  - revert c H. induction s as [s IHs] using (induction_ltof1 _ (@length ascii)). unfold ltof in IHs.
    intros c H. rewrite run_star in H.
    destruct (run r s c _) eqn:E.
    + injection H as ->. apply IH in E as (s1 & c1 & H1 & H2).
      destruct (Nat.ltb_spec (length s1) (length s)) as [L|L]; [|congruence].
      apply IHs in H2 as (s2 & c2 & H2 & H3); auto. eauto using M.
    + eauto using M.
  - simpl in H. apply IH in H as (s1 & c1 & H1 & H2). eauto using M.
Qed.

Lemma run_complete {X} r s s' c c' : M r s s' c c' ->
  forall (k : str -> caps -> option X), k s' c' <> None -> run r s c k <> None.
Proof.
  induction 1 as [| |? ? ? ? ? ? ? ? ? IH1 ? IH2|? ? ? ? ? ? ? IH|? ? ? ? ? ? ? IH| |
                 ? ? ? ? ? ? ? ? IH1 L ? IH2|? ? ? ? ? ? ? IH]; intros k Hk.
  - auto.
  - simpl. now rewrite H.
  - simpl. apply IH1, IH2, Hk.
  - simpl. specialize (IH k Hk). destruct (run a s c k); congruence.
  - simpl. specialize (IH k Hk). destruct (run a s c k); congruence.
  - rewrite run_star. destruct (run r s c _); congruence.
  - rewrite run_star.
    match goal with |- match ?x with _ => _ end <> _ => destruct x eqn:E end; [congruence|].
    exfalso. revert E. apply IH1. destruct (Nat.ltb_spec (length s1) (length s)); [|lia].
    apply IH2, Hk.
  - simpl. apply IH, Hk.
Qed.

(** [M] consumes a prefix. *)
Lemma M_suffix r s s' c c' : M r s s' c c' -> exists w, s = w ++ s'.
Proof.
  induction 1 as [| |? ? ? ? ? ? ? ? ? [w1 ->] ? [w2 ->]|? ? ? ? ? ? ? IH|? ? ? ? ? ? ? IH| |
                 ? ? ? ? ? ? ? ? [w1 ->] L ? [w2 ->]|? ? ? ? ? ? ? IH]; auto.
  - now exists [].
  - now exists [x].
  - exists (w1 ++ w2). now rewrite app_assoc.
  - now exists [].
  - exists (w1 ++ w2). now rewrite app_assoc.
Qed.

(** *** First-match lemmas *)

(** Case-insensitive and exact literals. *)
Fixpoint prefix_by (p : ascii -> ascii -> bool) (w s : str) : bool :=
  match w, s with
  | [], _ => true
  | x :: w', y :: s' => p x y && prefix_by p w' s'
  | _ :: _, [] => false
  end.
Lemma run_lit_by {X} p w s c (k : str -> caps -> option X) :
  run (RLit p w) s c k = if prefix_by p w s then k (skipn (length w) s) c else None.
Proof.
  revert s. induction w as [|x w IH]; intros s; simpl; auto.
  destruct s as [|y s]; auto. destruct (p x y); simpl; auto.
Qed.

(** Greedy star over a class: takes everything if the continuation succeeds. *)
Definition head_not (p : ascii -> bool) (s : str) : Prop :=
  match s with [] => True | x :: _ => p x = false end.

Lemma run_star_class {X} p w s c (k : str -> caps -> option X) :
  forallb p w = true -> head_not p s -> k s c <> None ->
  run (RStar (RChr p)) (w ++ s) c k = k s c.
Proof.
  intros Hw Hs Hk. revert Hw. induction w as [|x w IH]; intros Hw; rewrite run_star.
  - simpl. destruct s as [|x s]; auto. simpl in Hs. now rewrite Hs.
  - simpl in Hw. apply andb_true_iff in Hw as [H1 H2].
    cbn [app]. unfold run at 1. rewrite H1.
    destruct (Nat.ltb_spec (length (w ++ s)) (length (x :: w ++ s))) as [L|L]; [|simpl in L; lia].
    rewrite IH by auto. destruct (k s c); congruence.
Qed.
Lemma run_plus_class {X} p w s c (k : str -> caps -> option X) :
  w <> [] -> forallb p w = true -> head_not p s -> k s c <> None ->
  run (RPlus (RChr p)) (w ++ s) c k = k s c.
Proof.
  intros Hn Hw Hs Hk. destruct w as [|x w]; [congruence|].
  simpl in Hw. apply andb_true_iff in Hw as [H1 H2].
  unfold RPlus. cbn [app run]. rewrite H1. now apply run_star_class.
Qed.

(** Failure: a star over a class fails when the continuation fails at every split. *)
Lemma run_star_class_none {X} p s c (k : str -> caps -> option X) :
  (forall w t, s = w ++ t -> forallb p w = true -> k t c = None) ->
  run (RStar (RChr p)) s c k = None.
Proof.
  revert c. induction s as [|x s IH]; intros c H; rewrite run_star.
  - simpl. now apply (H [] []).
  - unfold run at 1. destruct (p x) eqn:E.
    + destruct (Nat.ltb_spec (length s) (length (x :: s))) as [L|L]; [|simpl in L; lia].
      rewrite IH.
      * now apply (H [] (x :: s)).
      * intros w t -> Hw. apply (H (x :: w) t); auto. simpl. now rewrite E.
    + now apply (H [] (x :: s)).
Qed.
Lemma run_plus_class_none {X} p s c (k : str -> caps -> option X) :
  (forall w t, w <> [] -> s = w ++ t -> forallb p w = true -> k t c = None) ->
  run (RPlus (RChr p)) s c k = None.
Proof.
  intros H. unfold RPlus. destruct s as [|x s]; auto. cbn [run]. destruct (p x) eqn:E; auto.
  apply run_star_class_none. intros w t -> Hw.
  apply (H (x :: w) t); [congruence|auto|]. simpl. now rewrite E.
Qed.
Lemma run_plus_class_head {X} p s c (k : str -> caps -> option X) :
  head_not p s -> run (RPlus (RChr p)) s c k = None.
Proof. unfold RPlus. destruct s as [|x s]; auto. simpl. now intros ->. Qed.
