(** Generic facts on three-way comparison functions. *)
From Coq Require Import String Ascii List Bool ZArith NArith Lia.
From Verif.Model Require Import GoStr.
From Verif.Spec Require Import Pep440Spec.
Import ListNotations.

Record cmp_ok {A} (c : A -> A -> comparison) : Prop := {
  ok_anti : forall x y, c y x = CompOpp (c x y);
  ok_eq : forall x y z, c x y = Eq -> c x z = c y z;
  ok_lt : forall x y z, c x y = Lt -> c y z = Lt -> c x z = Lt
}.

Lemma ok_refl {A} (c : A -> A -> comparison) : cmp_ok c -> forall x, c x x = Eq.
Proof. intros H x. pose proof (ok_anti _ H x x) as E. now destruct (c x x). Qed.

Lemma ok_eq_r {A} (c : A -> A -> comparison) : cmp_ok c ->
  forall x y z, c y z = Eq -> c x y = c x z.
Proof.
  intros H x y z E. rewrite (ok_anti _ H y x), (ok_anti _ H z x).
  f_equal. now apply ok_eq.
Qed.

Lemma ok_le_trans {A} (c : A -> A -> comparison) : cmp_ok c ->
  forall x y z, c x y <> Gt -> c y z <> Gt -> c x z <> Gt.
Proof.
  intros H x y z Hxy Hyz.
  destruct (c x y) eqn:E1; [|destruct (c y z) eqn:E2|]; try congruence.
  - rewrite (ok_eq _ H _ _ _ E1). exact Hyz.
  - rewrite <- (ok_eq_r _ H x _ _ E2). congruence.
  - rewrite (ok_lt _ H _ _ _ E1 E2). congruence.
Qed.

Lemma Z_compare_ok : cmp_ok Z.compare.
Proof.
  split.
  - intros. apply Z.compare_antisym.
  - intros x y z E. apply Z.compare_eq in E. now subst.
  - intros x y z. rewrite !Z.compare_lt_iff. lia.
Qed.

Lemma N_compare_ok : cmp_ok N.compare.
Proof.
  split.
  - intros. apply N.compare_antisym.
  - intros x y z E. apply N.compare_eq in E. now subst.
  - intros x y z. rewrite !N.compare_lt_iff. lia.
Qed.

Lemma lex_eq c d : lex c d = Eq <-> c = Eq /\ d = Eq.
Proof. destruct c, d; simpl; intuition congruence. Qed.

Lemma cmp_pair_ok {A B} (ca : A -> A -> comparison) (cb : B -> B -> comparison) :
  cmp_ok ca -> cmp_ok cb -> cmp_ok (cmp_pair ca cb).
Proof.
  intros Ha Hb. unfold cmp_pair. split.
  - intros x y. rewrite (ok_anti _ Ha (fst x)), (ok_anti _ Hb (snd x)).
    now destruct (ca (fst x) (fst y)), (cb (snd x) (snd y)).
  - intros x y z E. apply lex_eq in E as [E1 E2].
    now rewrite (ok_eq _ Ha _ _ _ E1), (ok_eq _ Hb _ _ _ E2).
  - intros x y z.
    destruct (ca (fst x) (fst y)) eqn:E1; simpl; try congruence; intros H1.
    + rewrite (ok_eq _ Ha _ _ _ E1).
      destruct (ca (fst y) (fst z)) eqn:E2; simpl; try congruence; intros H2.
      eapply ok_lt; eauto.
    + destruct (ca (fst y) (fst z)) eqn:E2; simpl; try congruence; intros H2.
      * now rewrite <- (ok_eq_r _ Ha _ _ _ E2), E1.
      * now rewrite (ok_lt _ Ha _ _ _ E1 E2).
Qed.

Lemma cmp_list_ok {A} (c : A -> A -> comparison) : cmp_ok c -> cmp_ok (cmp_list c).
Proof.
  intros H. split.
  - induction x as [|a x IH]; destruct y as [|b y]; simpl; auto.
    rewrite (ok_anti _ H a b), IH. now destruct (c a b).
  - induction x as [|a x IH]; destruct y as [|b y]; destruct z as [|d z]; simpl; try congruence.
    + intros E. apply lex_eq in E as [E1 E2].
      rewrite (ok_eq _ H _ _ _ E1). now rewrite (IH _ z E2).
  - induction x as [|a x IH]; destruct y as [|b y]; destruct z as [|d z]; simpl; try congruence.
    destruct (c a b) eqn:E1; simpl; try congruence; intros H1.
    + rewrite (ok_eq _ H _ _ _ E1).
      destruct (c b d) eqn:E2; simpl; try congruence; intros H2. eauto.
    + destruct (c b d) eqn:E2; simpl; try congruence; intros H2.
      * now rewrite <- (ok_eq_r _ H _ _ _ E2), E1.
      * now rewrite (ok_lt _ H _ _ _ E1 E2).
Qed.

Lemma cmp_ext_ok {A} (c : A -> A -> comparison) : cmp_ok c -> cmp_ok (cmp_ext c).
Proof.
  intros H. split.
  - intros [|x|] [|y|]; simpl; auto. apply H.
  - intros [|x|] [|y|] [|z|]; simpl; try congruence. apply H.
  - intros [|x|] [|y|] [|z|]; simpl; try congruence. apply H.
Qed.

Lemma cmp_map_ok {A B} (f : A -> B) (c : B -> B -> comparison) :
  cmp_ok c -> cmp_ok (fun x y => c (f x) (f y)).
Proof.
  intros H. split; intros.
  - apply H.
  - now apply H.
  - eapply ok_lt; eauto.
Qed.

Lemma cmp_lex_ok {A} (c d : A -> A -> comparison) :
  cmp_ok c -> cmp_ok d -> cmp_ok (fun x y => lex (c x y) (d x y)).
Proof.
  intros Hc Hd.
  exact (cmp_map_ok (fun x => (x, x)) _ (cmp_pair_ok _ _ Hc Hd)).
Qed.

Lemma byte_eqb_eq a b : byte_eqb a b = true <-> a = b.
Proof. apply Ascii.eqb_eq. Qed.
Lemma byte_eqb_refl a : byte_eqb a a = true.
Proof. now apply byte_eqb_eq. Qed.
Lemma byte_eqb_neq a b : byte_eqb a b = false <-> a <> b.
Proof. apply Ascii.eqb_neq. Qed.

Lemma code_inj a b : code a = code b -> a = b.
Proof.
  intros H. rewrite <- (ascii_N_embedding a), <- (ascii_N_embedding b).
  unfold code in H. now rewrite H.
Qed.

Lemma str_compare_cmp_list a b :
  str_compare a b = cmp_list (fun x y => N.compare (code x) (code y)) a b.
Proof.
  revert b. induction a as [|x a IH]; destruct b as [|y b]; simpl; auto.
  rewrite <- IH. now destruct (N.compare (code x) (code y)).
Qed.

Lemma str_compare_ok : cmp_ok str_compare.
Proof.
  assert (H : cmp_ok (cmp_list (fun x y => N.compare (code x) (code y)))).
  { apply cmp_list_ok, cmp_map_ok, N_compare_ok. }
  destruct H as [H1 H2 H3].
  split; intros; rewrite ?str_compare_cmp_list in *; eauto.
Qed.

Lemma str_compare_eq a b : str_compare a b = Eq <-> a = b.
Proof.
  split.
  - revert b. induction a as [|x a IH]; destruct b as [|y b]; simpl; try congruence.
    destruct (N.compare (code x) (code y)) eqn:E; try congruence.
    apply N.compare_eq in E. apply code_inj in E. intros H. subst. f_equal; auto.
  - intros ->. apply ok_refl, str_compare_ok.
Qed.

Lemma str_eqb_eq a b : str_eqb a b = true <-> a = b.
Proof.
  revert b. induction a as [|x a IH]; destruct b as [|y b]; simpl; split; try congruence; auto.
  - rewrite andb_true_iff, byte_eqb_eq, IH. intros [-> ->]. auto.
  - intros H. injection H as -> ->. rewrite byte_eqb_refl. simpl. now apply IH.
Qed.
Lemma str_eqb_refl a : str_eqb a a = true.
Proof. now apply str_eqb_eq. Qed.
Lemma str_eqb_neq a b : str_eqb a b = false <-> a <> b.
Proof.
  split; intros H.
  - intros E. apply str_eqb_eq in E. congruence.
  - destruct (str_eqb a b) eqn:E; auto. apply str_eqb_eq in E. congruence.
Qed.
Lemma str_eqb_sym a b : str_eqb a b = str_eqb b a.
Proof.
  destruct (str_eqb a b) eqn:E.
  - apply str_eqb_eq in E. subst. symmetry. apply str_eqb_refl.
  - symmetry. apply str_eqb_neq. apply str_eqb_neq in E. congruence.
Qed.
Lemma str_ltb_lt a b : str_ltb a b = true <-> str_compare a b = Lt.
Proof. unfold str_ltb. destruct (str_compare a b); intuition congruence. Qed.
