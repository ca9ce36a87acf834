(** The comparison of layers in tests is exact. *)
From Coq Require Import String Ascii List Bool ZArith Lia.
From Verif.Model Require Import GoStr Tar AssertLayers.
From Verif.Spec Require Import AssertLayersSpec.
From Verif.Proofs Require Import Order GoStrFacts.
Import ListNotations.
Local Open Scope nat_scope.

Lemma items_read l stop es : read_items l stop = inl es <-> l = map (fun e => (fst e, inl (snd e))) es /\ stop = None.
Proof.
  revert es. induction l as [|[h [b|e]] l IH]; intros es; cbn [read_items].
  - destruct stop as [e|]; (split; [|intros [E N]]).
    + discriminate.
    + discriminate.
    + intros E. injection E as <-. auto.
    + destruct es; [reflexivity|discriminate].
  - destruct (read_items l stop) as [es'|e].
    + split.
      * intros E. injection E as <-. destruct (proj1 (IH _) eq_refl) as [-> ->]. auto.
      * intros [E N]. destruct es as [|[h' b'] es]; [discriminate|]. cbn [map fst snd] in E. injection E as -> -> E. assert (X : @inl (list (header * str)) nat es' = inl es) by (apply IH; auto). congruence.
    + split; [discriminate|]. intros [E N]. destruct es as [|[h' b'] es]; [discriminate|]. cbn [map fst snd] in E. injection E as -> -> E. assert (X : @inr (list (header * str)) nat e = inl es) by (apply IH; auto). discriminate.
  - split; [discriminate|]. intros [E _]. destruct es as [|[h' b'] es]; discriminate.
Qed.
Lemma filter_once (f : str -> bool) (P : str -> Prop) l : (forall x, f x = true <-> P x) -> length (filter f l) = 1 <-> once P l.
Proof.
  intros F. split.
  - induction l as [|x l IH]; cbn [filter]; [discriminate|]. destruct (f x) eqn:X; cbn [length]; intros L.
    + exists [], x, l. split; [reflexivity|]. split; [now apply F|]. cbn [app]. destruct (filter f l) as [|y k] eqn:E; [|discriminate].
      apply Forall_forall. intros y I Y. apply F in Y. assert (In y (filter f l)) as Z by (apply filter_In; auto). rewrite E in Z. destruct Z.
    + destruct (IH L) as (a & y & b & -> & Y & N). exists (x :: a), y, b. split; [reflexivity|]. split; auto. cbn [app]. constructor; auto. rewrite <- F. congruence.
  - intros (a & x & b & -> & X & N). rewrite filter_app, app_length. cbn [filter]. rewrite (proj2 (F x) X). cbn [length].
    assert (Z : forall k, Forall (fun y => ~ P y) k -> filter f k = []).
    { induction 1 as [|y k Y _ IH]; [reflexivity|]. cbn [filter]. destruct (f y) eqn:E; auto. exfalso. apply Y. now apply F. }
    apply Forall_app in N as [A B]. rewrite (Z a A), (Z b B). reflexivity.
Qed.
Lemma begins_is c l : has_prefix [c] l = true <-> begins c l.
Proof.
  destruct l as [|x l]; cbn [has_prefix].
  - split; [discriminate|]. intros (x & E). discriminate.
  - rewrite andb_true_r. unfold byte_eqb. rewrite Ascii.eqb_eq. split; [intros ->; now exists l|]. intros (y & E). congruence.
Qed.
Lemma one_line_is d : one_line d = true <-> one_changed d.
Proof.
  assert (D : forall x, has_prefix $"-" x = true <-> begins "-" x) by (intros; apply begins_is).
  assert (A : forall x, negb (has_prefix $"-" x) && has_prefix $"+" x = true <-> begins "+" x).
  { intros x. rewrite andb_true_iff, negb_true_iff. change $"+" with ["+"%char]. rewrite begins_is. split; [tauto|]. intros B. split; auto. destruct (has_prefix $"-" x) eqn:E; auto. apply D in E as (y & ->). destruct B as (z & B). discriminate. }
  unfold one_line. rewrite !andb_true_iff, Nat.ltb_lt, !Nat.eqb_eq, (filter_once _ _ _ D), (filter_once _ _ _ A). split.
  - intros (L & X & Y). assert (J := join_split_on "010" d). assert (N := split_on_no_sep "010" d). destruct (split_on "010" d) as [|h1 [|h2 [|h3 rest]]]; [cbn in L; lia..|]. cbn [skipn] in X, Y. exists h1, h2, h3, rest. auto.
  - intros (h1 & h2 & h3 & rest & -> & N & X & Y). rewrite split_on_join by (auto; discriminate). cbn [skipn length]. split; auto. destruct rest; [|cbn; lia]. destruct X as ([|] & ? & ? & X & _); discriminate.
Qed.
Section exact.
  Context (full : list (header * str) -> str -> str) (listing : list header -> str).
  Lemma full_reads l s : dump_full full l = inl s <-> exists es t, reads l es t /\ s = full es t.
  Proof.
    unfold dump_full. destruct (st_open l) as [e|] eqn:O.
    { split; [discriminate|]. intros (es & t & (X & _) & _). congruence. }
    split.
    - destruct (read_items (st_items l) (st_end l)) as [es|e] eqn:R; [|discriminate]. apply items_read in R as [I E]. destruct (st_tail l) as [t|e] eqn:T; [|discriminate].
      destruct (st_close l) as [e|] eqn:C; [discriminate|]. cbn [closing]. intros H. injection H as <-. exists es, t. repeat split; auto.
    - intros (es & t & (_ & I & E & T & C) & ->). rewrite (proj2 (items_read _ _ es) (conj I E)), T, C. reflexivity.
  Qed.
  Lemma listing_reads l es t : reads l es t -> dump_listing listing l = inl (listing (map fst es)).
  Proof. intros (O & I & E & T & C). unfold dump_listing. rewrite O, (proj2 (items_read _ _ es) (conj I E)), C. reflexivity. Qed.
  Lemma reads_unique l es t es' t' : reads l es t -> reads l es' t' -> es = es' /\ t = t'.
  Proof.
    intros (_ & I & _ & T & _) (_ & I' & _ & T' & _). split; [|congruence]. rewrite I in I'. clear - I'. revert es' I'. induction es as [|[h b] es IH]; intros [|[h' b'] es'] E; try discriminate; auto.
    cbn [map fst snd] in E. injection E as -> -> E. f_equal. auto.
  Qed.
  Theorem assert_true saved diff a b : tells_apart full a b -> fst (assert_equal full listing saved diff a b) = true <-> same_layer a b.
  Proof.
    intros INJ. split.
    - unfold assert_equal. destruct (dump_listing listing a) as [la|e]; [|discriminate]. destruct (dump_listing listing b) as [lb|e]; [|discriminate].
      destruct (if str_eqb la lb then _ else _) as [go_on reports]. destruct go_on; [|discriminate]. cbn [negb].
      destruct (dump_full full a) as [fa|e] eqn:FA; [|discriminate]. destruct (dump_full full b) as [fb|e] eqn:FB; [|discriminate].
      destruct (str_eqb fa fb) eqn:Q; [|discriminate]. apply str_eqb_eq in Q as <-. intros _.
      apply full_reads in FA as (es & t & R & E). apply full_reads in FB as (es' & t' & R' & E'). destruct (INJ es t es' t') as [<- <-]; [auto..|congruence|]. now exists es, t.
    - intros (es & t & R & R'). unfold assert_equal. rewrite (listing_reads _ _ _ R), (listing_reads _ _ _ R'). rewrite str_eqb_refl. cbn [negb].
      rewrite (proj2 (full_reads a (full es t))), (proj2 (full_reads b (full es t))) by eauto. rewrite str_eqb_refl. reflexivity.
  Qed.
  Theorem assert_reports saved diff a b : tells_apart full a b ->
    (same_layer a b -> snd (assert_equal full listing saved diff a b) = saved) /\
    (~ same_layer a b -> exists r rest, snd (assert_equal full listing saved diff a b) = saved ++ r :: rest).
  Proof.
    intros INJ. split.
    - intros (es & t & R & R'). unfold assert_equal. rewrite (listing_reads _ _ _ R), (listing_reads _ _ _ R'). rewrite str_eqb_refl. cbn [negb].
      rewrite (proj2 (full_reads a (full es t))), (proj2 (full_reads b (full es t))) by eauto. rewrite str_eqb_refl. reflexivity.
    - intros N. assert (F : fst (assert_equal full listing saved diff a b) <> true) by (rewrite assert_true by auto; exact N). revert F. unfold assert_equal.
      destruct (dump_listing listing a) as [la|e]; [|cbn; eauto]. destruct (dump_listing listing b) as [lb|e]; [|cbn; eauto].
      destruct (str_eqb la lb).
      + cbn [negb]. destruct (dump_full full a) as [fa|e]; [|cbn; eauto]. destruct (dump_full full b) as [fb|e]; [|cbn; eauto]. destruct (str_eqb fa fb); [intros F; exfalso; now apply F|cbn; eauto].
      + destruct (one_line (diff la lb)); cbn [negb]; [|cbn; eauto]. intros _. destruct (dump_full full a) as [fa|e]; [|cbn; rewrite <- app_assoc; cbn; eauto]. destruct (dump_full full b) as [fb|e]; [|cbn; rewrite <- app_assoc; cbn; eauto]. destruct (str_eqb fa fb); cbn; [eauto|rewrite <- app_assoc; cbn; eauto].
  Qed.
  (** What is reported of layers that can be read *)
  Theorem assert_details saved diff a b es t es' t' : reads a es t -> reads b es' t' ->
    let out := snd (assert_equal full listing saved diff a b) in
    let la := listing (map fst es) in let lb := listing (map fst es') in
    let contents := if str_eqb (full es t) (full es' t') then [] else [ContentsDiffer] in
    (la = lb -> out = saved ++ contents) /\
    (la <> lb -> one_changed (diff la lb) -> out = saved ++ ListingsDiffer :: contents) /\
    (la <> lb -> ~ one_changed (diff la lb) -> out = saved ++ [ListingsDiffer]).
  Proof.
    intros R R'. cbv zeta. unfold assert_equal. rewrite (listing_reads _ _ _ R), (listing_reads _ _ _ R').
    rewrite (proj2 (full_reads a (full es t))), (proj2 (full_reads b (full es' t'))) by eauto. repeat split.
    - intros ->. rewrite str_eqb_refl. cbn [negb]. destruct (str_eqb (full es t) (full es' t')); cbn [snd]; [now rewrite app_nil_r|reflexivity].
    - intros N O. rewrite (proj2 (str_eqb_neq _ _) N). rewrite (proj2 (one_line_is _) O). cbn [negb]. destruct (str_eqb (full es t) (full es' t')); cbn [snd]; [reflexivity|now rewrite <- app_assoc].
    - intros N O. rewrite (proj2 (str_eqb_neq _ _) N). destruct (one_line (diff (listing (map fst es)) (listing (map fst es')))) eqn:E; [apply one_line_is in E; contradiction|reflexivity].
  Qed.
End exact.

Lemma diff_cases : one_changed diff_one /\ ~ one_changed diff_two.
Proof. split; [apply one_line_is; reflexivity|]. intros O. apply one_line_is in O. discriminate. Qed.

Lemma example_apart : tells_apart brief layer_a layer_b /\ ~ same_layer layer_a layer_b.
Proof.
  assert (A : reads layer_a [(with_name (plain_header TypeDir 493) $"a/", []); (with_name (plain_header TypeReg 420) $"a/x", $"hello")] []) by (repeat split).
  assert (B : reads layer_b [(with_name (plain_header TypeDir 493) $"a/", []); (with_name (plain_header TypeReg 420) $"a/x", $"hullo")] []) by (repeat split).
  split.
  - intros es t es' t' R R' E. destruct (reads_unique _ _ _ _ _ A R) as [<- <-]. destruct (reads_unique _ _ _ _ _ B R') as [<- <-]. vm_compute in E. discriminate.
  - intros (es & t & R & R'). destruct (reads_unique _ _ _ _ _ A R) as [<- <-]. destruct (reads_unique _ _ _ _ _ B R') as [E _]. discriminate.
Qed.
Lemma example_same : tells_apart brief layer_a layer_a /\ same_layer layer_a layer_a.
Proof.
  split.
  - intros es t es' t' R R' E. exact (reads_unique _ _ _ _ _ R R').
  - exists [(with_name (plain_header TypeDir 493) $"a/", []); (with_name (plain_header TypeReg 420) $"a/x", $"hello")], []. split; repeat split.
Qed.
