(** Proofs about Spec/PrintedSpec.v: C13. *)
From Coq Require Import String Ascii List Bool ZArith NArith Lia.
From Verif.Model Require Import GoStr Pep440 Specifier.
From Verif.Spec Require Import Pep440Spec VersionGrammar SpecifierSpec ExactSpec PrintedSpec.
From Verif.Proofs Require Import Order GoStrFacts Pep440Cmp Pep440Parse Pep440Sound SpecifierParse SpecifierMatch ExactFacts.
Import ListNotations.
Local Open Scope Z_scope.

Definition plain_byte (c : ascii) : bool := negb (is_space c) && negb (byte_eqb c ","%char) && negb (byte_eqb c "="%char).
Lemma digit_plain : forall c, is_digit c = true -> plain_byte c = true.
Proof. chars. Qed.
Lemma alnum_plain : forall c, lower_alnum c = true -> plain_byte c = true.
Proof. chars. Qed.
Lemma itoa_plain z : 0 <= z -> forallb plain_byte (itoa z) = true.
Proof. intros H. apply itoa_digits, all_digits_spec in H as [_ H]. eapply forallb_impl; [apply digit_plain|auto]. Qed.
Lemma join_plain sep l : forallb plain_byte sep = true -> Forall (fun s => forallb plain_byte s = true) l -> forallb plain_byte (join sep l) = true.
Proof.
  intros Hs. induction 1 as [|x l Hx Hl IH]; auto. destruct l as [|y l]; auto.
  change (join sep (x :: y :: l)) with (x ++ sep ++ join sep (y :: l)). rewrite !forallb_app, Hx, Hs, IH. reflexivity.
Qed.
Lemma canonical_plain v : canonical v -> forallb plain_byte (version_string v) = true.
Proof.
  intros (R & Hl & Hs). destruct R as (R1 & R2 & R3 & R4 & R5 & R6).
  unfold version_string, public_string. rewrite !forallb_app, !andb_true_iff.
  assert (I : forall z, int64_ok z -> forallb plain_byte (itoa z) = true) by (intros z [Hz _]; now apply itoa_plain).
  split; [split; [|split; [|split; [|split]]]|].
  - destruct (0 <? epoch (pub v))%Z; auto. now rewrite forallb_app, I.
  - apply join_plain; auto. apply Forall_map. eapply Forall_impl; eauto.
  - destruct (pre (pub v)) as [[l n]|]; auto. rewrite forallb_app, I by (eapply R4; eauto).
    destruct (Hl l n eq_refl) as [->|[->| ->]]; reflexivity.
  - destruct (post (pub v)) as [n|]; auto. now rewrite forallb_app, I by (eapply R5; eauto).
  - destruct (dev (pub v)) as [n|]; auto. now rewrite forallb_app, I by (eapply R6; eauto).
  - assert (G : forall sep, forallb plain_byte sep = true -> forallb plain_byte (local_string sep (local v)) = true).
    { clear -Hs. induction Hs as [|s l H Hs IH]; intros sep Hsep; auto. cbn [local_string].
      rewrite !forallb_app, Hsep, IH by reflexivity. rewrite andb_true_r. simpl.
      destruct s as [i|s]; simpl in *.
      - apply itoa_plain, H.
      - destruct H as (_ & H & _). eapply forallb_impl; [apply alnum_plain|auto]. }
    now apply G.
Qed.
Lemma clause_string_solid v op : canonical v -> forallb (fun c => negb (is_space c) && negb (byte_eqb c ","%char)) (clause_string (mkClause op v)) = true.
Proof.
  intros H. unfold clause_string. rewrite forallb_app. apply andb_true_iff. split; [destruct op; reflexivity|].
  apply canonical_plain in H. cbn [c_ver]. revert H. apply forallb_impl. intros c Hc. unfold plain_byte in Hc. now apply andb_true_iff in Hc as [Hc _].
Qed.
Lemma clean_text s : forallb (fun c => negb (is_space c) && negb (byte_eqb c ","%char)) s = true -> trim_space s = s /\ ~ In ","%char s.
Proof.
  intros H. split.
  - assert (T : forall t, forallb (fun c => negb (is_space c) && negb (byte_eqb c ","%char)) t = true -> trim_left is_space t = t).
    { intros [|x t]; auto. cbn [forallb trim_left]. rewrite andb_true_iff. intros [Hx _].
      apply andb_true_iff in Hx as [Hx _]. apply negb_true_iff in Hx. now rewrite Hx. }
    unfold trim_space, trim_right. rewrite (T s H), T; [apply rev_involutive|]. rewrite forallb_forall in *. intros x Hx. apply H. now apply in_rev.
  - intros I. rewrite forallb_forall in H. apply H in I. discriminate I.
Qed.
Lemma parts_printed cs : Forall (fun c => canonical (c_ver c)) cs -> parts (specifier_string cs) = map clause_string cs.
Proof.
  intros F. unfold parts, specifier_string. destruct cs as [|c0 cs0] eqn:E; [reflexivity|]. rewrite <- E in *. clear E c0 cs0.
  destruct cs as [|c0 cs0] eqn:E; [reflexivity|]. change $"," with [","%char]. rewrite split_on_join.
  - rewrite <- E in *. clear E. induction F as [|[op v] cs H F IH]; [reflexivity|]. cbn [map].
    destruct (clean_text _ (clause_string_solid v op H)) as [-> _].
    cbn [filter]. replace (str_eqb (clause_string _) []) with false; [cbn [negb]; now f_equal|].
    symmetry. apply not_true_iff_false. intros X. apply str_eqb_eq in X. unfold clause_string in X. cbn [c_op] in X. destruct op; discriminate X.
  - discriminate.
  - rewrite <- E. apply Forall_map. revert F. rewrite E. apply Forall_impl. intros [op v] H. exact (proj2 (clean_text _ (clause_string_solid v op H))).
Qed.
Lemma read_as_parse p d : trim_space p = p -> ~ In ","%char p -> p <> [] -> (read_as p d <-> parse_specifier p = Ok [d]).
Proof.
  intros T N X. rewrite specifier_read. unfold parts. rewrite split_on_none by exact N. cbn [map filter]. rewrite T.
  replace (str_eqb p []) with false by (destruct p; [congruence|reflexivity]). cbn [negb]. split.
  - intros H. repeat constructor. exact H.
  - intros H. inversion H; subst. assumption.
Qed.
Lemma first_digit v : canonical v -> exists x t, version_string v = x :: t /\ x <> "="%char.
Proof.
  intros H. pose proof (canonical_plain v H) as P. destruct (version_string v) as [|x t] eqn:E.
  - pose proof (parse_string v H) as Q. rewrite E in Q. vm_compute in Q. discriminate Q.
  - exists x, t. split; [reflexivity|]. intros ->. discriminate P.
Qed.
Lemma clause_string_nonempty c : clause_string c <> [].
Proof. destruct c as [op v]. unfold clause_string. destruct op; discriminate. Qed.
Lemma parse_unique p d c : parse_specifier p = Ok [c] -> (parse_specifier p = Ok [d] <-> d = c).
Proof. intros ->. split; [intros E; congruence|intros ->; reflexivity]. Qed.
Lemma ordered_again op x t d : (op = OpLT \/ op = OpGT) -> x <> "="%char ->
  (read_as (op_string op ++ x :: t) d <-> c_op d = op /\ parse_version t = Some (c_ver d) /\ permitted (c_op d) (c_ver d) = true).
Proof.
  intros O Nx. split.
  - intros (w & t' & E & W & V & P). destruct d as [od vd]. cbn [c_op c_ver] in *.
    destruct O as [-> | ->]; destruct od; unfold clause_text in E; cbn [op_string operator_text passed_over] in *;
      try (injection E; intros; subst; congruence); try discriminate E;
      destruct W as (c & -> & _); rewrite app_nil_r in E; injection E; intros; subst; auto.
  - intros (Eo & V & P). exists [x], t. split; [|split; [|split; assumption]].
    + unfold clause_text. rewrite Eo. destruct O as [-> | ->]; cbn [operator_text op_string]; now rewrite app_nil_r.
    + rewrite Eo. destruct O as [-> | ->]; exists x; auto.
Qed.
Lemma again_clause c d : canonical (c_ver c) -> permitted (c_op c) (c_ver c) = true -> (read_as (clause_string c) d <-> read_again c d).
Proof.
  intros H P. destruct (clean_text (clause_string c)) as [T N]; [destruct c; now apply clause_string_solid|].
  pose proof (read_as_parse _ d T N (clause_string_nonempty c)) as R.
  destruct c as [op v]. cbn [c_op c_ver] in *. unfold read_again. cbn [c_op c_ver].
  assert (Q : forall op', printable_op op' -> permitted op' v = true -> op_string op' = op_string op ->
    (read_as (clause_string (mkClause op v)) d <-> d = mkClause op' v)).
  { intros op' O1 O2 O3. rewrite R. apply parse_unique. replace (clause_string (mkClause op v)) with (clause_string (mkClause op' v)) by (unfold clause_string; cbn [c_op c_ver]; now rewrite O3).
    now apply parse_clause_string. }
  destruct op.
  - apply Q; [exact Logic.I|exact P|reflexivity].
  - apply Q; [exact Logic.I|exact P|reflexivity].
  - apply Q; [exact Logic.I|reflexivity|reflexivity].
  - apply Q; [exact Logic.I|exact P|reflexivity].
  - apply Q; [exact Logic.I|reflexivity|reflexivity].
  - apply Q; [exact Logic.I|exact P|reflexivity].
  - apply Q; [exact Logic.I|exact P|reflexivity].
  - destruct (first_digit v H) as (x & t & E & Nx). unfold clause_string. cbn [c_op c_ver]. rewrite E. cbn [tl]. apply (ordered_again OpLT x t d); auto.
  - destruct (first_digit v H) as (x & t & E & Nx). unfold clause_string. cbn [c_op c_ver]. rewrite E. cbn [tl]. apply (ordered_again OpGT x t d); auto.
Qed.
Theorem printed_again s cs : parse_specifier s = Ok cs -> (forall c, In c cs -> Forall nonneg_seg (local (c_ver c))) ->
  forall ds, parse_specifier (specifier_string cs) = Ok ds <-> Forall2 read_again cs ds.
Proof.
  intros H Hn ds.
  assert (F : Forall (fun c => canonical (c_ver c) /\ permitted (c_op c) (c_ver c) = true) cs).
  { apply Forall_forall. intros c I. destruct (parse_specifier_ok _ _ H c I) as (P & t & Ht). split; [|exact P].
    apply parsed_canonical; [eapply parse_result; eauto|auto]. }
  rewrite specifier_read, parts_printed by (revert F; apply Forall_impl; tauto). clear H Hn.
  revert ds. induction F as [|c cs [C P] F IH]; intros ds; cbn [map].
  - split; intros X; inversion X; constructor.
  - split; intros X; inversion X as [|? d ? ds' H1 H2]; subst; (constructor; [now apply (again_clause c d C P)|now apply IH]).
Qed.
