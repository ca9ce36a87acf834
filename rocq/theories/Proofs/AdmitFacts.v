(** Proofs about Spec/AdmitSpec.v: C104. *)
From Coq Require Import String Ascii List Bool ZArith NArith Lia.
From Verif.Model Require Import GoStr Pep440 Specifier.
From Verif.Spec Require Import Pep440Spec VersionGrammar SpecifierSpec ExactSpec AdmitSpec.
From Verif.Proofs Require Import Order GoStrFacts Pep440Cmp Pep440Parse Pep440Sound SpecifierParse SpecifierMatch ExactFacts PrintedFacts.
Import ListNotations.
Local Open Scope Z_scope.

Lemma same_release_dec (a b : list Z) : same_release a b \/ ~ same_release a b.
Proof.
  revert b. induction a as [|x a IH]; intros b.
  - induction b as [|y b IHb]; [left; now intros i|]. destruct (Z.eq_dec y 0) as [->|N].
    + destruct IHb as [H|H]; [left|right].
      * intros [|i]; [reflexivity|]. specialize (H i). destruct i; exact H.
      * intros K. apply H. intros i. specialize (K (S i)). destruct i; exact K.
    + right. intros K. specialize (K O). cbn in K. congruence.
  - destruct b as [|y b].
    + destruct (Z.eq_dec x 0) as [->|N].
      * destruct (IH []) as [H|H]; [left|right].
        -- intros [|i]; [reflexivity|]. specialize (H i). destruct i; exact H.
        -- intros K. apply H. intros i. specialize (K (S i)). destruct i; exact K.
      * right. intros K. specialize (K O). cbn in K. congruence.
    + destruct (Z.eq_dec x y) as [->|N].
      * destruct (IH b) as [H|H]; [left|right].
        -- intros [|i]; [reflexivity|exact (H i)].
        -- intros K. apply H. intros i. exact (K (S i)).
      * right. intros K. specialize (K O). cbn in K. congruence.
Qed.
Lemma same_base_dec a b : same_base a b \/ ~ same_base a b.
Proof.
  unfold same_base. destruct (Z.eq_dec (epoch (pub a)) (epoch (pub b))); [|tauto].
  destruct (same_release_dec (release (pub a)) (release (pub b))); tauto.
Qed.
Lemma pre_or_dev_dec v : pre_or_dev v \/ ~ pre_or_dev v.
Proof. unfold pre_or_dev. destruct (pre (pub v)), (dev (pub v)); intuition congruence. Qed.
Lemma is_post_dec v : is_post v \/ ~ is_post v.
Proof. unfold is_post. destruct (post (pub v)); intuition congruence. Qed.
Lemma written_read p c : p <> [] -> trim_space p = p -> ~ In ","%char p -> written p c -> read_as p c.
Proof.
  intros N T K (ws & t & -> & B & Tr & V & P & O). apply (read_as_parse _ _ T K N). rewrite (parse_clause_text (c_op c) ws t (c_ver c) B Tr V O), P. now destruct c.
Qed.
Lemma parts_no_comma s : Forall (fun p => ~ In ","%char p) (parts s).
Proof.
  apply Forall_forall. intros p I. unfold parts in I. apply filter_In in I as [I _]. apply in_map_iff in I as (q & <- & I).
  pose proof (split_on_no_sep ","%char s) as F. rewrite Forall_forall in F. specialize (F q I). intros J. apply F.
  unfold trim_space in J. clear -J. unfold trim_right in J.
  assert (L : forall x u, In x (trim_left is_space u) -> In x u).
  { intros x u. induction u as [|y u IH]; [auto|]. cbn [trim_left]. destruct (is_space y); [intros H; right; now apply IH|auto]. }
  apply in_rev in J. apply L in J. apply in_rev in J. now apply L in J.
Qed.
Theorem written_parsed s cs : Forall2 written (parts s) cs -> parse_specifier s = Ok cs.
Proof.
  intros F. apply specifier_read. pose proof (parts_trimmed s) as T. pose proof (parts_no_comma s) as K.
  induction F as [|p c l cs' H F IH]; [constructor|]. inversion T as [|? ? [N Tp] T']; subst. inversion K; subst.
  constructor; [now apply written_read|now apply IH].
Qed.
Lemma le_local V v : local V = [] -> pep440_compare v V = match public_compare (pub v) (pub V) with Eq => (match local v with [] => Eq | _ => Gt end) | r => r end.
Proof.
  intros L. unfold pep440_compare. rewrite L. unfold lex. destruct (public_compare (pub v) (pub V)); try reflexivity.
  destruct (local v); reflexivity.
Qed.
Lemma clause_exact c v : wf_version (c_ver c) -> wf_version v -> ranged_version (c_ver c) -> ranged_version v -> permitted (c_op c) (c_ver c) = true ->
  (match_clause c v = true <-> (pep440_admits c v /\ ~ deviates c v) \/ (~ pep440_admits c v /\ deviates c v)).
Proof.
  intros WV Wv RV Rv P. destruct c as [op V]. unfold pep440_admits, deviates. cbn [c_op c_ver] in *.
  destruct (ordered_exact V v WV Wv) as (GE & LE & GT & LT).
  assert (X : forall A : Prop, (match_clause (mkClause op V) v = true <-> A) -> (match_clause (mkClause op V) v = true <-> A /\ ~ False \/ ~ A /\ False)) by (intros; tauto).
  destruct op.
  - apply X. apply match_compatible_spec; auto. cbn in P. apply andb_true_iff in P as [_ P]. destruct (local V); [reflexivity|discriminate P].
  - apply X. exact (proj1 (clause_strict V v RV Rv)).
  - apply X. exact (proj1 (clause_prefix V v RV Rv)).
  - apply X. exact (proj2 (clause_strict V v RV Rv)).
  - apply X. exact (proj2 (clause_prefix V v RV Rv)).
  - assert (L : local V = []) by (cbn in P; destruct (local V); [reflexivity|discriminate P]).
    cbn [match_clause c_op c_ver]. unfold match_clause; cbn [c_op c_ver]. rewrite LE, (le_local V v L). unfold at_most.
    destruct (public_compare (pub v) (pub V)); destruct (local v) as [|x l]; intuition congruence.
  - apply X. apply match_ge_spec; auto. cbn in P. destruct (local V); [reflexivity|discriminate P].
  - unfold match_clause; cbn [c_op c_ver]. rewrite LT. unfold below.
    destruct (same_base_dec v V), (pre_or_dev_dec v), (pre_or_dev_dec V); tauto.
  - unfold match_clause; cbn [c_op c_ver]. rewrite GT. unfold above.
    assert (D : local v <> [] \/ ~ local v <> []) by (destruct (local v); [right; congruence|left; discriminate]).
    destruct (same_base_dec v V), (is_post_dec v), (is_post_dec V), D; tauto.
Qed.
Theorem admits_exact s cs t v : Forall2 written (parts s) cs -> parse_version t = Some v -> no_overflow v -> Forall (fun c => no_overflow (c_ver c)) cs ->
  parse_specifier s = Ok cs /\
  (match_specifier cs v = true <-> Forall (fun c => (pep440_admits c v /\ ~ deviates c v) \/ (~ pep440_admits c v /\ deviates c v)) cs).
Proof.
  intros F V N NS. split; [now apply written_parsed|]. rewrite match_specifier_spec, Forall_forall.
  assert (Q : forall c, In c cs -> match_clause c v = true <-> (pep440_admits c v /\ ~ deviates c v) \/ (~ pep440_admits c v /\ deviates c v)).
  { intros c I. rewrite Forall_forall in NS. specialize (NS c I).
    assert (W : exists p, written p c).
    { clear -F I. induction F as [|p c' l cs' H F IH]; [destruct I|]. destruct I as [-> |I]; [now exists p|now apply IH]. }
    destruct W as (p & ws & u & _ & _ & _ & PV & P & _).
    apply clause_exact; eauto using parse_wf, parsed_ranged. }
  split; intros H c I; apply (Q c I); auto.
Qed.
Theorem admits_plain s cs t v : Forall2 written (parts s) cs -> parse_version t = Some v -> no_overflow v -> Forall (fun c => no_overflow (c_ver c)) cs ->
  Forall (fun c => ~ deviates c v) cs -> parse_specifier s = Ok cs /\ (match_specifier cs v = true <-> Forall (fun c => pep440_admits c v) cs).
Proof.
  intros F V N NS D. destruct (admits_exact s cs t v F V N NS) as [P M]. split; [exact P|]. rewrite M. rewrite !Forall_forall in *.
  split; intros H c I; specialize (H c I); specialize (D c I); tauto.
Qed.

Lemma ex_admit_written : Forall2 written (parts ex_admit_text) ex_admit_clauses.
Proof.
  replace (parts ex_admit_text) with [$"~=1.4"; $"!= 1.4.5"; $"< 1.6"] by (vm_compute; reflexivity).
  constructor; [|constructor; [|constructor; [|constructor]]].
  - exists [], $"1.4". repeat split; try (vm_compute; reflexivity). intros [H|H]; discriminate H.
  - exists $" ", $"1.4.5". repeat split; try (vm_compute; reflexivity). intros _ H; discriminate H.
  - exists $" ", $"1.6". repeat split; try (vm_compute; reflexivity). intros _ H; discriminate H.
Qed.
Lemma prerelease_wrong : exists s cs t v, Forall2 written (parts s) cs /\ parse_version t = Some v /\
  no_overflow v /\ Forall (fun c => no_overflow (c_ver c)) cs /\
  match_specifier cs v = true /\ ~ Forall (fun c => pep440_admits c v) cs.
Proof.
  exists ex_admit_text, ex_admit_clauses, $"1.6rc1", (ex_version $"1.6rc1").
  split; [exact ex_admit_written|]. split; [vm_compute; reflexivity|]. split; [split; [vm_compute; discriminate|repeat constructor]|].
  split; [repeat constructor; vm_compute; discriminate|]. split; [vm_compute; reflexivity|].
  intros H. rewrite Forall_forall in H. specialize (H (mkClause OpLT (ex_version $"1.6")) (or_intror (or_intror (or_introl eq_refl)))).
  destruct H as [_ H]. apply H.
  split; [left; vm_compute; discriminate|]. split; [intros [K|K]; apply K; vm_compute; reflexivity|].
  split; [vm_compute; reflexivity|intros i; replace (release (pub (ex_version $"1.6rc1"))) with (release (pub (c_ver (mkClause OpLT (ex_version $"1.6"))))) by (vm_compute; reflexivity); reflexivity].
Qed.
