(** White space around clauses does not count. *)
From Coq Require Import String Ascii List Bool ZArith NArith Lia.
From Verif.Model Require Import GoStr Regex Pep440 Specifier Pep345 Unicode.
From Verif.Spec Require Import Pep440Spec WhiteSpaceSpec UnicodeSpec.
From Verif.Proofs Require Import Order GoStrFacts WhiteSpaceFacts UnicodeFacts.
Import ListNotations.
Local Open Scope nat_scope.

Definition nonempty (s : str) : bool := match s with [] => false | _ => true end.
Lemma fields_split f c s : (forall x, f x = byte_eqb c x) -> forall cur,
  fields_aux f s cur = filter nonempty (match split_on c s with [] => [] | x :: l => (rev cur ++ x) :: l end).
Proof.
  intros F. induction s as [|x s IH]; intros cur; cbn [fields_aux split_on].
  - rewrite app_nil_r. destruct cur as [|y cur]; [reflexivity|]. cbn [filter]. destruct (rev (y :: cur)) eqn:E; [|reflexivity].
    apply (f_equal (@length ascii)) in E. rewrite rev_length in E. discriminate E.
  - rewrite F. destruct (byte_eqb c x).
    + rewrite app_nil_r. rewrite (IH []). cbn [rev app]. destruct (split_on c s) as [|t l] eqn:Q; [now apply split_on_nonempty in Q|].
      destruct cur as [|y cur]; [reflexivity|]. cbn [filter]. destruct (rev (y :: cur)) eqn:E; [|reflexivity].
      apply (f_equal (@length ascii)) in E. rewrite rev_length in E. discriminate E.
    + rewrite IH. destruct (split_on c s) as [|t l] eqn:Q; [now apply split_on_nonempty in Q|]. cbn [rev]. now rewrite <- app_assoc.
Qed.
Lemma byte_eqb_comm a b : byte_eqb a b = byte_eqb b a.
Proof. unfold byte_eqb. apply Ascii.eqb_sym. Qed.
Lemma comma_fields l : clauses l -> fields_func (fun c => byte_eqb c ",") (join [","%char] l) = filter nonempty l.
Proof.
  intros H. unfold fields_func. rewrite (fields_split _ ","%char) by (intros; apply byte_eqb_comm). cbn [rev app].
  destruct l as [|t l]; [reflexivity|]. rewrite split_on_join by (auto; discriminate). reflexivity.
Qed.

Lemma padded_trim t t' : padded t t' -> trim_space_u t' = trim_space_u t.
Proof. intros (a & b & A & B & ->). rewrite trim_front by exact A. now apply trim_end. Qed.
Lemma blanks_no_comma a : blanks a -> ~ In ","%char a.
Proof.
  induction 1 as [|w s Hw Hs IH]; [easy|]. intros H. apply in_app_iff in H as [H|H]; [|auto]. apply word_in in Hw. vm_compute in Hw.
  repeat (destruct Hw as [<- | Hw]; [cbn in H; repeat (destruct H as [H | H]; [discriminate H|]); exact H|]). destruct Hw.
Qed.
Lemma padded_clauses l l' : clauses l -> Forall2 padded l l' -> clauses l'.
Proof.
  intros H F. induction F as [|t t' l l' (a & b & A & B & ->) F IH]; [constructor|]. inversion H as [|? ? H1 H2]; subst. constructor; [|now apply IH].
  rewrite !in_app_iff. pose proof (blanks_no_comma a A). pose proof (blanks_no_comma b B). tauto.
Qed.
Lemma trim_idem s : trim_space_u (trim_space_u s) = trim_space_u s.
Proof. apply trim_solid. destruct (trim_sound s) as (a & b & _ & _ & _ & H). exact H. Qed.
Lemma clause_trim s : parse_clause_u (trim_space_u s) = parse_clause_u s.
Proof. unfold parse_clause_u. now rewrite trim_idem. Qed.
Lemma clauses_trim l : parse_clauses_u (filter nonempty l) = parse_clauses_u (filter nonempty (map trim_space_u l)).
Proof.
  induction l as [|t l IH]; [reflexivity|]. cbn [filter map]. destruct t as [|x t]; [exact IH|]. cbn [nonempty parse_clauses_u].
  destruct (trim_space_u (x :: t)) as [|y u] eqn:E; cbn [nonempty]; [exact IH|]. cbn [parse_clauses_u]. rewrite <- E at 2. rewrite trim_idem, E, IH. reflexivity.
Qed.
Theorem specifier_blanks l l' : clauses l -> Forall2 padded l l' ->
  parse_specifier_u (join [","%char] l') = parse_specifier_u (join [","%char] l).
Proof.
  intros H F. unfold parse_specifier_u. rewrite !comma_fields by (auto; now apply (padded_clauses l)). rewrite (clauses_trim l), (clauses_trim l').
  do 2 f_equal. induction F as [|t t' l l' P F IH]; [reflexivity|]. cbn [map]. rewrite (padded_trim t t' P). f_equal. apply IH. now inversion H.
Qed.
Lemma pyclause_trim t t' : trim_space_u t' = trim_space_u t -> parse_pyclause_u t' = parse_pyclause_u t.
Proof. unfold parse_pyclause_u. now intros ->. Qed.
Theorem required_blanks have l l' : clauses l -> Forall (fun t => t <> []) l -> Forall2 padded l l' ->
  have_required_python_u have (join [","%char] l') = have_required_python_u have (join [","%char] l).
Proof.
  intros H N F. unfold have_required_python_u, parse_pyspecifier_u. rewrite !comma_fields by (auto; now apply (padded_clauses l)).
  replace (parse_pyclauses_u (filter nonempty l')) with (parse_pyclauses_u (filter nonempty l)); [reflexivity|]. clear H.
  induction F as [|t t' l l' P F IH]; [reflexivity|]. inversion N as [|? ? N1 N2]; subst. cbn [filter].
  destruct t as [|x t]; [congruence|]. destruct t' as [|x' t'].
  { destruct P as (a & b & _ & _ & E). symmetry in E. apply app_eq_nil in E as [_ E]. discriminate E. }
  cbn [nonempty parse_pyclauses_u]. rewrite (pyclause_trim _ _ (padded_trim _ _ P)), (IH N2). reflexivity.
Qed.
