(** Strings without the odd letters are parsed as in Model/Pep440.v, Specifier.v and Pep345.v. *)
From Coq Require Import String Ascii List Bool ZArith NArith Lia.
From Verif.Model Require Import GoStr Regex Pep440 Specifier Pep345 Unicode.
From Verif.Spec Require Import Pep440Spec VersionGrammar UnicodeSpec.
From Verif.Proofs Require Import Order GoStrFacts RegexFacts Pep440Parse Pep440Sound SpecifierParse.
Import ListNotations.
Local Open Scope nat_scope.

(** ** Words that do not occur *)
Lemma avoids_infix ws a s b : avoids ws (a ++ s ++ b) -> avoids ws s.
Proof. intros H w x y Hw ->. apply (H w (a ++ x) (y ++ b) Hw). now rewrite !app_assoc. Qed.
Lemma avoids_tail ws x s : avoids ws (x :: s) -> avoids ws s.
Proof. intros H. apply (avoids_infix ws [x] s []). now rewrite app_nil_r. Qed.
Lemma avoids_incl ws ws' s : incl ws ws' -> avoids ws' s -> avoids ws s.
Proof. intros I H w a b Hw. apply H. now apply I. Qed.
Lemma avoids_prefix ws s w : avoids ws s -> In w ws -> has_prefix w s = false.
Proof.
  intros H Hw. destruct (has_prefix w s) eqn:E; [|reflexivity]. apply has_prefix_spec in E as (r & ->).
  exfalso. apply (H w [] r Hw). reflexivity.
Qed.
Lemma avoids_rev ws s : avoids ws s -> avoids (map (@rev ascii) ws) (rev s).
Proof.
  intros H w a b Hw E. apply in_map_iff in Hw as (w0 & <- & Hw). apply (H w0 (rev b) (rev a) Hw).
  rewrite <- (rev_involutive s), E, !rev_app_distr, rev_involutive. now rewrite app_assoc.
Qed.

(** ** Expressions with further alternatives *)
Inductive more (ws : list str) : re -> re -> Prop :=
| more_eps : more ws REps REps
| more_chr p : more ws (RChr p) (RChr p)
| more_seq a b a' b' : more ws a a' -> more ws b b' -> more ws (RSeq a b) (RSeq a' b')
| more_alt a b a' b' : more ws a a' -> more ws b b' -> more ws (RAlt a b) (RAlt a' b')
| more_star a a' : more ws a a' -> more ws (RStar a) (RStar a')
| more_grp n a a' : more ws a a' -> more ws (RGrp n a) (RGrp n a')
| more_word a a' w : more ws a a' -> In w ws -> more ws a (RAlt a' (lit w)).
Lemma run_lit_none {X} w : forall s c (k : str -> caps -> option X), has_prefix w s = false -> run (lit w) s c k = None.
Proof.
  induction w as [|x w IH]; intros s c k H; [discriminate H|]. unfold lit in *. cbn [RLit run]. destruct s as [|y s]; [reflexivity|].
  destruct (byte_eqb x y) eqn:E; [|reflexivity]. apply IH. cbn [has_prefix] in H. rewrite E in H. exact H.
Qed.

Lemma run_more {X} ws r r' : more ws r r' -> forall s c (k k' : str -> caps -> option X), avoids ws s ->
  (forall s' c', avoids ws s' -> k s' c' = k' s' c') -> run r' s c k' = run r s c k.
Proof.
  induction 1 as [|p|a b a' b' Ha IHa Hb IHb|a b a' b' Ha IHa Hb IHb|a a' Ha IHa|n a a' Ha IHa|a a' w Ha IHa Hw]; intros s c k k' A K.
  - cbn [run]. symmetry. now apply K.
  - cbn [run]. destruct s as [|x s]; [reflexivity|]. destruct (p x); [|reflexivity]. symmetry. apply K. now apply avoids_tail in A.
  - cbn [run]. apply IHa; [exact A|]. intros s' c' A'. symmetry. apply IHb; auto.
  - cbn [run]. rewrite (IHa s c k k' A K), (IHb s c k k' A K). reflexivity.
  - revert c A. induction s as [s IHs] using (induction_ltof1 _ (@length ascii)). unfold ltof in IHs. intros c A. rewrite !run_star.
    rewrite (IHa s c (fun s' c' => if length s' <? length s then run (RStar a) s' c' k else None)
                     (fun s' c' => if length s' <? length s then run (RStar a') s' c' k' else None) A).
    + now rewrite (K s c A).
    + intros s' c' A'. destruct (Nat.ltb_spec (length s') (length s)) as [L|L]; [|reflexivity]. symmetry. now apply IHs.
  - cbn [run]. apply IHa; [exact A|]. intros s' c' A'. now apply K.
  - cbn [run]. rewrite (IHa s c k k' A K). rewrite (run_lit_none w); [now destruct (run a s c k)|]. now apply (avoids_prefix ws).
Qed.
Lemma full_more ws r r' s : more ws r r' -> avoids ws s -> full_match r' s = full_match r s.
Proof. intros H A. unfold full_match. now apply (run_more ws r r' H). Qed.
Lemma more_refl ws r : more ws r r.
Proof. induction r; now constructor. Qed.
Lemma more_lit s : more odd_letters (lit_ci s) (lit_fold s).
Proof.
  induction s as [|c s IH]; [apply more_eps|]. unfold lit_ci in *. cbn [RLit lit_fold]. apply more_seq; [|exact IH].
  unfold fold_chr. destruct (byte_eqb c "s"); [|destruct (byte_eqb c "k"); [|apply more_refl]].
  - apply more_word; [apply more_refl|now left].
  - apply more_word; [apply more_refl|right; now left].
Qed.
Lemma more_alts f l : (forall s, more odd_letters (lit_ci s) (f s)) -> more odd_letters (RAlts (map lit_ci l)) (RAlts (map f l)).
Proof.
  intros H. induction l as [|x l IH]; [apply more_refl|]. destruct l as [|y l]; [apply H|].
  change (more odd_letters (RAlt (lit_ci x) (RAlts (map lit_ci (y :: l)))) (RAlt (f x) (RAlts (map f (y :: l))))).
  now apply more_alt.
Qed.
Lemma more_alnums : more odd_letters r_alnums r_alnums_fold.
Proof.
  assert (H : more odd_letters (RChr cls_alnum_ci) r_alnum_fold).
  { apply more_word; [|right; now left]. apply more_word; [apply more_refl|now left]. }
  apply more_seq; [exact H|]. now apply more_star.
Qed.
Lemma more_version : more odd_letters re_version re_version_fold.
Proof.
  unfold re_version, re_version_fold. cbn [RSeqs]. apply more_seq; [apply more_refl|].
  apply more_seq; [apply more_alt; [apply more_lit|apply more_refl]|]. do 2 (apply more_seq; [apply more_refl|]).
  apply more_seq.
  { apply more_alt; [|apply more_refl]. apply more_grp. cbn [RSeqs]. apply more_seq; [apply more_refl|]. apply more_seq; [|apply more_refl].
    apply more_grp. apply more_alts. apply more_lit. }
  apply more_seq.
  { apply more_alt; [|apply more_refl]. apply more_grp. apply more_alt; [apply more_refl|]. cbn [RSeqs]. apply more_seq; [apply more_refl|]. apply more_seq; [|apply more_refl].
    apply more_grp. apply more_alts. apply more_lit. }
  apply more_seq.
  { apply more_alt; [|apply more_refl]. apply more_grp. cbn [RSeqs]. apply more_seq; [apply more_refl|]. apply more_seq; [|apply more_refl].
    apply more_grp. apply more_lit. }
  apply more_seq; [|apply more_refl].
  apply more_alt; [|apply more_refl]. apply more_seq; [apply more_refl|]. apply more_grp. apply more_seq; [apply more_alnums|].
  apply more_star. apply more_seq; [apply more_refl|apply more_alnums].
Qed.

(** ** Captures consist of bytes of the input *)
Lemma M_suffix r s s' c c' : M r s s' c c' -> exists w, s = w ++ s'.
Proof. intros H. apply M_lang in H as (w & -> & _). now exists w. Qed.
Lemma firstn_incl {A} n (l : list A) : incl (firstn n l) l.
Proof. intros x H. rewrite <- (firstn_skipn n l). apply in_app_iff. now left. Qed.
Lemma M_caps r s s' c c' : M r s s' c c' -> forall s0 : str, incl s s0 -> Forall (fun x => incl (snd x) s0) c -> Forall (fun x => incl (snd x) s0) c'.
Proof.
  induction 1 as [| |a b s s1 s2 c c1 c2 Ha IHa Hb IHb|a b s s1 c c1 Ha IHa|a b s s1 c c1 Ha IHa| |r s s1 s2 c c1 c2 Ha IHa Hl Hb IHb|n r s s1 c c1 Ha IHa]; intros s0 I C; auto.
  - apply IHb; [|auto]. apply M_suffix in Ha as (w & ->). intros x Hx. apply I. apply in_app_iff. now right.
  - apply IHb; [|auto]. apply M_suffix in Ha as (w & ->). intros x Hx. apply I. apply in_app_iff. now right.
  - constructor; [|auto]. cbn [snd]. intros x Hx. apply I. now apply firstn_incl in Hx.
Qed.
Lemma full_caps r s c : full_match r s = Some c -> forall n, incl (group c n) s.
Proof.
  unfold full_match. intros H. apply run_sound in H as (s' & c' & HM & Hk). destruct s' as [|]; [|discriminate Hk]. injection Hk as ->.
  pose proof (M_caps _ _ _ _ _ HM s (incl_refl s) (Forall_nil _)) as F. intros n. clear HM.
  induction F as [|[m t] c Ht F IH]; cbn [group]; [intros x []|]. destruct (String.eqb m n); [exact Ht|exact IH].
Qed.
Lemma lower_plain s : (forall x, In x s -> version_byte x = true) -> to_lower_fold s = to_lower s.
Proof.
  induction s as [|c s IH]; intros H; [reflexivity|]. cbn [to_lower_fold]. change (to_lower (c :: s)) with (lower c :: to_lower s).
  rewrite (IH (fun x Hx => H x (or_intror Hx))). destruct s as [|c' [|c'' s]]; try reflexivity.
  destruct (str_eqb [c; c'; c''] kelvin) eqn:E; [|reflexivity]. apply str_eqb_eq in E. injection E as -> _ _.
  specialize (H _ (or_introl eq_refl)). vm_compute in H. discriminate H.
Qed.
Lemma fields_incl f s : forall cur part, In part (fields_aux f s cur) -> incl part (rev cur ++ s).
Proof.
  induction s as [|x s IH]; intros cur part H; cbn [fields_aux] in H.
  - destruct cur as [|y cur]; [destruct H|]. destruct H as [<- | []]. rewrite app_nil_r. apply incl_refl.
  - destruct (f x).
    + destruct cur as [|y cur].
      * apply IH in H. intros z Hz. apply H in Hz. cbn in *. now right.
      * destruct H as [<- | H]; [intros z Hz; apply in_app_iff; now left|]. apply IH in H. intros z Hz. apply H in Hz. cbn [rev app] in Hz.
        apply in_app_iff. right. now right.
    + apply IH in H. intros z Hz. apply H in Hz. cbn [rev] in Hz. rewrite <- app_assoc in Hz. exact Hz.
Qed.

Lemma letter_number_plain l n acc : (forall x, In x l -> version_byte x = true) -> parse_letter_number_fold l n acc = parse_letter_number l n acc.
Proof. intros H. unfold parse_letter_number_fold, parse_letter_number. now rewrite (lower_plain l H). Qed.
Theorem parse_fold s : avoids odd_letters s -> parse_version_fold s = parse_version s.
Proof.
  intros A. unfold parse_version_fold, parse_version. rewrite (full_more _ _ _ _ more_version A).
  destruct (full_match re_version s) as [c|] eqn:E; [|reflexivity].
  assert (V : forall n x, In x (group c n) -> version_byte x = true).
  { intros n x Hx. apply (full_caps _ _ _ E) in Hx. apply full_match_lang in E. pose proof (L_within _ _ re_version_bytes s E) as F.
    rewrite forallb_forall in F. now apply F. }
  rewrite !letter_number_plain by apply V.
  assert (W : map (fun part => intstr_parse (to_lower_fold part)) (fields_func (in_set $"-_.") (group c "local")) =
              map (fun part => intstr_parse (to_lower part)) (fields_func (in_set $"-_.") (group c "local"))).
  { apply map_ext_in. intros part Hp. f_equal. apply lower_plain. intros x Hx. apply (fields_incl _ _ [] part Hp) in Hx. exact (V _ x Hx). }
  rewrite W. reflexivity.
Qed.

(** ** White space *)
Lemma trim_wide_plain ws : forall n s, avoids ws s -> length s <= n -> trim_wide ws n s = trim_left is_space s.
Proof.
  induction n as [|n IH]; intros s A L; destruct s as [|x s]; try reflexivity; [cbn in L; lia|].
  cbn [trim_wide trim_left]. destruct (is_space x); [apply IH; [now apply avoids_tail in A|cbn in L; lia]|].
  destruct (find _ ws) as [w|] eqn:F; [|reflexivity]. apply find_some in F as [Fi Fe]. rewrite (avoids_prefix ws _ w A Fi) in Fe. discriminate Fe.
Qed.
Lemma trim_left_tail f s : exists w, s = w ++ trim_left f s.
Proof. induction s as [|x s (w & E)]; [now exists []|]. cbn [trim_left]. destruct (f x); [exists (x :: w); cbn; congruence|now exists []]. Qed.
Lemma trim_infix s : exists a b, s = a ++ trim_space s ++ b.
Proof.
  unfold trim_space, trim_right. destruct (trim_left_tail is_space s) as (a & E). set (t := trim_left is_space s) in *. clearbody t. subst s.
  destruct (trim_left_tail is_space (rev t)) as (b & E). exists a, (rev b). f_equal.
  rewrite <- (rev_involutive t), E at 1. now rewrite rev_app_distr.
Qed.
Lemma trim_plain s : avoids wide_spaces s -> trim_space_u s = trim_space s.
Proof.
  intros A. unfold trim_space_u, trim_right_u, trim_left_u, trim_space, trim_right. rewrite (trim_wide_plain wide_spaces _ _ A (Nat.le_refl _)). f_equal.
  apply trim_wide_plain; [|now rewrite rev_length]. apply avoids_rev. destruct (trim_left_tail is_space s) as (a & E).
  apply (avoids_infix _ a _ []). now rewrite app_nil_r, <- E.
Qed.
Lemma odd_split s : avoids odd_characters s -> avoids odd_letters s /\ avoids wide_spaces s.
Proof. intros A. split; apply (avoids_incl _ odd_characters); auto; intros x Hx; apply in_app_iff; auto. Qed.
Lemma slice_infix n s t : slice_from n s = Ok t -> exists a b, s = a ++ t ++ b.
Proof.
  unfold slice_from. destruct (length s <? n); intros H; [discriminate H|]. injection H as <-.
  exists (firstn n s), []. now rewrite app_nil_r, firstn_skipn.
Qed.
Lemma trim_suffix_infix p s : exists b, s = trim_suffix p s ++ b.
Proof. unfold trim_suffix. destruct (has_suffix p s); [|exists []; now rewrite app_nil_r]. eexists. symmetry. apply firstn_skipn. Qed.
Lemma operator_infix s op t m d l : clause_operator s = Ok (op, t, m, d, l) -> exists a b, s = a ++ t ++ b.
Proof.
  assert (P : forall o n, plain_variant o n s = Ok (op, t, m, d, l) -> exists a b, s = a ++ t ++ b).
  { intros o n. unfold plain_variant. destruct (slice_from 2 s) as [u| |] eqn:E; intros H; try discriminate H. assert (t = u) as -> by congruence. exact (slice_infix _ _ _ E). }
  assert (Q : forall o o', eq_variant o o' s = Ok (op, t, m, d, l) -> exists a b, s = a ++ t ++ b).
  { intros o o'. unfold eq_variant. destruct (slice_from 2 s) as [u| |] eqn:E; intros H; try discriminate H. apply slice_infix in E as (a & b & ->).
    destruct (has_suffix _ u).
    - assert (t = trim_suffix $".*" u) as -> by congruence. destruct (trim_suffix_infix $".*" u) as (b' & Eu). exists a, (b' ++ b). f_equal. rewrite app_assoc. now rewrite <- Eu.
    - assert (t = u) as -> by congruence. now exists a, b. }
  unfold clause_operator. repeat (match goal with |- context [if ?x then _ else _] => destruct x end; [first [apply P | apply Q]|]). discriminate.
Qed.
Lemma pyoperator_infix s : exists a, s = a ++ snd (pyclause_operator s).
Proof.
  unfold pyclause_operator.
  repeat (match goal with |- context [if ?x then _ else _] => destruct x end; [eexists; cbn [snd]; symmetry; apply firstn_skipn|]). now exists [].
Qed.
Lemma avoids_trim ws s : avoids ws s -> avoids ws (trim_space s).
Proof. intros A. destruct (trim_infix s) as (a & b & E). apply (avoids_infix ws a _ b). now rewrite <- E. Qed.
Lemma parse_clause_plain s : avoids odd_characters s -> parse_clause_u s = parse_clause s.
Proof.
  intros A. destruct (odd_split s A) as [Al As]. unfold parse_clause_u, parse_clause. rewrite (trim_plain s As).
  destruct (clause_operator (trim_space s)) as [[[[[op t] m] d] l]| |] eqn:E; try reflexivity.
  apply operator_infix in E as (a & b & E). rewrite parse_fold; [reflexivity|].
  apply (avoids_infix _ a _ b). rewrite <- E. now apply avoids_trim.
Qed.
Lemma fields_infix f s : forall cur part, In part (fields_aux f s cur) -> exists a b, rev cur ++ s = a ++ part ++ b.
Proof.
  induction s as [|x s IH]; intros cur part H; cbn [fields_aux] in H.
  - destruct cur as [|y cur]; [destruct H|]. destruct H as [<- | []]. now exists [], [].
  - destruct (f x).
    + destruct cur as [|y cur].
      * apply IH in H as (a & b & E). cbn [rev app] in *. exists (x :: a), b. cbn. congruence.
      * destruct H as [<- | H]; [now exists [], (x :: s)|]. apply IH in H as (a & b & E). exists (rev (y :: cur) ++ x :: a), b.
        cbn [rev app] in E. rewrite E. rewrite <- !app_assoc. reflexivity.
    + apply IH in H as (a & b & E). cbn [rev] in E. rewrite <- app_assoc in E. now exists a, b.
Qed.
Lemma avoids_fields ws f s : avoids ws s -> Forall (avoids ws) (fields_func f s).
Proof.
  intros A. apply Forall_forall. intros part H. apply fields_infix in H as (a & b & E). cbn [rev app] in E.
  apply (avoids_infix ws a _ b). now rewrite <- E.
Qed.
Theorem parse_specifier_plain s : avoids odd_characters s -> parse_specifier_u s = parse_specifier s.
Proof.
  intros A. unfold parse_specifier_u, parse_specifier. pose proof (avoids_fields _ (fun c => byte_eqb c ",") s A) as F.
  induction F as [|t l Ht F IH]; [reflexivity|]. cbn [parse_clauses_u parse_clauses]. destruct (odd_split t Ht) as [Al As].
  rewrite (trim_plain t As). pose proof (avoids_trim _ _ Ht) as At. destruct (trim_space t) as [|x u]; [exact IH|].
  rewrite (parse_clause_plain _ At), IH. reflexivity.
Qed.
Theorem required_plain have s : avoids odd_characters s -> have_required_python_u have s = have_required_python have s.
Proof.
  intros A. unfold have_required_python_u, have_required_python, parse_pyspecifier_u, parse_pyspecifier.
  assert (E : forall l, Forall (avoids odd_characters) l -> parse_pyclauses_u l = parse_pyclauses l).
  { induction 1 as [|t l Ht F IH]; [reflexivity|]. cbn [parse_pyclauses_u parse_pyclauses].
    assert (P : parse_pyclause_u t = parse_pyclause t).
    { destruct (odd_split t Ht) as [Al As]. unfold parse_pyclause_u, parse_pyclause. rewrite (trim_plain t As).
      destruct (pyoperator_infix (trim_space t)) as (a & E). destruct (pyclause_operator (trim_space t)) as [op u]. cbn [snd] in E.
      rewrite parse_fold; [reflexivity|]. apply (avoids_infix _ a _ []). rewrite app_nil_r, <- E. now apply avoids_trim. }
    rewrite P, IH. reflexivity. }
  rewrite E; [reflexivity|]. now apply avoids_fields.
Qed.
Lemma parse_fold_accepts s : avoids odd_letters s -> (parse_version_fold s <> None <-> is_version s).
Proof. intros A. rewrite (parse_fold s A). apply parse_accepts. Qed.
Lemma parse_fold_odd s : parse_version_fold s <> None -> ~ is_version s -> exists a w b, In w odd_letters /\ s = a ++ w ++ b.
Proof.
  intros P V.
  assert (D : forall w, w <> [] -> (exists a b, s = a ++ w ++ b) \/ (forall a b, s <> a ++ w ++ b)).
  { intros w _. clear. induction s as [|x s IH].
    - destruct w as [|y w]; [left; now exists [], []|]. right. intros [|z a] b; discriminate.
    - destruct IH as [(a & b & ->) | IH]; [left; now exists (x :: a), b|]. destruct (has_prefix w (x :: s)) eqn:E.
      + apply has_prefix_spec in E as (b & E). left. now exists [], b.
      + right. intros [|z a] b H; [|injection H as _ H; now apply IH in H]. cbn [app] in H. rewrite H, has_prefix_app in E. discriminate E. }
  destruct (D long_s) as [(a & b & E) | N1]; [discriminate|exists a, long_s, b; split; [now left|exact E]|].
  destruct (D kelvin) as [(a & b & E) | N2]; [discriminate|exists a, kelvin, b; split; [right; now left|exact E]|].
  exfalso. apply V. apply parse_fold_accepts; [|exact P]. intros w a b [<- | [<- | []]]; auto.
Qed.
Lemma avoids_bytes ws s : forallb (fun w => existsb (fun x => negb (contains_byte x s)) w) ws = true -> avoids ws s.
Proof.
  intros H w a b Hw ->. rewrite forallb_forall in H. specialize (H w Hw). apply existsb_exists in H as (x & Hx & Hn). apply negb_true_iff in Hn.
  assert (C : contains_byte x (a ++ w ++ b) = true); [|rewrite Hn in C; discriminate C].
  apply existsb_exists. exists x. split; [|apply byte_eqb_refl]. apply in_app_iff. right. apply in_app_iff. now left.
Qed.
