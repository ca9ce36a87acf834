(** Versions with the letters outside ASCII that count as s and k: which are accepted, and with what value. *)
From Coq Require Import String Ascii List Bool ZArith NArith Lia.
From Verif.Model Require Import GoStr Regex Pep440 Unicode.
From Verif.Spec Require Import Pep440Spec VersionGrammar UnicodeSpec.
From Verif.Proofs Require Import Order GoStrFacts RegexFacts Pep440Parse Pep440Sound SpecifierParse UnicodeFacts.
Import ListNotations.
Local Open Scope nat_scope.

(** ** Characters: a byte, or one of the two letters *)
Definition lets (d : list (ascii * str)) : str := map fst d.
Definition raw (d : list (ascii * str)) : str := concat (map snd d).
Lemma lets_app d e : lets (d ++ e) = lets d ++ lets e.
Proof. apply map_app. Qed.
Lemma raw_app d e : raw (d ++ e) = raw d ++ raw e.
Proof. unfold raw. now rewrite map_app, concat_app. Qed.
Inductive fine : list (ascii * str) -> Prop :=
| fine_nil : fine []
| fine_s d : fine d -> fine (("s"%char, long_s) :: d)
| fine_k d : fine d -> fine (("k"%char, kelvin) :: d)
| fine_c c d : has_prefix long_s (c :: raw d) = false -> has_prefix kelvin (c :: raw d) = false -> fine d -> fine ((c, [c]) :: d).
Lemma fine_total s : exists d, fine d /\ raw d = s.
Proof.
  induction s as [s IH] using (induction_ltof1 _ (@length ascii)). unfold ltof in IH.
  destruct s as [|c s]; [exists []; split; [constructor|reflexivity]|].
  destruct (has_prefix long_s (c :: s)) eqn:E1.
  { apply has_prefix_spec in E1 as (r & E). destruct (IH r) as (d & F & R); [rewrite E, app_length; cbn; lia|].
    exists (("s"%char, long_s) :: d). split; [now constructor|]. unfold raw in *. cbn [map concat snd]. now rewrite R, E. }
  destruct (has_prefix kelvin (c :: s)) eqn:E2.
  { apply has_prefix_spec in E2 as (r & E). destruct (IH r) as (d & F & R); [rewrite E, app_length; cbn; lia|].
    exists (("k"%char, kelvin) :: d). split; [now constructor|]. unfold raw in *. cbn [map concat snd]. now rewrite R, E. }
  destruct (IH s) as (d & F & R); [cbn; lia|]. exists ((c, [c]) :: d). split; [|unfold raw in *; cbn [map concat snd app]; now rewrite R].
  constructor; [now rewrite R|now rewrite R|exact F].
Qed.
Lemma fine_right d e : fine (d ++ e) -> fine e.
Proof. induction d as [|x d IH]; intros F; [exact F|]. inversion F; subst; auto. Qed.
Lemma prefix_more p s t : has_prefix p (s ++ t) = false -> has_prefix p s = false.
Proof.
  destruct (has_prefix p s) eqn:E; [|reflexivity]. apply has_prefix_spec in E as (r & ->). rewrite <- app_assoc, has_prefix_app. discriminate.
Qed.
Lemma fine_left d e : fine (d ++ e) -> fine d.
Proof.
  induction d as [|x d IH]; intros F; [constructor|]. cbn [app] in F. inversion F as [|d' F'|d' F'|c d' P1 P2 F']; subst; constructor; auto.
  - rewrite raw_app in P1. now apply (prefix_more _ (c :: raw d) (raw e)).
  - rewrite raw_app in P2. now apply (prefix_more _ (c :: raw d) (raw e)).
Qed.
Lemma raw_length d : fine d -> length (lets d) <= length (raw d) /\ (d <> [] -> raw d <> []).
Proof.
  induction 1 as [|d F [L N]|d F [L N]|c d P1 P2 F [L N]]; [cbn; split; [lia|congruence]| | |];
    unfold lets, raw in *; cbn [map concat fst snd length]; rewrite ?app_length; (split; [cbn [length] in *; cbn in *; lia|intros _; discriminate]).
Qed.
Lemma raw_shorter d e : fine (d ++ e) -> (length (raw e) <? length (raw (d ++ e))) = (length (lets e) <? length (lets (d ++ e))).
Proof.
  intros F. apply fine_left in F. destruct (raw_length d F) as [_ N]. rewrite raw_app, lets_app, !app_length. destruct d as [|x d].
  - change (length (raw [])) with 0. change (length (lets [])) with 0. rewrite !Nat.add_0_l, !Nat.ltb_irrefl. reflexivity.
  - specialize (N ltac:(discriminate)). destruct (raw (x :: d)); [congruence|]. cbn [length lets map fst].
    transitivity true; [apply Nat.ltb_lt|symmetry; apply Nat.ltb_lt]; lia.
Qed.

(** ** Matching character by character *)
Definition reads (p : ascii -> bool) (e : re) : Prop := forall d c (k : str -> caps -> option caps), fine d ->
  run e (raw d) c k = match d with [] => None | (x, _) :: d => if p x then k (raw d) c else None end.
Inductive folds : re -> re -> Prop :=
| folds_eps : folds REps REps
| folds_chr p e : reads p e -> folds (RChr p) e
| folds_seq a b a' b' : folds a a' -> folds b b' -> folds (RSeq a b) (RSeq a' b')
| folds_alt a b a' b' : folds a a' -> folds b b' -> folds (RAlt a b) (RAlt a' b')
| folds_star a a' : folds a a' -> folds (RStar a) (RStar a')
| folds_grp n a a' : folds a a' -> folds (RGrp n a) (RGrp n a').
Definition same_cap (x x' : string * str) : Prop := fst x = fst x' /\ exists d, fine d /\ snd x = lets d /\ snd x' = raw d.
Definition same_caps : caps -> caps -> Prop := Forall2 same_cap.
Definition same_result (x x' : option caps) : Prop :=
  match x, x' with None, None => True | Some c, Some c' => same_caps c c' | _, _ => False end.
Lemma firstn_front {A} (a b : list A) : firstn (length (a ++ b) - length b) (a ++ b) = a.
Proof. rewrite app_length. replace (length a + length b - length b) with (length a) by lia. now rewrite firstn_app, Nat.sub_diag, firstn_all, app_nil_r. Qed.
Lemma run_folds r r' : folds r r' -> forall d c c' k k', fine d -> same_caps c c' ->
  (forall d1 d2 e e', d = d1 ++ d2 -> same_caps e e' -> same_result (k (lets d2) e) (k' (raw d2) e')) ->
  same_result (run r (lets d) c k) (run r' (raw d) c' k').
Proof.
  induction 1 as [|p e R|a b a' b' Ha IHa Hb IHb|a b a' b' Ha IHa Hb IHb|a a' Ha IHa|n a a' Ha IHa]; intros d c c' k k' F C K.
  - cbn [run]. now apply (K []).
  - rewrite (R d c' k' F). destruct d as [|[x t] d]; [exact Logic.I|]. cbn [run lets map fst]. destruct (p x); [|exact Logic.I]. now apply (K [(x, t)]).
  - cbn [run]. apply IHa; [exact F|exact C|]. intros d1 d2 e e' -> E. apply IHb; [now apply fine_right in F|exact E|].
    intros d3 d4 f f' -> Ef. apply (K (d1 ++ d3)); [now rewrite app_assoc|exact Ef].
  - cbn [run]. pose proof (IHa d c c' k k' F C K) as A. pose proof (IHb d c c' k k' F C K) as B.
    destruct (run a (lets d) c k), (run a' (raw d) c' k'); cbn [same_result] in A; [exact A|destruct A|destruct A|exact B].
  - revert c c' F C K. induction d as [d IHd] using (induction_ltof1 _ (@length _)). unfold ltof in IHd. intros c c' F C K. rewrite !run_star.
    assert (A : same_result
      (run a (lets d) c (fun s' c0 => if length s' <? length (lets d) then run (RStar a) s' c0 k else None))
      (run a' (raw d) c' (fun s' c0 => if length s' <? length (raw d) then run (RStar a') s' c0 k' else None))).
    { apply IHa; [exact F|exact C|]. intros d1 d2 e e' -> E. rewrite (raw_shorter d1 d2 F).
      destruct (Nat.ltb_spec (length (lets d2)) (length (lets (d1 ++ d2)))) as [Lt|_]; [|exact Logic.I].
      apply IHd; [unfold lets in Lt; rewrite !map_length in Lt; exact Lt|now apply fine_right in F|exact E|].
      intros d3 d4 f f' -> Ef. apply (K (d1 ++ d3)); [now rewrite app_assoc|exact Ef]. }
    destruct (run a _ _ _), (run a' _ _ _); cbn [same_result] in A; [exact A|destruct A|destruct A|now apply (K [])].
  - cbn [run]. apply IHa; [exact F|exact C|]. intros d1 d2 e e' -> E. apply (K d1); [reflexivity|]. constructor; [|exact E].
    split; [reflexivity|]. exists d1. cbn [snd]. rewrite lets_app, raw_app, !firstn_front. split; [now apply fine_left in F|auto].
Qed.
Lemma full_folds r r' d : folds r r' -> fine d -> same_result (full_match r (lets d)) (full_match r' (raw d)).
Proof.
  intros H F. unfold full_match. apply (run_folds r r' H); [exact F|constructor|]. intros d1 d2 e e' -> E.
  apply fine_right in F. destruct d2 as [|x d2]; [exact E|]. destruct (raw_length _ F) as [_ N]. specialize (N ltac:(discriminate)).
  destruct (raw (x :: d2)); [congruence|exact Logic.I].
Qed.

(** The expressions *)
Definition plain_class (p : ascii -> bool) : bool :=
  negb (p "s"%char) && negb (p "k"%char) && negb (p (hd "0"%char long_s)) && negb (p (hd "0"%char kelvin)).
Lemma reads_chr p : plain_class p = true -> reads p (RChr p).
Proof.
  unfold plain_class. intros H. apply andb_true_iff in H as [H H4]. apply andb_true_iff in H as [H H3]. apply andb_true_iff in H as [H1 H2].
  apply negb_true_iff in H1, H2, H3, H4. intros d c k F. destruct F as [|d F|d F|x d P1 P2 F]; [reflexivity| | |reflexivity].
  - change (raw (("s"%char, long_s) :: d)) with (hd "0"%char long_s :: tl long_s ++ raw d). cbn [run]. now rewrite H1, H3.
  - change (raw (("k"%char, kelvin) :: d)) with (hd "0"%char kelvin :: tl kelvin ++ raw d). cbn [run]. now rewrite H2, H4.
Qed.
Lemma folds_plain p : plain_class p = true -> folds (RChr p) (RChr p).
Proof. intros H. apply folds_chr. now apply reads_chr. Qed.
(** a class with letters added *)
Definition wide_class (p : ascii -> bool) (s k : bool) : bool :=
  Bool.eqb (p "s"%char) s && Bool.eqb (p "k"%char) k && negb (p (hd "0"%char long_s)) && negb (p (hd "0"%char kelvin)).
Lemma run_lit_some {X} w s c (k : str -> caps -> option X) : run (lit w) (w ++ s) c k = k s c.
Proof. apply run_lit. Qed.
Lemma reads_wide p e (bs bk : bool) :
  (forall s c k, @run caps e s c k = match run (RChr p) s c k with
     | Some v => Some v
     | None => match (if bs then run (lit long_s) s c k else None) with Some v => Some v | None => if bk then run (lit kelvin) s c k else None end end) ->
  wide_class p bs bk = true -> reads p e.
Proof.
  intros E H. unfold wide_class in H. apply andb_true_iff in H as [H H4]. apply andb_true_iff in H as [H H3]. apply andb_true_iff in H as [H1 H2].
  apply negb_true_iff in H3, H4. apply eqb_prop in H1, H2. intros d c k F. rewrite E. clear E. destruct F as [|d F|d F|x d P1 P2 F].
  - cbn [raw map concat run]. destruct bs, bk; rewrite ?run_lit_none; reflexivity.
  - change (raw (("s"%char, long_s) :: d)) with (long_s ++ raw d). rewrite run_lit_some, (run_lit_none kelvin) by reflexivity.
    change (long_s ++ raw d) with (hd "0"%char long_s :: tl long_s ++ raw d). cbn [run]. rewrite H3, H1. destruct bs, bk; try reflexivity; now destruct (k (raw d) c).
  - change (raw (("k"%char, kelvin) :: d)) with (kelvin ++ raw d). rewrite run_lit_some, (run_lit_none long_s) by reflexivity.
    change (kelvin ++ raw d) with (hd "0"%char kelvin :: tl kelvin ++ raw d). cbn [run]. rewrite H4, H2. destruct bs, bk; try reflexivity; now destruct (k (raw d) c).
  - change (raw ((x, [x]) :: d)) with (x :: raw d). rewrite !run_lit_none by assumption. cbn [run].
    destruct (p x); [|destruct bs, bk; reflexivity]. destruct (k (raw d) c); [reflexivity|]. destruct bs, bk; reflexivity.
Qed.
Definition low_letter (c : ascii) : bool := byte_eqb c "s" || byte_eqb c "k" || plain_class (eq_ci c).
Lemma folds_letter c : low_letter c = true -> folds (RChr (eq_ci c)) (fold_chr c).
Proof.
  unfold low_letter, fold_chr. destruct (byte_eqb c "s") eqn:Es; [intros _|destruct (byte_eqb c "k") eqn:Ek; [intros _|]].
  - apply byte_eqb_eq in Es as ->. apply folds_chr. apply (reads_wide _ _ true false); [|reflexivity]. intros s t k. cbn [run].
    match goal with |- match ?x with _ => _ end = _ => destruct x end; [reflexivity|]. now destruct (run (lit long_s) s t k).
  - apply byte_eqb_eq in Ek as ->. apply folds_chr. apply (reads_wide _ _ false true); [|reflexivity]. intros s t k. reflexivity.
  - cbn [orb]. apply folds_plain.
Qed.
Lemma folds_lit w : forallb low_letter w = true -> folds (lit_ci w) (lit_fold w).
Proof.
  induction w as [|c w IH]; intros H; [constructor|]. cbn [forallb] in H. apply andb_true_iff in H as [H1 H2].
  unfold lit_ci. cbn [RLit lit_fold]. constructor; [now apply folds_letter|now apply IH].
Qed.
Lemma folds_lits l : forallb (forallb low_letter) l = true -> folds (RAlts (map lit_ci l)) (RAlts (map lit_fold l)).
Proof.
  induction l as [|w l IH]; intros H; [apply folds_plain; reflexivity|]. cbn [forallb] in H. apply andb_true_iff in H as [H1 H2].
  destruct l as [|w' l]; [now apply folds_lit|].
  change (folds (RAlt (lit_ci w) (RAlts (map lit_ci (w' :: l)))) (RAlt (lit_fold w) (RAlts (map lit_fold (w' :: l))))).
  constructor; [now apply folds_lit|now apply IH].
Qed.
Lemma folds_exact w : forallb (fun c => plain_class (byte_eqb c)) w = true -> folds (lit w) (lit w).
Proof.
  induction w as [|c w IH]; intros H; [constructor|]. cbn [forallb] in H. apply andb_true_iff in H as [H1 H2].
  unfold lit. cbn [RLit]. constructor; [now apply folds_plain|now apply IH].
Qed.
Lemma folds_alnum : folds (RChr cls_alnum_ci) r_alnum_fold.
Proof.
  apply folds_chr. apply (reads_wide _ _ true true); [|reflexivity]. intros s t k. unfold r_alnum_fold.
  change (run (RAlt (RAlt (RChr cls_alnum_ci) (lit long_s)) (lit kelvin)) s t k) with
    (match (match run (RChr cls_alnum_ci) s t k with Some v => Some v | None => run (lit long_s) s t k end) with Some v => Some v | None => run (lit kelvin) s t k end).
  now destruct (run (RChr cls_alnum_ci) s t k).
Qed.
Lemma folds_version : folds re_version re_version_fold.
Proof.
  assert (D : folds r_digits r_digits) by (constructor; [|constructor]; now apply folds_plain).
  assert (S1 : folds r_sep1 r_sep1) by now apply folds_plain.
  assert (S : folds r_sep r_sep) by (constructor; [exact S1|constructor]).
  assert (B : folds r_spaces r_spaces) by (constructor; now apply folds_plain).
  assert (A : folds r_alnums r_alnums_fold) by (constructor; [|constructor]; apply folds_alnum).
  assert (O : forall a a', folds a a' -> folds (ROpt a) (ROpt a')) by (intros a a' H; constructor; [exact H|constructor]).
  unfold re_version, re_version_fold. cbn [RSeqs].
  constructor; [exact B|]. constructor; [apply O; now apply folds_lit|].
  constructor; [apply O; constructor; [now constructor|now apply folds_exact]|].
  constructor; [constructor; constructor; [exact D|constructor; constructor; [now apply folds_exact|exact D]]|].
  constructor; [apply O; constructor; cbn [RSeqs]; constructor; [exact S|]; constructor; [constructor; now apply folds_lits|]; constructor; [exact S|apply O; now constructor]|].
  constructor; [apply O; constructor; constructor; [constructor; [now apply folds_exact|now constructor]|]; cbn [RSeqs]; constructor; [exact S|]; constructor; [constructor; now apply folds_lits|]; constructor; [exact S|apply O; now constructor]|].
  constructor; [apply O; constructor; cbn [RSeqs]; constructor; [exact S|]; constructor; [constructor; now apply folds_lit|]; constructor; [exact S|apply O; now constructor]|].
  constructor; [apply O; constructor; [now apply folds_exact|]; constructor; constructor; [exact A|]; constructor; constructor; [exact S1|exact A]|].
  exact B.
Qed.
Theorem match_folds d : fine d -> same_result (full_match re_version (lets d)) (full_match re_version_fold (raw d)).
Proof. apply full_folds. apply folds_version. Qed.

(** ** What the groups hold *)
Fixpoint groups (r : re) : list (string * re) :=
  match r with
  | REps | RChr _ => []
  | RSeq a b | RAlt a b => groups a ++ groups b
  | RStar a => groups a
  | RGrp n a => (n, a) :: groups a
  end.
Lemma M_groups (P : string -> str -> Prop) r s s' c c' : M r s s' c c' -> (forall n r0 t, In (n, r0) (groups r) -> L r0 t -> P n t) ->
  Forall (fun x => P (fst x) (snd x)) c -> Forall (fun x => P (fst x) (snd x)) c'.
Proof.
  induction 1 as [| |a b s s1 s2 c c1 c2 Ha IHa Hb IHb|a b s s1 c c1 Ha IHa|a b s s1 c c1 Ha IHa| |r s s1 s2 c c1 c2 Ha IHa Hl Hb IHb|n r s s1 c c1 Ha IHa];
    cbn [groups]; intros G C; auto.
  - apply IHb; [|apply IHa; [|exact C]]; intros m r0 t I; apply G; apply in_app_iff; auto.
  - apply IHa; [|exact C]. intros m r0 t I. apply G. apply in_app_iff. auto.
  - apply IHa; [|exact C]. intros m r0 t I. apply G. apply in_app_iff. auto.
  - constructor; [|apply IHa; [|exact C]; intros m r0 t I; apply G; now right]. cbn [fst snd]. apply (G n r); [now left|].
    apply M_lang in Ha as (w & -> & Hw). now rewrite firstn_front.
Qed.
Lemma M_other n r s s' c c' : M r s s' c c' -> ~ In n (map fst (groups r)) -> group c' n = group c n.
Proof.
  induction 1 as [| |a b s s1 s2 c c1 c2 Ha IHa Hb IHb|a b s s1 c c1 Ha IHa|a b s s1 c c1 Ha IHa| |r s s1 s2 c c1 c2 Ha IHa Hl Hb IHb|m r s s1 c c1 Ha IHa];
    cbn [groups]; intros N; auto.
  - rewrite map_app, in_app_iff in N. rewrite IHb by tauto. apply IHa. tauto.
  - rewrite map_app, in_app_iff in N. apply IHa. tauto.
  - rewrite map_app, in_app_iff in N. apply IHa. tauto.
  - rewrite IHb by assumption. now apply IHa.
  - cbn [map fst In] in N. cbn [group]. destruct (String.eqb_spec m n) as [->|_]; [tauto|]. apply IHa. tauto.
Qed.
Lemma group_all (P : string -> str -> Prop) c n : P n [] -> Forall (fun x => P (fst x) (snd x)) c -> P n (group c n).
Proof.
  intros P0 F. induction F as [|[m t] c H F IH]; [exact P0|]. cbn [group]. destruct (String.eqb_spec m n) as [<-|_]; [exact H|exact IH].
Qed.
(** bytes before a local label *)
Definition front_byte (c : ascii) : bool := version_byte c && negb (byte_eqb c "+").
Lemma front_version s : forallb front_byte s = true -> forallb version_byte s = true.
Proof. apply forallb_impl. intros c H. now apply andb_true_iff in H. Qed.
Ltac classes := cbn [RSeqs within ROpt lit_ci RLit map RAlts RPlus lit lit_fold fold_chr list_ascii_of_string RNone];
  repeat match goal with |- _ /\ _ => split | |- True => exact Logic.I end; try (chars; fail).
Lemma front_spaces : within front_byte r_spaces.
Proof. unfold r_spaces. classes. Qed.
Lemma front_digits : within front_byte r_digits.
Proof. unfold r_digits. classes. Qed.
Lemma front_sep : within front_byte r_sep.
Proof. unfold r_sep, r_sep1. classes. Qed.
Lemma front_epoch : within front_byte r_epoch.
Proof. unfold r_epoch. split; [|exact Logic.I]. split; [exact front_digits|classes]. Qed.
Lemma front_release : within front_byte r_release.
Proof. unfold r_release. split; [exact front_digits|]. cbn [within]. split; [classes|exact front_digits]. Qed.
Lemma front_v : within front_byte (ROpt (lit_fold $"v")).
Proof. vm_compute fold_chr. classes. Qed.
Lemma front_fold w : forallb (fun c => negb (byte_eqb c "s") && negb (byte_eqb c "k") && is_lower_alpha c) w = true -> within front_byte (lit_fold w).
Proof.
  induction w as [|c w IH]; intros H; [exact Logic.I|]. cbn [forallb] in H. apply andb_true_iff in H as [H1 H2]. cbn [lit_fold within].
  split; [|now apply IH]. clear -H1. apply andb_true_iff in H1 as [H1 H3]. apply andb_true_iff in H1 as [H1 H2]. apply negb_true_iff in H1, H2.
  unfold fold_chr. rewrite H1, H2. cbn [within]. intros x E. unfold eq_ci in E. apply byte_eqb_eq in E.
  assert (E' : is_lower_alpha (lower x) = true).
  { rewrite <- E. clear -H3. revert c H3. chars. }
  clear -E'. revert x E'. chars.
Qed.
Lemma front_folds l : forallb (forallb (fun c => negb (byte_eqb c "s") && negb (byte_eqb c "k") && is_lower_alpha c)) l = true -> within front_byte (RAlts (map lit_fold l)).
Proof.
  induction l as [|w l IH]; intros H; [discriminate|]. cbn [forallb] in H. apply andb_true_iff in H as [H1 H2].
  destruct l as [|w' l]; [now apply front_fold|].
  change (within front_byte (lit_fold w) /\ within front_byte (RAlts (map lit_fold (w' :: l)))). split; [now apply front_fold|now apply IH].
Qed.
Lemma front_pre : within front_byte r_pre_fold.
Proof.
  unfold r_pre_fold. cbn [RSeqs ROpt within]. split; [|exact Logic.I]. split; [exact front_sep|]. split; [now apply front_folds|].
  split; [exact front_sep|]. split; [exact front_digits|exact Logic.I].
Qed.
Lemma front_dev : within front_byte r_dev_fold.
Proof.
  unfold r_dev_fold. cbn [RSeqs ROpt within]. split; [|exact Logic.I]. split; [exact front_sep|]. split; [now apply front_fold|].
  split; [exact front_sep|]. split; [exact front_digits|exact Logic.I].
Qed.
Lemma local_plus w : L r_local_fold w -> w = [] \/ exists t, w = "+"%char :: t.
Proof.
  unfold r_local_fold. intros [(w1 & w2 & -> & H & _)|H]; [right|left; exact H]. apply L_lit_eq in H as ->. now exists w2.
Qed.
(** The words of post-releases *)
Definition r_post_words : re := RAlts (map lit_fold [$"post"; $"rev"; $"r"]).
Definition post_acceptable : list (str * list str) := [($"post", [[]; $"rev"; $"r"])].
Lemma ci_p : forall x, eq_ci "p" x = true -> x = "p"%char \/ x = "P"%char.
Proof. chars. Qed.
Lemma ci_o : forall x, eq_ci "o" x = true -> x = "o"%char \/ x = "O"%char.
Proof. chars. Qed.
Lemma ci_s : forall x, eq_ci "s" x = true -> x = "s"%char \/ x = "S"%char.
Proof. chars. Qed.
Lemma ci_t : forall x, eq_ci "t" x = true -> x = "t"%char \/ x = "T"%char.
Proof. chars. Qed.
Definition not_plus (c : ascii) : bool := negb (byte_eqb c "+").
Lemma post_word w : L r_post_words w -> forallb not_plus w = true /\
  (forallb version_byte w = true \/ w <> [] /\ forall n, parse_letter_number_fold w n post_acceptable = Err).
Proof.
  assert (F : forall r, within front_byte r -> L r w -> forallb not_plus w = true /\ forallb version_byte w = true).
  { intros r W H. pose proof (L_within _ _ W w H) as B. split; [|now apply front_version].
    revert B. apply forallb_impl. intros c E. now apply andb_true_iff in E. }
  intros [H|[H|H]].
  - change (L (RSeq (RChr (eq_ci "p")) (RSeq (RChr (eq_ci "o")) (RSeq (RAlt (RChr (eq_ci "s")) (lit long_s)) (RSeq (RChr (eq_ci "t")) REps)))) w) in H.
    destruct H as (w1 & r1 & -> & (p & -> & Hp) & w2 & r2 & -> & (o & -> & Ho) & w3 & r3 & -> & Hs & w4 & r4 & -> & (t & -> & Ht) & ->).
    apply ci_p in Hp. apply ci_o in Ho. apply ci_t in Ht. destruct Hs as [(s & -> & Hs)|Hs].
    + apply ci_s in Hs. destruct Hp, Ho, Hs, Ht; subst; (split; [reflexivity|left; reflexivity]).
    + apply L_lit_eq in Hs as ->. split; [destruct Hp, Ho, Ht; subst; reflexivity|right].
      split; [discriminate|]. intros n. destruct Hp, Ho, Ht; subst; destruct n; reflexivity.
  - destruct (F (lit_fold $"rev")) as [A B]; [now apply front_fold|exact H|]. auto.
  - destruct (F (lit_fold $"r")) as [A B]; [now apply front_fold|exact H|]. auto.
Qed.
Lemma front_not_plus s : forallb front_byte s = true -> forallb not_plus s = true.
Proof. apply forallb_impl. intros c E. now apply andb_true_iff in E. Qed.

(** Where the parts are: before the label, at most the word of a post-release has an odd letter. *)
Lemma version_parts s c : full_match re_version_fold s = Some c -> exists a w b l, s = a ++ w ++ b ++ l /\
  forallb front_byte a = true /\ forallb front_byte b = true /\ group c "post_l" = w /\ (w = [] \/ L r_post_words w) /\
  (l = [] \/ exists t, l = "+"%char :: t).
Proof.
  unfold full_match. intros H. apply run_sound in H as (s' & c' & H & K). destruct s'; [|discriminate K]. injection K as ->.
  unfold re_version_fold in H. cbn [RSeqs] in H.
  inversion H as [| |? ? ? s1 ? ? c1 ? H1 H'| | | | |]; subst; clear H. rename H' into H.
  inversion H as [| |? ? ? s2 ? ? c2 ? H2 H'| | | | |]; subst; clear H. rename H' into H.
  inversion H as [| |? ? ? s3 ? ? c3 ? H3 H'| | | | |]; subst; clear H. rename H' into H.
  inversion H as [| |? ? ? s4 ? ? c4 ? H4 H'| | | | |]; subst; clear H. rename H' into H.
  inversion H as [| |? ? ? s5 ? ? c5 ? H5 H'| | | | |]; subst; clear H. rename H' into H.
  inversion H as [| |? ? ? s6 ? ? c6 ? H6 H'| | | | |]; subst; clear H. rename H' into H.
  inversion H as [| |? ? ? s7 ? ? c7 ? H7 H'| | | | |]; subst; clear H. rename H' into H.
  inversion H as [| |? ? ? s8 ? ? c8 ? H8 H9| | | | |]; subst; clear H.
  assert (G0 : group c5 "post_l" = []).
  { rewrite (M_other _ _ _ _ _ _ H5), (M_other _ _ _ _ _ _ H4), (M_other _ _ _ _ _ _ H3), (M_other _ _ _ _ _ _ H2), (M_other _ _ _ _ _ _ H1);
      [reflexivity|vm_compute; intuition discriminate ..]. }
  assert (G9 : group c "post_l" = group c6 "post_l").
  { rewrite (M_other _ _ _ _ _ _ H9), (M_other _ _ _ _ _ _ H8), (M_other _ _ _ _ _ _ H7); [reflexivity|vm_compute; intuition discriminate ..]. }
  apply M_lang in H1 as (w1 & -> & L1). apply M_lang in H2 as (w2 & -> & L2). apply M_lang in H3 as (w3 & -> & L3).
  apply M_lang in H4 as (w4 & -> & L4). apply M_lang in H5 as (w5 & -> & L5).
  apply M_lang in H7 as (w7 & -> & L7). apply M_lang in H8 as (w8 & -> & L8). apply M_lang in H9 as (w9 & -> & L9). rewrite app_nil_r in *.
  apply (L_within _ _ front_spaces) in L1, L9. apply (L_within _ _ front_v) in L2. apply (L_within _ _ front_epoch) in L3.
  apply (L_within _ _ front_release) in L4. apply (L_within _ _ front_pre) in L5. apply (L_within _ _ front_dev) in L7. apply local_plus in L8.
  assert (P : exists a w b, s5 = a ++ w ++ b ++ w7 ++ w8 ++ w9 /\ forallb front_byte a = true /\ forallb front_byte b = true /\
    group c6 "post_l" = w /\ (w = [] \/ L r_post_words w)).
  { inversion H6 as [| | |? ? ? ? ? ? Hp|? ? ? ? ? ? Hp| | |]; subst; clear H6.
    - inversion Hp as [| | | | | | |? ? ? ? ? ? Hq]; subst; clear Hp. cbn [group]. cbn [String.eqb Ascii.eqb].
      change (String.eqb "post" "post_l") with false. cbv iota.
      inversion Hq as [| | |? ? ? ? ? ? Hr|? ? ? ? ? ? Hr| | |]; subst; clear Hq.
      + pose proof (M_other "post_l" _ _ _ _ _ Hr ltac:(vm_compute; intuition discriminate)) as G. apply M_lang in Hr as (w & -> & Lw).
        exists w, [], []. split; [reflexivity|]. split; [|split; [reflexivity|split; [now rewrite G|now left]]].
        destruct Lw as (x & y & -> & Lx & Ly). apply L_lit_eq in Lx as ->. rewrite forallb_app. apply (L_within _ _ front_digits) in Ly. now rewrite Ly.
      + cbn [RSeqs] in Hr. inversion Hr as [| |? ? ? t1 ? ? d1 ? J1 J'| | | | |]; subst; clear Hr.
        inversion J' as [| |? ? ? t2 ? ? d2 ? J2 J3| | | | |]; subst; clear J'.
        inversion J2 as [| | | | | | |? ? ? ? ? ? Jw]; subst; clear J2.
        rewrite (M_other "post_l" _ _ _ _ _ J3) by (vm_compute; intuition discriminate). cbn [group]. change (String.eqb "post_l" "post_l") with true. cbv iota.
        apply M_lang in J1 as (x1 & -> & X1). apply M_lang in Jw as (w & -> & Lw). apply M_lang in J3 as (x2 & -> & X2).
        rewrite firstn_front. exists x1, w, x2. split; [reflexivity|]. split; [exact (L_within _ _ front_sep _ X1)|].
        split; [|split; [reflexivity|right; exact Lw]].
        destruct X2 as (y1 & y2 & -> & Y1 & Y2). rewrite forallb_app. rewrite (L_within _ _ front_sep _ Y1). cbn [andb].
        destruct Y2 as [Y2|Y2]; [exact (L_within _ _ front_digits _ Y2)|]. cbn [L] in Y2. now subst y2.
    - inversion Hp; subst. exists [], [], []. split; [reflexivity|]. split; [reflexivity|]. split; [reflexivity|]. split; [exact G0|now left]. }
  destruct P as (a & w & b & -> & Fa & Fb & Gw & Lw). rewrite <- G9 in Gw.
  assert (Fw : forallb front_byte (w1 ++ w2 ++ w3 ++ w4 ++ w5 ++ a) = true) by now rewrite !forallb_app, L1, L2, L3, L4, L5, Fa.
  destruct L8 as [-> | (t & ->)].
  - exists (w1 ++ w2 ++ w3 ++ w4 ++ w5 ++ a), w, (b ++ w7 ++ w9), []. split; [now rewrite app_nil_r, <- !app_assoc|]. split; [exact Fw|].
    split; [now rewrite !forallb_app, Fb, L7, L9|]. auto.
  - exists (w1 ++ w2 ++ w3 ++ w4 ++ w5 ++ a), w, (b ++ w7), ("+"%char :: t ++ w9). split; [now rewrite <- !app_assoc|]. split; [exact Fw|].
    split; [now rewrite !forallb_app, Fb, L7|]. split; [exact Gw|]. split; [exact Lw|]. right. now exists (t ++ w9).
Qed.

(** ** Values *)
Definition ascii_letters : forallb version_byte long_s = false /\ forallb version_byte kelvin = false := conj eq_refl eq_refl.
Lemma plain_lets d : fine d -> forallb version_byte (raw d) = true -> lets d = raw d.
Proof.
  induction 1 as [|d F IH|d F IH|c d P1 P2 F IH]; intros V; [reflexivity| | |].
  - change (raw (("s"%char, long_s) :: d)) with (long_s ++ raw d) in V. rewrite forallb_app in V. now apply andb_true_iff in V as [V _].
  - change (raw (("k"%char, kelvin) :: d)) with (kelvin ++ raw d) in V. rewrite forallb_app in V. now apply andb_true_iff in V as [V _].
  - change (raw ((c, [c]) :: d)) with (c :: raw d) in *. cbn [forallb] in V. apply andb_true_iff in V as [_ V].
    change (lets ((c, [c]) :: d)) with (c :: lets d). now rewrite (IH V).
Qed.
Lemma same_groups c c' n : same_caps c c' -> exists d, fine d /\ group c n = lets d /\ group c' n = raw d.
Proof.
  induction 1 as [|[m t] [m' t'] c c' (E & d & F & T & T') C IH]; [exists []; repeat split; constructor|].
  cbn [fst snd] in *. subst. cbn [group]. destruct (String.eqb m' n); [exists d; auto|exact IH].
Qed.
Lemma group_bytes s c n : full_match re_version_fold s = Some c -> n <> "post"%string -> n <> "post_l"%string -> n <> "local"%string ->
  forallb version_byte (group c n) = true.
Proof.
  unfold full_match. intros H N1 N2 N3. apply run_sound in H as (s' & c' & H & K). destruct s'; [|discriminate K]. injection K as ->.
  pose (P := fun n t => n <> "post"%string -> n <> "post_l"%string -> n <> "local"%string -> forallb version_byte t = true).
  apply (group_all P c n); [intros _ _ _; reflexivity| |exact N1|exact N2|exact N3].
  apply (M_groups P _ _ _ _ _ H); [|constructor]. clear. intros n r t I Lt. unfold P. clear P. intros N1 N2 N3. apply front_version.
  assert (W : forall r0, within front_byte r0 -> L r0 t -> forallb front_byte t = true) by (intros r0 W; now apply L_within).
  assert (D : L r_digits t -> forallb front_byte t = true) by (apply W; exact front_digits).
  cbn [groups re_version_fold RSeqs r_spaces ROpt r_epoch r_release r_pre_fold r_post_fold r_dev_fold r_local_fold app r_digits RPlus r_sep r_sep1] in I.
  assert (E : forall w, groups (lit_fold w) = []).
  { induction w as [|x w IH]; [reflexivity|]. cbn [lit_fold groups]. rewrite IH, app_nil_r. unfold fold_chr. destruct (byte_eqb x "s"), (byte_eqb x "k"); reflexivity. }
  assert (I' : In (n, r) [("epoch", r_digits); ("release", RSeq r_digits (RStar (RSeq (lit $".") r_digits)));
     ("pre", RSeqs [r_sep; RGrp "pre_l" (RAlts (map lit_fold [$"a"; $"b"; $"c"; $"rc"; $"alpha"; $"beta"; $"pre"; $"preview"])); r_sep; ROpt (RGrp "pre_n" r_digits)]);
     ("pre_l", RAlts (map lit_fold [$"a"; $"b"; $"c"; $"rc"; $"alpha"; $"beta"; $"pre"; $"preview"])); ("pre_n", r_digits);
     ("post_n1", r_digits); ("post_n2", r_digits);
     ("dev", RSeqs [r_sep; RGrp "dev_l" (lit_fold $"dev"); r_sep; ROpt (RGrp "dev_n" r_digits)]); ("dev_l", lit_fold $"dev"); ("dev_n", r_digits)]%string).
  { clear -I N1 N2 N3. cbn in I. repeat (destruct I as [I|I]; [injection I as <- <-; first [congruence | cbn; tauto]|]). destruct I. }
  clear I. cbn [In] in I'.
  destruct I' as [I|[I|[I|[I|[I|[I|[I|[I|[I|[I|[]]]]]]]]]]]; injection I as <- <-; try exact (D Lt).
  - exact (W _ front_release Lt).
  - apply (W r_pre_fold front_pre). left. exact Lt.
  - refine (W (RAlts (map lit_fold [$"a"; $"b"; $"c"; $"rc"; $"alpha"; $"beta"; $"pre"; $"preview"])) _ Lt). now apply front_folds.
  - apply (W r_dev_fold front_dev). left. exact Lt.
  - refine (W (lit_fold $"dev") _ Lt). now apply front_fold.
Qed.
Lemma group_plain d c c' n : fine d -> full_match re_version (lets d) = Some c -> full_match re_version_fold (raw d) = Some c' -> same_caps c c' ->
  n <> "post"%string -> n <> "post_l"%string -> n <> "local"%string -> group c n = group c' n /\ forallb version_byte (group c' n) = true.
Proof.
  intros F M M' C N1 N2 N3. pose proof (group_bytes _ _ n M' N1 N2 N3) as B. destruct (same_groups c c' n C) as (e & Fe & E & E').
  split; [|exact B]. rewrite E, E'. rewrite E' in B. now apply plain_lets.
Qed.
Definition seg_fold (part : str) : intorstr := intstr_parse (to_lower_fold part).
Definition seg_plain (part : str) : intorstr := intstr_parse (to_lower part).
Definition label_parts (t : str) : list str := fields_func (in_set $"-_.") t.
Lemma vb_all t : forallb version_byte t = true -> forall x, In x t -> version_byte x = true.
Proof. intros H. now rewrite forallb_forall in H. Qed.
Lemma parse_both d c c' : fine d -> full_match re_version (lets d) = Some c -> full_match re_version_fold (raw d) = Some c' -> same_caps c c' ->
  forallb version_byte (group c' "post_l") = true ->
  parse_version_fold (raw d) = option_map (fun v => mkVersion (pub v) (map seg_fold (label_parts (group c' "local")))) (parse_version (lets d)).
Proof.
  intros F M M' C V. unfold parse_version_fold, parse_version. rewrite M, M'.
  assert (G : forall n, n <> "post"%string -> n <> "post_l"%string -> n <> "local"%string -> group c n = group c' n) by (intros; now apply (group_plain d)).
  assert (B : forall n, n <> "post"%string -> n <> "post_l"%string -> n <> "local"%string -> forall x, In x (group c' n) -> version_byte x = true) by
    (intros n N1 N2 N3; apply vb_all; now apply (group_plain d c c')).
  assert (Gp : group c "post_l" = group c' "post_l").
  { destruct (same_groups c c' "post_l" C) as (e & Fe & -> & E). rewrite E. apply plain_lets; [exact Fe|now rewrite <- E]. }
  rewrite !(G "epoch"%string), !(G "release"%string), !(G "pre_l"%string), !(G "pre_n"%string), !(G "post_n1"%string), !(G "post_n2"%string), !(G "dev_l"%string), !(G "dev_n"%string), Gp by discriminate.
  rewrite (letter_number_plain (group c' "pre_l")), (letter_number_plain (group c' "post_l")), (letter_number_plain (group c' "dev_l"));
    [|apply B; discriminate|now apply vb_all|apply B; discriminate].
  destruct (if str_eqb (group c' "epoch") [] then _ else _) as [e|]; [|reflexivity].
  destruct (map_atoi _) as [r|]; [|reflexivity].
  destruct (parse_letter_number (group c' "pre_l") _ _) as [p| |]; [|reflexivity|reflexivity].
  destruct (parse_letter_number (group c' "post_l") _ _) as [po| |]; [|reflexivity|reflexivity].
  destruct (parse_letter_number (group c' "dev_l") _ _) as [de| |]; reflexivity.
Qed.
Lemma parse_local d c v : full_match re_version (lets d) = Some c -> parse_version (lets d) = Some v -> local v = map seg_plain (label_parts (group c "local")).
Proof.
  intros M H. unfold parse_version in H. rewrite M in H.
  destruct (if str_eqb (group c "epoch") [] then _ else _) as [e|]; [|discriminate H].
  destruct (map_atoi _) as [r|]; [|discriminate H].
  destruct (parse_letter_number (group c "pre_l") _ _) as [p| |]; [|discriminate H|discriminate H].
  destruct (parse_letter_number (group c "post_l") _ _) as [po| |]; [|discriminate H|discriminate H].
  destruct (parse_letter_number (group c "dev_l") _ _) as [de| |]; [|discriminate H|discriminate H].
  assert (E : v = {| pub := {| epoch := e; release := r; pre := p; post := option_map snd po; dev := option_map snd de |};
    local := map seg_plain (label_parts (group c "local")) |}) by (unfold seg_plain, label_parts; congruence). now rewrite E.
Qed.

(** *** The segments of labels *)
Definition no_sep (f : ascii -> bool) : Prop := f "s"%char = false /\ f "k"%char = false /\ forallb (fun x => negb (f x)) (long_s ++ kelvin) = true.
Definition same_part (p p' : str) : Prop := exists e, fine e /\ p = lets e /\ p' = raw e.
Lemma fields_skip f w s cur : forallb (fun x => negb (f x)) w = true -> fields_aux f (w ++ s) cur = fields_aux f s (rev w ++ cur).
Proof.
  revert cur. induction w as [|x w IH]; intros cur H; [reflexivity|]. cbn [forallb] in H. apply andb_true_iff in H as [H1 H2]. apply negb_true_iff in H1.
  cbn [app fields_aux]. rewrite H1, (IH (x :: cur) H2). cbn [rev]. now rewrite <- app_assoc.
Qed.
Lemma fields_same f e : no_sep f -> forall d, fine (d ++ e) ->
  Forall2 same_part (fields_aux f (lets e) (rev (lets d))) (fields_aux f (raw e) (rev (raw d))).
Proof.
  intros (Ns & Nk & Nb). rewrite forallb_app in Nb. apply andb_true_iff in Nb as [Nl Nm].
  induction e as [|[x t] e IH]; intros d F.
  - rewrite app_nil_r in F. change (fields_aux f (lets []) (rev (lets d))) with (match rev (lets d) with [] => [] | _ => [rev (rev (lets d))] end).
    change (fields_aux f (raw []) (rev (raw d))) with (match rev (raw d) with [] => [] | _ => [rev (rev (raw d))] end). rewrite !rev_involutive.
    destruct d as [|y d]; [constructor|]. destruct (raw_length _ F) as [_ N]. specialize (N ltac:(discriminate)).
    destruct (rev (lets (y :: d))) eqn:E1; [apply (f_equal (@length _)) in E1; rewrite rev_length in E1; discriminate E1|].
    destruct (rev (raw (y :: d))) eqn:E2; [apply (f_equal (@rev _)) in E2; rewrite rev_involutive in E2; exfalso; exact (N E2)|].
    constructor; [|constructor]. now exists (y :: d).
  - assert (S : fine ((d ++ [(x, t)]) ++ e)) by (rewrite <- app_assoc; exact F).
    pose proof (fine_right _ _ F) as Fe. pose proof (fine_left _ _ F) as Fd.
    assert (K : f x = false -> forallb (fun x => negb (f x)) t = true ->
      Forall2 same_part (fields_aux f (lets ((x, t) :: e)) (rev (lets d))) (fields_aux f (raw ((x, t) :: e)) (rev (raw d)))).
    { intros Fx Ft. specialize (IH _ S). rewrite lets_app, raw_app, !rev_app_distr in IH.
      change (lets ((x, t) :: e)) with ([x] ++ lets e). change (raw ((x, t) :: e)) with (t ++ raw e).
      rewrite !fields_skip; [|exact Ft|cbn; now rewrite Fx]. change (raw [(x, t)]) with (t ++ []) in IH. rewrite app_nil_r in IH. exact IH. }
    inversion Fe as [|? F'|? F'|? ? P1 P2 F']; subst; [now apply K|now apply K|].
    destruct (f x) eqn:Fx; [|apply K; [reflexivity|cbn; now rewrite Fx]].
    change (lets ((x, [x]) :: e)) with (x :: lets e). change (raw ((x, [x]) :: e)) with (x :: raw e). cbn [fields_aux]. rewrite Fx.
    specialize (IH [] F'). change (rev (lets [])) with (@nil ascii) in IH. change (rev (raw [])) with (@nil ascii) in IH. rewrite !rev_involutive.
    destruct d as [|y d]; [exact IH|]. destruct (raw_length _ Fd) as [_ N]. specialize (N ltac:(discriminate)).
    destruct (rev (lets (y :: d))) eqn:E1; [apply (f_equal (@length _)) in E1; rewrite rev_length in E1; discriminate E1|].
    destruct (rev (raw (y :: d))) eqn:E2; [apply (f_equal (@rev _)) in E2; rewrite rev_involutive in E2; exfalso; exact (N E2)|].
    constructor; [now exists (y :: d)|exact IH].
Qed.
Lemma lower_cons c s : has_prefix kelvin (c :: s) = false -> to_lower_fold (c :: s) = lower c :: to_lower_fold s.
Proof.
  intros H. cbn [to_lower_fold]. destruct s as [|c' [|c'' s]]; try reflexivity. destruct (str_eqb [c; c'; c''] kelvin) eqn:E; [|reflexivity].
  apply str_eqb_eq in E. change (c :: c' :: c'' :: s) with ([c; c'; c''] ++ s) in H. rewrite E, has_prefix_app in H. discriminate H.
Qed.
Lemma lower_long s : to_lower_fold (long_s ++ s) = long_s ++ to_lower_fold s.
Proof. change (long_s ++ s) with (hd "0"%char long_s :: hd "0"%char (tl long_s) :: s). rewrite !lower_cons by reflexivity. reflexivity. Qed.
Lemma lower_kelvin s : to_lower_fold (kelvin ++ s) = "k"%char :: to_lower_fold s.
Proof. reflexivity. Qed.
Lemma spelt_lower e : fine e -> spelt (to_lower (lets e)) (to_lower_fold (raw e)).
Proof.
  induction 1 as [|d F IH|d F IH|c d P1 P2 F IH]; [constructor| | |].
  - change (raw (("s"%char, long_s) :: d)) with (long_s ++ raw d). rewrite lower_long. now constructor.
  - change (raw (("k"%char, kelvin) :: d)) with (kelvin ++ raw d). rewrite lower_kelvin. now apply spelt_same.
  - change (raw ((c, [c]) :: d)) with (c :: raw d). rewrite lower_cons by assumption. now apply spelt_same.
Qed.
Lemma lower_bytes e : fine e -> forallb version_byte (lets e) = true -> ~ In (hd "0"%char kelvin) (to_lower_fold (raw e)).
Proof.
  induction 1 as [|d F IH|d F IH|c d P1 P2 F IH]; intros V; [intros []| | |].
  - change (raw (("s"%char, long_s) :: d)) with (long_s ++ raw d). rewrite lower_long, in_app_iff. cbn [lets map fst forallb] in V. apply andb_true_iff in V as [_ V].
    intros [I|I]; [|exact (IH V I)]. vm_compute in I. intuition discriminate.
  - change (raw (("k"%char, kelvin) :: d)) with (kelvin ++ raw d). rewrite lower_kelvin. cbn [lets map fst forallb] in V. apply andb_true_iff in V as [_ V].
    intros [I|I]; [discriminate I|exact (IH V I)].
  - change (raw ((c, [c]) :: d)) with (c :: raw d). rewrite lower_cons by assumption. cbn [lets map fst forallb] in V. apply andb_true_iff in V as [Vc V].
    intros [I|I]; [|exact (IH V I)]. revert Vc I. clear. revert c. chars.
Qed.
Lemma atoi_other t c : In c t -> is_digit c = false -> c <> "-"%char -> c <> "+"%char -> atoi t = None.
Proof.
  intros I D N1 N2. unfold atoi.
  assert (A : forall u, In c u -> all_digits u = false).
  { intros u Iu. destruct (all_digits u) eqn:E; [|reflexivity]. destruct u as [|x u]; [discriminate E|].
    unfold all_digits in E. rewrite forallb_forall in E. rewrite (E c Iu) in D. discriminate D. }
  destruct t as [|x t]; [destruct I|].
  destruct (ascii_dec x "-") as [->|M1]; [rewrite (A t); [reflexivity|]; destruct I as [<-|I]; [congruence|exact I]|].
  destruct (ascii_dec x "+") as [->|M2]; [rewrite (A t); [reflexivity|]; destruct I as [<-|I]; [congruence|exact I]|].
  assert (E : match x :: t with "-"%char :: d => (true, d) | "+"%char :: d => (false, d) | _ => (false, x :: t) end = (false, x :: t)).
  { destruct x as [[] [] [] [] [] [] [] []]; try reflexivity; congruence. }
  rewrite E. now rewrite (A _ I).
Qed.
Lemma spelt_refl t : spelt t t.
Proof. induction t; now constructor. Qed.
Lemma avoids_kelvin t : ~ In (hd "0"%char kelvin) t -> avoids [kelvin] t.
Proof. intros H w a b [<-|[]] ->. apply H. rewrite !in_app_iff. right. left. now left. Qed.
Lemma odd_inside e : fine e -> lets e = raw e \/ (exists x, In x (to_lower (lets e)) /\ (x = "s" \/ x = "k")%char) /\
  exists x, In x (to_lower_fold (raw e)) /\ (x = "k"%char \/ x = hd "0"%char long_s).
Proof.
  induction 1 as [|d F IH|d F IH|c d P1 P2 F IH]; [now left| | |].
  - right. change (raw (("s"%char, long_s) :: d)) with (long_s ++ raw d). rewrite lower_long. split.
    + exists "s"%char. split; [now left|now left].
    + eexists. split; [left; reflexivity|now right].
  - right. change (raw (("k"%char, kelvin) :: d)) with (kelvin ++ raw d). rewrite lower_kelvin. split.
    + exists "k"%char. split; [now left|now right].
    + exists "k"%char. split; [now left|now left].
  - change (raw ((c, [c]) :: d)) with (c :: raw d). change (lets ((c, [c]) :: d)) with (c :: lets d). destruct IH as [-> | ((x & I & X) & y & J & Y)]; [now left|right].
    split; [exists x; split; [now right|exact X]|]. exists y. rewrite lower_cons by assumption. split; [now right|exact Y].
Qed.
Lemma seg_same p p' : same_part p p' -> forallb version_byte p = true -> seg_spelt (seg_plain p) (seg_fold p').
Proof.
  intros (e & F & -> & ->) V. unfold seg_plain, seg_fold. destruct (odd_inside e F) as [E | ((x & I & X) & y & J & Y)].
  - rewrite <- E. rewrite (lower_plain (lets e)) by now apply vb_all. unfold intstr_parse. destruct (atoi (to_lower (lets e))); cbn [seg_spelt]; [reflexivity|].
    split; [apply spelt_refl|]. apply avoids_kelvin. rewrite <- (lower_plain (lets e)) by now apply vb_all. rewrite E at 1. now apply lower_bytes.
  - unfold intstr_parse. rewrite (atoi_other _ x I), (atoi_other _ y J); try (destruct X as [-> | ->]; discriminate || reflexivity); try (destruct Y as [-> | ->]; discriminate || reflexivity).
    cbn [seg_spelt]. split; [now apply spelt_lower|]. apply avoids_kelvin. now apply lower_bytes.
Qed.
Lemma segs_same l l' : Forall2 same_part l l' -> Forall (fun p => forallb version_byte p = true) l -> Forall2 seg_spelt (map seg_plain l) (map seg_fold l').
Proof. induction 1 as [|p p' l l' H F IH]; intros V; [constructor|]. inversion V; subst. constructor; [now apply seg_same|now apply IH]. Qed.
Lemma parts_bytes t : forallb version_byte t = true -> Forall (fun p => forallb version_byte p = true) (label_parts t).
Proof.
  intros V. apply Forall_forall. intros p I. apply (fields_incl _ _ [] p) in I. rewrite forallb_forall in *. intros x Hx. apply V. exact (I x Hx).
Qed.

(** ** Acceptance *)
Lemma fine_split d a t : fine d -> raw d = a ++ t -> forallb version_byte a = true -> exists e, fine e /\ raw e = t /\ lets d = a ++ lets e.
Proof.
  revert d. induction a as [|x a IH]; intros d F E V; [now exists d|]. cbn [forallb] in V. apply andb_true_iff in V as [Vx V].
  destruct F as [|d F|d F|c d P1 P2 F]; [discriminate E| | |].
  - exfalso. change (raw (("s"%char, long_s) :: d)) with (hd "0"%char long_s :: tl long_s ++ raw d) in E. apply (f_equal (hd "0"%char)) in E. symmetry in E. change (x = hd "0"%char long_s) in E. rewrite E in Vx. discriminate Vx.
  - exfalso. change (raw (("k"%char, kelvin) :: d)) with (hd "0"%char kelvin :: tl kelvin ++ raw d) in E. apply (f_equal (hd "0"%char)) in E. symmetry in E. change (x = hd "0"%char kelvin) in E. rewrite E in Vx. discriminate Vx.
  - change (raw ((c, [c]) :: d)) with (c :: raw d) in E. cbn [app] in E. assert (c = x) as -> by congruence. assert (E' : raw d = a ++ t) by congruence.
    destruct (IH d F E' V) as (e & Fe & Re & Le). exists e. split; [exact Fe|]. split; [exact Re|]. change (lets ((x, [x]) :: d)) with (x :: lets d). now rewrite Le.
Qed.
Lemma spelt_fine d : fine d -> spelt (lets d) (raw d).
Proof.
  induction 1 as [|d F IH|d F IH|c d P1 P2 F IH]; [constructor| | |].
  - change (raw (("s"%char, long_s) :: d)) with (long_s ++ raw d). now constructor.
  - change (raw (("k"%char, kelvin) :: d)) with (kelvin ++ raw d). now apply spelt_k.
  - change (raw ((c, [c]) :: d)) with (c :: raw d). now apply spelt_same.
Qed.
Lemma plain_start c s : version_byte c = true -> has_prefix long_s (c :: s) = false /\ has_prefix kelvin (c :: s) = false.
Proof.
  intros V. assert (E : byte_eqb (hd "0"%char long_s) c = false /\ byte_eqb (hd "0"%char kelvin) c = false) by (revert c V; chars).
  destruct E as [E1 E2]. change long_s with (hd "0"%char long_s :: tl long_s). change kelvin with (hd "0"%char kelvin :: tl kelvin). cbn [has_prefix]. now rewrite E1, E2.
Qed.
Lemma spelt_decode l l' : spelt l l' -> forallb version_byte l = true -> exists d, fine d /\ raw d = l' /\ lets d = l.
Proof.
  induction 1 as [|c t t' H IH|t t' H IH|t t' H IH]; intros V; [exists []; repeat split; constructor| | |];
    cbn [forallb] in V; apply andb_true_iff in V as [Vc V]; destruct (IH V) as (d & F & R & E).
  - exists ((c, [c]) :: d). change (raw ((c, [c]) :: d)) with (c :: raw d). change (lets ((c, [c]) :: d)) with (c :: lets d). rewrite R, E. split; [|auto].
    destruct (plain_start c (raw d) Vc). now constructor.
  - exists (("s"%char, long_s) :: d). split; [now constructor|]. change (raw (("s"%char, long_s) :: d)) with (long_s ++ raw d). rewrite R. split; [reflexivity|]. unfold lets in *. cbn [map fst]. now rewrite E.
  - exists (("k"%char, kelvin) :: d). split; [now constructor|]. change (raw (("k"%char, kelvin) :: d)) with (kelvin ++ raw d). rewrite R. split; [reflexivity|]. unfold lets in *. cbn [map fst]. now rewrite E.
Qed.
Lemma spelt_app a b t t' : spelt a b -> spelt t t' -> spelt (a ++ t) (b ++ t').
Proof.
  intros A T. induction A as [|c u u' H IH|u u' H IH|u u' H IH]; [exact T|apply spelt_same; exact IH| |]; rewrite <- app_assoc; [apply spelt_s|apply spelt_k]; exact IH.
Qed.
Lemma plus_before (x y a z : str) : x ++ "+"%char :: y = a ++ "+"%char :: z -> forallb not_plus x = true -> incl x a.
Proof.
  revert a. induction x as [|c x IH]; intros a E N; [intros q []|]. cbn [forallb] in N. apply andb_true_iff in N as [Nc N].
  destruct a as [|c' a]; cbn [app] in E.
  - assert (c = "+"%char) as -> by congruence. discriminate Nc.
  - assert (c' = c) as -> by congruence. assert (E' : x ++ "+"%char :: y = a ++ "+"%char :: z) by congruence. apply incl_cons; [now left|]. apply incl_tl. now apply (IH a).
Qed.
Lemma vb_avoids s : forallb version_byte s = true -> avoids odd_letters s.
Proof.
  intros V w a b Hw ->. rewrite !forallb_app in V. apply andb_true_iff in V as [_ V]. apply andb_true_iff in V as [V _].
  destruct Hw as [<-|[<-|[]]]; discriminate V.
Qed.
Lemma version_bytes s : is_version s -> forallb version_byte s = true.
Proof. intros H. apply parse_accepts in H. destruct (parse_version s) as [v|] eqn:E; [|congruence]. now apply parse_bytes in E. Qed.

Theorem parse_wide a l l' v : parse_version (a ++ $"+" ++ l) = Some v -> spelt l l' ->
  exists v', parse_version_fold (a ++ $"+" ++ l') = Some v' /\ pub v' = pub v /\ Forall2 seg_spelt (local v) (local v').
Proof.
  intros P Sp. pose proof (parse_bytes _ _ P) as V.
  assert (Va : forallb version_byte a = true) by (rewrite forallb_app in V; now apply andb_true_iff in V).
  destruct (spelt_decode _ _ (spelt_app _ _ _ _ (spelt_refl (a ++ $"+")) Sp)) as (d & F & R & E); [now rewrite <- app_assoc|].
  rewrite <- !app_assoc in R, E. pose proof (match_folds d F) as Mf. rewrite <- R. rewrite <- E in P.
  assert (M : exists c, full_match re_version (lets d) = Some c).
  { unfold parse_version in P. destruct (full_match re_version (lets d)) as [c|]; [now exists c|discriminate P]. }
  destruct M as (c & M). rewrite M in Mf. destruct (full_match re_version_fold (raw d)) as [c'|] eqn:M'; [|destruct Mf]. cbn [same_result] in Mf.
  assert (W : forallb version_byte (group c' "post_l") = true).
  { destruct (version_parts _ _ M') as (x & w & y & t & Et & Fx & Fy & Gw & Lw & Lt). rewrite Gw. rewrite R in Et.
    assert (Nw : forallb not_plus w = true) by (destruct Lw as [-> | Lw]; [reflexivity|now apply post_word]).
    destruct Lt as [-> | (t' & ->)].
    - exfalso. assert (In "+"%char (x ++ w ++ y ++ [])) as I by (rewrite <- Et; rewrite in_app_iff; right; now left).
      assert (forallb not_plus (x ++ w ++ y ++ []) = true) as N by (rewrite app_nil_r, !forallb_app, (front_not_plus _ Fx), (front_not_plus _ Fy), Nw; reflexivity).
      rewrite forallb_forall in N. specialize (N _ I). discriminate N.
    - assert (I : incl (x ++ w ++ y) a).
      { apply (plus_before _ t' _ l'); [rewrite <- !app_assoc; symmetry; exact Et|]. now rewrite !forallb_app, (front_not_plus _ Fx), (front_not_plus _ Fy), Nw. }
      rewrite forallb_forall in *. intros q Hq. apply Va. apply I. rewrite !in_app_iff. auto. }
  rewrite (parse_both d c c' F M M' Mf W), P. cbn [option_map]. eexists. split; [reflexivity|]. split; [reflexivity|]. cbn [local].
  rewrite (parse_local d c v M P). apply segs_same.
  - destruct (same_groups c c' "local" Mf) as (e & Fe & -> & ->). apply (fields_same _ e) with (d := []); [repeat split|exact Fe].
  - apply parts_bytes. rewrite E in *. rewrite forallb_forall in *. intros q Hq. apply V. now apply (full_caps _ _ _ M) in Hq.
Qed.
Theorem parse_wide_only s v : parse_version_fold s = Some v -> is_version s \/ exists a l l', is_version (a ++ $"+" ++ l) /\ spelt l l' /\ s = a ++ $"+" ++ l'.
Proof.
  intros P. destruct (fine_total s) as (d & F & <-). pose proof (match_folds d F) as Mf.
  destruct (full_match re_version_fold (raw d)) as [c'|] eqn:M'; [|unfold parse_version_fold in P; rewrite M' in P; discriminate P].
  destruct (full_match re_version (lets d)) as [c|] eqn:M; [|destruct Mf]. cbn [same_result] in Mf.
  destruct (version_parts _ _ M') as (x & w & y & t & Et & Fx & Fy & Gw & Lw & Lt).
  assert (W : forallb version_byte w = true).
  { destruct Lw as [-> | Lw]; [reflexivity|]. apply post_word in Lw as [_ [Lw|[_ Lw]]]; [exact Lw|]. exfalso.
    unfold parse_version_fold in P. rewrite M' in P. rewrite Gw in P. fold post_acceptable in P. rewrite Lw in P.
    destruct (if str_eqb (group c' "epoch") [] then _ else _) as [e|]; [|discriminate P].
    destruct (map_atoi _) as [r|]; [|discriminate P].
    destruct (parse_letter_number_fold (group c' "pre_l") _ _) as [p| |]; discriminate P. }
  assert (Q : parse_version (lets d) <> None).
  { rewrite (parse_both d c c' F M M' Mf) in P by now rewrite Gw. destruct (parse_version (lets d)); [discriminate|discriminate P]. }
  apply parse_accepts in Q.
  assert (Vx : forallb version_byte (x ++ w ++ y) = true) by now rewrite !forallb_app, (front_version _ Fx), (front_version _ Fy), W.
  destruct Lt as [-> | (t' & ->)].
  - left. rewrite app_nil_r in Et. rewrite <- (plain_lets d F); [exact Q|now rewrite Et].
  - right. destruct (fine_split d ((x ++ w ++ y) ++ ["+"%char]) t' F) as (e & Fe & Re & Le); [now rewrite Et, <- !app_assoc|rewrite forallb_app, Vx; reflexivity|].
    exists (x ++ w ++ y), (lets e), t'. split; [|split].
    + rewrite Le in Q. rewrite <- app_assoc in Q. exact Q.
    + rewrite <- Re. now apply spelt_fine.
    + rewrite Et. now rewrite <- !app_assoc.
Qed.
Theorem parse_wide_accepts s : parse_version_fold s <> None <-> is_version s \/ exists a l l', is_version (a ++ $"+" ++ l) /\ spelt l l' /\ s = a ++ $"+" ++ l'.
Proof.
  split.
  - destruct (parse_version_fold s) as [v|] eqn:E; [|congruence]. intros _. now apply (parse_wide_only s v).
  - intros [V | (a & l & l' & V & Sp & ->)].
    + apply parse_fold_accepts; [|exact V]. apply vb_avoids. now apply version_bytes.
    + apply parse_accepts in V. destruct (parse_version (a ++ $"+" ++ l)) as [v|] eqn:E; [|congruence].
      destruct (parse_wide a l l' v E Sp) as (v' & -> & _). discriminate.
Qed.
