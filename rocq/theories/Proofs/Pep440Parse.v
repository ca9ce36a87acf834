(** The version parser accepts exactly the grammar and returns its meaning. *)
From Coq Require Import String Ascii List Bool ZArith NArith Lia.
From Verif.Model Require Import GoStr Regex Pep440.
From Verif.Spec Require Import Pep440Spec VersionGrammar.
From Verif.Proofs Require Import Order GoStrFacts RegexFacts.
Import ListNotations.
Local Arguments Z.compare : simpl never.
Local Arguments N.ltb : simpl never.
Local Arguments N.pow : simpl never.

(** ** Character classes, decided by enumeration *)
Ltac chars := let x := fresh in intros x; destruct x as [[] [] [] [] [] [] [] []]; vm_compute;
  try (intros; congruence); auto.

Lemma blank_space : forall c, cls_re_space c = blank c.
Proof. chars. Qed.

Lemma digit_not_sep : forall x, is_digit x = true -> sep_char x = false.
Proof. chars. Qed.
Lemma lev_not_sep : forall x, In (lower x) ($"lev") -> in_set $"-_." x = false.
Proof. chars; intros [?|[?|[?|[]]]]; congruence. Qed.
Lemma lev_not_digit : forall x, In (lower x) ($"lev") -> is_digit x = false.
Proof. chars; intros [?|[?|[?|[]]]]; congruence. Qed.

Definition head_in (p : ascii -> bool) (s : str) : Prop :=
  match s with [] => True | x :: _ => p x = true end.
Lemma head_in_impl (p q : ascii -> bool) s :
  (forall x, p x = true -> q x = true) -> head_in p s -> head_in q s.
Proof. destruct s; simpl; auto. Qed.
Lemma head_in_not (p q : ascii -> bool) s :
  (forall x, p x = true -> q x = false) -> head_in p s -> head_not q s.
Proof. destruct s; simpl; auto. Qed.
Lemma head_in_app (p : ascii -> bool) a b :
  head_in p a -> (a = [] -> head_in p b) -> head_in p (a ++ b).
Proof. destruct a; simpl; auto. Qed.
Lemma head_in_forallb (p : ascii -> bool) a : forallb p a = true -> head_in p a.
Proof. destruct a; simpl; auto. rewrite andb_true_iff. tauto. Qed.

(** What can start the tail of a version, from the end: after the dev part, after
    the post part, after the pre part, after the release. *)
Definition in_tail (c : ascii) : bool := byte_eqb c "+"%char || blank c.
Definition in_dev (c : ascii) : bool := sep_char c || byte_eqb (lower c) "d"%char || in_tail c.
Definition in_post (c : ascii) : bool :=
  byte_eqb (lower c) "p"%char || byte_eqb (lower c) "r"%char || in_dev c.
Definition in_pre (c : ascii) : bool :=
  byte_eqb (lower c) "a"%char || byte_eqb (lower c) "b"%char || byte_eqb (lower c) "c"%char || in_post c.

(** ** One step of the matcher *)
Lemma run_seq {X} a b s c (k : str -> caps -> option X) :
  run (RSeq a b) s c k = run a s c (fun s' c' => run b s' c' k).
Proof. reflexivity. Qed.
Lemma run_opt {X} a s c (k : str -> caps -> option X) :
  run (ROpt a) s c k = match run a s c k with Some v => Some v | None => k s c end.
Proof. reflexivity. Qed.
Lemma run_grp {X} n a s c (k : str -> caps -> option X) :
  run (RGrp n a) s c k =
  run a s c (fun s' c' => k s' ((n, firstn (length s - length s') s) :: c')).
Proof. reflexivity. Qed.
Lemma run_chr {X} (p : ascii -> bool) x s c (k : str -> caps -> option X) :
  run (RChr p) (x :: s) c k = if p x then k s c else None.
Proof. reflexivity. Qed.

(** ** Literals, ignoring case *)
Lemma eq_ci_spec a b : eq_ci a b = byte_eqb (lower a) (lower b).
Proof. reflexivity. Qed.
Lemma prefix_by_ci w s : prefix_by eq_ci w s = has_prefix (to_lower w) (to_lower s).
Proof.
  revert s. induction w as [|x w IH]; intros [|y s]; simpl; auto. now rewrite IH.
Qed.
Lemma run_lit_ci {X} w s c (k : str -> caps -> option X) : to_lower w = w ->
  run (lit_ci w) s c k = if has_prefix w (to_lower s) then k (skipn (length w) s) c else None.
Proof. intros E. unfold lit_ci. now rewrite run_lit_by, prefix_by_ci, E. Qed.
Lemma run_lit {X} w s c (k : str -> caps -> option X) : run (lit w) (w ++ s) c k = k s c.
Proof.
  unfold lit. rewrite run_lit_by.
  replace (prefix_by byte_eqb w (w ++ s)) with true.
  - now rewrite skipn_app_exact.
  - induction w; simpl; auto. now rewrite byte_eqb_refl.
Qed.
Lemma run_lit1_fail {X} x w s c (k : str -> caps -> option X) :
  w = [x] -> head_not (byte_eqb x) s -> run (lit w) s c k = None.
Proof. intros ->. unfold lit. rewrite run_lit_by. destruct s as [|y s]; simpl; auto. now intros ->. Qed.

(** First matching alternative of a list of case-insensitive literals. *)
Fixpoint first_word {X} (ws : list str) (s : str) (k : str -> option X) : option X :=
  match ws with
  | [] => None
  | w :: ws' =>
      match (if has_prefix w (to_lower s) then k (skipn (length w) s) else None) with
      | Some v => Some v
      | None => first_word ws' s k
      end
  end.
Lemma run_words {X} ws s c (k : str -> caps -> option X) :
  Forall (fun w => to_lower w = w) ws ->
  run (RAlts (map lit_ci ws)) s c k = first_word ws s (fun s' => k s' c).
Proof.
  induction 1 as [|w ws Hw H IH].
  - simpl. now destruct s.
  - destruct ws as [|w' ws].
    + cbn [map RAlts first_word]. rewrite run_lit_ci by auto.
      now destruct (if has_prefix w (to_lower s) then _ else _).
    + change (RAlts (map lit_ci (w :: w' :: ws)))
        with (RAlt (lit_ci w) (RAlts (map lit_ci (w' :: ws)))).
      cbn [run]. rewrite IH, run_lit_ci by auto. reflexivity.
Qed.
Lemma first_word_none {X} ws s (k : str -> option X) :
  (forall w, In w ws -> has_prefix w (to_lower s) = false) -> first_word ws s k = None.
Proof.
  induction ws as [|w ws IH]; simpl; auto. intros H. rewrite (H w) by auto. auto.
Qed.

Lemma first_some {X} (a b : option X) :
  a <> None -> match a with Some v => Some v | None => b end = a.
Proof. now destruct a. Qed.

(** ** Separators and numbers *)
Lemma run_sep {X} sep s c (k : str -> caps -> option X) :
  opt_sep sep -> (sep = [] -> starts_sep s = false) -> k s c <> None ->
  run r_sep (sep ++ s) c k = k s c.
Proof.
  intros [->|(x & -> & Hx)] Hs Hk; unfold r_sep, ROpt, r_sep1; cbn [run app].
  - destruct s as [|y s]; auto. simpl in Hs. unfold sep_char in Hs. now rewrite Hs.
  - unfold sep_char in Hx. rewrite Hx. destruct (k s c); congruence.
Qed.

Definition num_cap (n : string) (num : str) (c : caps) : caps :=
  match num with [] => c | _ => (n, num) :: c end.
Lemma run_num {X} n num s c (k : str -> caps -> option X) :
  opt_number num -> head_not is_digit s -> k s (num_cap n num c) <> None ->
  run (ROpt (RGrp n r_digits)) (num ++ s) c k = k s (num_cap n num c).
Proof.
  intros [->|[Hn Hd]] Hs Hk; unfold ROpt, r_digits; cbn [run app].
  - fold (RPlus (RChr cls_digit)). rewrite run_plus_class_head by auto. reflexivity.
  - change (RSeq (RChr cls_digit) (RStar (RChr cls_digit))) with (RPlus (RChr cls_digit)).
    assert (E : num_cap n num c = (n, num) :: c) by (destruct num; [congruence|reflexivity]).
    rewrite E in Hk.
    rewrite run_plus_class; cbv beta; rewrite ?firstn_consumed; auto.
    rewrite E. now apply first_some.
Qed.
Lemma run_digits {X} num s c (k : str -> caps -> option X) :
  number num -> head_not is_digit s -> k s c <> None ->
  run r_digits (num ++ s) c k = k s c.
Proof. intros [Hn Hd]. now apply run_plus_class. Qed.

(** ** A letter part *)
Definition r_lp (nl nn : string) (ws : list str) : re :=
  RSeqs [r_sep; RGrp nl (RAlts (map lit_ci ws)); r_sep; ROpt (RGrp nn r_digits)].

Definition lp_tail {X} (nn : string) (k : str -> caps -> option X) (s : str) (c : caps) : option X :=
  run r_sep s c (fun s c => run (ROpt (RGrp nn r_digits)) s c k).

Lemma run_r_lp {X} nl nn ws s c (k : str -> caps -> option X) :
  Forall (fun w => to_lower w = w) ws ->
  run (r_lp nl nn ws) s c k =
  run r_sep s c (fun s c =>
    first_word ws s (fun s' => lp_tail nn k s' ((nl, firstn (length s - length s') s) :: c))).
Proof.
  intros Hw. unfold r_lp, RSeqs. cbn [run]. apply run_ext. intros s' c'.
  now rewrite run_words.
Qed.

Lemma lp_tail_ok {X} nn sep num s c (k : str -> caps -> option X) :
  opt_sep sep -> opt_number num -> head_not is_digit s ->
  (num = [] -> sep = [] -> starts_sep s = false) ->
  k s (num_cap nn num c) <> None ->
  lp_tail nn k (sep ++ num ++ s) c = k s (num_cap nn num c).
Proof.
  intros H1 H2 H3 H4 Hk. unfold lp_tail.
  rewrite run_sep; auto; rewrite ?run_num; auto.
  intros ->. destruct H2 as [->|[Hn Hd]]; [now apply H4|].
  destruct num as [|x num]; [congruence|]. simpl in Hd. apply andb_true_iff in Hd as [Hd _].
  simpl. now apply digit_not_sep.
Qed.

(** No letter part starts here. *)
Definition no_word (ws : list str) (s : str) : Prop :=
  forall w, In w ws -> has_prefix w (to_lower s) = false.
Definition no_lp (ws : list str) (s : str) : Prop :=
  no_word ws s /\ (forall x s', s = x :: s' -> sep_char x = true -> no_word ws s').
Lemma run_r_lp_none {X} nl nn ws s c (k : str -> caps -> option X) :
  Forall (fun w => to_lower w = w) ws -> no_lp ws s -> run (r_lp nl nn ws) s c k = None.
Proof.
  intros Hl [H1 H2]. rewrite run_r_lp by auto. unfold r_sep, ROpt, r_sep1. cbn [run].
  rewrite (first_word_none ws s) by auto.
  destruct s as [|x s]; auto. destruct (in_set $"-_." x) eqn:E; auto.
  rewrite first_word_none; auto. now apply (H2 x).
Qed.

(** What follows a word inside or after a letter part. *)
Definition after_word (c : ascii) : bool := is_digit c || in_post c.

Lemma after_word_not_e : forall x, after_word x = true -> byte_eqb "e" (lower x) = false.
Proof. chars. Qed.
Lemma after_word_not_c : forall x, after_word x = true -> byte_eqb "c" (lower x) = false.
Proof. chars. Qed.
Lemma in_tail_not_letter : forall x, in_tail x = true ->
  is_digit x = false /\ sep_char x = false /\ is_lower_alpha (lower x) = false.
Proof. chars. Qed.
Lemma in_dev_post : forall x, in_dev x = true -> in_post x = true.
Proof. chars. Qed.
Lemma in_post_pre : forall x, in_post x = true -> in_pre x = true.
Proof. chars. Qed.
Lemma in_tail_dev : forall x, in_tail x = true -> in_dev x = true.
Proof. chars. Qed.
Lemma sep_in_dev : forall x, sep_char x = true -> in_dev x = true.
Proof. chars. Qed.
Lemma blank_in_tail : forall x, blank x = true -> in_tail x = true.
Proof. chars. Qed.
Lemma in_pre_not_digit : forall x, in_pre x = true -> is_digit x = false.
Proof. chars. Qed.

Lemma lower_words_pre : Forall (fun w => to_lower w = w) pre_words.
Proof. repeat constructor. Qed.
Lemma lower_words_post : Forall (fun w => to_lower w = w) post_words.
Proof. repeat constructor. Qed.
Lemma lower_words_dev : Forall (fun w => to_lower w = w) dev_words.
Proof. repeat constructor. Qed.

(** A word spelled in any case, as the explicit list of its bytes. *)
Lemma to_lower_cons w x l : to_lower w = x :: l -> exists y w', w = y :: w' /\ lower y = x /\ to_lower w' = l.
Proof. destruct w as [|y w]; simpl; [congruence|]. intros H. injection H as <- <-. eauto. Qed.
Lemma to_lower_nil w : to_lower w = [] -> w = [].
Proof. destruct w; simpl; congruence. Qed.
Ltac spell H :=
  repeat (apply to_lower_cons in H; destruct H as (? & ? & -> & ? & H));
  apply to_lower_nil in H; subst.

(** The pre word: an earlier alternative that matches a proper prefix of the word
    ("a" of "alpha") leaves a rest on which everything after it fails. *)
Definition stuck {X} (k : str -> caps -> option X) : Prop :=
  forall x s c, In (lower x) ($"lev") -> k (x :: s) c = None.
Lemma lp_tail_stuck {X} nn (k : str -> caps -> option X) : stuck k -> stuck (lp_tail nn k).
Proof.
  intros H x s c Hx. unfold lp_tail, r_sep, r_sep1, ROpt. cbn [run].
  rewrite (lev_not_sep x Hx). unfold r_digits.
  rewrite run_plus_class_head by (exact (lev_not_digit x Hx)). now apply H.
Qed.

Ltac ci := repeat match goal with
  | H : lower ?x = _ |- context [lower ?x] => rewrite H
  end.

Lemma first_word_pre {X} w s (k : str -> option X) :
  In (to_lower w) pre_words ->
  (forall x s', In (lower x) ($"lev") -> k (x :: s') = None) ->
  k s <> None ->
  first_word pre_words (w ++ s) k = k s.
Proof.
  intros Hw Hk Hs. unfold pre_words in Hw. simpl in Hw.
  destruct Hw as [H|[H|[H|[H|[H|[H|[H|[H|[]]]]]]]]]; symmetry in H; spell H;
    unfold pre_words, first_word; cbn [app to_lower map]; ci;
    cbn [has_prefix list_ascii_of_string]; cbn [byte_eqb Ascii.eqb Bool.eqb andb length skipn];
    repeat (rewrite Hk by (ci; simpl; tauto)); now apply first_some.
Qed.
Lemma first_word_post {X} w s (k : str -> option X) :
  In (to_lower w) post_words -> head_in after_word s ->
  k s <> None ->
  first_word post_words (w ++ s) k = k s.
Proof.
  intros Hw Ha Hs. unfold post_words in Hw. simpl in Hw.
  destruct Hw as [H|[H|[H|[]]]]; symmetry in H; spell H;
    unfold post_words, first_word; cbn [app to_lower map]; ci;
    cbn [has_prefix list_ascii_of_string]; cbn [byte_eqb Ascii.eqb Bool.eqb andb length skipn];
    try now apply first_some.
  assert (E : has_prefix ($"ev") (to_lower s) = false).
  { destruct s as [|y s]; auto. simpl in Ha.
    change (byte_eqb "e" (lower y) && has_prefix ($"v") (to_lower s) = false).
    now rewrite (after_word_not_e y Ha). }
  unfold byte_eqb, has_prefix in *. cbn in E |- *. fold (to_lower s). rewrite E.
  now apply first_some.
Qed.
Lemma first_word_dev {X} w s (k : str -> option X) :
  In (to_lower w) dev_words -> k s <> None ->
  first_word dev_words (w ++ s) k = k s.
Proof.
  intros Hw Hs. unfold dev_words in Hw. simpl in Hw.
  destruct Hw as [H|[]]; symmetry in H; spell H;
    unfold dev_words, first_word; cbn [app to_lower map]; ci;
    cbn [has_prefix list_ascii_of_string]; cbn [byte_eqb Ascii.eqb Bool.eqb andb length skipn];
    try now apply first_some.
Qed.

(** ** The continuations of the matcher, from the end of the expression *)
Definition kend (s : str) (c : caps) : option caps := match s with [] => Some c | _ => None end.
Definition k8 (s : str) (c : caps) : option caps := run r_spaces s c kend.
Definition k7 (s : str) (c : caps) : option caps := run r_local s c k8.
Definition k6 (s : str) (c : caps) : option caps := run r_dev s c k7.
Definition k5 (s : str) (c : caps) : option caps := run r_post s c k6.
Definition k4 (s : str) (c : caps) : option caps := run r_pre s c k5.
Definition k3 (s : str) (c : caps) : option caps := run r_release s c k4.
Definition k2 (s : str) (c : caps) : option caps := run r_epoch s c k3.
Definition k1 (s : str) (c : caps) : option caps := run (ROpt (lit_ci $"v")) s c k2.
Lemma full_match_k s : full_match re_version s = run r_spaces s [] k1.
Proof. reflexivity. Qed.

Lemma lev_facts : forall x, In (lower x) ($"lev") ->
  cls_re_space x = false /\ byte_eqb "+" x = false /\ byte_eqb "-" x = false /\
  byte_eqb "d" (lower x) = false /\ byte_eqb "p" (lower x) = false /\ byte_eqb "r" (lower x) = false.
Proof. chars; intros [?|[?|[?|[]]]]; try congruence; auto 10. Qed.

Lemma stuck8 : stuck k8.
Proof.
  intros x s c Hx. destruct (lev_facts x Hx) as (E & _).
  unfold k8, r_spaces. rewrite run_star. unfold run at 1. now rewrite E.
Qed.
Lemma stuck7 : stuck k7.
Proof.
  intros x s c Hx. destruct (lev_facts x Hx) as (_ & E & _).
  unfold k7, r_local, ROpt. cbn [run]. rewrite (run_lit1_fail "+"%char) by (exact E || reflexivity). now apply stuck8.
Qed.
Lemma no_lp_head ws x s : sep_char x = false ->
  Forall (fun w => match w with y :: _ => byte_eqb y (lower x) = false | [] => False end) ws ->
  no_lp ws (x :: s).
Proof.
  intros Hx H. split.
  - intros w Hw. rewrite Forall_forall in H. specialize (H w Hw). destruct w as [|y w]; [tauto|].
    simpl. now rewrite H.
  - intros x' s' E. injection E as <- <-. congruence.
Qed.
Lemma stuck6 : stuck k6.
Proof.
  intros x s c Hx. pose proof (lev_not_sep x Hx) as E1.
  destruct (lev_facts x Hx) as (_ & _ & _ & E & _).
  unfold k6, r_dev, ROpt. cbn [run].
  change (RSeqs _) with (r_lp "dev_l" "dev_n" dev_words).
  rewrite run_r_lp_none; [now apply stuck7|apply lower_words_dev|].
  apply no_lp_head; auto. repeat (apply Forall_cons; [assumption|]). apply Forall_nil.
Qed.
Lemma stuck5 : stuck k5.
Proof.
  intros x s c Hx. pose proof (lev_not_sep x Hx) as E1.
  destruct (lev_facts x Hx) as (_ & _ & E2 & _ & E3 & E4).
  unfold k5, r_post, ROpt. cbn [run]. rewrite (run_lit1_fail "-"%char) by (exact E2 || reflexivity).
  change (RSeqs _) with (r_lp "post_l" "post_n2" post_words).
  rewrite run_r_lp_none; [now apply stuck6|apply lower_words_post|].
  apply no_lp_head; auto. repeat (apply Forall_cons; [assumption|]). apply Forall_nil.
Qed.

(** ** A whole letter part, in an optional group *)
Lemma word_head w ws s : In (to_lower w) ws ->
  (forall w', In w' ws -> exists x w'', w' = x :: w'' /\ is_lower_alpha x = true) ->
  exists x w', w = x :: w' /\ is_lower_alpha (lower x) = true /\ sep_char x = false /\
               starts_sep (w ++ s) = false.
Proof.
  intros H Hw. destruct (Hw _ H) as (x & w'' & E & Hx).
  apply to_lower_cons in E as (y & w' & -> & <- & _).
  exists y, w'. assert (sep_char y = false) by (clear -Hx; revert y Hx; chars). auto.
Qed.
Lemma letters_pre : forall w, In w pre_words -> exists x w', w = x :: w' /\ is_lower_alpha x = true.
Proof. simpl. intros w H. repeat (destruct H as [<-|H]; [eexists _, _; split; reflexivity|]). tauto. Qed.
Lemma letters_post : forall w, In w post_words -> exists x w', w = x :: w' /\ is_lower_alpha x = true.
Proof. simpl. intros w H. repeat (destruct H as [<-|H]; [eexists _, _; split; reflexivity|]). tauto. Qed.
Lemma letters_dev : forall w, In w dev_words -> exists x w', w = x :: w' /\ is_lower_alpha x = true.
Proof. simpl. intros w H. repeat (destruct H as [<-|H]; [eexists _, _; split; reflexivity|]). tauto. Qed.

Definition lp_cap (nl nn : string) (p : letterpart) (c : caps) : caps :=
  num_cap nn (lp_num p) ((nl, lp_word p) :: c).

Lemma run_lp_ok {X} nl nn ws p t c (k : str -> caps -> option X) :
  Forall (fun w => to_lower w = w) ws ->
  (forall w, In w ws -> exists x w', w = x :: w' /\ is_lower_alpha x = true) ->
  wf_lp ws p -> head_not is_digit t ->
  (lp_num p = [] -> lp_sep2 p = [] -> starts_sep t = false) ->
  (forall K : str -> option X, (forall x s', In (lower x) ($"lev") -> K (x :: s') = None) ->
     K (lp_sep2 p ++ lp_num p ++ t) <> None ->
     first_word ws (lp_word p ++ lp_sep2 p ++ lp_num p ++ t) K = K (lp_sep2 p ++ lp_num p ++ t)) ->
  stuck k -> k t (lp_cap nl nn p c) <> None ->
  run (r_lp nl nn ws) (render_lp p ++ t) c k = k t (lp_cap nl nn p c).
Proof.
  intros Hl Hw (W1 & W2 & W3 & W4) Ht Hm FW St Hk.
  rewrite run_r_lp by auto. unfold render_lp. rewrite <- !app_assoc.
  set (rest := lp_sep2 p ++ lp_num p ++ t) in *.
  assert (T : lp_tail nn k rest ((nl, lp_word p) :: c) = k t (lp_cap nl nn p c)).
  { unfold rest. now rewrite lp_tail_ok. }
  assert (F : first_word ws (lp_word p ++ rest)
                (fun s' => lp_tail nn k s'
                   ((nl, firstn (length (lp_word p ++ rest) - length s') (lp_word p ++ rest)) :: c))
              = k t (lp_cap nl nn p c)).
  { rewrite FW.
    - now rewrite firstn_consumed.
    - intros x s' Hx. now apply lp_tail_stuck.
    - rewrite firstn_consumed. intros E. apply Hk. rewrite <- T. exact E. }
  rewrite run_sep; auto.
  - intros _. destruct (word_head _ _ rest W2 Hw) as (? & ? & _ & _ & _ & E). exact E.
  - now rewrite F.
Qed.

(** ** Local part and trailing space *)
Lemma k8_ok s c : forallb blank s = true -> k8 s c = Some c.
Proof.
  intros H. unfold k8, r_spaces. rewrite <- (app_nil_r s), run_star_class; simpl; auto; try congruence.
  rewrite forallb_forall in *. intros x Hx. rewrite blank_space. auto.
Qed.

Lemma sep_not_alnum : forall x, sep_char x = true -> cls_alnum_ci x = false.
Proof. chars. Qed.
Lemma blank_not_alnum : forall x, blank x = true -> cls_alnum_ci x = false.
Proof. chars. Qed.
Lemma blank_not_sep : forall x, blank x = true -> sep_char x = false.
Proof. chars. Qed.

Definition seps_words (l : list (ascii * str)) : Prop :=
  Forall (fun p => sep_char (fst p) = true /\ word (snd p)) l.
Definition flat (l : list (ascii * str)) : str := concat (map (fun p => fst p :: snd p) l).

Lemma flat_head_not_alnum l t : seps_words l -> head_in blank t ->
  head_not cls_alnum_ci (flat l ++ t).
Proof.
  intros H Ht. destruct H as [|[x w] l [Hx _] H]; simpl.
  - destruct t; simpl in *; auto. now apply blank_not_alnum.
  - simpl in Hx. now apply sep_not_alnum.
Qed.

Lemma run_seps_words {X} l t c (k : str -> caps -> option X) :
  seps_words l -> head_in blank t -> k t c <> None ->
  run (RStar (RSeq r_sep1 r_alnums)) (flat l ++ t) c k = k t c.
Proof.
  intros H Ht Hk. induction H as [|[x w] l [Hx Hw] H IH]; rewrite run_star.
  - simpl app. unfold r_sep1. cbn [run]. destruct t as [|y t]; auto. simpl in Ht.
    apply blank_not_sep in Ht. unfold sep_char in Ht. now rewrite Ht.
  - cbn [flat map concat fst snd app]. fold (flat l). simpl in Hx, Hw. destruct Hw as [Hw1 Hw2].
    change ((w ++ flat l) ++ t) with (app (app w (flat l)) t). rewrite <- app_assoc.
    rewrite run_seq. unfold r_sep1 at 1. rewrite run_chr. unfold sep_char in Hx. rewrite Hx.
    unfold r_alnums at 1. rewrite run_plus_class; auto; cbv beta.
    + replace (length (flat l ++ t) <? length (x :: w ++ flat l ++ t))%nat with true.
      * rewrite IH. now apply first_some.
      * symmetry. apply Nat.ltb_lt. simpl. rewrite !app_length. lia.
    + now apply flat_head_not_alnum.
    + replace (length (flat l ++ t) <? length (x :: w ++ flat l ++ t))%nat with true.
      * now rewrite IH.
      * symmetry. apply Nat.ltb_lt. simpl. rewrite !app_length. lia.
Qed.

Definition local_cap (x : surface) (c : caps) : caps :=
  match g_local x with Some (w, l) => ("local"%string, w ++ flat l) :: c | None => c end.
Definition tail8 (x : surface) : str := g_trail x.
Definition tail7 (x : surface) : str := render_local x ++ tail8 x.
Definition tail6 (x : surface) : str := render_dev x ++ tail7 x.
Definition tail5 (x : surface) : str := render_post x ++ tail6 x.
Definition tail4 (x : surface) : str := render_pre x ++ tail5 x.
Definition tail3 (x : surface) : str := render_release x ++ tail4 x.
Definition tail2 (x : surface) : str := render_epoch x ++ tail3 x.
Definition tail1 (x : surface) : str := g_v x ++ tail2 x.

Lemma k7_ok x c : wf_surface x -> k7 (tail7 x) c = Some (local_cap x c).
Proof.
  intros (_ & _ & _ & _ & _ & _ & _ & _ & _ & Hl & Ht).
  unfold k7, tail7, render_local, local_cap, r_local. rewrite run_opt.
  destruct (g_local x) as [[w l]|].
  - destruct (Hl w l eq_refl) as [[W1 W2] L]. rewrite run_seq.
    change ("+"%char :: w ++ concat (map (fun p => fst p :: snd p) l))
      with ($"+" ++ w ++ flat l).
    rewrite <- app_assoc, run_lit, run_grp, run_seq.
    assert (Hh : head_in blank (tail8 x)) by now apply head_in_forallb.
    rewrite <- app_assoc. unfold r_alnums at 1. rewrite run_plus_class; auto.
    + rewrite run_seps_words; auto; cbv beta; rewrite ?(app_assoc w), ?firstn_consumed, k8_ok; auto; congruence.
    + now apply flat_head_not_alnum.
    + rewrite run_seps_words; auto; cbv beta; rewrite ?(app_assoc w), ?firstn_consumed, k8_ok; auto; congruence.
  - rewrite run_seq. cbn [app]. rewrite (run_lit1_fail "+"%char); [now apply k8_ok|reflexivity|].
    unfold tail8. destruct (g_trail x) as [|y s]; simpl; auto. simpl in Ht.
    apply andb_true_iff in Ht as [Hy _]. revert y Hy. chars.
Qed.

Lemma h7 x : wf_surface x -> head_in in_tail (tail7 x).
Proof.
  intros (_ & _ & _ & _ & _ & _ & _ & _ & _ & _ & Ht). unfold tail7, render_local.
  destruct (g_local x) as [[w l]|]; [reflexivity|]. simpl.
  apply head_in_forallb in Ht. revert Ht. apply head_in_impl, blank_in_tail.
Qed.

(** ** Shapes of the tails *)
Definition item6 (t : str) : Prop := exists w u, t = w ++ u /\ to_lower w = $"dev".
Definition shape6 (t : str) : Prop :=
  head_in in_tail t \/ exists sep u, opt_sep sep /\ t = sep ++ u /\ item6 u.
Definition item5 (t : str) : Prop :=
  item6 t \/ exists w u, t = w ++ u /\ In (to_lower w) post_words /\ head_in after_word u.
Definition shape5 (t : str) : Prop :=
  head_in in_tail t \/ (exists n u, number n /\ t = "-"%char :: n ++ u) \/
  exists sep u, opt_sep sep /\ t = sep ++ u /\ item5 u.

Lemma shape6_tail x : wf_surface x -> shape6 (tail6 x).
Proof.
  intros W. unfold tail6, render_dev. destruct (g_dev x) as [p|] eqn:E.
  - right. assert (H : wf_lp dev_words p) by (now apply W). destruct H as (H1 & H2 & _).
    exists (lp_sep1 p), (lp_word p ++ lp_sep2 p ++ lp_num p ++ tail7 x).
    split; auto. split. { unfold render_lp. now rewrite <- !app_assoc. }
    exists (lp_word p). eexists. split; eauto. simpl in H2. now destruct H2 as [<-|[]].
  - left. now apply h7.
Qed.
Lemma h6 x : wf_surface x -> head_in in_dev (tail6 x).
Proof.
  intros W. destruct (shape6_tail x W) as [H|(sep & u & H1 & -> & w & u' & -> & H2)].
  - revert H. apply head_in_impl, in_tail_dev.
  - destruct H1 as [->|(y & -> & Hy)].
    + spell H2. simpl. unfold in_dev. rewrite H. now rewrite orb_true_r.
    + simpl. now apply sep_in_dev.
Qed.

Lemma opt_number_head n : opt_number n -> head_in is_digit n.
Proof. intros [->|[_ H]]; [exact I|]. now apply head_in_forallb. Qed.
Lemma opt_sep_head s : opt_sep s -> head_in sep_char s.
Proof. intros [->|(x & -> & Hx)]; [exact I|]. exact Hx. Qed.
Lemma after_word_tail p t ws : wf_lp ws p -> head_in in_post t ->
  head_in after_word (lp_sep2 p ++ lp_num p ++ t).
Proof.
  intros (_ & _ & H1 & H2) Ht. apply head_in_app.
  - apply opt_sep_head in H1. revert H1. apply head_in_impl. clear. chars.
  - intros _. apply head_in_app.
    + apply opt_number_head in H2. revert H2. apply head_in_impl. clear. chars.
    + intros _. revert Ht. apply head_in_impl. clear. chars.
Qed.

Lemma shape5_tail x : wf_surface x -> shape5 (tail5 x).
Proof.
  intros W. unfold tail5, render_post. destruct (g_post x) as [[n|p]|] eqn:E.
  - right. left. exists n, (tail6 x). split; [now apply W|reflexivity].
  - right. right. assert (H : wf_lp post_words p) by (now apply W). pose proof H as (H1 & H2 & H3 & H4).
    exists (lp_sep1 p), (lp_word p ++ lp_sep2 p ++ lp_num p ++ tail6 x).
    split; auto. split. { unfold render_lp. now rewrite <- !app_assoc. }
    right. exists (lp_word p). eexists. split; eauto. split; auto.
    eapply after_word_tail; eauto. generalize (h6 x W). apply head_in_impl, in_dev_post.
  - destruct (shape6_tail x W) as [H|(sep & u & H1 & H2 & H3)]; [now left|].
    right. right. exists sep, u. unfold item5. auto.
Qed.
Lemma h5 x : wf_surface x -> head_in in_post (tail5 x).
Proof.
  intros W. unfold tail5, render_post. destruct (g_post x) as [[n|p]|] eqn:E.
  - reflexivity.
  - assert (H : wf_lp post_words p) by (now apply W). destruct H as (H1 & H2 & _).
    unfold render_lp. rewrite <- !app_assoc. destruct H1 as [->|(y & -> & Hy)].
    + simpl in H2. destruct H2 as [H|[H|[H|[]]]]; symmetry in H; spell H; simpl;
        unfold in_post; repeat match goal with H : lower _ = _ |- _ => rewrite H; clear H end; reflexivity.
    + simpl. now apply in_dev_post, sep_in_dev.
  - generalize (h6 x W). apply head_in_impl, in_dev_post.
Qed.
Lemma h4 x : wf_surface x -> head_in in_pre (tail4 x).
Proof.
  intros W. unfold tail4, render_pre. destruct (g_pre x) as [p|] eqn:E.
  - assert (H : wf_lp pre_words p) by (now apply W). destruct H as (H1 & H2 & _).
    unfold render_lp. rewrite <- !app_assoc. destruct H1 as [->|(y & -> & Hy)].
    + simpl in H2. destruct H2 as [H|[H|[H|[H|[H|[H|[H|[H|[]]]]]]]]]; symmetry in H; spell H; simpl;
        unfold in_pre, in_post; repeat match goal with H : lower _ = _ |- _ => rewrite H; clear H end; reflexivity.
    + simpl. now apply in_post_pre, in_dev_post, sep_in_dev.
  - generalize (h5 x W). apply head_in_impl, in_post_pre.
Qed.

(** ** Absent letter parts *)
Lemma letter_not_sep : forall x, is_lower_alpha (lower x) = true -> sep_char x = false.
Proof. chars. Qed.
Lemma tail_no_lp ws t : head_in in_tail t ->
  (forall w, In w ws -> exists x w', w = x :: w' /\ is_lower_alpha x = true) -> no_lp ws t.
Proof.
  intros Ht Hw. destruct t as [|x t].
  - split; [|congruence]. intros w H. destruct (Hw w H) as (y & w' & -> & _). reflexivity.
  - simpl in Ht. destruct (in_tail_not_letter x Ht) as (_ & E2 & E3). split.
    + intros w H. destruct (Hw w H) as (y & w' & -> & Hy). simpl.
      destruct (byte_eqb y (lower x)) eqn:E; auto. apply byte_eqb_eq in E. congruence.
    + intros x' s' E. injection E as <- <-. congruence.
Qed.
Lemma lp_no_lp ws sep u : opt_sep sep -> no_word ws u ->
  (forall x u', u = x :: u' -> sep_char x = false) ->
  (forall w, In w ws -> exists x w', w = x :: w' /\ is_lower_alpha x = true) ->
  no_lp ws (sep ++ u).
Proof.
  intros [->|(x & -> & Hx)] Hu Hs Hw.
  - split; auto. intros x s' E Hx. apply Hs in E. congruence.
  - split.
    + intros w H. destruct (Hw w H) as (y & w' & -> & Hy). simpl.
      destruct (byte_eqb y (lower x)) eqn:E; auto. apply byte_eqb_eq in E. subst y.
      apply letter_not_sep in Hy. congruence.
    + intros x' s' E _. injection E as <- <-. auto.
Qed.

Lemma item6_no_word_post t : item6 t ->
  no_word post_words t /\ (forall x u', t = x :: u' -> sep_char x = false).
Proof.
  intros (w & u & -> & H). spell H. split.
  - intros w Hw. simpl in Hw. destruct Hw as [<-|[<-|[<-|[]]]]; cbn [app to_lower map]; ci; reflexivity.
  - intros y u' E. injection E as <- <-. apply letter_not_sep. now ci.
Qed.
Lemma item5_no_word_pre t : item5 t ->
  no_word pre_words t /\ (forall x u', t = x :: u' -> sep_char x = false).
Proof.
  intros [(w & u & -> & H)|(w & u & -> & H & Hu)].
  - spell H. split.
    + intros w Hw. simpl in Hw.
      destruct Hw as [<-|[<-|[<-|[<-|[<-|[<-|[<-|[<-|[]]]]]]]]]; cbn [app to_lower map]; ci; reflexivity.
    + intros y u' E. injection E as <- <-. apply letter_not_sep. now ci.
  - simpl in H. destruct H as [H|[H|[H|[]]]]; symmetry in H; spell H; split;
      try (intros y u' E; injection E as <- <-; apply letter_not_sep; now ci).
    1, 2: intros w Hw; simpl in Hw;
      destruct Hw as [<-|[<-|[<-|[<-|[<-|[<-|[<-|[<-|[]]]]]]]]]; cbn [app to_lower map]; ci; reflexivity.
    intros w Hw; simpl in Hw;
      destruct Hw as [<-|[<-|[<-|[<-|[<-|[<-|[<-|[<-|[]]]]]]]]]; cbn [app to_lower map]; ci; try reflexivity.
    destruct u as [|y u]; auto. simpl in Hu. apply after_word_not_c in Hu.
    change (true && (byte_eqb "c" (lower y) && true) = false). now rewrite Hu.
Qed.

Lemma no_lp_post_tail6 x : wf_surface x -> no_lp post_words (tail6 x).
Proof.
  intros W. destruct (shape6_tail x W) as [H|(sep & u & H1 & -> & H2)].
  - apply tail_no_lp; auto. apply letters_post.
  - apply item6_no_word_post in H2 as [H2 H3]. apply lp_no_lp; auto. apply letters_post.
Qed.
Lemma no_lp_pre_tail5 x : wf_surface x -> no_lp pre_words (tail5 x).
Proof.
  intros W. destruct (shape5_tail x W) as [H|[(n & u & [Hn Hd] & ->)|(sep & u & H1 & -> & H2)]].
  - apply tail_no_lp; auto. apply letters_pre.
  - destruct n as [|d n]; [congruence|]. simpl in Hd. apply andb_true_iff in Hd as [Hd _].
    assert (E : forall y, In y ($"abcrp") -> byte_eqb y (lower d) = false).
    { intros y Hy. destruct (byte_eqb y (lower d)) eqn:E; auto. apply byte_eqb_eq in E.
      rewrite (lower_digit d Hd) in E. subst d.
      simpl in Hy. destruct Hy as [<-|[<-|[<-|[<-|[<-|[]]]]]]; discriminate. }
    split.
    + intros w Hw. simpl in Hw.
      destruct Hw as [<-|[<-|[<-|[<-|[<-|[<-|[<-|[<-|[]]]]]]]]]; reflexivity.
    + intros y s' Ey _. injection Ey as <- <-. intros w Hw. simpl in Hw.
      destruct Hw as [<-|[<-|[<-|[<-|[<-|[<-|[<-|[<-|[]]]]]]]]]; 
        cbn [app to_lower map list_ascii_of_string has_prefix]; rewrite E by (simpl; tauto); reflexivity.
  - apply item5_no_word_pre in H2 as [H2 H3]. apply lp_no_lp; auto. apply letters_pre.
Qed.

(** ** dev, post, pre *)
Definition dev_cap (x : surface) (c : caps) : caps :=
  match g_dev x with
  | Some p => ("dev"%string, render_lp p) :: lp_cap "dev_l" "dev_n" p c
  | None => c
  end.
Definition post_cap (x : surface) (c : caps) : caps :=
  match g_post x with
  | Some (PDash n) => ("post"%string, "-"%char :: n) :: ("post_n1"%string, n) :: c
  | Some (PWord p) => ("post"%string, render_lp p) :: lp_cap "post_l" "post_n2" p c
  | None => c
  end.
Definition pre_cap (x : surface) (c : caps) : caps :=
  match g_pre x with
  | Some p => ("pre"%string, render_lp p) :: lp_cap "pre_l" "pre_n" p c
  | None => c
  end.

Lemma head_not_sep7 x : wf_surface x -> starts_sep (tail7 x) = false.
Proof.
  intros W. pose proof (h7 x W) as H. destruct (tail7 x) as [|y t]; auto. simpl in *.
  now apply in_tail_not_letter in H.
Qed.

Lemma stuck_ext {X} (k : str -> caps -> option X) (f : str -> caps -> caps) :
  stuck k -> stuck (fun s c => k s (f s c)).
Proof. intros H x s c Hx. now apply H. Qed.

Lemma k6_ok x c : wf_surface x -> k6 (tail6 x) c = Some (local_cap x (dev_cap x c)).
Proof.
  intros W. unfold k6, tail6, render_dev, dev_cap, r_dev. rewrite run_opt, run_grp.
  change (RSeqs _) with (r_lp "dev_l" "dev_n" dev_words).
  destruct (g_dev x) as [p|] eqn:E.
  - assert (H : wf_lp dev_words p) by (now apply W).
    rewrite run_lp_ok with (p := p) (t := tail7 x); cbv beta; rewrite ?firstn_consumed, ?k7_ok; auto;
      try congruence.
    + apply lower_words_dev.
    + apply letters_dev.
    + generalize (h7 x W). apply head_in_not. intros y Hy. now apply in_tail_not_letter in Hy.
    + intros _ _. now apply head_not_sep7.
    + intros K _ HK. apply first_word_dev; auto. apply H.
    + exact (stuck_ext _ _ stuck7).
  - rewrite run_r_lp_none; [now apply k7_ok|apply lower_words_dev|].
    apply tail_no_lp; [now apply h7|apply letters_dev].
Qed.

Lemma head_not_digit6 x : wf_surface x -> head_not is_digit (tail6 x).
Proof.
  intros W. generalize (h6 x W). apply head_in_not. intros y Hy.
  now apply in_pre_not_digit, in_post_pre, in_dev_post.
Qed.
Lemma head_not_digit5 x : wf_surface x -> head_not is_digit (tail5 x).
Proof.
  intros W. generalize (h5 x W). apply head_in_not. intros y Hy.
  now apply in_pre_not_digit, in_post_pre.
Qed.
Lemma head_not_digit4 x : wf_surface x -> head_not is_digit (tail4 x).
Proof.
  intros W. generalize (h4 x W). apply head_in_not. intros y Hy. now apply in_pre_not_digit.
Qed.
Lemma starts_sep_app a b : starts_sep b = false -> starts_sep (a ++ b) = starts_sep a.
Proof. intros. destruct a; auto. Qed.

(** The implicit post release is tried first; on a spelled part it fails. *)
Lemma dash_fails {X} s c (k : str -> caps -> option X) :
  (forall s', s = "-"%char :: s' -> head_not is_digit s') ->
  run (RSeq (lit $"-") (RGrp "post_n1" r_digits)) s c k = None.
Proof.
  intros H. rewrite run_seq. unfold lit. rewrite run_lit_by. destruct s as [|x s]; auto.
  cbn [prefix_by list_ascii_of_string]. destruct (byte_eqb "-" x) eqn:E; auto.
  apply byte_eqb_eq in E. subst x. cbn [andb length skipn]. rewrite run_grp.
  unfold r_digits. apply run_plus_class_head. exact (H s eq_refl).
Qed.

Lemma alpha_not_digit : forall x, is_lower_alpha (lower x) = true -> is_digit x = false.
Proof. chars. Qed.
Lemma dash_lp ws p t s' : wf_lp ws p ->
  (forall w, In w ws -> exists x w', w = x :: w' /\ is_lower_alpha x = true) ->
  render_lp p ++ t = "-"%char :: s' -> head_not is_digit s'.
Proof.
  intros (H1 & H2 & _) Hw E. unfold render_lp in E. rewrite <- !app_assoc in E.
  destruct (word_head (lp_word p) ws [] H2 Hw) as (y & w' & Ew & Hy & Hs & _). rewrite Ew in E.
  destruct H1 as [H1|(z & H1 & Hz)]; rewrite H1 in E; simpl in E.
  - injection E as -> _. discriminate.
  - injection E as -> <-. simpl. now apply alpha_not_digit.
Qed.

Lemma k5_ok x c : wf_surface x -> munch x ->
  k5 (tail5 x) c = Some (local_cap x (dev_cap x (post_cap x c))).
Proof.
  intros W [_ Hm]. unfold k5, tail5, render_post, post_cap, r_post. rewrite run_opt, run_grp.
  change (run (RAlt ?a ?b) ?s ?c ?k) with
    (match run a s c k with Some v => Some v | None => run b s c k end).
  change (RSeqs _) with (r_lp "post_l" "post_n2" post_words).
  destruct (g_post x) as [[n|p]|] eqn:E.
  - assert (H : number n) by (now apply W).
    assert (R : run (RSeq (lit $"-") (RGrp "post_n1" r_digits)) (("-"%char :: n) ++ tail6 x) c
       (fun s' c' => k6 s' (("post"%string, firstn (length (("-"%char :: n) ++ tail6 x) - length s')
          (("-"%char :: n) ++ tail6 x)) :: c'))
       = k6 (tail6 x) (("post"%string, "-"%char :: n) :: ("post_n1"%string, n) :: c)).
    { rewrite run_seq. change (("-"%char :: n) ++ tail6 x) with ($"-" ++ (n ++ tail6 x)) at 1.
      rewrite run_lit, run_grp, run_digits; auto; rewrite ?firstn_consumed; auto.
      - now apply head_not_digit6.
      - rewrite k6_ok by auto. congruence. }
    rewrite R, k6_ok by auto. reflexivity.
  - assert (H : wf_lp post_words p) by (now apply W).
    rewrite dash_fails by (intros s' Es; eapply dash_lp; eauto using letters_post).
    rewrite run_lp_ok with (p := p) (t := tail6 x); cbv beta; rewrite ?firstn_consumed, ?k6_ok; auto;
      try congruence.
    + apply lower_words_post.
    + apply letters_post.
    + now apply head_not_digit6.
    + intros E1 E2. unfold tail6. rewrite starts_sep_app by now apply head_not_sep7. now apply (Hm p).
    + intros K _ HK. apply first_word_post; auto. { apply H. }
      eapply after_word_tail; eauto. generalize (h6 x W). apply head_in_impl, in_dev_post.
    + exact (stuck_ext _ _ stuck6).
  - cbn [app]. rewrite dash_fails.
    + rewrite run_r_lp_none; [now apply k6_ok|apply lower_words_post|now apply no_lp_post_tail6].
    + intros s' Es. unfold tail6, render_dev in Es. destruct (g_dev x) as [p|] eqn:Ed.
      * eapply dash_lp; eauto using letters_dev. now apply W.
      * cbn [app] in Es. pose proof (h7 x W) as H. rewrite Es in H. discriminate H.
Qed.

Lemma k4_ok x c : wf_surface x -> munch x ->
  k4 (tail4 x) c = Some (local_cap x (dev_cap x (post_cap x (pre_cap x c)))).
Proof.
  intros W Hmm. pose proof Hmm as [Hm _].
  unfold k4, tail4, render_pre, pre_cap, r_pre. rewrite run_opt, run_grp.
  change (RSeqs _) with (r_lp "pre_l" "pre_n" pre_words).
  destruct (g_pre x) as [p|] eqn:E.
  - assert (H : wf_lp pre_words p) by (now apply W).
    rewrite run_lp_ok with (p := p) (t := tail5 x); cbv beta; rewrite ?firstn_consumed, ?k5_ok; auto;
      try congruence.
    + apply lower_words_pre.
    + apply letters_pre.
    + now apply head_not_digit5.
    + intros E1 E2. unfold tail5, tail6.
      rewrite app_assoc, starts_sep_app by now apply head_not_sep7. now apply (Hm p).
    + intros K HK1 HK. apply first_word_pre; auto. apply H.
    + exact (stuck_ext _ _ stuck5).
  - rewrite run_r_lp_none; [now apply k5_ok|apply lower_words_pre|now apply no_lp_pre_tail5].
Qed.

(** ** Release, epoch, v *)
Lemma lp_dot ws p t s' : wf_lp ws p ->
  (forall w, In w ws -> exists x w', w = x :: w' /\ is_lower_alpha x = true) ->
  render_lp p ++ t = "."%char :: s' -> head_not is_digit s'.
Proof.
  intros (H1 & H2 & _) Hw E. unfold render_lp in E. rewrite <- !app_assoc in E.
  destruct (word_head (lp_word p) ws [] H2 Hw) as (y & w' & Ew & Hy & Hs & _). rewrite Ew in E.
  destruct H1 as [H1|(z & H1 & Hz)]; rewrite H1 in E; simpl in E.
  - injection E as -> _. discriminate.
  - injection E as -> <-. simpl. now apply alpha_not_digit.
Qed.
Lemma dot4 x s' : wf_surface x -> tail4 x = "."%char :: s' -> head_not is_digit s'.
Proof.
  intros W E. unfold tail4, render_pre in E. destruct (g_pre x) as [p|] eqn:Ep.
  { eapply lp_dot; eauto using letters_pre. now apply W. }
  cbn [app] in E. unfold tail5, render_post in E. destruct (g_post x) as [[n|p]|] eqn:Eo.
  { discriminate. }
  { eapply lp_dot; eauto using letters_post. now apply W. }
  cbn [app] in E. unfold tail6, render_dev in E. destruct (g_dev x) as [p|] eqn:Ed.
  { eapply lp_dot; eauto using letters_dev. now apply W. }
  cbn [app] in E. pose proof (h7 x W) as H. rewrite E in H. discriminate H.
Qed.

Definition dotted (l : list str) : str := concat (map (fun r => "."%char :: r) l).
Lemma dotted_head l t : head_not is_digit t -> head_not is_digit (dotted l ++ t).
Proof. destruct l; simpl; auto. Qed.
Lemma run_dotted {X} l t c (k : str -> caps -> option X) :
  Forall number l -> head_not is_digit t ->
  (forall s', t = "."%char :: s' -> head_not is_digit s') -> k t c <> None ->
  run (RStar (RSeq (lit $".") r_digits)) (dotted l ++ t) c k = k t c.
Proof.
  intros H Ht Hd Hk. induction H as [|n l Hn H IH]; rewrite run_star.
  - simpl app. rewrite run_seq. unfold lit at 1. rewrite run_lit_by.
    destruct t as [|y t]; auto.
    cbn [prefix_by list_ascii_of_string]. destruct (byte_eqb "." y) eqn:E; auto.
    apply byte_eqb_eq in E. subst y. cbn [andb length skipn].
    unfold r_digits. rewrite run_plus_class_head by exact (Hd t eq_refl). reflexivity.
  - cbn [dotted map concat app]. fold (dotted l).
    change ("."%char :: (n ++ dotted l) ++ t) with ($"." ++ ((n ++ dotted l) ++ t)) at 1.
    rewrite run_seq, run_lit. rewrite <- app_assoc.
    assert (L : (length (dotted l ++ t) <? length ("."%char :: n ++ dotted l ++ t))%nat = true).
    { apply Nat.ltb_lt. simpl. rewrite !app_length. lia. }
    rewrite run_digits; auto; cbv beta.
    + rewrite L, IH. now apply first_some.
    + now apply dotted_head.
    + rewrite L. now rewrite IH.
Qed.

Definition release_cap (x : surface) (c : caps) : caps := ("release"%string, render_release x) :: c.
Definition all_caps4 (x : surface) (c : caps) : caps :=
  local_cap x (dev_cap x (post_cap x (pre_cap x c))).
Lemma k3_ok x c : wf_surface x -> munch x ->
  k3 (tail3 x) c = Some (all_caps4 x (release_cap x c)).
Proof.
  intros W Hm. pose proof W as (_ & _ & _ & H0 & Hs & _).
  unfold k3, tail3, release_cap, r_release. rewrite run_grp, run_seq.
  unfold render_release. fold (dotted (g_rels x)). rewrite <- app_assoc.
  assert (D : head_not is_digit (tail4 x)) by now apply head_not_digit4.
  assert (R : forall c', run (RStar (RSeq (lit $".") r_digits)) (dotted (g_rels x) ++ tail4 x) c'
     (fun s' c' => k4 s' (("release"%string, firstn (length (g_rel0 x ++ dotted (g_rels x) ++ tail4 x)
         - length s') (g_rel0 x ++ dotted (g_rels x) ++ tail4 x)) :: c'))
     = Some (all_caps4 x (("release"%string, g_rel0 x ++ dotted (g_rels x)) :: c'))).
  { intros c'. rewrite run_dotted; auto; rewrite ?(app_assoc (g_rel0 x)), ?firstn_consumed, ?k4_ok; auto.
    - intros s' E. now apply (dot4 x).
    - congruence. }
  rewrite run_digits; auto; rewrite ?R; auto.
  - now apply dotted_head.
  - congruence.
Qed.

Definition epoch_cap (x : surface) (c : caps) : caps :=
  match g_epoch x with Some e => ("epoch"%string, e) :: c | None => c end.

Lemma digits_split w t a b : w ++ t = a ++ b -> forallb is_digit w = true ->
  head_not is_digit b -> exists a', a = w ++ a' /\ t = a' ++ b.
Proof.
  revert a. induction w as [|x w IH]; intros a E Hw Hb; simpl in *.
  - exists a. auto.
  - apply andb_true_iff in Hw as [Hx Hw]. destruct a as [|y a]; simpl in E.
    + subst b. simpl in Hb. congruence.
    + injection E as <- E. destruct (IH a E Hw Hb) as (a' & -> & ->). exists a'. auto.
Qed.

Lemma digit_not_bang : forall x, is_digit x = true -> byte_eqb "!" x = false.
Proof. chars. Qed.
Lemma in_pre_not_bang : forall x, in_pre x = true -> byte_eqb "!" x = false.
Proof. chars. Qed.
Lemma k2_ok x c : wf_surface x -> munch x ->
  k2 (tail2 x) c = Some (all_caps4 x (release_cap x (epoch_cap x c))).
Proof.
  intros W Hm. pose proof W as (_ & _ & He & H0 & _).
  unfold k2, tail2, render_epoch, epoch_cap, r_epoch. rewrite run_opt, run_seq, run_grp.
  destruct (g_epoch x) as [e|] eqn:E.
  - rewrite <- app_assoc, run_digits; auto; rewrite ?firstn_consumed, ?run_lit, ?k3_ok; auto.
    + reflexivity.
    + congruence.
  - cbn [app]. unfold r_digits. rewrite run_plus_class_none; [now apply k3_ok|].
    intros w t Hw Et Hd.
    unfold tail3, render_release in Et. rewrite <- app_assoc in Et. symmetry in Et.
    assert (D : head_not is_digit (dotted (g_rels x) ++ tail4 x))
      by (now apply dotted_head, head_not_digit4).
    destruct (digits_split w t (g_rel0 x) _ Et Hd D) as (a' & Ea & ->).
    apply (run_lit1_fail "!"%char); [reflexivity|].
    destruct a' as [|y a'].
    + cbn [app]. destruct (g_rels x) as [|r l]; [|reflexivity].
      cbn [dotted map concat app]. generalize (h4 x W). apply head_in_not, in_pre_not_bang.
    + simpl. apply digit_not_bang. destruct H0 as [_ H0]. rewrite Ea, forallb_app in H0.
      simpl in H0. rewrite !andb_true_iff in H0. tauto.
Qed.

Lemma tail2_digit x : wf_surface x -> exists d t, tail2 x = d :: t /\ is_digit d = true.
Proof.
  intros W. pose proof W as (_ & _ & He & H0 & _).
  assert (N : forall n t, number n -> exists d t', n ++ t = d :: t' /\ is_digit d = true).
  { intros n t [H1 H2]. destruct n as [|d n]; [congruence|]. simpl in H2.
    apply andb_true_iff in H2 as [H2 _]. simpl. eauto. }
  unfold tail2, render_epoch. destruct (g_epoch x) as [e|].
  - rewrite <- app_assoc. now apply N, He.
  - cbn [app]. unfold tail3, render_release. rewrite <- app_assoc. now apply N.
Qed.
Lemma digit_not_v : forall x, is_digit x = true -> byte_eqb "v" (lower x) = false.
Proof. chars. Qed.
Lemma digit_not_blank : forall x, is_digit x = true -> cls_re_space x = false.
Proof. chars. Qed.

Definition all_caps (x : surface) : caps := all_caps4 x (release_cap x (epoch_cap x [])).
Lemma k1_ok x : wf_surface x -> munch x -> k1 (tail1 x) [] = Some (all_caps x).
Proof.
  intros W Hm. pose proof W as (_ & Hv & _). destruct (tail2_digit x W) as (d & t & E & Hd).
  unfold k1, tail1. rewrite run_opt, run_lit_ci by reflexivity.
  destruct Hv as [Hv|[Hv|Hv]]; rewrite Hv.
  - cbn [app]. rewrite E. cbn [to_lower map has_prefix list_ascii_of_string].
    rewrite (digit_not_v d Hd). cbn [andb]. rewrite <- E. now apply k2_ok.
  - cbn [app list_ascii_of_string to_lower map has_prefix]. 
    replace (byte_eqb "v" (lower "V") && true) with true by reflexivity.
    replace (byte_eqb "v" (lower "v") && true) with true by reflexivity.
    cbn [length skipn]. rewrite k2_ok by auto. reflexivity.
  - cbn [app list_ascii_of_string to_lower map has_prefix]. 
    replace (byte_eqb "v" (lower "V") && true) with true by reflexivity.
    replace (byte_eqb "v" (lower "v") && true) with true by reflexivity.
    cbn [length skipn]. rewrite k2_ok by auto. reflexivity.
Qed.

Lemma match_render x : wf_surface x -> munch x ->
  full_match re_version (render x) = Some (all_caps x).
Proof.
  intros W Hm. pose proof W as (Hl & Hv & _). destruct (tail2_digit x W) as (d & t & E & Hd).
  rewrite full_match_k.
  replace (render x) with (g_lead x ++ tail1 x).
  - unfold r_spaces. rewrite run_star_class.
    + now apply k1_ok.
    + rewrite forallb_forall in *. intros y Hy. rewrite blank_space. auto.
    + unfold tail1. destruct Hv as [Hv|[Hv|Hv]]; rewrite Hv.
      * cbn [app]. rewrite E. now apply digit_not_blank.
      * reflexivity.
      * reflexivity.
    + rewrite k1_ok by auto. congruence.
  - unfold render, tail1, tail2, tail3, tail4, tail5, tail6, tail7, tail8. reflexivity.
Qed.

(** ** From captures to the value *)
Lemma group_num_cap n num c m : group (num_cap n num c) m =
  if String.eqb n m then match num with [] => group c m | _ => num end else group c m.
Proof. destruct num; simpl; destruct (String.eqb n m); reflexivity. Qed.
Ltac grp := repeat (simpl; rewrite ?group_num_cap).

Lemma group_local x c n : n <> "local"%string -> group (local_cap x c) n = group c n.
Proof.
  intros H. unfold local_cap. destruct (g_local x) as [[w l]|]; auto. cbn [group].
  destruct (String.eqb_spec "local" n); congruence.
Qed.
Lemma group_dev x c n : ~ In n ["dev"; "dev_l"; "dev_n"]%string -> group (dev_cap x c) n = group c n.
Proof.
  intros H. unfold dev_cap, lp_cap. destruct (g_dev x) as [p|]; auto. cbn [group].
  rewrite group_num_cap. cbn [group]. simpl in H.
  destruct (String.eqb_spec "dev" n), (String.eqb_spec "dev_n" n), (String.eqb_spec "dev_l" n);
    subst; tauto.
Qed.
Lemma group_post x c n : ~ In n ["post"; "post_l"; "post_n1"; "post_n2"]%string ->
  group (post_cap x c) n = group c n.
Proof.
  intros H. unfold post_cap, lp_cap. simpl in H.
  destruct (g_post x) as [[m|p]|]; auto; cbn [group]; rewrite ?group_num_cap; cbn [group];
  destruct (String.eqb_spec "post" n), (String.eqb_spec "post_n1" n), (String.eqb_spec "post_n2" n),
    (String.eqb_spec "post_l" n); subst; tauto.
Qed.
Lemma group_pre x c n : ~ In n ["pre"; "pre_l"; "pre_n"]%string -> group (pre_cap x c) n = group c n.
Proof.
  intros H. unfold pre_cap, lp_cap. destruct (g_pre x) as [p|]; auto. cbn [group].
  rewrite group_num_cap. cbn [group]. simpl in H.
  destruct (String.eqb_spec "pre" n), (String.eqb_spec "pre_n" n), (String.eqb_spec "pre_l" n);
    subst; tauto.
Qed.
Lemma group_release x c n : n <> "release"%string -> group (release_cap x c) n = group c n.
Proof. intros H. unfold release_cap. cbn [group]. destruct (String.eqb_spec "release" n); congruence. Qed.
Lemma group_epoch_none x n : n <> "epoch"%string -> group (epoch_cap x []) n = [].
Proof.
  intros H. unfold epoch_cap. destruct (g_epoch x); auto. cbn [group].
  destruct (String.eqb_spec "epoch" n); congruence.
Qed.
Ltac notin := (congruence || (simpl; intuition congruence)).
Ltac skip_groups :=
  repeat first [ rewrite group_local by notin | rewrite group_dev by notin
               | rewrite group_post by notin | rewrite group_pre by notin
               | rewrite group_release by notin | rewrite group_epoch_none by notin ].

Lemma atoi_number n : number n -> atoi n = num_value n.
Proof. intros H. apply atoi_digits. now apply all_digits_spec. Qed.
Lemma map_atoi_numbers l : Forall number l -> map_atoi l = nums_value l.
Proof. induction 1; simpl; auto. now rewrite atoi_number, IHForall. Qed.
Lemma number_no_dot n : number n -> ~ In "."%char n.
Proof.
  intros [_ H] Hin. rewrite forallb_forall in H. specialize (H _ Hin). discriminate.
Qed.
Lemma join_dotted n l : join $"." (n :: l) = n ++ dotted l.
Proof.
  revert n. induction l as [|m l IH]; intros n.
  - simpl. now rewrite app_nil_r.
  - change (join $"." (n :: m :: l)) with (n ++ $"." ++ join $"." (m :: l)). now rewrite IH.
Qed.
Lemma split_release x : wf_surface x ->
  split_on "."%char (render_release x) = g_rel0 x :: g_rels x.
Proof.
  intros (_ & _ & _ & H0 & Hs & _). unfold render_release. fold (dotted (g_rels x)).
  rewrite <- join_dotted. apply split_on_join; [congruence|].
  constructor; [now apply number_no_dot|]. revert Hs. apply Forall_impl. apply number_no_dot.
Qed.

Definition pre_table : list (str * list str) :=
  [($"a", [$"alpha"]); ($"b", [$"beta"]); ($"rc", [$"c"; $"pre"; $"preview"])].
Definition post_table : list (str * list str) := [($"post", [[]; $"rev"; $"r"])].
Definition dev_table : list (str * list str) := [($"dev", [])].

Lemma str_eqb_nil s : str_eqb s [] = match s with [] => true | _ => false end.
Proof. now destruct s. Qed.
Definition lower_cases (w : str) : Prop := to_lower (to_lower w) = to_lower w.

Lemma pln_gen l num table canon : l <> [] -> opt_number num ->
  (if existsb (fun a => str_eqb (to_lower l) (fst a)) table then Some (to_lower l)
   else find_letter (to_lower l) table) = Some canon ->
  parse_letter_number l num table =
  match opt_num_value num with Some z => Ok (Some (canon, z)) | None => Err end.
Proof.
  intros Hl Hn E. unfold parse_letter_number. cbv zeta.
  assert (E1 : str_eqb l [] = false) by (destruct l; [congruence|reflexivity]).
  assert (E2 : str_eqb (to_lower l) [] = false) by (destruct l; [congruence|reflexivity]).
  rewrite E1, E2. cbn [andb negb]. rewrite E.
  destruct Hn as [->|Hn].
  - reflexivity.
  - assert (E3 : str_eqb num [] = false) by (destruct Hn; destruct num; [congruence|reflexivity]).
    rewrite E3. rewrite E3, atoi_number by auto.
    replace (opt_num_value num) with (num_value num) by (destruct num; [destruct Hn; congruence|reflexivity]).
    destruct (num_value num); reflexivity.
Qed.

Lemma pln_pre p : wf_lp pre_words p ->
  parse_letter_number (lp_word p) (lp_num p) pre_table =
  match opt_num_value (lp_num p) with
  | Some z => Ok (Some (letter_value (lp_word p), z)) | None => Err end.
Proof.
  intros (_ & H & _ & Hn). apply pln_gen; auto.
  - intros E. rewrite E in H. simpl in H. intuition congruence.
  - unfold letter_value. unfold pre_words in H. simpl in H.
    destruct H as [H|[H|[H|[H|[H|[H|[H|[H|[]]]]]]]]]; rewrite <- H; reflexivity.
Qed.
Lemma pln_post p : wf_lp post_words p ->
  parse_letter_number (lp_word p) (lp_num p) post_table =
  match opt_num_value (lp_num p) with Some z => Ok (Some ($"post", z)) | None => Err end.
Proof.
  intros (_ & H & _ & Hn). apply pln_gen; auto.
  - intros E. rewrite E in H. simpl in H. intuition congruence.
  - simpl in H. destruct H as [H|[H|[H|[]]]]; rewrite <- H; reflexivity.
Qed.
Lemma pln_dash n : number n ->
  parse_letter_number [] n post_table =
  match opt_num_value n with Some z => Ok (Some ($"post", z)) | None => Err end.
Proof.
  intros Hn. unfold parse_letter_number.
  assert (E3 : str_eqb n [] = false) by (destruct Hn; destruct n; [congruence|reflexivity]).
  cbn. rewrite E3, atoi_number by auto.
  replace (opt_num_value n) with (num_value n) by (destruct n; [destruct Hn; congruence|reflexivity]).
  destruct (num_value n); reflexivity.
Qed.
Lemma pln_dev p : wf_lp dev_words p ->
  parse_letter_number (lp_word p) (lp_num p) dev_table =
  match opt_num_value (lp_num p) with Some z => Ok (Some ($"dev", z)) | None => Err end.
Proof.
  intros (_ & H & _ & Hn). apply pln_gen; auto.
  - intros E. rewrite E in H. simpl in H. intuition congruence.
  - simpl in H. destruct H as [H|[]]; rewrite <- H; reflexivity.
Qed.

Lemma groups x : 
  group (all_caps x) "epoch" = match g_epoch x with Some e => e | None => [] end /\
  group (all_caps x) "release" = render_release x /\
  group (all_caps x) "pre_l" = match g_pre x with Some p => lp_word p | None => [] end /\
  group (all_caps x) "pre_n" = match g_pre x with Some p => lp_num p | None => [] end /\
  group (all_caps x) "post_l" = match g_post x with Some (PWord p) => lp_word p | _ => [] end /\
  group (all_caps x) "post_n1" = match g_post x with Some (PDash n) => n | _ => [] end /\
  group (all_caps x) "post_n2" = match g_post x with Some (PWord p) => lp_num p | _ => [] end /\
  group (all_caps x) "dev_l" = match g_dev x with Some p => lp_word p | None => [] end /\
  group (all_caps x) "dev_n" = match g_dev x with Some p => lp_num p | None => [] end /\
  group (all_caps x) "local" = match g_local x with Some (w, l) => w ++ flat l | None => [] end.
Proof.
  unfold all_caps, all_caps4. repeat split; skip_groups.
  - unfold epoch_cap. destruct (g_epoch x); reflexivity.
  - reflexivity.
  - unfold pre_cap, lp_cap. destruct (g_pre x); [|now skip_groups]. cbn [group].
    simpl. rewrite group_num_cap. reflexivity.
  - unfold pre_cap, lp_cap. destruct (g_pre x); [|now skip_groups]. cbn [group].
    simpl. rewrite group_num_cap. simpl. skip_groups. now destruct (lp_num l).
  - unfold post_cap, lp_cap. destruct (g_post x) as [[m|p]|]; [|simpl; rewrite group_num_cap; reflexivity|now skip_groups].
    simpl. now skip_groups.
  - unfold post_cap, lp_cap. destruct (g_post x) as [[m|p]|]; [reflexivity| |now skip_groups].
    simpl. rewrite group_num_cap. simpl. now skip_groups.
  - unfold post_cap, lp_cap. destruct (g_post x) as [[m|p]|]; [simpl; now skip_groups| |now skip_groups].
    simpl. rewrite group_num_cap. simpl. skip_groups. now destruct (lp_num p).
  - unfold dev_cap, lp_cap. destruct (g_dev x); [|now skip_groups].
    simpl. rewrite group_num_cap. reflexivity.
  - unfold dev_cap, lp_cap. destruct (g_dev x); [|now skip_groups].
    simpl. rewrite group_num_cap. simpl. skip_groups. now destruct (lp_num l).
  - unfold local_cap. destruct (g_local x) as [[w l]|]; [reflexivity|]. now skip_groups.
Qed.

Lemma word_fields : forall w, word w -> w <> [] /\ forallb (fun c => negb (in_set $"-_." c)) w = true.
Proof.
  intros w [H1 H2]. split; auto. rewrite forallb_forall in *. intros c Hc.
  specialize (H2 c Hc). clear -H2. revert c H2. chars.
Qed.
Lemma local_fields x : wf_surface x ->
  fields_func (in_set $"-_.") (match g_local x with Some (w, l) => w ++ flat l | None => [] end)
  = local_words x.
Proof.
  intros (_ & _ & _ & _ & _ & _ & _ & _ & _ & Hl & _). unfold local_words.
  destruct (g_local x) as [[w l]|]; auto. destruct (Hl w l eq_refl) as [Hw L].
  apply word_fields in Hw as [H1 H2]. apply fields_func_words; auto.
  revert L. apply Forall_impl. intros [s u] [Hs Hu]. simpl in *.
  apply word_fields in Hu. tauto.
Qed.

Definition model_seg (w : str) : intorstr := intstr_parse (to_lower w).

Theorem parse_render x : wf_surface x -> munch x ->
  parse_version (render x) = value_with model_seg x.
Proof.
  intros W Hm. unfold parse_version. rewrite match_render by auto.
  destruct (groups x) as (G1 & G2 & G3 & G4 & G5 & G6 & G7 & G8 & G9 & G10).
  rewrite G1, G2, G3, G4, G5, G6, G7, G8, G9, G10, split_release, local_fields by auto.
  fold pre_table post_table dev_table. unfold value_with. pose proof W as (_ & _ & He & H0 & Hs & Hpre & Hdash & Hpost & Hdev & _).
  rewrite map_atoi_numbers by now constructor.
  replace (if str_eqb match g_epoch x with Some e => e | None => [] end [] then Some 0%Z
           else atoi match g_epoch x with Some e => e | None => [] end)
    with (match g_epoch x with Some e => num_value e | None => Some 0%Z end).
  2:{ destruct (g_epoch x) as [e|]; auto. specialize (He e eq_refl). pose proof He as [Hn _].
      rewrite str_eqb_nil, atoi_number by auto. now destruct e. }
  destruct (match g_epoch x with Some e => num_value e | None => Some 0%Z end) as [e|]; auto.
  destruct (nums_value (g_rel0 x :: g_rels x)) as [r|]; auto.
  assert (P1 : parse_letter_number match g_pre x with Some p => lp_word p | None => [] end
                 match g_pre x with Some p => lp_num p | None => [] end pre_table
               = match part_value (option_map lp_num (g_pre x)) with
                 | Some pn => Ok (match g_pre x, pn with
                               | Some p, Some n => Some (letter_value (lp_word p), n)
                               | _, _ => None
                               end)
                 | None => Err end).
  { destruct (g_pre x) as [p|]; [|reflexivity]. rewrite pln_pre by auto. simpl.
    now destruct (opt_num_value (lp_num p)). }
  assert (P2 : parse_letter_number match g_post x with Some (PWord p) => lp_word p | _ => [] end
                 (match g_post x with Some (PDash n) => n | _ => [] end ++
                  match g_post x with Some (PWord p) => lp_num p | _ => [] end) post_table
               = match part_value (option_map post_num (g_post x)) with
                 | Some pn => Ok (option_map (pair $"post") pn)
                 | None => Err end).
  { destruct (g_post x) as [[n|p]|]; [| |reflexivity].
    - rewrite app_nil_r, pln_dash by auto. simpl. now destruct (opt_num_value n).
    - cbn [app]. rewrite pln_post by auto. simpl. now destruct (opt_num_value (lp_num p)). }
  assert (P3 : parse_letter_number match g_dev x with Some p => lp_word p | None => [] end
                 match g_dev x with Some p => lp_num p | None => [] end dev_table
               = match part_value (option_map lp_num (g_dev x)) with
                 | Some pn => Ok (option_map (pair $"dev") pn)
                 | None => Err end).
  { destruct (g_dev x) as [p|]; [|reflexivity]. rewrite pln_dev by auto. simpl.
    now destruct (opt_num_value (lp_num p)). }
  match goal with |- context [parse_letter_number ?a ?b pre_table] =>
    rewrite (P1 : parse_letter_number a b pre_table = _) end.
  match goal with |- context [parse_letter_number ?a ?b post_table] =>
    rewrite (P2 : parse_letter_number a b post_table = _) end.
  match goal with |- context [parse_letter_number ?a ?b dev_table] =>
    rewrite (P3 : parse_letter_number a b dev_table = _) end.
  destruct (part_value (option_map lp_num (g_pre x))) as [pn|]; auto.
  destruct (part_value (option_map post_num (g_post x))) as [po|]; auto.
  destruct (part_value (option_map lp_num (g_dev x))) as [d|]; auto.
  unfold model_seg. destruct po, d; reflexivity.
Qed.
