(** Parsing and printing of version specifiers. *)
From Coq Require Import String Ascii List Bool ZArith NArith Lia.
From Verif.Model Require Import GoStr Regex Pep440 Specifier.
From Verif.Spec Require Import Pep440Spec VersionGrammar SpecifierSpec.
From Verif.Proofs Require Import Order GoStrFacts RegexFacts Pep440Cmp Pep440Parse Pep440Sound.
Import ListNotations.
Local Arguments Z.compare : simpl never.
Local Arguments N.ltb : simpl never.
Local Arguments N.pow : simpl never.
Local Arguments Z.pow : simpl never.
Local Arguments byte_eqb : simpl never.

(** ** Bytes that occur in a version *)
Fixpoint within (p : ascii -> bool) (r : re) : Prop :=
  match r with
  | REps => True
  | RChr q => forall c, q c = true -> p c = true
  | RSeq a b | RAlt a b => within p a /\ within p b
  | RStar a => within p a
  | RGrp _ a => within p a
  end.
Lemma L_within p r : within p r -> forall w, L r w -> forallb p w = true.
Proof.
  induction r; simpl; intros H w Hw.
  - now subst.
  - destruct Hw as (x & -> & Hx). simpl. now rewrite (H x Hx).
  - destruct H as [H1 H2], Hw as (w1 & w2 & -> & L1 & L2). rewrite forallb_app, IHr1, IHr2; auto.
  - destruct H as [H1 H2], Hw as [Hw|Hw]; auto.
  - destruct Hw as (ws & -> & F). induction F as [|w ws Hw F IH]; simpl; auto.
    rewrite forallb_app, IHr, IH; auto.
  - auto.
Qed.
Definition version_byte (c : ascii) : bool :=
  blank c || is_lower_alpha (lower c) || is_digit c || in_set $"-_.!+" c.
Lemma cls_space_vb : forall c, cls_re_space c = true -> version_byte c = true.
Proof. chars. Qed.
Lemma digit_vb : forall c, is_digit c = true -> version_byte c = true.
Proof. chars. Qed.
Lemma re_version_bytes : within version_byte re_version.
Proof.
  unfold re_version. cbn [RSeqs within r_spaces ROpt lit_ci RLit r_epoch r_release r_pre r_post r_dev r_local
     map RAlts r_digits RPlus r_sep r_sep1 r_alnums lit list_ascii_of_string r_pre_l].
  repeat match goal with |- _ /\ _ => split | |- True => exact I end; try (chars; fail).
Qed.
Lemma parse_bytes s v : parse_version s = Some v -> forallb version_byte s = true.
Proof.
  intros H. unfold parse_version in H. destruct (full_match re_version s) as [c|] eqn:E; [|discriminate].
  apply full_match_lang in E. eapply L_within; eauto. apply re_version_bytes.
Qed.
Lemma vb_not : forall c, version_byte c = true ->
  (byte_eqb c "," || byte_eqb c "=" || byte_eqb c "*" || byte_eqb "=" c || byte_eqb "*" c)%char = false.
Proof. chars. Qed.
Lemma blank_not : forall c, blank c = true ->
  (byte_eqb c "," || byte_eqb c "=" || byte_eqb c "*" || byte_eqb "=" c || byte_eqb "*" c)%char = false.
Proof. chars. Qed.
Lemma blank_vb : forall c, blank c = true -> version_byte c = true.
Proof. chars. Qed.

Lemma parse_lead ws s v : forallb blank ws = true -> parse_version s = Some v ->
  parse_version (ws ++ s) = Some v.
Proof.
  intros Hw H. apply parse_sound in H as (x & W & Hm & _ & <- & V).
  set (y := {| g_lead := ws ++ g_lead x; g_v := g_v x; g_epoch := g_epoch x; g_rel0 := g_rel0 x;
               g_rels := g_rels x; g_pre := g_pre x; g_post := g_post x; g_dev := g_dev x;
               g_local := g_local x; g_trail := g_trail x |}).
  replace (ws ++ render x) with (render y).
  - rewrite parse_render; [exact V| |exact Hm].
    destruct W as (W0 & W). split; [|exact W]. simpl. now rewrite forallb_app, Hw, W0.
  - unfold render at 1. simpl g_lead. rewrite <- app_assoc. reflexivity.
Qed.

(** ** Splitting at commas and trimming *)
Lemma fields_aux_cur f s cur : fields_aux f s cur =
  match s with
  | [] => match cur with [] => [] | _ => [rev cur] end
  | x :: s' =>
      if f x then match cur with
                  | [] => fields_aux f s' []
                  | _ => rev cur :: fields_aux f s' []
                  end
      else fields_aux f s' (x :: cur)
  end.
Proof. destruct s; reflexivity. Qed.
Lemma fields_aux_app f a c b cur : f c = true ->
  fields_aux f (a ++ c :: b) cur = fields_aux f a cur ++ fields_aux f b [].
Proof.
  intros Hc. revert cur. induction a as [|x a IH]; intros cur; simpl.
  - rewrite Hc. destruct cur; reflexivity.
  - destruct (f x).
    + rewrite IH. destruct cur; reflexivity.
    + apply IH.
Qed.
Lemma fields_func_app f a c b : f c = true ->
  fields_func f (a ++ c :: b) = fields_func f a ++ fields_func f b.
Proof. intros. now apply fields_aux_app. Qed.
Lemma fields_func_one f s : s <> [] -> forallb (fun c => negb (f c)) s = true -> fields_func f s = [s].
Proof.
  intros Hs H. pose proof (fields_aux_run f s [] [] H) as E. rewrite app_nil_r in E.
  unfold fields_func. rewrite E, app_nil_r. cbn [fields_aux]. rewrite rev_involutive.
  destruct (rev s) eqn:R; auto. exfalso. apply Hs. rewrite <- (rev_involutive s), R. reflexivity.
Qed.

Lemma trim_left_id f s : head_not f s -> trim_left f s = s.
Proof. destruct s as [|x s]; simpl; auto. now intros ->. Qed.
Lemma trim_left_app f a b : forallb f a = true -> trim_left f (a ++ b) = trim_left f b.
Proof. induction a as [|x a IH]; simpl; auto. rewrite andb_true_iff. intros [-> H]. auto. Qed.
Lemma trim_left_head f s : head_not f (trim_left f s).
Proof. induction s as [|x s IH]; simpl; auto. destruct (f x) eqn:E; auto. Qed.
Lemma trim_left_suffix f s : exists p, s = p ++ trim_left f s /\ forallb f p = true.
Proof.
  induction s as [|x s (p & E & H)]; simpl; [now exists []|].
  destruct (f x) eqn:F; [|now exists []]. exists (x :: p). simpl. rewrite F, H. now rewrite <- E.
Qed.
Lemma trim_left_nonempty f s t : trim_left f (s ++ t) <> [] \/ trim_left f (s ++ t) = trim_left f t.
Proof.
  induction s as [|x s IH]; simpl; auto. destruct (f x) eqn:E; auto. left. discriminate.
Qed.
Lemma trim_right_app f a b : trim_right f b <> [] -> trim_right f (a ++ b) = a ++ trim_right f b.
Proof.
  unfold trim_right. rewrite rev_app_distr. intros H.
  enough (E : trim_left f (rev b ++ rev a) = trim_left f (rev b) ++ rev a).
  { rewrite E, rev_app_distr, rev_involutive. reflexivity. }
  assert (H' : trim_left f (rev b) <> []) by (intros E; apply H; now rewrite E). clear H. revert H'.
  induction (rev b) as [|x l IH]; simpl; [congruence|]. destruct (f x); auto.
Qed.
Lemma trim_right_app_all f a b : trim_right f b = [] -> trim_right f (a ++ b) = trim_right f a.
Proof.
  unfold trim_right. rewrite rev_app_distr. intros H. f_equal.
  assert (H' : trim_left f (rev b) = []).
  { rewrite <- (rev_involutive (trim_left f (rev b))), H. reflexivity. }
  clear H. revert H'. induction (rev b) as [|x l IH]; simpl; auto. destruct (f x); auto. discriminate.
Qed.
Lemma trim_right_prefix f s : exists p, s = trim_right f s ++ p /\ forallb f p = true.
Proof.
  destruct (trim_left_suffix f (rev s)) as (p & E & H). exists (rev p). unfold trim_right.
  rewrite <- rev_app_distr, <- E, rev_involutive. split; auto.
  rewrite forallb_forall in *. intros x Hx. apply H. now apply in_rev.
Qed.
Lemma trim_right_idem f s : trim_right f (trim_right f s) = trim_right f s.
Proof.
  unfold trim_right at 1. unfold trim_right at 1. rewrite rev_involutive, trim_left_id; auto.
  apply trim_left_head.
Qed.
Lemma trim_space_prefix p s : head_not is_space p -> p <> [] -> trim_right is_space p = p ->
  trim_space (p ++ s) = p ++ trim_right is_space s.
Proof.
  intros H1 H2 H3. unfold trim_space. rewrite trim_left_id.
  - destruct (trim_right is_space s) eqn:E.
    + rewrite trim_right_app_all by auto. now rewrite app_nil_r.
    + rewrite <- E. apply trim_right_app. congruence.
  - destruct p; [congruence|exact H1].
Qed.
Lemma trim_space_idem s : trim_space (trim_space s) = trim_space s.
Proof.
  unfold trim_space. rewrite (trim_left_id _ (trim_right is_space (trim_left is_space s))).
  - apply trim_right_idem.
  - destruct (trim_right_prefix is_space (trim_left is_space s)) as (p & E & _).
    pose proof (trim_left_head is_space s) as H. rewrite E in H.
    destruct (trim_right is_space (trim_left is_space s)); simpl in *; auto.
Qed.
Lemma trimmed_right v : trimmed v -> trim_right is_space v = v.
Proof.
  unfold trimmed. intros H. rewrite <- H at 1. unfold trim_space. rewrite trim_right_idem. exact H.
Qed.

(** ** One clause *)
Lemma has_suffix_app p s : has_suffix p (s ++ p) = true.
Proof. apply has_suffix_spec. eauto. Qed.
Lemma slice2 a b s : slice_from 2 (a :: b :: s) = Ok s.
Proof. reflexivity. Qed.
Lemma no_star s : forallb version_byte s = true -> has_suffix $".*" s = false.
Proof.
  intros H. destruct (has_suffix $".*" s) eqn:E; auto. apply has_suffix_spec in E as (t & ->).
  rewrite forallb_app in H. apply andb_true_iff in H as [_ H]. vm_compute in H. discriminate.
Qed.
Lemma head_not_eq s : forallb version_byte s = true -> has_prefix $"=" s = false.
Proof.
  destruct s as [|x s]; auto. simpl. rewrite andb_true_iff. intros [H _]. apply vb_not in H.
  rewrite !orb_false_iff in H. destruct H as [[[[_ _] _] H] _]. now rewrite H.
Qed.
Lemma star_not_eq s : forallb version_byte s = true -> has_prefix $"=" (s ++ $".*") = false.
Proof. destruct s as [|x s]; auto. intros H. apply head_not_eq in H. exact H. Qed.

Lemma parse_one s : trimmed s -> s <> [] -> forallb (fun c => negb (byte_eqb c ",")) s = true ->
  parse_specifier s = match parse_clause s with Ok c => Ok [c] | Err => Err | Panic => Panic end.
Proof.
  intros Ht Hs Hc. unfold parse_specifier. rewrite fields_func_one by auto. cbn [parse_clauses].
  rewrite Ht. destruct s; [congruence|]. now destruct (parse_clause (a :: s)).
Qed.

Lemma vb_no_comma s : forallb version_byte s = true -> forallb (fun c => negb (byte_eqb c ",")) s = true.
Proof.
  rewrite !forallb_forall. intros H x Hx. specialize (H x Hx). apply vb_not in H.
  rewrite !orb_false_iff in H. destruct H as [[[[H _] _] _] _]. now rewrite H.
Qed.
Lemma forallb_impl {A} (f g : A -> bool) l : (forall x, f x = true -> g x = true) ->
  forallb f l = true -> forallb g l = true.
Proof. intros H. rewrite !forallb_forall. auto. Qed.

Lemma head_eq_prefix x s : has_prefix $"=" s = false -> has_prefix [x; "="%char] (x :: s) = false.
Proof. cbn [has_prefix]. rewrite byte_eqb_refl. exact (fun H => H). Qed.

Theorem parse_clause_text op ws v ver :
  forallb blank ws = true -> trimmed v -> parse_version v = Some ver ->
  (op = OpLT \/ op = OpGT -> ws <> []) ->
  parse_specifier (clause_text op ws v) =
    if permitted op ver then Ok [{| c_op := op; c_ver := ver |}] else Err.
Proof.
  intros Hw Ht Hv Hop.
  assert (Bv := parse_bytes v ver Hv).
  assert (Bw : forallb version_byte ws = true) by (eapply forallb_impl; [apply blank_vb|auto]).
  assert (B : forallb version_byte (ws ++ v) = true) by now rewrite forallb_app, Bw, Bv.
  assert (Hne : v <> []) by (intros ->; vm_compute in Hv; discriminate).
  assert (Hr : trim_right is_space (ws ++ v) = ws ++ v).
  { rewrite trim_right_app; rewrite ?(trimmed_right v Ht); auto. }
  assert (Hp := parse_lead ws v ver Hw Hv).
  set (star := match op with OpPrefixMatch | OpPrefixExclude => $".*" | _ => [] end).
  assert (E : clause_text op ws v = operator_text op ++ ((ws ++ v) ++ star)).
  { unfold clause_text. fold star. now rewrite <- app_assoc. }
  assert (T : trimmed (clause_text op ws v)).
  { unfold trimmed. rewrite E, trim_space_prefix; try (destruct op; vm_compute; congruence).
    f_equal. unfold star. destruct op; rewrite ?app_nil_r; auto;
      rewrite trim_right_app; vm_compute; congruence. }
  assert (C : forallb (fun c => negb (byte_eqb c ",")) (clause_text op ws v) = true).
  { rewrite E, !forallb_app, (vb_no_comma ws), (vb_no_comma v) by auto.
    unfold star. destruct op; reflexivity. }
  rewrite parse_one by (auto; destruct op; discriminate).
  unfold parse_clause. rewrite T, E. unfold star. clear C T E star.
  assert (N1 := head_not_eq _ B). assert (N2 := star_not_eq _ B). assert (NS := no_star _ B).
  assert (R1 : (length (release (pub ver)) <? 1)%nat = false).
  { apply parse_result in Hv as [(_ & Hr' & _) _]. destruct (release (pub ver)); [congruence|reflexivity]. }
  assert (B2 : forall x y z w, has_prefix [x; y] (z :: w) = byte_eqb x z && has_prefix [y] w) by reflexivity.
  assert (Q : forall c w, has_prefix $"=" w = false -> has_prefix $"===" ("=" :: c :: w)%char = false).
  { intros c w Hw'. cbn [has_prefix list_ascii_of_string] in *. rewrite Hw'. apply andb_false_r. }
  destruct op; rewrite ?app_nil_r; cbn [operator_text list_ascii_of_string app];
    change ["."%char; "*"%char] with $".*"; unfold clause_operator.
  - change (has_prefix $"~=" ("~" :: "=" :: ws ++ v)%char) with true. cbv iota.
    unfold plain_variant. rewrite slice2, Hp. unfold permitted.
    rewrite andb_false_r, andb_true_r. rewrite Nat.ltb_antisym.
    destruct (2 <=? length (release (pub ver)))%nat; cbn [negb andb]; auto.
    destruct (local ver); reflexivity.
  - rewrite Q by auto. change (has_prefix $"~=" ("=" :: "=" :: ws ++ v)%char) with false.
    change (has_prefix $"==" ("=" :: "=" :: ws ++ v)%char) with true. cbn [negb andb].
    unfold eq_variant. rewrite slice2, NS, Hp. unfold permitted. now rewrite !andb_false_r, R1.
  - rewrite Q by auto. change (has_prefix $"~=" ("=" :: "=" :: (ws ++ v) ++ $".*")%char) with false.
    change (has_prefix $"==" ("=" :: "=" :: (ws ++ v) ++ $".*")%char) with true. cbn [negb andb].
    unfold eq_variant. rewrite slice2, has_suffix_app, trim_suffix_app, Hp, R1. unfold permitted.
    destruct (dev (pub ver)); cbn [is_some negb andb]; auto. destruct (local ver); reflexivity.
  - change (has_prefix $"~=" ("!" :: "=" :: ws ++ v)%char) with false.
    change (has_prefix $"==" ("!" :: "=" :: ws ++ v)%char) with false.
    change (has_prefix $"!=" ("!" :: "=" :: ws ++ v)%char) with true. cbn [negb andb].
    unfold eq_variant. rewrite slice2, NS, Hp. unfold permitted. now rewrite !andb_false_r, R1.
  - change (has_prefix $"~=" ("!" :: "=" :: (ws ++ v) ++ $".*")%char) with false.
    change (has_prefix $"==" ("!" :: "=" :: (ws ++ v) ++ $".*")%char) with false.
    change (has_prefix $"!=" ("!" :: "=" :: (ws ++ v) ++ $".*")%char) with true. cbn [negb andb].
    unfold eq_variant. rewrite slice2, has_suffix_app, trim_suffix_app, Hp, R1. unfold permitted.
    destruct (dev (pub ver)); cbn [is_some negb andb]; auto. destruct (local ver); reflexivity.
  - change (has_prefix $"~=" ("<" :: "=" :: ws ++ v)%char) with false.
    change (has_prefix $"==" ("<" :: "=" :: ws ++ v)%char) with false.
    change (has_prefix $"!=" ("<" :: "=" :: ws ++ v)%char) with false.
    change (has_prefix $"<=" ("<" :: "=" :: ws ++ v)%char) with true. cbn [negb andb].
    unfold plain_variant. rewrite slice2, Hp, R1. unfold permitted.
    rewrite andb_false_r, andb_true_r. destruct (local ver); reflexivity.
  - change (has_prefix $"~=" (">" :: "=" :: ws ++ v)%char) with false.
    change (has_prefix $"==" (">" :: "=" :: ws ++ v)%char) with false.
    change (has_prefix $"!=" (">" :: "=" :: ws ++ v)%char) with false.
    change (has_prefix $"<=" (">" :: "=" :: ws ++ v)%char) with false.
    change (has_prefix $">=" (">" :: "=" :: ws ++ v)%char) with true. cbn [negb andb].
    unfold plain_variant. rewrite slice2, Hp, R1. unfold permitted.
    rewrite andb_false_r, andb_true_r. destruct (local ver); reflexivity.
  - rewrite (head_eq_prefix "<"%char) by auto.
    change (has_prefix $"~=" ("<" :: ws ++ v)%char) with false.
    change (has_prefix $"==" ("<" :: ws ++ v)%char) with false.
    change (has_prefix $"!=" ("<" :: ws ++ v)%char) with false.
    change (has_prefix $">=" ("<" :: ws ++ v)%char) with false.
    change (has_prefix $"<" ("<" :: ws ++ v)%char) with true. cbn [negb andb].
    destruct ws as [|w ws]; [exfalso; apply Hop; auto|]. cbn [app]. simpl in Hw.
    apply andb_true_iff in Hw as [_ Hw].
    unfold plain_variant. rewrite slice2, (parse_lead ws v ver), R1 by auto. unfold permitted.
    rewrite andb_false_r, andb_true_r. destruct (local ver); reflexivity.
  - rewrite (head_eq_prefix ">"%char) by auto.
    change (has_prefix $"~=" (">" :: ws ++ v)%char) with false.
    change (has_prefix $"==" (">" :: ws ++ v)%char) with false.
    change (has_prefix $"!=" (">" :: ws ++ v)%char) with false.
    change (has_prefix $"<=" (">" :: ws ++ v)%char) with false.
    change (has_prefix $"<" (">" :: ws ++ v)%char) with false.
    change (has_prefix $">" (">" :: ws ++ v)%char) with true. cbn [negb andb].
    destruct ws as [|w ws]; [exfalso; apply Hop; auto|]. cbn [app]. simpl in Hw.
    apply andb_true_iff in Hw as [_ Hw].
    unfold plain_variant. rewrite slice2, (parse_lead ws v ver), R1 by auto. unfold permitted.
    rewrite andb_false_r, andb_true_r. destruct (local ver); reflexivity.
Qed.

(** ** Lists of clauses *)
Definition seq_res {A} (a b : res (list A)) : res (list A) :=
  match a with
  | Ok x => match b with Ok y => Ok (x ++ y) | Err => Err | Panic => Panic end
  | Err => Err
  | Panic => Panic
  end.
Lemma parse_clauses_app a b : parse_clauses (a ++ b) = seq_res (parse_clauses a) (parse_clauses b).
Proof.
  induction a as [|s a IH]; cbn [app parse_clauses].
  - unfold seq_res. now destruct (parse_clauses b).
  - destruct (trim_space s); auto. destruct (parse_clause (a0 :: l)); auto. rewrite IH.
    unfold seq_res. destruct (parse_clauses a); auto. now destruct (parse_clauses b).
Qed.
Lemma parse_specifier_app a b :
  parse_specifier (a ++ $"," ++ b) = seq_res (parse_specifier a) (parse_specifier b).
Proof.
  unfold parse_specifier. cbn [app list_ascii_of_string].
  rewrite fields_func_app by apply byte_eqb_refl. apply parse_clauses_app.
Qed.
Lemma parse_specifier_empty : parse_specifier [] = Ok [].
Proof. reflexivity. Qed.
Lemma parse_specifier_conj a b ca cb : parse_specifier a = Ok ca -> parse_specifier b = Ok cb ->
  parse_specifier (a ++ $"," ++ b) = Ok (ca ++ cb).
Proof. intros Ha Hb. rewrite parse_specifier_app, Ha, Hb. reflexivity. Qed.

(** What the parser guarantees about its result. *)
Lemma clause_operator_cases s op t m d l : clause_operator s = Ok (op, t, m, d, l) ->
  (op = OpCompatible /\ m = 2%nat /\ d = true /\ l = false) \/
  ((op = OpStrictMatch \/ op = OpStrictExclude) /\ m = 1%nat /\ d = true /\ l = true) \/
  ((op = OpPrefixMatch \/ op = OpPrefixExclude) /\ m = 1%nat /\ d = false /\ l = false) \/
  ((op = OpLE \/ op = OpGE \/ op = OpLT \/ op = OpGT) /\ m = 1%nat /\ d = true /\ l = false).
Proof.
  unfold clause_operator, plain_variant, eq_variant.
  repeat match goal with |- context [if ?b then _ else _] => destruct b end;
    destruct (slice_from 2 s); intros E; try discriminate; try (injection E as <- <- <- <- <-; tauto);
    destruct (has_suffix $".*" a); try discriminate; injection E as <- <- <- <- <-; tauto.
Qed.
Lemma parse_clause_ok s c : parse_clause s = Ok c ->
  permitted (c_op c) (c_ver c) = true /\ exists t, parse_version t = Some (c_ver c).
Proof.
  unfold parse_clause. destruct (clause_operator (trim_space s)) as [[[[[op t] m] d] l]| |] eqn:E;
    try discriminate.
  destruct (parse_version t) as [v|] eqn:V; [|discriminate].
  destruct (length (release (pub v)) <? m)%nat eqn:E1; [discriminate|].
  destruct (is_some (dev (pub v)) && negb d) eqn:E2; [discriminate|].
  destruct ((0 <? length (local v))%nat && negb l) eqn:E3; [discriminate|].
  intros H. injection H as <-. cbn [c_op c_ver]. split; [|eauto].
  apply clause_operator_cases in E as [(-> & -> & -> & ->)|[([->| ->] & -> & -> & ->)|
    [([->| ->] & -> & -> & ->)|([->|[->|[->| ->]]] & -> & -> & ->)]]]; unfold permitted; auto;
    rewrite ?andb_false_r, ?andb_true_r in *.
  - rewrite Nat.ltb_antisym in E1. apply negb_false_iff in E1. rewrite E1. now destruct (local v).
  - destruct (dev (pub v)); [discriminate|]. now destruct (local v).
  - destruct (dev (pub v)); [discriminate|]. now destruct (local v).
  - now destruct (local v).
  - now destruct (local v).
  - now destruct (local v).
  - now destruct (local v).
Qed.
Lemma parse_clauses_ok l cs : parse_clauses l = Ok cs ->
  Forall (fun c => permitted (c_op c) (c_ver c) = true /\ exists t, parse_version t = Some (c_ver c)) cs.
Proof.
  revert cs. induction l as [|s l IH]; cbn [parse_clauses]; intros cs H.
  - injection H as <-. constructor.
  - destruct (trim_space s); auto. destruct (parse_clause (a :: l0)) eqn:E; try discriminate.
    destruct (parse_clauses l); try discriminate. injection H as <-. constructor; auto.
    eapply parse_clause_ok; eauto.
Qed.
Theorem parse_specifier_ok s cs : parse_specifier s = Ok cs -> forall c, In c cs ->
  permitted (c_op c) (c_ver c) = true /\ exists t, parse_version t = Some (c_ver c).
Proof. intros H. apply Forall_forall. eapply parse_clauses_ok; eauto. Qed.

(** ** Printing *)
Definition not_minus (c : ascii) : bool := negb (byte_eqb c "-"%char).
Definition solid (c : ascii) : bool := negb (is_space c) && not_minus c.
Lemma solid_trim s : forallb solid s = true -> trim_space s = s.
Proof.
  intros H. assert (T : forall t, forallb solid t = true -> trim_left is_space t = t).
  { intros [|x t]; auto. simpl. rewrite andb_true_iff. intros [Hx _]. unfold solid in Hx.
    apply andb_true_iff in Hx as [Hx _]. apply negb_true_iff in Hx. now rewrite Hx. }
  unfold trim_space, trim_right. rewrite (T s H), T; [apply rev_involutive|].
  rewrite forallb_forall in *. intros x Hx. apply H. now apply in_rev.
Qed.
Lemma digit_solid : forall c, is_digit c = true -> solid c = true.
Proof. chars. Qed.
Lemma alnum_solid : forall c, lower_alnum c = true -> solid c = true.
Proof. chars. Qed.
Lemma itoa_solid z : (0 <= z)%Z -> forallb solid (itoa z) = true.
Proof.
  intros H. apply itoa_digits, all_digits_spec in H as [_ H]. eapply forallb_impl; [apply digit_solid|auto].
Qed.
Lemma join_solid sep l : forallb solid sep = true -> Forall (fun s => forallb solid s = true) l ->
  forallb solid (join sep l) = true.
Proof.
  intros Hs. induction 1 as [|x l Hx Hl IH]; auto. destruct l as [|y l]; auto.
  change (join sep (x :: y :: l)) with (x ++ sep ++ join sep (y :: l)).
  rewrite !forallb_app, Hx, Hs, IH. reflexivity.
Qed.
Lemma canonical_solid v : canonical v -> forallb solid (version_string v) = true.
Proof.
  intros (R & Hl & Hs). destruct R as (R1 & R2 & R3 & R4 & R5 & R6).
  unfold version_string, public_string. rewrite !forallb_app, !andb_true_iff.
  assert (I : forall z, int64_ok z -> forallb solid (itoa z) = true) by (intros z [Hz _]; now apply itoa_solid).
  split; [split; [|split; [|split; [|split]]]|].
  - destruct (0 <? epoch (pub v))%Z; auto. now rewrite forallb_app, I.
  - apply join_solid; auto. apply Forall_map. eapply Forall_impl; eauto.
  - destruct (pre (pub v)) as [[l n]|]; auto. rewrite forallb_app, I by (eapply R4; eauto).
    destruct (Hl l n eq_refl) as [->|[->| ->]]; reflexivity.
  - destruct (post (pub v)) as [n|]; auto. now rewrite forallb_app, I by (eapply R5; eauto).
  - destruct (dev (pub v)) as [n|]; auto. now rewrite forallb_app, I by (eapply R6; eauto).
  - assert (G : forall sep, forallb solid sep = true -> forallb solid (local_string sep (local v)) = true).
    { clear -Hs. induction Hs as [|s l H Hs IH]; intros sep Hsep; auto. cbn [local_string].
      rewrite !forallb_app, Hsep, IH by reflexivity. rewrite andb_true_r. simpl.
      destruct s as [i|s]; simpl in *.
      - apply itoa_solid, H.
      - destruct H as (_ & H & _). eapply forallb_impl; [apply alnum_solid|auto]. }
    now apply G.
Qed.

Lemma parse_clause_string c : canonical (c_ver c) -> permitted (c_op c) (c_ver c) = true ->
  printable_op (c_op c) -> parse_specifier (clause_string c) = Ok [c].
Proof.
  intros Hc Hp Ho. destruct c as [op v]. cbn [c_op c_ver] in *.
  assert (E : clause_string {| c_op := op; c_ver := v |} = clause_text op [] (version_string v)).
  { unfold clause_string, clause_text. destruct op; cbn [c_op c_ver op_string operator_text app]; try easy;
      now rewrite app_nil_r. }
  rewrite E, (parse_clause_text op [] (version_string v) v); auto.
  - now rewrite Hp.
  - apply solid_trim, canonical_solid, Hc.
  - now apply parse_string.
  - intros [->| ->]; contradiction.
Qed.
Theorem parse_specifier_string cs :
  Forall (fun c => canonical (c_ver c) /\ permitted (c_op c) (c_ver c) = true /\ printable_op (c_op c)) cs ->
  parse_specifier (specifier_string cs) = Ok cs.
Proof.
  unfold specifier_string. induction 1 as [|c cs (H1 & H2 & H3) F IH]; auto.
  destruct cs as [|d cs]; [now apply parse_clause_string|].
  change (join $"," (map clause_string (c :: d :: cs)))
    with (clause_string c ++ $"," ++ join $"," (map clause_string (d :: cs))).
  now rewrite (parse_specifier_conj _ _ [c] (d :: cs)) by (auto; now apply parse_clause_string).
Qed.
Theorem parse_string_parse s cs : parse_specifier s = Ok cs ->
  (forall c, In c cs -> printable_op (c_op c) /\ Forall nonneg_seg (local (c_ver c))) ->
  parse_specifier (specifier_string cs) = Ok cs.
Proof.
  intros H Hc. apply parse_specifier_string, Forall_forall. intros c Hin.
  destruct (parse_specifier_ok _ _ H c Hin) as (Hp & t & Ht), (Hc c Hin) as [Ho Hn].
  split; auto. apply parsed_canonical; auto. eapply parse_result; eauto.
Qed.
