(** Requires-Python specifiers. *)
From Coq Require Import String Ascii List Bool ZArith NArith Lia.
From Verif.Model Require Import GoStr Regex Pep440 Specifier Pep345.
From Verif.Spec Require Import Pep440Spec VersionGrammar SpecifierSpec.
From Verif.Proofs Require Import Order GoStrFacts RegexFacts Pep440Cmp Pep440Parse Pep440Sound
  SpecifierParse SpecifierMatch.
Import ListNotations.
Open Scope Z_scope.
Local Arguments Z.compare : simpl never.
Local Arguments N.ltb : simpl never.
Local Arguments N.pow : simpl never.
Local Arguments Z.pow : simpl never.

Lemma padcmp_hd a b : padcmp a b = lex (hd 0 a ?= hd 0 b) (padcmp (tl a) (tl b)).
Proof.
  destruct a as [|x a], b as [|y b]; cbn [padcmp hd tl]; auto.
Qed.
Lemma padcmp0_not_gt b : Forall (fun z => 0 <= z) b -> padcmp [] b <> Gt.
Proof.
  cbn [padcmp]. induction 1 as [|y b Hy Hb IH]; simpl; [discriminate|].
  destruct (Z.compare_spec 0 y); simpl; try congruence. lia.
Qed.
Lemma padcmp_nil_not_lt a : Forall (fun z => 0 <= z) a -> padcmp a [] <> Lt.
Proof.
  induction 1 as [|x a Hx Ha IH]; [discriminate|]. rewrite padcmp_hd. cbn [hd tl].
  destruct (Z.compare_spec x 0); simpl; try congruence. lia.
Qed.
Lemma Forall_tl {A} (P : A -> Prop) l : Forall P l -> Forall P (tl l).
Proof. destruct 1; simpl; auto. Qed.
Lemma lex_lt c d : lex c d = Lt <-> c = Lt \/ (c = Eq /\ d = Lt).
Proof. destruct c, d; simpl; intuition congruence. Qed.
Lemma lex_le c d : lex c d <> Gt <-> c = Lt \/ (c = Eq /\ d <> Gt).
Proof. destruct c, d; simpl; intuition congruence. Qed.
Lemma nth_hd_tl (l : list Z) i : nth (S i) l 0 = nth i (tl l) 0.
Proof. destruct l; [destruct i|]; reflexivity. Qed.
Lemma nth_0_hd (l : list Z) : nth 0 l 0 = hd 0 l.
Proof. destruct l; reflexivity. Qed.

(** The half-open range below the incremented last component. *)
Lemma range_prefix init x rv : Forall (fun z => 0 <= z) rv ->
  (forall i, (i < length (init ++ [x]))%nat -> nth i rv 0 = nth i (init ++ [x]) 0) <->
  padcmp (init ++ [x]) rv <> Gt /\ padcmp rv (init ++ [x + 1]) = Lt.
Proof.
  revert rv. induction init as [|a init IH]; intros rv Hr; rewrite !(padcmp_hd _ rv), !(padcmp_hd rv);
    cbn [app hd tl].
  - rewrite lex_le, lex_lt. rewrite !Z.compare_lt_iff, !Z.compare_eq_iff.
    pose proof (padcmp0_not_gt _ (Forall_tl _ _ Hr)). pose proof (padcmp_nil_not_lt _ (Forall_tl _ _ Hr)).
    split.
    + intros E. specialize (E 0%nat ltac:(simpl; lia)). rewrite nth_0_hd in E. cbn [nth] in E.
      split; [right; split; auto|left; lia].
    + intros [H1 H2] i Hi. simpl in Hi. assert (i = 0%nat) as -> by lia. rewrite nth_0_hd. cbn [nth].
      destruct H1 as [H1|[H1 _]], H2 as [H2|[H2 H2']]; try lia; contradiction.
  - rewrite lex_le, lex_lt. rewrite !Z.compare_lt_iff, !Z.compare_eq_iff.
    specialize (IH (tl rv) (Forall_tl _ _ Hr)). split.
    + intros E. pose proof (E 0%nat ltac:(simpl; lia)) as E0. rewrite nth_0_hd in E0. cbn [nth] in E0.
      assert (G : forall i, (i < length (init ++ [x]))%nat -> nth i (tl rv) 0 = nth i (init ++ [x]) 0).
      { intros i Hi. specialize (E (S i) ltac:(simpl; lia)). rewrite nth_hd_tl in E. exact E. }
      apply IH in G as [G1 G2]. split; right; auto.
    + intros [H1 H2]. assert (E0 : a = hd 0 rv) by lia.
      assert (G : padcmp (init ++ [x]) (tl rv) <> Gt /\ padcmp (tl rv) (init ++ [x + 1]) = Lt).
      { destruct H1 as [H1|[_ H1]], H2 as [H2|[_ H2]]; auto; lia. }
      rewrite <- IH in G. intros [|i] Hi; [rewrite nth_0_hd; auto|]. rewrite nth_hd_tl. cbn [nth].
      apply G. simpl in Hi. lia.
Qed.

Lemma plain_compare a b : plain a -> plain b ->
  Forall (fun z => 0 <= z) (release (pub a)) -> Forall (fun z => 0 <= z) (release (pub b)) ->
  public_compare (pub a) (pub b) =
  lex (epoch (pub a) ?= epoch (pub b)) (padcmp (release (pub a)) (release (pub b))).
Proof.
  intros (A1 & A2 & A3) (B1 & B2 & B3) Ha Hb. unfold public_compare.
  rewrite strip_padcmp by auto. unfold pre_key, post_key, dev_key. rewrite A1, A2, A3, B1, B2, B3.
  cbn [cmp_ext lex]. destruct (epoch (pub a) ?= epoch (pub b)); simpl; auto.
  now destruct (padcmp (release (pub a)) (release (pub b))).
Qed.
Lemma compare_lt_local a b : local b = [] ->
  (pep440_compare a b = Lt <-> public_compare (pub a) (pub b) = Lt).
Proof.
  intros E. unfold pep440_compare. rewrite E. destruct (public_compare (pub a) (pub b)); simpl; try tauto.
  destruct (local a); simpl; split; congruence.
Qed.

Lemma range_spec X v : ranged_version X -> ranged_version v -> plain X -> local X = [] -> plain v ->
  prefix_agrees X v <-> pep440_compare X v <> Gt /\ pep440_compare v (bump X) = Lt.
Proof.
  intros HX Hv PX LX Pv.
  rewrite compare_le_local by auto. rewrite compare_lt_local by reflexivity.
  destruct HX as [(_ & NX & RX & _) _], Hv as [(_ & _ & Rv & _) _].
  apply nonneg_int64 in RX, Rv.
  destruct (release (pub X)) as [|x0 r0] eqn:ER using rev_ind; [congruence|]. clear IHr0 NX.
  assert (EB : release (pub (bump X)) = r0 ++ [x0 + 1]).
  { unfold bump. cbn [pub release]. rewrite ER, removelast_last, last_last. reflexivity. }
  assert (PB : plain (bump X)) by (unfold plain, bump; auto).
  assert (RB : Forall (fun z => 0 <= z) (release (pub (bump X)))).
  { rewrite EB. apply Forall_app in RX as [R1 R2]. apply Forall_app. split; auto.
    inversion_clear R2. constructor; auto. lia. }
  rewrite (plain_compare X v) by (auto; now rewrite ER).
  rewrite (plain_compare v (bump X)) by auto. rewrite EB, ER.
  unfold prefix_agrees. destruct PX as (-> & -> & _). rewrite ER, range_prefix by auto.
  change (epoch (pub (bump X))) with (epoch (pub X)).
  rewrite lex_le, lex_lt, !Z.compare_lt_iff, !Z.compare_eq_iff. intuition lia.
Qed.

(** Bare X or ==X *)
Lemma is_some_false {A} (o : option A) : is_some o = false <-> o = None.
Proof. destruct o; simpl; intuition congruence. Qed.
Theorem pyeq_plain X v : ranged_version X -> ranged_version v -> plain X -> local X = [] ->
  match_pyeq X v = true <-> plain v /\ pep440_compare X v <> Gt /\ pep440_compare v (bump X) = Lt.
Proof.
  intros HX Hv PX LX. unfold match_pyeq, base_clause. rewrite LX. pose proof PX as (P1 & P2 & P3).
  rewrite P1, P2, P3. cbn [length is_some orb match_clause c_op c_ver].
  change (0 <? 0)%nat with false. cbn [orb]. cbv iota beta. cbn [c_op c_ver match_clause].
  assert (E : match_prefix X v = true <-> prefix_agrees X v) by (apply match_prefix_spec; now apply ranged_matchable).
  assert (Q : negb (is_some (dev (pub v))) && negb (is_some (post (pub v))) && negb (is_some (pre (pub v))) = true
              <-> plain v).
  { rewrite !andb_true_iff, !negb_true_iff, !is_some_false. unfold plain. tauto. }
  destruct (match_prefix X v); cbn [negb].
  - rewrite Q. split; [|tauto]. intros Pv. split; auto. apply range_spec; auto. now apply E.
  - split; [discriminate|]. intros [Pv R]. apply range_spec in R; auto. now apply E.
Qed.
(** The general case: X may carry pre and post parts. *)
Theorem pyeq_spec X v : ranged_version X -> ranged_version v -> dev (pub X) = None -> local X = [] ->
  match_pyeq X v = true <-> prefix_agrees X v /\ same_suffix X v.
Proof.
  intros HX Hv PX LX. unfold match_pyeq, base_clause. rewrite LX, PX. cbn [is_some].
  change (0 <? length (@nil intorstr))%nat with false. cbn [orb]. cbv iota. cbn [c_op c_ver match_clause].
  rewrite <- match_prefix_spec by now apply ranged_matchable. unfold same_suffix.
  destruct (match_prefix X v); cbn [negb]; [|intuition congruence].
  destruct (post (pub X)) as [po|], (pre (pub X)) as [p|]; cbn [is_some];
    rewrite ?andb_true_iff, ?negb_true_iff, ?is_some_false; intuition congruence.
Qed.

(** <X *)
Theorem pylt_spec X v : wf_version X -> wf_version v -> dev (pub X) = None -> local X = [] ->
  match_pyclause {| py_op := PyLT; py_ver := X |} v = true <->
  pep440_compare v X = Lt /\ ~ prefix_agrees X v.
Proof.
  intros HX Hv PX LX. unfold match_pyclause, base_clause. cbn [py_op py_ver]. rewrite LX, PX. cbn [is_some].
  change (0 <? length (@nil intorstr))%nat with false. cbn [orb]. cbv iota. cbn [c_op c_ver match_clause].
  rewrite <- match_prefix_spec by now apply wf_matchable.
  rewrite andb_true_iff, Z.ltb_lt, negb_true_iff, <- sign_neg, cmp_sign by auto.
  destruct (match_prefix X v); intuition congruence.
Qed.
Theorem pylt_no_prerelease X v : wf_version X -> wf_version v -> plain X -> local X = [] ->
  match_pyclause {| py_op := PyLT; py_ver := X |} v = true -> ~ same_base v X.
Proof.
  intros HX Hv (P1 & P2 & P3) LX H [B1 B2]. apply pylt_spec in H as [_ H]; auto. apply H.
  unfold prefix_agrees. rewrite P1, P2. split; auto.
Qed.

Theorem pycmp_spec X v : wf_version X -> wf_version v ->
  (match_pyclause {| py_op := PyLE; py_ver := X |} v = true <-> pep440_compare v X <> Gt) /\
  (match_pyclause {| py_op := PyGE; py_ver := X |} v = true <-> pep440_compare v X <> Lt) /\
  (match_pyclause {| py_op := PyGT; py_ver := X |} v = true <-> pep440_compare v X = Gt).
Proof.
  intros HX Hv. unfold match_pyclause. cbn [py_op py_ver]. rewrite <- cmp_sign by auto. unfold sign.
  rewrite !Z.leb_le, Z.ltb_lt.
  destruct (Z.compare_spec (cmp v X) 0); repeat split; intros; try congruence; try lia.
Qed.

(** ** Text *)
Lemma match_pyspecifier_app a b v :
  match_pyspecifier (a ++ b) v = match_pyspecifier a v && match_pyspecifier b v.
Proof.
  induction a as [|c a IH]; simpl; auto. destruct (match_pyclause c v); simpl; auto.
Qed.
Definition seq_opt {A} (a b : option (list A)) : option (list A) :=
  match a, b with Some x, Some y => Some (x ++ y) | _, _ => None end.
Lemma parse_pyclauses_app a b :
  parse_pyclauses (a ++ b) = seq_opt (parse_pyclauses a) (parse_pyclauses b).
Proof.
  induction a as [|s a IH]; cbn [app parse_pyclauses].
  - simpl. now destruct (parse_pyclauses b).
  - destruct (parse_pyclause s); auto. rewrite IH. unfold seq_opt.
    destruct (parse_pyclauses a), (parse_pyclauses b); auto.
Qed.
Theorem required_conj v a b :
  have_required_python v (a ++ $"," ++ b) =
  match have_required_python v a, have_required_python v b with
  | Some x, Some y => Some (x && y)
  | _, _ => None
  end.
Proof.
  unfold have_required_python, parse_pyspecifier. cbn [app list_ascii_of_string].
  rewrite fields_func_app by apply byte_eqb_refl. rewrite parse_pyclauses_app.
  destruct (parse_pyclauses (fields_func _ a)), (parse_pyclauses (fields_func _ b)); simpl; auto.
  now rewrite match_pyspecifier_app.
Qed.
Lemma required_single p s : head_not is_space p -> p <> [] -> trim_right is_space p = p ->
  forallb (fun c => negb (byte_eqb c ",")) p = true ->
  forallb (fun c => negb (byte_eqb c ",")) s = true ->
  forall v, have_required_python v (p ++ s) =
  let '(op, t) := pyclause_operator (p ++ trim_right is_space s) in
  match parse_version t with
  | None => None
  | Some X => Some (match_pyclause {| py_op := op; py_ver := X |} v)
  end.
Proof.
  intros H1 H2 H3 H4 H5 v. unfold have_required_python, parse_pyspecifier.
  rewrite fields_func_one; [|destruct p; [congruence|discriminate]|now rewrite forallb_app, H4, H5].
  cbn [parse_pyclauses]. unfold parse_pyclause. rewrite trim_space_prefix by auto.
  destruct (pyclause_operator (p ++ trim_right is_space s)) as [op t].
  destruct (parse_version t); auto. cbn [match_pyspecifier]. now destruct (match_pyclause _ v).
Qed.
Theorem required_ne v s : forallb (fun c => negb (byte_eqb c ",")) s = true ->
  have_required_python v ($"!=" ++ s) = option_map negb (have_required_python v ($"==" ++ s)).
Proof.
  intros H. rewrite !required_single by (try exact I; try reflexivity; auto; discriminate).
  set (t := trim_right is_space s).
  change (pyclause_operator ($"!=" ++ t)) with (PyNE, t).
  change (pyclause_operator ($"==" ++ t)) with (PyEQ, t). cbv iota beta.
  now destruct (parse_version t).
Qed.

(** A single clause in all its spellings. *)
Theorem required_clause op ws s X v : forallb blank ws = true -> trimmed s -> parse_version s = Some X ->
  have_required_python v (py_text op ++ ws ++ s) = Some (match_pyclause {| py_op := op; py_ver := X |} v).
Proof.
  intros Hw Ht Hp.
  assert (Bs := parse_bytes s X Hp).
  assert (Bw : forallb version_byte ws = true) by (eapply forallb_impl; [apply blank_vb|auto]).
  assert (B : forallb version_byte (ws ++ s) = true) by now rewrite forallb_app, Bw, Bs.
  assert (Hne : s <> []) by (intros ->; vm_compute in Hp; discriminate).
  rewrite required_single by (try (destruct op; try exact I; try reflexivity; discriminate); now apply vb_no_comma).
  rewrite trim_right_app by (rewrite (trimmed_right s Ht); auto). rewrite (trimmed_right s Ht).
  assert (N1 := head_not_eq _ B). assert (P := parse_lead ws s X Hw Hp).
  assert (E : pyclause_operator (py_text op ++ ws ++ s) = (op, ws ++ s)).
  { unfold pyclause_operator. destruct op; cbn [py_text].
    - change ($"<" ++ ws ++ s) with ("<" :: ws ++ s)%char. rewrite (head_eq_prefix "<"%char) by auto. reflexivity.
    - change ($">" ++ ws ++ s) with (">" :: ws ++ s)%char. rewrite (head_eq_prefix ">"%char) by auto. reflexivity.
    - reflexivity.
    - reflexivity.
    - reflexivity.
    - reflexivity. }
  rewrite E. cbv iota beta. now rewrite P.
Qed.
Lemma vb_no_op : forall c, version_byte c = true ->
  (byte_eqb "<" c || byte_eqb ">" c || byte_eqb "=" c)%char = false.
Proof. chars. Qed.
Lemma blank_is_space : forall c, blank c = true -> is_space c = true.
Proof. chars. Qed.
Lemma version_head s X : parse_version s = Some X -> trimmed s ->
  exists c t, s = c :: t /\ (lower c = "v"%char \/ is_digit c = true).
Proof.
  intros H Ht. apply parse_sound in H as (x & W & _ & _ & <- & _).
  destruct (tail2_digit x W) as (d & t & E & Hd). pose proof W as (W1 & W2 & _).
  assert (R : render x = g_lead x ++ g_v x ++ tail2 x).
  { unfold render, tail2, tail3, tail4, tail5, tail6, tail7, tail8. reflexivity. }
  destruct (g_lead x) as [|b l] eqn:L.
  - rewrite R, E. destruct W2 as [->|[->| ->]]; cbn [app list_ascii_of_string].
    + exists d, t. auto.
    + eexists _, _. split; [reflexivity|]. now left.
    + eexists _, _. split; [reflexivity|]. now left.
  - exfalso. cbn [forallb] in W1. apply andb_true_iff in W1 as [W1 _].
    assert (Sp : is_space b = true) by now apply blank_is_space.
    unfold trimmed, trim_space in Ht. rewrite R in Ht. cbn [app trim_left] in Ht. rewrite Sp in Ht.
    apply (f_equal (@length ascii)) in Ht. cbn [length] in Ht.
    assert (A : forall u, (length (trim_right is_space u) <= length u)%nat).
    { intros u. destruct (trim_right_prefix is_space u) as (p & Eu & _). rewrite Eu at 2.
      rewrite app_length. lia. }
    assert (A' : forall u, (length (trim_left is_space u) <= length u)%nat).
    { intros u. destruct (trim_left_suffix is_space u) as (p & Eu & _). rewrite Eu at 2.
      rewrite app_length. lia. }
    specialize (A (trim_left is_space (l ++ g_v x ++ tail2 x))). specialize (A' (l ++ g_v x ++ tail2 x)). lia.
Qed.
Lemma v_not_op : forall c, (lower c = "v"%char \/ is_digit c = true) ->
  (byte_eqb "<" c || byte_eqb ">" c || byte_eqb "=" c || byte_eqb "!" c)%char = false.
Proof. intros x; destruct x as [[] [] [] [] [] [] [] []]; vm_compute; auto; intros [?|?]; congruence. Qed.
Theorem required_bare s X v : trimmed s -> parse_version s = Some X ->
  have_required_python v s = have_required_python v ($"==" ++ s).
Proof.
  intros Ht Hp. change ($"==" ++ s) with (py_text PyEQ ++ [] ++ s). rewrite (required_clause PyEQ [] s X) by auto.
  unfold have_required_python, parse_pyspecifier.
  assert (Hne : s <> []) by (intros ->; vm_compute in Hp; discriminate).
  rewrite fields_func_one by (auto; now apply vb_no_comma, (parse_bytes s X)).
  cbn [parse_pyclauses]. unfold parse_pyclause. rewrite Ht.
  destruct (version_head s X Hp Ht) as (c & t & E & Hc). apply v_not_op in Hc.
  rewrite !orb_false_iff in Hc. destruct Hc as [[[C1 C2] C3] C4].
  assert (O : pyclause_operator s = (PyEQ, s)).
  { rewrite E. unfold pyclause_operator. cbn [has_prefix list_ascii_of_string]. now rewrite C1, C2, C3, C4. }
  rewrite O, Hp. cbn [match_pyspecifier]. now destruct (match_pyclause _ v).
Qed.

(** ** Forms used by the property file *)
Theorem required_ne_text v s : ~ In ","%char s ->
  have_required_python v ($"!=" ++ s) = option_map negb (have_required_python v ($"==" ++ s)).
Proof. intros H. now apply required_ne, no_comma_forallb. Qed.
Theorem required_range s X v b : trimmed s -> parse_version s = Some X -> plain X -> local X = [] ->
  ranged_version v -> plain v -> have_required_python v s = Some b ->
  (b = true <-> pep440_compare X v <> Gt /\ pep440_compare v (bump X) = Lt).
Proof.
  intros Ht Hp PX LX Hv Pv H. rewrite (required_bare s X v) in H by auto.
  change ($"==" ++ s) with (py_text PyEQ ++ [] ++ s) in H. rewrite (required_clause PyEQ [] s X) in H by auto.
  injection H as <-. unfold match_pyclause. cbn [py_op py_ver].
  rewrite pyeq_plain by (auto; eapply parsed_ranged; eauto). tauto.
Qed.
Theorem required_suffixed s X v : trimmed s -> parse_version s = Some X -> plain X -> local X = [] ->
  ranged_version v -> ~ plain v -> have_required_python v s = Some false.
Proof.
  intros Ht Hp PX LX Hv Pv. rewrite (required_bare s X v) by auto.
  change ($"==" ++ s) with (py_text PyEQ ++ [] ++ s). rewrite (required_clause PyEQ [] s X) by auto.
  f_equal. unfold match_pyclause. cbn [py_op py_ver].
  destruct (match_pyeq X v) eqn:E; auto. apply pyeq_plain in E; auto; [tauto|]. eapply parsed_ranged; eauto.
Qed.
Theorem required_lt s ws X v : forallb blank ws = true -> trimmed s -> parse_version s = Some X ->
  no_overflow X -> wf_version v -> dev (pub X) = None -> local X = [] ->
  exists b, have_required_python v ($"<" ++ ws ++ s) = Some b /\
  (b = true <-> pep440_compare v X = Lt /\ ~ prefix_agrees X v).
Proof.
  intros Hw Ht Hp Ho Hv D LX. change $"<" with (py_text PyLT).
  rewrite (required_clause PyLT ws s X) by auto. eexists. split; [reflexivity|].
  apply pylt_spec; auto. eapply parse_wf; eauto.
Qed.
Theorem required_lt_base s ws X v : forallb blank ws = true -> trimmed s -> parse_version s = Some X ->
  no_overflow X -> wf_version v -> plain X -> local X = [] ->
  have_required_python v ($"<" ++ ws ++ s) = Some true -> ~ same_base v X.
Proof.
  intros Hw Ht Hp Ho Hv D LX H. change $"<" with (py_text PyLT) in H.
  rewrite (required_clause PyLT ws s X) in H by auto. injection H as H.
  eapply pylt_no_prerelease; eauto. eapply parse_wf; eauto.
Qed.
Lemma range_not_exact : exists v, parse_version $"2.6.2.post1" = Some v /\
  have_required_python v $"2.6.2" = Some false /\
  have_required_python v $">=2.6.2,<2.6.3" = Some true.
Proof. exists (ver_of $"2.6.2.post1"). repeat split; vm_compute; reflexivity. Qed.
Lemma lt_local_prerelease : exists v, parse_version $"3.1rc1" = Some v /\
  have_required_python v $"<3.1" = Some false /\ have_required_python v $"<3.1+local" = Some true.
Proof. exists (ver_of $"3.1rc1"). repeat split; vm_compute; reflexivity. Qed.
