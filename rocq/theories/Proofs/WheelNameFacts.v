(** Compatibility tags, build tags and wheel file names. *)
From Coq Require Import String Ascii List Bool ZArith NArith Lia.
From Verif.Model Require Import GoStr Regex Pep440 WheelName.
From Verif.Spec Require Import Pep440Spec VersionGrammar WheelNameSpec.
From Verif.Proofs Require Import Order GoStrFacts RegexFacts Pep440Cmp Pep440Parse Pep440Sound SpecifierParse.
Import ListNotations.
Local Arguments Z.compare : simpl never.
Local Arguments N.ltb : simpl never.
Local Arguments N.pow : simpl never.
Local Arguments Z.pow : simpl never.
Local Arguments byte_eqb : simpl never.

(** ** Splitting *)
Lemma split_on_in_join c s x : In x (split_on c s) <->
  exists l1 l2, s = join [c] (l1 ++ x :: l2) /\ Forall (fun t => ~ In c t) (l1 ++ x :: l2).
Proof.
  split.
  - intros H. apply in_split in H as (l1 & l2 & E). exists l1, l2. rewrite <- E.
    split; [now rewrite join_split_on|apply split_on_no_sep].
  - intros (l1 & l2 & -> & F). rewrite split_on_join; auto; [|now destruct l1]. apply in_or_app. simpl. auto.
Qed.
Lemma join_app_cons c l1 x l2 : join [c] (l1 ++ x :: l2) =
  (match l1 with [] => [] | _ => join [c] l1 ++ [c] end) ++ x ++ (match l2 with [] => [] | _ => c :: join [c] l2 end).
Proof.
  induction l1 as [|y l1 IH]; simpl app.
  - destruct l2; simpl; auto using app_nil_r.
  - destruct l1 as [|z l1].
    + destruct l2; cbn [app join]; now rewrite <- ?app_assoc, ?app_nil_r.
    + change (join [c] (y :: (z :: l1) ++ x :: l2)) with (y ++ [c] ++ join [c] ((z :: l1) ++ x :: l2)).
      rewrite IH. change (join [c] (y :: z :: l1)) with (y ++ [c] ++ join [c] (z :: l1)).
      now rewrite <- !app_assoc.
Qed.
Lemma split_piece_by sep s x : In x (split_on sep s) <-> piece_by sep x s.
Proof.
  rewrite split_on_in_join. unfold piece_by. split.
  - intros (l1 & l2 & -> & F). rewrite join_app_cons.
    exists (match l1 with [] => [] | _ => join [sep] l1 ++ [sep] end).
    exists (match l2 with [] => [] | _ => sep :: join [sep] l2 end).
    split; [reflexivity|]. split; [|split].
    + apply Forall_app in F as [_ F]. now inversion F.
    + destruct l1; [now left|]. right. eauto.
    + destruct l2; [now left|]. right. eauto.
  - intros (b & a & -> & N & HB & HA).
    set (l1 := match b with [] => [] | _ => split_on sep (removelast b) end).
    set (l2 := match a with [] => [] | _ => split_on sep (tl a) end).
    exists l1, l2.
    assert (EB : match l1 with [] => [] | _ => join [sep] l1 ++ [sep] end = b).
    { destruct HB as [->|(b' & ->)]; auto. unfold l1. rewrite removelast_last.
      replace (match b' ++ [sep] with [] => [] | _ => split_on sep b' end) with (split_on sep b')
        by (destruct b'; auto).
      pose proof (join_split_on sep b') as J.
      destruct (split_on sep b') as [|h t] eqn:S; [now apply split_on_nonempty in S|]. now rewrite J. }
    assert (EA : match l2 with [] => [] | _ => sep :: join [sep] l2 end = a).
    { destruct HA as [->|(a' & ->)]; auto. unfold l2. cbn [tl].
      pose proof (join_split_on sep a') as J.
      destruct (split_on sep a') as [|h t] eqn:S; [now apply split_on_nonempty in S|]. now rewrite J. }
    split.
    + rewrite join_app_cons. rewrite EB, EA. reflexivity.
    + apply Forall_app. split; [unfold l1; destruct b; [constructor|apply split_on_no_sep]|].
      constructor; auto. unfold l2. destruct a; [constructor|apply split_on_no_sep].
Qed.

Lemma split_piece s x : In x (split_on "."%char s) <-> piece x s.
Proof. apply split_piece_by. Qed.

(** ** Tags *)
Lemma tag_eqb_eq a b : tag_eqb a b = true <-> a = b.
Proof.
  destruct a as [a1 a2 a3], b as [b1 b2 b3]. unfold tag_eqb. cbn [t_python t_abi t_platform].
  rewrite !andb_true_iff, !str_eqb_eq. split; [intros [[-> ->] ->]; auto|intros H; injection H; auto].
Qed.
Lemma decompress_spec t x : In x (decompress t) <-> expands t x.
Proof.
  unfold decompress, expands. rewrite in_flat_map. split.
  - intros (a & Ha & H). apply in_flat_map in H as (b & Hb & H). apply in_map_iff in H as (c & <- & Hc).
    cbn [t_python t_abi t_platform]. rewrite <- !split_piece. auto.
  - intros (Ha & Hb & Hc). exists (t_python x). split; [now apply split_piece|]. apply in_flat_map.
    exists (t_abi x). split; [now apply split_piece|]. apply in_map_iff. exists (t_platform x).
    split; [now destruct x|now apply split_piece].
Qed.
Lemma intersect_spec a b : intersect a b = true <-> exists x y, In x a /\ In y b /\ overlap x y.
Proof.
  unfold intersect, overlap. rewrite existsb_exists. split.
  - intros (x & Hx & H). apply existsb_exists in H as (x2 & Hx2 & H).
    apply existsb_exists in H as (y & Hy & H). apply existsb_exists in H as (y2 & Hy2 & H).
    apply tag_eqb_eq in H as <-. exists x, y. split; auto. split; auto. exists x2. now rewrite <- !decompress_spec.
  - intros (x & y & Hx & Hy & z & H1 & H2). exists x. split; auto. apply existsb_exists. exists z.
    split; [now apply decompress_spec|]. apply existsb_exists. exists y. split; auto. apply existsb_exists.
    exists z. split; [now apply decompress_spec|now apply tag_eqb_eq].
Qed.
Theorem supports_spec inst t : supports inst t = true <-> exists i, In i inst /\ overlap i t.
Proof.
  unfold supports. rewrite intersect_spec. split.
  - intros (x & y & Hx & Hy & H). destruct Hy as [<-|[]]. eauto.
  - intros (i & Hi & H). exists i, t. simpl. auto.
Qed.
Lemma intersect_one a t : intersect [a] [t] = true <-> overlap a t.
Proof. rewrite (intersect_spec [a] [t]). split.
  - intros (x & y & Hx & Hy & H). destruct Hx as [<-|[]], Hy as [<-|[]]. auto.
  - intros H. exists a, t. simpl. auto.
Qed.
Lemma preference_from_spec inst t i : exists k, preference_from i inst t = (i + k + 1)%nat /\ (k <= length inst)%nat /\
  (forall j x, (j < k)%nat -> nth_error inst j = Some x -> ~ overlap x t) /\
  (k = length inst \/ exists x, nth_error inst k = Some x /\ overlap x t).
Proof.
  revert i. induction inst as [|it inst IH]; intros i; cbn [preference_from length].
  - exists 0%nat. split; [lia|]. split; [lia|]. split; [intros; lia|]. now left.
  - destruct (intersect [it] [t]) eqn:E.
    + exists 0%nat. split; [lia|]. split; [lia|]. split; [intros; lia|]. right. exists it. split; auto. now apply intersect_one.
    + destruct (IH (S i)) as (k & E1 & E2 & E3 & E4). exists (S k). split; [lia|]. split; [lia|]. split.
      * intros [|j] x Hj; simpl; [|apply E3; lia]. intros [= <-] H. apply intersect_one in H. congruence.
      * destruct E4 as [->|E4]; auto.
Qed.
(** Preference is one more than the index of the first matching installer tag. *)
Theorem preference_spec inst t k : (k < length inst)%nat ->
  preference inst t = S k <->
  (exists x, nth_error inst k = Some x /\ overlap x t) /\
  (forall j x, (j < k)%nat -> nth_error inst j = Some x -> ~ overlap x t).
Proof.
  intros Hk. unfold preference. destruct (preference_from_spec inst t 0) as (k' & E1 & E2 & E3 & E4). rewrite E1.
  split.
  - intros H. assert (k' = k) as -> by lia. split; auto. destruct E4; [lia|auto].
  - intros [(x & Hx & Ox) H]. destruct (Nat.lt_trichotomy k k') as [L|[->|L]]; [|lia|].
    + exfalso. eapply E3; eauto.
    + destruct E4 as [->|(y & Hy & Oy)]; [lia|]. exfalso. eapply H; eauto.
Qed.
Theorem preference_range inst t : (1 <= preference inst t <= length inst + 1)%nat /\
  (preference inst t = (length inst + 1)%nat <-> supports inst t = false).
Proof.
  unfold preference. destruct (preference_from_spec inst t 0) as (k & E1 & E2 & E3 & E4). rewrite E1. split; [lia|].
  split.
  - intros H. assert (k = length inst) as -> by lia. apply not_true_iff_false. intros S.
    apply supports_spec in S as (i & Hi & Oi). apply In_nth_error in Hi as (j & Hj).
    apply (E3 j i); auto. apply nth_error_Some. congruence.
  - intros S. destruct E4 as [->|(x & Hx & Ox)]; [lia|]. exfalso.
    assert (supports inst t = true); [|congruence]. apply supports_spec. exists x. split; auto. eapply nth_error_In; eauto.
Qed.

(** Text form of tags *)
Theorem parse_tag_string t : ~ In "-"%char (t_python t) -> ~ In "-"%char (t_abi t) -> ~ In "-"%char (t_platform t) ->
  parse_tag (tag_string t) = Some t.
Proof.
  intros H1 H2 H3. unfold parse_tag, tag_string. change $"-" with ["-"%char].
  change (t_python t ++ ["-"%char] ++ t_abi t ++ ["-"%char] ++ t_platform t)
    with (t_python t ++ "-"%char :: (t_abi t ++ "-"%char :: t_platform t)).
  rewrite !split_on_app, split_on_none by auto. now destruct t.
Qed.
Lemma split_count c s : length (split_on c s) = S (count_byte c s).
Proof.
  unfold count_byte. induction s as [|x s IH]; simpl; auto. destruct (byte_eqb c x); simpl; [now rewrite IH|].
  destruct (split_on c s); simpl in *; auto; lia.
Qed.
Theorem parse_tag_rejects s : parse_tag s = None <-> count_byte "-"%char s <> 2%nat.
Proof.
  unfold parse_tag. pose proof (split_count "-"%char s) as E.
  destruct (split_on "-"%char s) as [|a [|b [|c [|d l]]]]; cbn [length] in E; split; intros; try congruence; try lia.
Qed.
Theorem tag_string_parse s t : parse_tag s = Some t -> tag_string t = s /\
  ~ In "-"%char (t_python t) /\ ~ In "-"%char (t_abi t) /\ ~ In "-"%char (t_platform t).
Proof.
  unfold parse_tag. intros H. pose proof (join_split_on "-"%char s) as J. pose proof (split_on_no_sep "-"%char s) as F.
  destruct (split_on "-"%char s) as [|a [|b [|c [|d l]]]]; try discriminate. injection H as <-.
  inversion F as [|? ? F1 F']; subst. inversion F' as [|? ? F2 F'']; subst. inversion F'' as [|? ? F3 _]; subst.
  split; auto.
Qed.

(** ** Build tags *)
Theorem build_cmp_sign a b : nonneg_build a -> nonneg_build b -> sign (build_cmp a b) = build_compare a b.
Proof.
  destruct a as [[i s]|], b as [[j t]|]; cbn [nonneg_build b_int]; intros Ha Hb; try reflexivity.
  unfold build_cmp, build_compare. cbn [b_int b_str].
  assert (W : wrap64 (i - j) = i - j).
  { unfold wrap64, wrap. change (64 - 1) with 63. rewrite Z.mod_small; [lia|]. 
    assert (2 ^ 64 = 2 * 2 ^ 63) by reflexivity. lia. }
  rewrite W. unfold sign, lex. destruct (Z.eqb_spec (i - j) 0) as [E|E]; cbn [negb].
  - assert (i = j) as -> by lia. rewrite Z.compare_refl. unfold str_ltb.
    destruct (str_compare s t) eqn:C; auto.
    + apply str_compare_eq in C as ->. destruct (str_compare t t) eqn:D; auto.
      exfalso. pose proof (ok_refl _ str_compare_ok t). congruence.
    + pose proof (ok_anti _ str_compare_ok s t) as Q. rewrite C in Q.
      destruct (str_compare t s); try discriminate; reflexivity.
  - destruct (Z.compare_spec i j); [lia| |].
    + apply Z.compare_lt_iff. lia.
    + apply Z.compare_gt_iff. lia.
Qed.
Lemma build_compare_ok : cmp_ok build_compare.
Proof.
  assert (E : forall a b, build_compare a b =
    cmp_ext (cmp_pair Z.compare str_compare)
      (match a with Some x => Fin (b_int x, b_str x) | None => NegInf end)
      (match b with Some x => Fin (b_int x, b_str x) | None => NegInf end)).
  { intros [a|] [b|]; reflexivity. }
  pose proof (cmp_map_ok (fun a : option buildtag => match a with Some x => Fin (b_int x, b_str x) | None => NegInf end)
    (cmp_ext (cmp_pair Z.compare str_compare))
    (cmp_ext_ok _ (cmp_pair_ok _ _ Z_compare_ok str_compare_ok))) as K.
  destruct K as [K1 K2 K3]. split; intros *; rewrite !E; [apply K1|apply K2|apply K3].
Qed.

(** ** File names *)
Lemma M_seq_inv a b s s' c c' : M (RSeq a b) s s' c c' -> exists s1 c1, M a s s1 c c1 /\ M b s1 s' c1 c'.
Proof. intros H. inversion H; subst. eauto. Qed.
Lemma M_class p s s' c c' : M (RChr p) s s' c c' -> exists x, s = x :: s' /\ p x = true /\ c' = c.
Proof. intros H. inversion H; subst. eauto. Qed.
Lemma M_star_class p s s' c c' : M (RStar (RChr p)) s s' c c' ->
  exists w, s = w ++ s' /\ forallb p w = true /\ c' = c.
Proof.
  intros H. remember (RStar (RChr p)) as r eqn:R. induction H; try discriminate.
  - exists []. auto.
  - injection R as ->. apply M_class in H as (x & -> & Hx & ->). destruct (IHM2 eq_refl) as (w & -> & Hw & ->).
    exists (x :: w). simpl. rewrite Hx. auto.
Qed.
Lemma M_plus_class p s s' c c' : M (RPlus (RChr p)) s s' c c' ->
  exists w, s = w ++ s' /\ w <> [] /\ forallb p w = true /\ c' = c.
Proof.
  intros H. apply M_seq_inv in H as (s1 & c1 & H1 & H2). apply M_class in H1 as (x & -> & Hx & ->).
  apply M_star_class in H2 as (w & -> & Hw & ->). exists (x :: w). simpl. rewrite Hx. repeat split; auto. discriminate.
Qed.
Lemma M_lit w s s' c c' : M (lit w) s s' c c' -> s = w ++ s' /\ c' = c.
Proof.
  unfold lit. revert s c. induction w as [|x w IH]; simpl; intros s c H; [inversion H; subst; auto|].
  apply M_seq_inv in H as (s1 & c1 & H1 & H2).
  apply M_class in H1 as (y & -> & Hy & ->). apply IH in H2 as [-> ->]. apply byte_eqb_eq in Hy as ->. auto.
Qed.
Lemma M_grp_inv n r s s' c c' : M (RGrp n r) s s' c c' ->
  exists c1, M r s s' c c1 /\ c' = (n, firstn (length s - length s') s) :: c1.
Proof. intros H. inversion H; subst. eauto. Qed.
Lemma M_opt_inv a s s' c c' : M (ROpt a) s s' c c' -> M a s s' c c' \/ (s' = s /\ c' = c).
Proof. intros H. inversion H as [| | |? ? ? ? ? ? H1|? ? ? ? ? ? H1| | |]; subst; auto. inversion H1; auto. Qed.
Lemma not_dash_spec w : forallb not_dash w = true <-> ~ In "-"%char w.
Proof.
  unfold not_dash. split.
  - intros H D. rewrite forallb_forall in H. specialize (H _ D). now rewrite byte_eqb_refl in H.
  - intros H. apply forallb_forall. intros x Hx. apply negb_true_iff, byte_eqb_neq. intros ->. auto.
Qed.
Lemma M_field n s s' c c' : M (r_field n) s s' c c' -> exists w, s = w ++ s' /\ field w /\ c' = (n, w) :: c.
Proof.
  intros H. apply M_grp_inv in H as (c1 & H & ->). apply M_plus_class in H as (w & -> & Hn & Hw & ->).
  exists w. rewrite firstn_consumed. repeat split; auto. now apply not_dash_spec.
Qed.

Definition build_caps (b : option (str * str)) (c : caps) : caps :=
  match b with
  | None => c
  | Some (n, []) => ("build_n"%string, n) :: c
  | Some (n, l) => ("build_l"%string, l) :: ("build_n"%string, n) :: c
  end.
Definition render_build (b : option (str * str)) : str :=
  match b with Some (n, l) => $"-" ++ n ++ l | None => [] end.
Lemma digits_no_dash n : forallb is_digit n = true -> ~ In "-"%char n.
Proof. intros H D. rewrite forallb_forall in H. now specialize (H _ D). Qed.
Lemma M_build s s' c c' : M r_build s s' c c' ->
  exists b, s = render_build b ++ s' /\ (forall x, b = Some x -> build_field x) /\ c' = build_caps b c.
Proof.
  intros H. apply M_opt_inv in H as [H|[-> ->]]; [|exists None; split; auto; split; [congruence|auto]].
  cbn [RSeqs] in H. apply M_seq_inv in H as (s1 & c1 & H1 & H). apply M_lit in H1 as [-> ->].
  apply M_seq_inv in H as (s2 & c2 & H1 & H). apply M_grp_inv in H1 as (c3 & H1 & ->).
  apply M_plus_class in H1 as (n & -> & Hn & Hd & ->). rewrite firstn_consumed in H.
  apply M_opt_inv in H as [H|[-> ->]].
  - apply M_grp_inv in H as (c3 & H & ->). apply M_seq_inv in H as (s3 & c4 & H1 & H).
    apply M_class in H1 as (x & -> & Hx & ->). apply M_star_class in H as (w & -> & Hw & ->).
    apply andb_true_iff in Hx as [Hx1 Hx2]. apply negb_true_iff in Hx2.
    exists (Some (n, x :: w)). split; [|split].
    + cbn [render_build]. now rewrite <- !app_assoc.
    + intros y [= <-]. repeat split; auto. apply not_dash_spec. cbn [snd forallb]. now rewrite Hx1.
    + cbn [build_caps]. change (x :: w ++ s') with ((x :: w) ++ s'). now rewrite firstn_consumed.
  - exists (Some (n, [])). split; [|split].
    + cbn [render_build]. now rewrite app_nil_r, <- !app_assoc.
    + intros y [= <-]. repeat split; auto.
    + reflexivity.
Qed.
Definition name_caps (p : fields) : caps :=
  ("platform"%string, n_platform p) :: ("abi"%string, n_abi p) :: ("python"%string, n_python p) ::
  build_caps (n_build p) [("version"%string, n_version p); ("distribution"%string, n_dist p)].
Lemma M_filename s c : M re_filename s [] [] c ->
  exists p, wf_fields p /\ s = render_fields p /\ c = name_caps p.
Proof.
  unfold re_filename. cbn [RSeqs]. intros H.
  apply M_seq_inv in H as (s1 & c1 & H1 & H). apply M_field in H1 as (d & -> & Fd & ->).
  apply M_seq_inv in H as (s2 & c2 & H1 & H). apply M_lit in H1 as [-> ->].
  apply M_seq_inv in H as (s3 & c3 & H1 & H). apply M_field in H1 as (v & -> & Fv & ->).
  apply M_seq_inv in H as (s4 & c4 & H1 & H). apply M_build in H1 as (b & -> & Fb & ->).
  apply M_seq_inv in H as (s5 & c5 & H1 & H). apply M_lit in H1 as [-> ->].
  apply M_seq_inv in H as (s6 & c6 & H1 & H). apply M_field in H1 as (py & -> & Fpy & ->).
  apply M_seq_inv in H as (s7 & c7 & H1 & H). apply M_lit in H1 as [-> ->].
  apply M_seq_inv in H as (s8 & c8 & H1 & H). apply M_field in H1 as (ab & -> & Fab & ->).
  apply M_seq_inv in H as (s9 & c9 & H1 & H). apply M_lit in H1 as [-> ->].
  apply M_seq_inv in H as (s10 & c10 & H1 & H). apply M_field in H1 as (pl & -> & Fpl & ->).
  apply M_lit in H as [-> ->].
  exists (mkFields d v b py ab pl). split; [|split].
  - repeat split; try apply Fd; try apply Fv; try apply Fpy; try apply Fab; try apply Fpl; auto; now apply Fb.
  - unfold render_fields. cbn [n_dist n_version n_build n_python n_abi n_platform]. now rewrite app_nil_r.
  - reflexivity.
Qed.

(** Conversely every rendering of fields matches. *)
Lemma M_star_class_intro p w s c : forallb p w = true -> M (RStar (RChr p)) (w ++ s) s c c.
Proof.
  induction w as [|x w IH]; simpl; intros H; [constructor|]. apply andb_true_iff in H as [H1 H2].
  eapply M_star1; [now constructor| |auto]. simpl. lia.
Qed.
Lemma M_plus_class_intro p w s c : w <> [] -> forallb p w = true -> M (RPlus (RChr p)) (w ++ s) s c c.
Proof.
  destruct w as [|x w]; [congruence|]. simpl. intros _ H. apply andb_true_iff in H as [H1 H2].
  eapply M_seq; [now constructor|]. now apply M_star_class_intro.
Qed.
Lemma M_lit_intro w s c : M (lit w) (w ++ s) s c c.
Proof.
  unfold lit. induction w as [|x w IH]; simpl; [constructor|]. eapply M_seq; [|exact IH].
  constructor. apply byte_eqb_refl.
Qed.
Lemma M_grp_intro n r w s c c1 : M r (w ++ s) s c c1 -> M (RGrp n r) (w ++ s) s c ((n, w) :: c1).
Proof. intros H. apply (M_grp n) in H. now rewrite firstn_consumed in H. Qed.
Lemma M_field_intro n w s c : field w -> M (r_field n) (w ++ s) s c ((n, w) :: c).
Proof. intros [H1 H2]. apply M_grp_intro, M_plus_class_intro; auto. now apply not_dash_spec. Qed.
Lemma M_build_intro b s c : (forall x, b = Some x -> build_field x) ->
  M r_build (render_build b ++ s) s c (build_caps b c).
Proof.
  unfold r_build. cbn [RSeqs]. destruct b as [[n l]|]; intros H; [|apply M_altr; constructor].
  destruct (H _ eq_refl) as (H1 & H2 & H3 & H4). cbn [fst snd] in *.
  apply M_altl. cbn [render_build]. rewrite <- !app_assoc. eapply M_seq; [apply M_lit_intro|].
  eapply M_seq; [apply M_grp_intro, M_plus_class_intro; auto|].
  destruct l as [|x l]; [apply M_altr; constructor|]. apply M_altl. cbn [build_caps].
  apply (M_grp_intro "build_l" _ (x :: l)). eapply M_seq.
  - cbn [app]. constructor. rewrite H4. apply not_dash_spec in H3. cbn [forallb] in H3.
    apply andb_true_iff in H3 as [-> _]. reflexivity.
  - apply M_star_class_intro. apply not_dash_spec in H3. cbn [forallb] in H3. now apply andb_true_iff in H3 as [_ ?].
Qed.
Lemma M_filename_intro p : wf_fields p -> M re_filename (render_fields p) [] [] (name_caps p).
Proof.
  intros (Fd & Fv & Fb & Fpy & Fab & Fpl). unfold re_filename, render_fields. cbn [RSeqs].
  eapply M_seq; [now apply M_field_intro|]. eapply M_seq; [apply M_lit_intro|].
  eapply M_seq; [now apply M_field_intro|].
  eapply M_seq; [apply (M_build_intro (n_build p)); auto|]. eapply M_seq; [apply M_lit_intro|].
  eapply M_seq; [now apply M_field_intro|]. eapply M_seq; [apply M_lit_intro|].
  eapply M_seq; [now apply M_field_intro|]. eapply M_seq; [apply M_lit_intro|].
  eapply M_seq; [now apply M_field_intro|].
  exact (M_lit_intro $".whl" [] _).
Qed.

(** The fields are determined by the text. *)
Definition dash_fields (p : fields) : list str :=
  [n_dist p; n_version p] ++ (match n_build p with Some (n, l) => [n ++ l] | None => [] end)
  ++ [n_python p; n_abi p; n_platform p ++ $".whl"].
Lemma dash_fields_text p : render_fields p = join $"-" (dash_fields p).
Proof.
  unfold render_fields, dash_fields. destruct (n_build p) as [[n l]|]; cbn [app join]; now rewrite <- ?app_assoc.
Qed.
Lemma dash_fields_free p : wf_fields p -> Forall (fun s => ~ In "-"%char s) (dash_fields p).
Proof.
  intros ((_ & Fd) & (_ & Fv) & Fb & (_ & Fpy) & (_ & Fab) & (_ & Fpl)).
  assert (G : ~ In "-"%char (n_platform p ++ $".whl")).
  { intros H. apply in_app_or in H as [H|H]; auto. vm_compute in H. repeat destruct H as [H|H]; congruence. }
  unfold dash_fields. destruct (n_build p) as [[n l]|] eqn:B; cbn [app]; repeat constructor; auto.
  destruct (Fb _ eq_refl) as (_ & H1 & H2 & _). cbn [fst snd] in *. intros H. apply in_app_or in H as [H|H]; auto.
  revert H. now apply digits_no_dash.
Qed.
Lemma digits_prefix_unique n l n' l' : forallb is_digit n = true -> forallb is_digit n' = true ->
  match l with c :: _ => is_digit c = false | [] => True end ->
  match l' with c :: _ => is_digit c = false | [] => True end ->
  n ++ l = n' ++ l' -> n = n' /\ l = l'.
Proof.
  revert n'. induction n as [|x n IH]; intros [|x' n'] H1 H2 H3 H4 E; simpl in *.
  - auto.
  - subst l. apply andb_true_iff in H2 as [H2 _]. congruence.
  - subst l'. apply andb_true_iff in H1 as [H1 _]. congruence.
  - injection E as -> E. apply andb_true_iff in H1 as [_ H1], H2 as [_ H2]. destruct (IH n' H1 H2 H3 H4 E) as [-> ->]. auto.
Qed.
Lemma render_fields_inj p q : wf_fields p -> wf_fields q -> render_fields p = render_fields q -> p = q.
Proof.
  intros Hp Hq E. rewrite !dash_fields_text in E.
  assert (D : dash_fields p = dash_fields q).
  { rewrite <- (split_on_join "-"%char (dash_fields p)); [|discriminate|now apply dash_fields_free].
    rewrite <- (split_on_join "-"%char (dash_fields q)); [|discriminate|now apply dash_fields_free].
    now change ["-"%char] with $"-"; rewrite E. }
  destruct p as [d v b py ab pl], q as [d' v' b' py' ab' pl']. unfold dash_fields in D.
  cbn [n_dist n_version n_build n_python n_abi n_platform] in D.
  destruct Hp as (_ & _ & Bp & _), Hq as (_ & _ & Bq & _). cbn [n_build] in *.
  destruct b as [[n l]|], b' as [[n' l']|]; cbn [app] in D; try discriminate.
  - injection D as -> -> E3 -> -> E6. apply app_inv_tail in E6 as ->.
    destruct (Bp _ eq_refl) as (_ & P1 & _ & P2), (Bq _ eq_refl) as (_ & Q1 & _ & Q2). cbn [fst snd] in *.
    destruct (digits_prefix_unique n l n' l') as [-> ->]; auto.
  - injection D as -> -> -> -> E6. apply app_inv_tail in E6 as ->. auto.
Qed.
Lemma match_filename p : wf_fields p -> full_match re_filename (render_fields p) = Some (name_caps p).
Proof.
  intros H. destruct (full_match re_filename (render_fields p)) as [c|] eqn:E.
  - unfold full_match in E. apply run_sound in E as (s' & c' & HM & Hk). destruct s'; [|discriminate]. injection Hk as ->.
    apply M_filename in HM as (q & Hq & E & ->). apply render_fields_inj in E as ->; auto.
  - exfalso. revert E. unfold full_match. eapply run_complete; [now apply M_filename_intro|]. discriminate.
Qed.
Lemma match_filename_inv s c : full_match re_filename s = Some c ->
  exists p, wf_fields p /\ s = render_fields p /\ c = name_caps p.
Proof.
  unfold full_match. intros E. apply run_sound in E as (s' & c' & HM & Hk). destruct s'; [|discriminate]. injection Hk as ->.
  now apply M_filename.
Qed.
Lemma name_groups p : wf_fields p ->
  group (name_caps p) "distribution" = n_dist p /\ group (name_caps p) "version" = n_version p /\
  group (name_caps p) "python" = n_python p /\ group (name_caps p) "abi" = n_abi p /\
  group (name_caps p) "platform" = n_platform p /\
  group (name_caps p) "build_n" = match n_build p with Some (n, _) => n | None => [] end /\
  group (name_caps p) "build_l" = match n_build p with Some (_, l) => l | None => [] end.
Proof. intros _. unfold name_caps. destruct (n_build p) as [[n [|x l]]|]; repeat split. Qed.
Lemma atoi_saturating_digits n : n <> [] -> forallb is_digit n = true ->
  atoi_saturating n = Z.min (Z.of_N (dec_val n)) (2 ^ 63 - 1).
Proof.
  intros H1 H2. unfold atoi_saturating. rewrite atoi_number by (split; auto). unfold num_value, max_int64.
  destruct (N.ltb_spec (dec_val n) (2 ^ 63)) as [L|L].
  - assert (Z.of_N (dec_val n) < 2 ^ 63) by (change (2 ^ 63) with (Z.of_N (2 ^ 63)); lia). lia.
  - assert (2 ^ 63 <= Z.of_N (dec_val n)) by (change (2 ^ 63) with (Z.of_N (2 ^ 63)); lia). lia.
Qed.
Theorem parse_filename_render p v : wf_fields p -> parse_version (n_version p) = Some v ->
  parse_filename (render_fields p) = Some (fields_data p v).
Proof.
  intros H Hv. unfold parse_filename. rewrite match_filename by auto.
  destruct (name_groups p H) as (-> & -> & -> & -> & -> & -> & ->). rewrite Hv. f_equal. unfold fields_data. f_equal.
  destruct H as (_ & _ & B & _). destruct (n_build p) as [[n l]|]; [|reflexivity].
  destruct (B _ eq_refl) as (B1 & B2 & _). cbn [fst] in *. destruct n as [|x n]; [congruence|].
  change (str_eqb (x :: n) []) with false. cbn iota. now rewrite atoi_saturating_digits.
Qed.
Theorem parse_filename_sound s d : parse_filename s = Some d ->
  exists p v, wf_fields p /\ s = render_fields p /\ parse_version (n_version p) = Some v /\ d = fields_data p v.
Proof.
  intros H. pose proof H as H0. unfold parse_filename in H. destruct (full_match re_filename s) as [c|] eqn:E; [|discriminate].
  apply match_filename_inv in E as (p & Hp & -> & ->). 
  destruct (name_groups p Hp) as (_ & G & _). rewrite G in H.
  destruct (parse_version (n_version p)) as [v|] eqn:Hv; [|discriminate].
  exists p, v. rewrite (parse_filename_render p v) in H0 by auto. injection H0 as <-. auto.
Qed.

(** ** GenerateFilename *)
Lemma contains_byte_spec c s : contains_byte c s = true <-> In c s.
Proof.
  unfold contains_byte. rewrite existsb_exists. split.
  - intros (x & H & E). apply byte_eqb_eq in E as ->. auto.
  - intros H. exists c. split; auto. apply byte_eqb_refl.
Qed.
Lemma count_byte_app c a b : count_byte c (a ++ b) = (count_byte c a + count_byte c b)%nat.
Proof. unfold count_byte. now rewrite filter_app, app_length. Qed.
Lemma count_byte_zero c s : ~ In c s <-> count_byte c s = 0%nat.
Proof.
  unfold count_byte. induction s as [|x s IH]; simpl; [tauto|]. destruct (byte_eqb c x) eqn:E.
  - apply byte_eqb_eq in E as ->. simpl. split; [tauto|discriminate].
  - apply byte_eqb_neq in E. rewrite <- IH. intuition congruence.
Qed.
Lemma tag_string_count t : count_byte "-"%char (tag_string t) = 2%nat <->
  ~ In "-"%char (t_python t) /\ ~ In "-"%char (t_abi t) /\ ~ In "-"%char (t_platform t).
Proof.
  unfold tag_string. rewrite !count_byte_app, !count_byte_zero. change (count_byte "-"%char $"-") with 1%nat. lia.
Qed.
Lemma replace_runs_from_free b rep s : ~ In "-"%char rep -> ~ In "-"%char (replace_runs_from b rep s).
Proof.
  intros Hr. revert b. induction s as [|x s IH]; intros b; cbn [replace_runs_from]; [auto|].
  destruct (in_set $"-_." x) eqn:E.
  - intros H. apply in_app_or in H as [H|H]; [|now apply IH in H]. destruct b; auto.
  - intros [->|H]; [discriminate|now apply IH in H].
Qed.
Lemma replace_runs_nonempty s : s <> [] -> replace_runs $"_" s <> [].
Proof. destruct s as [|x s]; [congruence|]. intros _. unfold replace_runs. cbn [replace_runs_from]. destruct (in_set _ x); discriminate. Qed.
Lemma solid_no_dash s : forallb solid s = true -> ~ In "-"%char s.
Proof. intros H D. rewrite forallb_forall in H. now specialize (H _ D). Qed.
Theorem generate_parse d : wf_name d ->
  exists s, generate_filename d = Some s /\
  parse_filename s = Some {| f_dist := replace_runs $"_" (f_dist d); f_version := f_version d;
                             f_build := f_build d; f_tag := f_tag d |}.
Proof.
  intros (Hd & Hv & Hb & Ht1 & Ht2 & Ht3). unfold generate_filename, normalize_version. rewrite parse_string by auto.
  pose proof (solid_no_dash _ (canonical_solid _ Hv)) as Dv.
  assert (Nv : version_string (f_version d) <> []).
  { intros E. pose proof (parse_string _ Hv) as P. rewrite E in P. vm_compute in P. discriminate. }
  assert (C2 : count_byte "-"%char (tag_string (f_tag d)) = 2%nat).
  { apply tag_string_count. split; [apply Ht1|split; [apply Ht2|apply Ht3]]. }
  assert (D : field (replace_runs $"_" (f_dist d))).
  { split; [now apply replace_runs_nonempty|]. apply replace_runs_from_free. intros H. vm_compute in H. intuition congruence. }
  set (b := match f_build d with Some t => Some (itoa (b_int t), b_str t) | None => None end).
  set (p := mkFields (replace_runs $"_" (f_dist d)) (version_string (f_version d)) b
              (t_python (f_tag d)) (t_abi (f_tag d)) (t_platform (f_tag d))).
  assert (Wp : wf_fields p).
  { split; [exact D|]. split; [now split|]. split; [|split; [|split]; assumption].
    cbn [n_build p]. unfold b. destruct (f_build d) as [t|]; [|congruence]. intros x [= <-].
    destruct (Hb _ eq_refl) as (B1 & B2 & B3). unfold build_field. cbn [fst snd].
    pose proof (itoa_digits (b_int t) ltac:(lia)) as Di. apply all_digits_spec in Di as [Di1 Di2]. auto. }
  assert (Dp : fields_data p (f_version d) = {| f_dist := replace_runs $"_" (f_dist d); f_version := f_version d;
                             f_build := f_build d; f_tag := f_tag d |}).
  { unfold fields_data, p. cbn [n_dist n_version n_build n_python n_abi n_platform]. f_equal; [|now destruct (f_tag d)].
    unfold b. destruct (f_build d) as [[i l]|]; auto. cbn [b_int b_str]. f_equal. f_equal.
    destruct (Hb _ eq_refl) as (B1 & _). cbn [b_int] in B1.
    rewrite itoa_nonneg by lia. destruct (dec_spec (Z.to_N i)) as (_ & _ & ->). rewrite Z2N.id by lia. lia. }
  exists (render_fields p). split; [|rewrite <- Dp; apply parse_filename_render; auto; now apply parse_string].
  rewrite C2. cbn [Nat.eqb negb]. 
  unfold render_fields, p, b, tag_string. cbn [n_dist n_version n_build n_python n_abi n_platform].
  destruct (f_build d) as [t|].
  - destruct (Hb _ eq_refl) as (B1 & B2 & B3).
    assert (contains_byte "-" (build_string t) = false) as ->.
    { apply not_true_iff_false. rewrite contains_byte_spec. unfold build_string. intros H. apply in_app_or in H as [H|H]; auto.
      revert H. apply digits_no_dash. pose proof (itoa_digits (b_int t) ltac:(lia)) as Di. now apply all_digits_spec in Di as [_ ?]. }
    unfold build_string. now rewrite <- !app_assoc.
  - now rewrite <- !app_assoc.
Qed.
Theorem generate_injective d e s : wf_name d -> wf_name e ->
  generate_filename d = Some s -> generate_filename e = Some s ->
  replace_runs $"_" (f_dist d) = replace_runs $"_" (f_dist e) /\
  f_version d = f_version e /\ f_build d = f_build e /\ f_tag d = f_tag e.
Proof.
  intros Wd We Hd He. destruct (generate_parse d Wd) as (s1 & E1 & P1), (generate_parse e We) as (s2 & E2 & P2).
  assert (s1 = s) as -> by congruence. assert (s2 = s) as -> by congruence.
  rewrite P1 in P2. injection P2. auto.
Qed.

(** ** Project names *)
Lemma lower_sep : forall c, in_set $"-_." (lower c) = in_set $"-_." c.
Proof. chars. Qed.
Lemma replace_runs_lower b s : replace_runs_from b $"-" (to_lower s) = to_lower (replace_runs_from b $"-" s).
Proof.
  revert b. induction s as [|x s IH]; intros b; auto.
  change (to_lower (x :: s)) with (lower x :: to_lower s). cbn [replace_runs_from]. rewrite lower_sep.
  destruct (in_set $"-_." x).
  - rewrite IH, to_lower_app. now destruct b.
  - now rewrite IH.
Qed.

Section Runs.
Variable r : ascii.
Variable f : ascii -> ascii.
Hypothesis Hf : forall x, name_sep x = false -> f x <> f r.
Lemma replace_runs_run u s : forallb name_sep u = true ->
  replace_runs_from true [r] (u ++ s) = replace_runs_from true [r] s.
Proof.
  induction u as [|x u IH]; auto. cbn [forallb app replace_runs_from]. unfold name_sep at 1.
  rewrite andb_true_iff. intros [-> H]. cbn [app]. auto.
Qed.
Lemma replace_runs_start s b : name_start s -> replace_runs_from b [r] s = replace_runs [r] s.
Proof. destruct s as [|x s]; auto. unfold replace_runs. cbn [name_start replace_runs_from]. unfold name_sep. now intros ->. Qed.
Lemma replace_runs_u u s : u <> [] -> forallb name_sep u = true -> name_start s ->
  replace_runs [r] (u ++ s) = r :: replace_runs [r] s.
Proof.
  destruct u as [|x u]; [congruence|]. intros _ H Hs. cbn [forallb] in H. apply andb_true_iff in H as [H1 H2].
  unfold replace_runs at 1. cbn [app replace_runs_from]. unfold name_sep in H1. rewrite H1.
  rewrite replace_runs_run by auto. now rewrite replace_runs_start.
Qed.
Lemma replace_runs_c x s : name_sep x = false -> replace_runs [r] (x :: s) = x :: replace_runs [r] s.
Proof. unfold name_sep, replace_runs. cbn [replace_runs_from]. now intros ->. Qed.
Lemma split_run s : s = [] \/ (exists x t, s = x :: t /\ name_sep x = false) \/
  exists u t, s = u ++ t /\ u <> [] /\ forallb name_sep u = true /\ name_start t.
Proof.
  induction s as [|x s IH]; auto. right. destruct (name_sep x) eqn:E; [right|left; eauto].
  destruct IH as [->|[(y & t & -> & Hy)|(u & t & -> & Hu & Hx & Ht)]].
  - exists [x], []. simpl. rewrite E. repeat split; auto. discriminate.
  - exists [x], (y :: t). simpl. rewrite E. repeat split; auto. discriminate.
  - exists (x :: u), t. simpl. rewrite E. repeat split; auto. discriminate.
Qed.
Theorem same_runs_spec a b :
  map f (replace_runs [r] a) = map f (replace_runs [r] b) <-> same_runs (fun x y => f x = f y) a b.
Proof.
  split.
  - remember (length a) as n eqn:Hn. revert a b Hn.
    induction n as [n IH] using (well_founded_induction Nat.lt_wf_0). intros a b -> E.
    destruct (split_run a) as [->|[(x & s & -> & Hx)|(u & s & -> & Hu & Hg & Hs)]];
    destruct (split_run b) as [->|[(y & t & -> & Hy)|(w & t & -> & Hw & Hh & Ht)]].
    + constructor.
    + rewrite replace_runs_c in E by auto. discriminate.
    + rewrite replace_runs_u in E by auto. discriminate.
    + rewrite replace_runs_c in E by auto. discriminate.
    + rewrite !replace_runs_c in E by auto. injection E as E1 E2. constructor; auto.
      eapply IH; [|reflexivity|exact E2]. simpl. lia.
    + rewrite replace_runs_c, replace_runs_u in E by auto. injection E as E1 _. exfalso. apply Hf in Hx. congruence.
    + rewrite replace_runs_u in E by auto. discriminate.
    + rewrite replace_runs_u, replace_runs_c in E by auto. injection E as E1 _. exfalso. apply Hf in Hy. congruence.
    + rewrite !replace_runs_u in E by auto. injection E as E2. constructor; auto.
      eapply IH; [|reflexivity|exact E2]. rewrite app_length. destruct u; [congruence|simpl; lia].
  - induction 1 as [|x y s t Hx Hy E H IH|u w s t Hu Hw Fu Fw Ss St H IH].
    + reflexivity.
    + rewrite !replace_runs_c by auto. cbn [map]. now rewrite E, IH.
    + rewrite !replace_runs_u by auto. cbn [map]. now rewrite IH.
Qed.
End Runs.
Lemma sep_lower_dash : forall x, implb (negb (name_sep x)) (negb (byte_eqb (lower x) "-")) = true.
Proof. chars. Qed.
Theorem same_project_spec a b :
  to_lower (replace_runs $"-" a) = to_lower (replace_runs $"-" b) <-> same_project a b.
Proof.
  apply (same_runs_spec "-"%char lower). intros x Hx. pose proof (sep_lower_dash x) as H. rewrite Hx in H.
  intros E. rewrite E in H. discriminate.
Qed.
Theorem same_dist_spec a b : replace_runs $"_" a = replace_runs $"_" b <-> same_dist a b.
Proof.
  rewrite <- (map_id (replace_runs $"_" a)), <- (map_id (replace_runs $"_" b)).
  apply (same_runs_spec "_"%char (fun x => x)). intros x Hx ->. discriminate.
Qed.
Lemma same_runs_refl (R : ascii -> ascii -> Prop) : (forall x, R x x) -> forall s, same_runs R s s.
Proof.
  intros HR s. remember (length s) as n eqn:Hn. revert s Hn.
  induction n as [n IH] using (well_founded_induction Nat.lt_wf_0). intros s ->.
  destruct (split_run s) as [->|[(x & t & -> & Hx)|(u & t & -> & Hu & Hg & Ht)]].
  - constructor.
  - constructor; auto. eapply IH; [|reflexivity]. simpl. lia.
  - constructor; auto. eapply IH; [|reflexivity]. rewrite app_length. destruct u; [congruence|simpl; lia].
Qed.
Lemma replace_runs_idem c s : name_sep c = true -> replace_runs [c] (replace_runs [c] s) = replace_runs [c] s.
Proof.
  intros Hc. remember (length s) as n eqn:Hn. revert s Hn.
  induction n as [n IH] using (well_founded_induction Nat.lt_wf_0). intros s ->.
  destruct (split_run s) as [->|[(x & t & -> & Hx)|(u & t & -> & Hu & Hg & Ht)]].
  - reflexivity.
  - rewrite !replace_runs_c by auto. f_equal. eapply IH; [|reflexivity]. simpl. lia.
  - rewrite replace_runs_u by auto. change (c :: replace_runs [c] t) with ([c] ++ replace_runs [c] t).
    rewrite replace_runs_u.
    + cbn [app]. f_equal. eapply IH; [|reflexivity]. rewrite app_length. destruct u; [congruence|simpl; lia].
    + discriminate.
    + simpl. now rewrite Hc.
    + destruct t as [|y t]; [exact I|]. rewrite replace_runs_c; auto.
Qed.
(** The distribution part that is written differs only in its separators. *)
Lemma dist_same s : same_dist (replace_runs $"_" s) s.
Proof. apply same_dist_spec. now apply (replace_runs_idem "_"%char). Qed.
Lemma dist_no_sep_from s c : forall b, In c (replace_runs_from b $"_" s) -> name_sep c = true -> c = "_"%char.
Proof.
  induction s as [|x s IH]; intros b; cbn [replace_runs_from]; [intros []|].
  destruct (in_set $"-_." x) eqn:E.
  - destruct b; [apply IH|]. intros [<-|H]; auto. now apply (IH true).
  - intros [<-|H] Hs; [unfold name_sep in Hs; congruence|]. now apply (IH false).
Qed.
Lemma dist_no_sep s c : In c (replace_runs $"_" s) -> name_sep c = true -> c = "_"%char.
Proof. apply dist_no_sep_from. Qed.
Theorem generate_parse_text d : wf_name d ->
  exists s dist, generate_filename d = Some s /\
    parse_filename s = Some {| f_dist := dist; f_version := f_version d;
                               f_build := f_build d; f_tag := f_tag d |} /\
    same_dist dist (f_dist d) /\ ~ In "-"%char dist /\ ~ In "."%char dist.
Proof.
  intros H. destruct (generate_parse d H) as (s & E & P). exists s, (replace_runs $"_" (f_dist d)).
  split; auto. split; auto. split; [apply dist_same|].
  split; intros X; apply dist_no_sep in X; try reflexivity; discriminate.
Qed.
Theorem generate_same_name d e s : wf_name d -> wf_name e ->
  generate_filename d = Some s -> generate_filename e = Some s ->
  same_dist (f_dist d) (f_dist e) /\
  f_version d = f_version e /\ f_build d = f_build e /\ f_tag d = f_tag e.
Proof. intros Wd We Hd He. rewrite <- same_dist_spec. eapply generate_injective; eauto. Qed.

(** Build tags in file names are never negative. *)
Lemma parse_filename_build s d : parse_filename s = Some d -> nonneg_build (f_build d).
Proof.
  intros H. apply parse_filename_sound in H as (p & v & _ & _ & _ & ->). cbn [f_build fields_data].
  destruct (n_build p) as [[n l]|]; cbn [nonneg_build b_int]; [|exact I].
  assert (0 <= Z.of_N (dec_val n)) by lia. lia.
Qed.
Theorem build_order a b : nonneg_build a -> nonneg_build b ->
  (build_cmp a b < 0 <-> build_compare a b = Lt) /\
  (build_cmp a b = 0 <-> a = b) /\ (build_cmp a b > 0 <-> build_compare a b = Gt).
Proof.
  intros Ha Hb. pose proof (build_cmp_sign a b Ha Hb) as S.
  assert (EQ : build_compare a b = Eq <-> a = b).
  { destruct a as [[i s]|], b as [[j t]|]; cbn [build_compare b_int b_str]; split; intros; try congruence; auto.
    - unfold lex in H. destruct (Z.compare_spec i j) as [->| |]; try discriminate.
      apply str_compare_eq in H. congruence.
    - injection H as -> ->. unfold lex. rewrite Z.compare_refl. now apply str_compare_eq. }
  rewrite <- EQ, <- S. unfold sign. generalize (build_cmp a b). intros z.
  destruct z; cbn; repeat split; intros; try congruence; try lia; try discriminate.
Qed.
Theorem build_laws a b c : nonneg_build a -> nonneg_build b -> nonneg_build c ->
  (build_cmp a b < 0 <-> build_cmp b a > 0) /\
  (build_cmp a b <= 0 -> build_cmp b c <= 0 -> build_cmp a c <= 0).
Proof.
  intros Ha Hb Hc. pose proof (build_order a b Ha Hb) as (L1 & _ & G1). pose proof (build_order b a Hb Ha) as (L2 & _ & G2).
  pose proof (build_order b c Hb Hc) as (L3 & _ & G3). pose proof (build_order a c Ha Hc) as (L4 & _ & G4).
  split.
  - rewrite L1, G2, (ok_anti _ build_compare_ok a b). destruct (build_compare a b); simpl; split; congruence.
  - intros H1 H2. assert (N1 : build_compare a b <> Gt) by (intros X; apply G1 in X; lia).
    assert (N2 : build_compare b c <> Gt) by (intros X; apply G3 in X; lia).
    pose proof (ok_le_trans _ build_compare_ok _ _ _ N1 N2) as N3.
    destruct (Z_gt_dec (build_cmp a c) 0) as [X|]; [apply G4 in X; congruence|lia].
Qed.
Lemma build_none_first b : build_cmp None (Some b) < 0.
Proof. reflexivity. Qed.

Lemma count_byte_occ c s : count_byte c s = count_occ ascii_dec s c.
Proof.
  unfold count_byte. induction s as [|x s IH]; auto. cbn [filter count_occ].
  destruct (ascii_dec x c) as [->|N].
  - rewrite byte_eqb_refl. cbn [length]. now rewrite IH.
  - destruct (byte_eqb c x) eqn:E; auto. apply byte_eqb_eq in E. congruence.
Qed.
Theorem parse_tag_dashes s : parse_tag s = None <-> count_occ ascii_dec s "-"%char <> 2%nat.
Proof. rewrite <- count_byte_occ. apply parse_tag_rejects. Qed.
