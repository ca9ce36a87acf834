(** Entry points: the regular expression and the scripts. *)
From Coq Require Import String Ascii List Bool NArith ZArith Lia Permutation.
From Verif.Model Require Import GoStr GoPath Regex Layer ConfigParser Platform WheelFile EntryPoints.
From Verif.Spec Require Import PathSpec EntryPointsSpec.
From Verif.Proofs Require Import Order GoStrFacts GoPathFacts RegexFacts ConfigFacts.
Import ListNotations.
Local Open Scope nat_scope.

Local Arguments byte_eqb : simpl never.
Local Arguments str_eqb : simpl never.
Local Arguments is_word : simpl never.
Local Arguments cls_re_space : simpl never.

(** ** The expression *)
Lemma M_chr_inv p s s' c c' : M (RChr p) s s' c c' -> exists x, s = x :: s' /\ p x = true /\ c' = c.
Proof. inversion 1; subst. eauto. Qed.
Lemma M_seq_inv a b s s2 c c2 : M (RSeq a b) s s2 c c2 -> exists s1 c1, M a s s1 c c1 /\ M b s1 s2 c1 c2.
Proof. inversion 1; subst. eauto. Qed.
Lemma M_alt_inv a b s s2 c c2 : M (RAlt a b) s s2 c c2 -> M a s s2 c c2 \/ M b s s2 c c2.
Proof. inversion 1; subst; auto. Qed.
Lemma M_grp_inv n r s s1 c c2 : M (RGrp n r) s s1 c c2 ->
  exists c1, M r s s1 c c1 /\ c2 = (n, firstn (length s - length s1) s) :: c1.
Proof. inversion 1; subst; eauto. Qed.
Lemma M_star_chr p s s' c c' : M (RStar (RChr p)) s s' c c' -> exists w, s = w ++ s' /\ forallb p w = true /\ c' = c.
Proof.
  remember (RStar (RChr p)) as r eqn:R. intros H. induction H; try discriminate R.
  - exists []. auto.
  - injection R as ->. apply M_chr_inv in H as (x & -> & P & ->).
    destruct (IHM2 eq_refl) as (w & -> & F & ->). exists (x :: w). cbn. rewrite P, F. auto.
Qed.
Lemma star_chr_M p w s c : forallb p w = true -> M (RStar (RChr p)) (w ++ s) s c c.
Proof.
  induction w as [|x w IH]; cbn; intros H. { constructor. }
  apply andb_true_iff in H as [H1 H2]. eapply M_star1 with (s1 := w ++ s); auto.
  constructor. auto.
Qed.
Definition wword (w : str) : Prop := w <> [] /\ forallb is_word w = true.
Lemma M_word_inv s s' c c' : M r_word s s' c c' -> exists w, s = w ++ s' /\ wword w /\ c' = c.
Proof.
  intros H. apply M_seq_inv in H as (s1 & c1 & H1 & H2). apply M_chr_inv in H1 as (x & -> & P & ->).
  apply M_star_chr in H2 as (w & -> & F & ->). exists (x :: w). repeat split; [discriminate|]. cbn. now rewrite P.
Qed.
Lemma word_M w s c : wword w -> M r_word (w ++ s) s c c.
Proof.
  intros [N F]. destruct w as [|x w]; [congruence|]. cbn in F. apply andb_true_iff in F as [F1 F2].
  eapply M_seq with (s1 := w ++ s). { constructor. auto. } now apply star_chr_M.
Qed.
Definition is_sep (c : ascii) : bool := byte_eqb c ":" || byte_eqb c ".".
(** what follows the first word *)
Inductive tail : str -> Prop :=
| tail_nil : tail []
| tail_cons d w t : is_sep d = true -> wword w -> tail t -> tail (d :: w ++ t).
Lemma M_tail_inv s s' c c' :
  M (RStar (RSeq (RChr (fun c => byte_eqb c ":" || byte_eqb c ".")) r_word)) s s' c c' ->
  exists t, s = t ++ s' /\ tail t /\ c' = c.
Proof.
  remember (RStar _) as r eqn:R. intros H. induction H; try discriminate R.
  - exists []. repeat split; auto. constructor.
  - injection R as ->. apply M_seq_inv in H as (s3 & c3 & H3 & H4). apply M_chr_inv in H3 as (x & -> & P & ->).
    apply M_word_inv in H4 as (w & -> & W & ->). destruct (IHM2 eq_refl) as (t & -> & T & ->).
    exists (x :: w ++ t). split; [|split; auto].
    + cbn. now rewrite <- app_assoc.
    + constructor; auto.
Qed.
Lemma tail_M t s c : tail t ->
  M (RStar (RSeq (RChr (fun c => byte_eqb c ":" || byte_eqb c ".")) r_word)) (t ++ s) s c c.
Proof.
  intros T. induction T as [|d w t D W T IH]. { constructor. }
  cbn [app]. rewrite <- app_assoc. eapply M_star1 with (s1 := t ++ s); auto.
  - eapply M_seq. { constructor. exact D. } now apply word_M.
  - cbn. rewrite !app_length. lia.
  - exact IH.
Qed.
Definition callable (s : str) : Prop := exists w t, s = w ++ t /\ wword w /\ tail t.
Lemma M_callable_inv s s' c c' : M r_callable s s' c c' -> exists w, s = w ++ s' /\ callable w /\ c' = c.
Proof.
  intros H. apply M_seq_inv in H as (s1 & c1 & H1 & H2). apply M_word_inv in H1 as (w & -> & W & ->).
  apply M_tail_inv in H2 as (t & -> & T & ->). exists (w ++ t). rewrite <- app_assoc.
  repeat split; auto. exists w, t. auto.
Qed.
Lemma callable_M w s c : callable w -> M r_callable (w ++ s) s c c.
Proof.
  intros (x & t & -> & W & T). rewrite <- app_assoc. eapply M_seq. { now apply word_M. } now apply tail_M.
Qed.
Lemma M_extras_inv s s' c c' : M r_extras s s' c c' -> exists e, s = e ++ s' /\ extras e /\ e <> [] /\ c' = c.
Proof.
  intros H. unfold r_extras in H. cbn [RSeqs] in H. apply M_seq_inv in H as (s1 & c1 & H1 & H).
  apply M_star_chr in H1 as (sp & -> & S & ->).
  apply M_seq_inv in H as (s2 & c2 & H2 & H). apply M_chr_inv in H2 as (x & -> & P & ->).
  apply M_seq_inv in H as (s3 & c3 & H3 & H). apply M_star_chr in H3 as (t & -> & T & ->).
  apply M_chr_inv in H as (y & -> & Q & ->).
  apply byte_eqb_eq in P, Q. subst x y.
  exists (sp ++ $"[" ++ t ++ $"]"). split; [|split; [|split; auto]].
  - cbn. rewrite <- !app_assoc. cbn. now rewrite <- app_assoc.
  - right. exists sp, t. repeat split; auto. intros I. rewrite forallb_forall in T. apply T in I.
    unfold byte_eqb in I. now rewrite Ascii.eqb_refl in I.
  - destruct sp; discriminate.
Qed.
Lemma extras_M e s c : extras e -> M (ROpt r_extras) (e ++ s) s c c.
Proof.
  intros [->|(sp & t & -> & S & T)]. { apply M_altr. constructor. }
  apply M_altl. unfold r_extras. cbn [RSeqs]. rewrite <- app_assoc.
  eapply M_seq. { now apply star_chr_M. }
  cbn [list_ascii_of_string app]. rewrite <- app_assoc.
  eapply M_seq. { constructor. reflexivity. }
  eapply M_seq. { apply star_chr_M. rewrite forallb_forall. intros x I. destruct (byte_eqb x nl) eqn:E; auto.
    apply byte_eqb_eq in E. subst. contradiction. }
  cbn. constructor. reflexivity.
Qed.

Definition ref_byte (c : ascii) : bool := is_word c || is_sep c.
Lemma wword_bytes w : wword w -> forallb ref_byte w = true.
Proof.
  intros [_ H]. rewrite forallb_forall in *. intros x I. unfold ref_byte. now rewrite (H x I).
Qed.
Lemma callable_bytes w : callable w -> forallb ref_byte w = true.
Proof.
  intros (x & t & -> & W & T). rewrite forallb_app, wword_bytes by auto. cbn.
  induction T as [|d y t D Y T IH]; auto. cbn. rewrite forallb_app, wword_bytes, IH by auto.
  unfold ref_byte at 1. rewrite D, orb_true_r. reflexivity.
Qed.
Lemma extras_head e : extras e -> match e with [] => True | c :: _ => ref_byte c = false end.
Proof.
  intros [->|(sp & t & -> & S & _)]; auto. destruct sp as [|c sp]; [reflexivity|].
  cbn. cbn in S. apply andb_true_iff in S as [S _]. unfold cls_re_space, in_set in S.
  apply existsb_exists in S as (x & I & E). apply byte_eqb_eq in E. subst x.
  cbn in I. repeat (destruct I as [<-|I]; [reflexivity|]). destruct I.
Qed.
Lemma split_unique w1 e1 w2 e2 : forallb ref_byte w1 = true -> forallb ref_byte w2 = true ->
  (match e1 with [] => True | c :: _ => ref_byte c = false end) ->
  (match e2 with [] => True | c :: _ => ref_byte c = false end) ->
  w1 ++ e1 = w2 ++ e2 -> w1 = w2 /\ e1 = e2.
Proof.
  revert w2. induction w1 as [|x w1 IH]; intros [|y w2] F1 F2 H1 H2 E; cbn in *.
  - auto.
  - subst e1. apply andb_true_iff in F2 as [F2 _]. congruence.
  - subst e2. apply andb_true_iff in F1 as [F1 _]. congruence.
  - injection E as -> E. apply andb_true_iff in F1 as [_ F1], F2 as [_ F2].
    destruct (IH w2 F1 F2 H1 H2 E). subst. auto.
Qed.

Lemma full_match_sound val cs : full_match re_func_ref val = Some cs ->
  exists w e, val = w ++ e /\ callable w /\ extras e /\ group cs "callable" = w.
Proof.
  unfold full_match. intros H. apply run_sound in H as (s' & c' & H & K).
  destruct s'; [|discriminate]. injection K as ->.
  apply M_seq_inv in H as (s1 & c1 & H1 & H). apply M_grp_inv in H1 as (c2 & H1 & ->).
  apply M_callable_inv in H1 as (w & -> & W & ->).
  assert (G : group ((("callable"%string, firstn (length (w ++ s1) - length s1) (w ++ s1))) :: []) "callable" = w).
  { cbn. apply firstn_consumed. }
  apply M_alt_inv in H as [H|H].
  - apply M_extras_inv in H as (e & -> & E & _ & ->). exists w, e. rewrite !app_nil_r in *. auto.
  - inversion H; subst. exists w, []. rewrite !app_nil_r in *. repeat split; auto. now left.
Qed.
Lemma full_match_complete w e : callable w -> extras e ->
  exists cs, full_match re_func_ref (w ++ e) = Some cs /\ group cs "callable" = w.
Proof.
  intros W E. destruct (full_match re_func_ref (w ++ e)) as [cs|] eqn:F.
  - exists cs. split; auto. apply full_match_sound in F as (w' & e' & Eq & W' & E' & G).
    apply split_unique in Eq as [<- _]; auto using callable_bytes; now apply extras_head.
  - exfalso. revert F. unfold full_match. pose proof (@run_complete caps re_func_ref (w ++ e) []) as X.
    eapply X.
    + eapply M_seq. { constructor. apply callable_M. exact W. }
      rewrite <- (app_nil_r e) at 1. now apply extras_M.
    + discriminate.
Qed.

(** ** Words *)
Lemma word_byte_ok c : word_byte c <-> is_word c = true.
Proof.
  unfold word_byte, is_word, is_digit, is_lower_alpha.
  assert (L : code (lower c) = if ((65 <=? code c) && (code c <=? 90))%N then (code c + 32)%N else code c).
  { destruct c as [[] [] [] [] [] [] [] []]; reflexivity. }
  rewrite L. assert (U : byte_eqb c "_" = (code c =? 95)%N).
  { destruct c as [[] [] [] [] [] [] [] []]; reflexivity. }
  rewrite U. destruct ((65 <=? code c) && (code c <=? 90))%N eqn:Q.
  - apply andb_true_iff in Q as [Q1 Q2]. apply N.leb_le in Q1, Q2.
    rewrite !orb_true_iff, !andb_true_iff, !N.leb_le, N.eqb_eq. split; lia.
  - rewrite !orb_true_iff, !andb_true_iff, !N.leb_le, N.eqb_eq.
    apply andb_false_iff in Q. rewrite !N.leb_gt in Q. split; lia.
Qed.
Lemma identifier_ok w : identifier w <-> wword w.
Proof.
  unfold identifier, wword. rewrite forallb_forall, Forall_forall. split; intros [N H]; split; auto;
    intros x I; apply word_byte_ok; auto.
Qed.
Lemma word_not_sep c : is_word c = true -> is_sep c = false.
Proof.
  intros H. unfold is_sep. destruct (byte_eqb c ":") eqn:E1; [apply byte_eqb_eq in E1; subst; discriminate|].
  destruct (byte_eqb c ".") eqn:E2; [apply byte_eqb_eq in E2; subst; discriminate|]. reflexivity.
Qed.
Lemma dotted_cons w ws : ws <> [] -> join $"." (w :: ws) = w ++ "."%char :: join $"." ws.
Proof. destruct ws; [congruence|reflexivity]. Qed.
Lemma dotted_tail ws : ws <> [] -> Forall identifier ws ->
  (exists w t, join $"." ws = w ++ t /\ wword w /\ tail t) /\ forall d, is_sep d = true -> tail (d :: join $"." ws).
Proof.
  intros N H. induction H as [|w ws W H IH]; [congruence|]. apply identifier_ok in W.
  destruct ws as [|x ws].
  - cbn [join]. split.
    + exists w, []. rewrite app_nil_r. repeat split; auto; try apply W. constructor.
    + intros d D. rewrite <- (app_nil_r w). constructor; auto. constructor.
  - destruct IH as [_ IH]; [discriminate|]. rewrite dotted_cons by discriminate. split.
    + exists w, ("."%char :: join $"." (x :: ws)). repeat split; auto; apply W.
    + intros d D. constructor; auto.
Qed.
Lemma dotted_bytes m : dotted m -> ~ In ":"%char m.
Proof.
  intros (ws & N & H & ->). clear N. induction H as [|w ws W H IH]; cbn; auto.
  assert (NW : ~ In ":"%char w).
  { apply identifier_ok in W as [_ W]. rewrite forallb_forall in W. intros I. apply W in I. discriminate. }
  destruct ws as [|x ws]; auto. intros I. apply in_app_or in I as [I|I]; auto. destruct I as [I|I]; [discriminate|auto].
Qed.
Lemma refers_callable m f : dotted m -> dotted f -> callable (m ++ $":" ++ f).
Proof.
  intros (ws & N & H & ->) (ws' & N' & H' & ->).
  destruct (dotted_tail ws' N' H') as [_ T]. specialize (T ":"%char eq_refl).
  clear N'. induction H as [|w ws W H IH]; [congruence|]. apply identifier_ok in W.
  destruct ws as [|x ws].
  - exists w, (":"%char :: join $"." ws'). repeat split; auto; apply W.
  - rewrite dotted_cons by discriminate. destruct IH as (y & t & E & Y & Ty); [discriminate|].
    exists w, ("."%char :: y ++ t). split; [|split; auto].
    + rewrite <- app_assoc. cbn [app]. rewrite <- E. reflexivity.
    + constructor; auto.
Qed.
(** the pieces of a tail between colons *)
Lemma tail_dotted t : tail t -> ~ In ":"%char t -> forall w, wword w -> dotted (w ++ t).
Proof.
  induction 1 as [|d y t D Y T IH]; intros N w W.
  - rewrite app_nil_r. exists [w]. repeat split; auto; [discriminate|]. constructor; auto. now apply identifier_ok.
  - unfold is_sep in D. apply orb_true_iff in D as [D|D]; apply byte_eqb_eq in D; subst d.
    + exfalso. apply N. now left.
    + destruct (IH) with (w := y) as (ws & Nw & Hw & E); auto.
      { intros I. apply N. right. apply in_or_app. auto. }
      exists (w :: ws). repeat split; [discriminate|constructor; auto; now apply identifier_ok|].
      rewrite dotted_cons by auto. now rewrite <- E.
Qed.
Lemma tail_colon t a b : tail t -> t = a ++ ":"%char :: b -> ~ In ":"%char a ->
  tail a /\ exists w t', b = w ++ t' /\ wword w /\ tail t'.
Proof.
  intros T. revert a. induction T as [|d y t D Y T IH]; intros a E N.
  - destruct a; discriminate.
  - destruct a as [|x a].
    + injection E as -> E. split; [constructor|]. exists y, t. auto.
    + injection E as <- E.
      (* the colon is not inside the word *)
      assert (P : exists a', a = y ++ a').
      { clear - E Y. destruct Y as [_ Y]. revert y E Y. induction a as [|z a IHa]; intros [|u y] E Y; cbn in *; eauto.
        - injection E as -> E. discriminate Y.
        - injection E as -> E. apply andb_true_iff in Y as [_ Y]. destruct (IHa y E Y) as (a' & ->). eauto. }
      destruct P as (a' & ->). rewrite <- app_assoc in E. apply app_inv_head in E.
      destruct (IH a' E) as (Ta & B).
      { intros I. apply N. right. apply in_or_app. auto. }
      split; auto. constructor; auto.
Qed.

Theorem func_ref_ok val m f : func_ref val = Some (m, f) <-> refers val m f.
Proof.
  unfold func_ref, refers. split.
  - destruct (full_match re_func_ref val) as [cs|] eqn:F; [|discriminate].
    apply full_match_sound in F as (w & e & -> & W & E & G). rewrite G. clear G.
    pose proof (join_split_on ":" w) as J. pose proof (split_on_no_sep ":" w) as NS.
    destruct (split_on ":" w) as [|a [|b [|? ?]]]; try discriminate. intros Q. injection Q as -> ->.
    cbn in J. inversion NS as [|? ? N1 NS']; subst. inversion NS' as [|? ? N2 _]; subst.
    destruct W as (x & t & Ew & X & T).
    assert (P : exists m', m = x ++ m').
    { clear - Ew X. destruct X as [_ X]. revert m Ew X. induction x as [|u x IH]; intros m Ew X; cbn in *; eauto.
      destruct m as [|v m]; cbn in *.
      - injection Ew as Eu Ew. subst u. discriminate X.
      - injection Ew as <- Ew. apply andb_true_iff in X as [_ X]. destruct (IH m Ew X) as (m' & ->). eauto. }
    destruct P as (m' & ->). rewrite <- app_assoc in Ew. apply app_inv_head in Ew. cbn [app] in Ew.
    destruct (tail_colon t m' f T (eq_sym Ew)) as (Tm & y & t' & -> & Y & Ty).
    { intros I. apply N1, in_or_app. auto. }
    split; [|split].
    + apply tail_dotted; auto. intros I. apply N1, in_or_app. auto.
    + apply tail_dotted; auto. intros I. apply N2, in_or_app. auto.
    + exists e. split; auto. rewrite <- !app_assoc. cbn. now rewrite <- !app_assoc.
  - intros (Dm & Df & e & E & ->).
    pose proof (refers_callable m f Dm Df) as C.
    destruct (full_match_complete (m ++ $":" ++ f) e C E) as (cs & F & G).
    replace (m ++ $":" ++ f ++ e) with ((m ++ $":" ++ f) ++ e) by (rewrite <- !app_assoc; reflexivity).
    rewrite F, G. cbn [list_ascii_of_string app]. rewrite split_on_app by now apply dotted_bytes.
    rewrite split_on_none by now apply dotted_bytes. reflexivity.
Qed.
Corollary func_ref_none val : func_ref val = None <-> ~ exists m f, refers val m f.
Proof.
  split.
  - intros F (m & f & R). apply func_ref_ok in R. congruence.
  - intros N. destruct (func_ref val) as [[m f]|] eqn:F; auto. exfalso. apply N. exists m, f. now apply func_ref_ok.
Qed.

(** ** The scripts *)
Lemma add_scripts_ok scripts shebang sect clamp_time items : forall fs fs',
  add_scripts scripts shebang sect clamp_time items fs = inl fs' ->
  (forall n, ~ In n (map (fun kv => script_name scripts (fst kv)) items) -> get_key n fs' = get_key n fs) /\
  (NoDup (map (fun kv => script_name scripts (fst kv)) items) ->
   forall k v, In (k, v) items -> exists m f, refers v m f /\
     get_key (script_name scripts k) fs' = Some (mem_reg (script_name scripts k) 493 clamp_time (script_text shebang m f))).
Proof.
  induction items as [|[k v] items IH]; intros fs fs' H; cbn [add_scripts] in H.
  - injection H as <-. split; auto. intros _ k v [].
  - destruct (func_ref v) as [[m f]|] eqn:F; [|discriminate].
    unfold script_ref in H. cbn [fst snd] in H. apply IH in H as [A B]. split.
    + intros n N. cbn in N. rewrite A by auto. rewrite get_set_key.
      destruct (str_eqb n _) eqn:E; auto. apply str_eqb_eq in E. subst. exfalso. apply N. left. reflexivity.
    + intros ND. cbn in ND. inversion ND as [|? ? N1 N2]; subst. intros k' v' [I|I].
      * injection I as <- <-. exists m, f. split; [now apply func_ref_ok|].
        rewrite A by exact N1. rewrite get_set_key. unfold script_name. now rewrite str_eqb_refl.
      * apply B; auto.
Qed.
Lemma add_scripts_total scripts shebang sect clamp_time items : forall fs,
  (forall k v, In (k, v) items -> exists m f, refers v m f) ->
  exists fs', add_scripts scripts shebang sect clamp_time items fs = inl fs'.
Proof.
  induction items as [|[k v] items IH]; intros fs H; cbn [add_scripts]; eauto.
  destruct (H k v (or_introl eq_refl)) as (m & f & R). apply func_ref_ok in R. rewrite R.
  unfold script_ref. apply IH. intros k' v' I. apply (H k' v'). now right.
Qed.
Lemma add_scripts_bad scripts shebang sect clamp_time items : forall fs fs',
  add_scripts scripts shebang sect clamp_time items fs = inl fs' ->
  forall k v, In (k, v) items -> exists m f, refers v m f.
Proof.
  induction items as [|[k v] items IH]; intros fs fs' H k' v' I; [destruct I|].
  cbn [add_scripts] in H. destruct (func_ref v) as [[m f]|] eqn:F; [|discriminate].
  destruct I as [I|I].
  - injection I as <- <-. exists m, f. now apply func_ref_ok.
  - unfold script_ref in H. eapply IH; eauto.
Qed.

Lemma nodup_app_l {A} (a b : list A) : NoDup (a ++ b) -> NoDup a.
Proof.
  induction a as [|x a IH]; cbn; intros H; [constructor|]. inversion H; subst. constructor; auto.
  intros I. apply H2, in_or_app. auto.
Qed.
Lemma nodup_app_r {A} (a b : list A) : NoDup (a ++ b) -> NoDup b.
Proof. induction a as [|x a IH]; cbn; intros H; auto. inversion H; subst. auto. Qed.
Section Hook.
Context (outer : list (str * str) -> list (str * str)) (order : str -> section -> section).
Context (Houter : forall l, Permutation (outer l) l) (Horder : forall s l, Permutation (order s l) l).

Definition items_for (cfg : config) (sections : list (str * str)) : section :=
  concat (map (fun s => entries_of cfg (fst s)) sections).

Lemma add_sections_ok scripts clamp_time cfg secs : forall fs fs',
  add_sections order scripts clamp_time cfg secs fs = inl fs' ->
  (forall n, ~ In n (map (fun kv => script_name scripts (fst kv)) (items_for cfg secs)) -> get_key n fs' = get_key n fs) /\
  (NoDup (map (fun kv => script_name scripts (fst kv)) (items_for cfg secs)) ->
   forall sect shebang k v, In (sect, shebang) secs -> In (k, v) (entries_of cfg sect) -> exists m f, refers v m f /\
     get_key (script_name scripts k) fs' = Some (mem_reg (script_name scripts k) 493 clamp_time (script_text shebang m f))).
Proof.
  induction secs as [|[s sb] secs IH]; intros fs fs' H; cbn [add_sections] in H.
  - injection H as <-. split; auto. intros _ sect sb k v [].
  - unfold items_for in *. cbn [map concat fst]. unfold entries_of at 1 3.
    destruct (get_key s cfg) as [items|] eqn:G.
    + destruct (add_scripts _ _ _ _ _ fs) as [fs1|] eqn:E1; [|discriminate].
      apply IH in H as [A B]. apply add_scripts_ok in E1 as [A1 B1].
      assert (P : Permutation (map (fun kv => script_name scripts (fst kv)) (order s items))
                              (map (fun kv => script_name scripts (fst kv)) items)) by (apply Permutation_map, Horder).
      split.
      * intros n N. rewrite map_app in N. rewrite A by (intros I; apply N, in_or_app; auto).
        apply A1. intros I. apply N, in_or_app. left. eapply Permutation_in; eauto.
      * intros ND sect sb' k v I J. rewrite map_app in ND. destruct I as [I|I].
        -- injection I as <- <-. unfold entries_of in J. rewrite G in J.
           destruct (B1) with (k := k) (v := v) as (m & f & R & K).
           { apply nodup_app_l in ND. eapply Permutation_NoDup; [symmetry; exact P|exact ND]. }
           { eapply Permutation_in; [symmetry; apply Horder|exact J]. }
           exists m, f. split; auto. rewrite A; auto.
           intros Q. assert (S1 : In (script_name scripts k) (map (fun kv => script_name scripts (fst kv)) items))
             by (apply in_map_iff; exists (k, v); auto).
           clear - ND Q S1. induction (map (fun kv => script_name scripts (fst kv)) items) as [|x l IHl]; [destruct S1|].
           cbn in ND. inversion ND; subst. destruct S1 as [->|S1].
           ++ apply H1, in_or_app. auto.
           ++ auto.
        -- eapply B; eauto. now apply nodup_app_r in ND.
    + cbn [app]. apply IH in H as [A B]. split; auto. intros ND sect sb' k v I J. destruct I as [I|I].
      * injection I as <- <-. unfold entries_of in J. rewrite G in J. destruct J.
      * eapply B; eauto.
Qed.
Lemma add_sections_total scripts clamp_time cfg secs : forall fs,
  (forall k v, In (k, v) (items_for cfg secs) -> exists m f, refers v m f) ->
  exists fs', add_sections order scripts clamp_time cfg secs fs = inl fs'.
Proof.
  induction secs as [|[s sb] secs IH]; intros fs H; cbn [add_sections]; eauto.
  unfold items_for in H. cbn [map concat fst] in H. unfold entries_of at 1 in H.
  destruct (get_key s cfg) as [items|] eqn:G.
  - destruct (add_scripts_total scripts sb s clamp_time (order s items) fs) as (fs1 & ->).
    { intros k v I. apply (H k v), in_or_app. left. eapply Permutation_in; [apply Horder|exact I]. }
    apply IH. intros k v I. apply (H k v), in_or_app. auto.
  - apply IH. intros k v I. apply (H k v). exact I.
Qed.
Lemma add_sections_bad scripts clamp_time cfg secs : forall fs fs',
  add_sections order scripts clamp_time cfg secs fs = inl fs' ->
  forall k v, In (k, v) (items_for cfg secs) -> exists m f, refers v m f.
Proof.
  induction secs as [|[s sb] secs IH]; intros fs fs' H k v I; [destruct I|].
  cbn [add_sections] in H. unfold items_for in I. cbn [map concat fst] in I. unfold entries_of at 1 in I.
  destruct (get_key s cfg) as [items|] eqn:G.
  - destruct (add_scripts _ _ _ _ _ fs) as [fs1|] eqn:E1; [|discriminate].
    apply in_app_or in I as [I|I]; [|eapply IH; eauto].
    eapply add_scripts_bad; eauto. eapply Permutation_in; [symmetry; apply Horder|exact I].
  - eapply IH; eauto.
Qed.

Lemma items_perm cfg a b : Permutation a b -> Permutation (items_for cfg a) (items_for cfg b).
Proof.
  unfold items_for. induction 1; cbn.
  - constructor.
  - now apply Permutation_app_head.
  - rewrite !app_assoc. apply Permutation_app_tail, Permutation_app_comm.
  - etransitivity; eauto.
Qed.

(** the two sections in either order *)
Lemma items_outer cfg con gra :
  Permutation (items_for cfg (outer [($"console_scripts", con); ($"gui_scripts", gra)])) (all_entries cfg).
Proof.
  etransitivity; [apply items_perm, Houter|]. unfold items_for, all_entries. cbn [map concat fst]. now rewrite app_nil_r.
Qed.

Theorem scripts_created pl pl' clamp_time fs dist_info r text ok cfg fs' : plat_init pl = Some pl' ->
  get_key (path_join [dist_info; $"entry_points.txt"]) fs = Some r -> ref_content r = Bytes text ok ->
  parse_config ep_parser text false = COk cfg ->
  create_scripts outer order pl clamp_time fs dist_info = inl fs' ->
  let scripts := s_scripts (pl_scheme pl) in
  (forall n, ~ In n (map (fun kv => script_name scripts (fst kv)) (all_entries cfg)) -> get_key n fs' = get_key n fs) /\
  (NoDup (map (fun kv => script_name scripts (fst kv)) (all_entries cfg)) ->
   forall sect shebang k v,
     sect = $"console_scripts" /\ shebang = pl_console pl' \/ sect = $"gui_scripts" /\ shebang = pl_graphical pl' ->
     In (k, v) (entries_of cfg sect) -> exists m f, refers v m f /\
     get_key (script_name scripts k) fs' = Some (mem_reg (script_name scripts k) 493 clamp_time (script_text shebang m f))).
Proof.
  intros PI G C P H scripts. unfold create_scripts in H. rewrite PI, G, C, P in H.
  assert (SE : s_scripts (pl_scheme pl') = scripts).
  { unfold plat_init in PI. unfold scripts. destruct (pl_console pl), (pl_graphical pl), (forallb is_abs (scheme_paths (pl_scheme pl)));
      try discriminate; injection PI as <-; reflexivity. }
  rewrite SE in H. apply add_sections_ok in H as [A B].
  pose proof (items_outer cfg (pl_console pl') (pl_graphical pl')) as PM.
  set (o := outer _) in *.
  assert (PMm : Permutation (map (fun kv => script_name scripts (fst kv)) (items_for cfg o))
                            (map (fun kv => script_name scripts (fst kv)) (all_entries cfg))) by now apply Permutation_map.
  split.
  - intros n N. apply A. intros I. apply N. eapply Permutation_in; eauto.
  - intros ND sect shebang k v S I. eapply B; eauto.
    + eapply Permutation_NoDup; [symmetry; exact PMm|exact ND].
    + eapply Permutation_in; [symmetry; apply Houter|].
      destruct S as [[-> ->]|[-> ->]]; [left|right; left]; reflexivity.
Qed.

Theorem scripts_accepted pl pl' clamp_time fs dist_info r text ok cfg : plat_init pl = Some pl' ->
  get_key (path_join [dist_info; $"entry_points.txt"]) fs = Some r -> ref_content r = Bytes text ok ->
  parse_config ep_parser text false = COk cfg ->
  (exists fs', create_scripts outer order pl clamp_time fs dist_info = inl fs') <->
  (forall k v, In (k, v) (all_entries cfg) -> exists m f, refers v m f).
Proof.
  intros PI G C P. unfold create_scripts. rewrite PI, G, C, P.
  pose proof (items_outer cfg (pl_console pl') (pl_graphical pl')) as PM. set (o := outer _) in *.
  split.
  - intros (fs' & H) k v I. eapply add_sections_bad; eauto. eapply Permutation_in; [symmetry; exact PM|exact I].
  - intros H. apply add_sections_total. intros k v I. apply (H k v). eapply Permutation_in; eauto.
Qed.
Theorem scripts_none pl pl' clamp_time fs dist_info : plat_init pl = Some pl' ->
  get_key (path_join [dist_info; $"entry_points.txt"]) fs = None ->
  create_scripts outer order pl clamp_time fs dist_info = inl fs.
Proof. intros PI G. unfold create_scripts. now rewrite PI, G. Qed.
Theorem scripts_unparsed pl clamp_time fs dist_info r text ok : 
  get_key (path_join [dist_info; $"entry_points.txt"]) fs = Some r -> ref_content r = Bytes text ok ->
  (exists e, parse_config ep_parser text false = CErr e) ->
  exists e, create_scripts outer order pl clamp_time fs dist_info = inr e.
Proof.
  intros G C (e & P). unfold create_scripts. destruct (plat_init pl); [|eauto]. rewrite G, C, P. eauto.
Qed.
End Hook.

Lemma script_name_plain dir key : dir <> [] -> plain_path dir -> plain_comp key ->
  script_name ($"/" ++ join $"/" dir) key = join $"/" (dir ++ [key]).
Proof.
  intros N D K. unfold script_name. cbn [list_ascii_of_string app tl].
  assert (J : join $"/" dir <> []).
  { destruct dir as [|c dir]; [congruence|]. inversion D as [|? ? Pc _]; subst. destruct Pc as (Pc & _).
    destruct c; [congruence|]. destruct dir; discriminate. }
  rewrite join_plain1 by auto.
  rewrite is_abs_text || idtac.
  rewrite (join_head_not_slash false) by now apply plain_clean.
  rewrite clean_comps_rel by (auto using plain_clean).
  unfold path_text. destruct (dir ++ [key]) eqn:E; auto. now apply app_eq_nil in E as [_ E].
Qed.

Lemma script_wanted shebang m f : ~ In "."%char f -> script_text shebang m f = wanted_script shebang m f.
Proof.
  intros N. unfold script_text, wanted_script. rewrite split_on_none by auto. cbn [hd map concat].
  rewrite <- !app_assoc. now rewrite app_nil_r.
Qed.
Lemma script_dotted shebang m f : In "."%char f -> script_text shebang m f <> wanted_script shebang m f.
Proof.
  intros I E. unfold script_text, wanted_script in E. cbn [map concat] in E.
  rewrite <- !app_assoc in E.
  repeat match type of E with
  | (?x ++ ?a = ?x ++ ?b) => apply app_inv_head in E
  end.
  assert (S : exists a b, split_on "." f = a :: b /\ b <> [] /\ f = a ++ "."%char :: join $"." b).
  { destruct (in_split _ _ I) as (x & y & ->). pose proof (join_split_on "." (x ++ "."%char :: y)) as J.
    rewrite split_on_app_gen in *. destruct (split_on "." x) as [|a b] eqn:Ex; [now apply split_on_nonempty in Ex|].
    pose proof (split_on_nonempty "." y) as Ny.
    exists a, (b ++ split_on "." y). repeat split; auto.
    - intros Q. apply app_eq_nil in Q as [_ Q]. contradiction.
    - rewrite <- J. cbn [app]. apply dotted_cons. intros Q. apply app_eq_nil in Q as [_ Q]. contradiction. }
  destruct S as (a & b & S & Nb & Ef). rewrite S in E. cbn [hd] in E. rewrite Ef in E at 1.
  rewrite <- app_assoc in E. apply app_inv_head in E. cbn in E. injection E as E1 E2. discriminate E1 || discriminate E.
Qed.

Theorem scripts_made outer order : (forall l, Permutation (outer l) l) -> (forall s l, Permutation (order s l) l) ->
  forall pl pl' clamp_time fs dist_info r text ok cfg fs', plat_init pl = Some pl' ->
  get_key (path_join [dist_info; $"entry_points.txt"]) fs = Some r -> ref_content r = Bytes text ok ->
  parse_config ep_parser text false = COk cfg ->
  create_scripts outer order pl clamp_time fs dist_info = inl fs' ->
  NoDup (map (fun kv => script_name (s_scripts (pl_scheme pl)) (fst kv)) (all_entries cfg)) ->
  forall sect shebang k v,
  sect = $"console_scripts" /\ shebang = pl_console pl' \/ sect = $"gui_scripts" /\ shebang = pl_graphical pl' ->
  In (k, v) (entries_of cfg sect) ->
  exists m f file, refers v m f /\ get_key (script_name (s_scripts (pl_scheme pl)) k) fs' = Some file /\
    ref_full file = script_name (s_scripts (pl_scheme pl)) k /\ ref_mode file = 493%N /\ ref_mtime file = clamp_time /\
    exists script, ref_content file = Bytes script true /\ ref_size file = Z.of_nat (length script) /\
      (~ In "."%char f -> script = wanted_script shebang m f).
Proof.
  intros Ho Hr pl pl' ct fs di r text ok cfg fs' PI G C P H ND sect shebang k v S I.
  destruct (scripts_created outer order Ho Hr _ _ _ _ _ _ _ _ _ _ PI G C P H) as [_ B].
  destruct (B ND sect shebang k v S I) as (m & f & R & K).
  exists m, f, (mem_reg (script_name (s_scripts (pl_scheme pl)) k) 493 ct (script_text shebang m f)).
  split; [exact R|]. split; [exact K|]. split; [reflexivity|]. split; [reflexivity|]. split; [reflexivity|].
  exists (script_text shebang m f). split; [reflexivity|]. split; [reflexivity|]. apply script_wanted.
Qed.
Theorem others_kept outer order : (forall l, Permutation (outer l) l) -> (forall s l, Permutation (order s l) l) ->
  forall pl pl' clamp_time fs dist_info r text ok cfg fs', plat_init pl = Some pl' ->
  get_key (path_join [dist_info; $"entry_points.txt"]) fs = Some r -> ref_content r = Bytes text ok ->
  parse_config ep_parser text false = COk cfg ->
  create_scripts outer order pl clamp_time fs dist_info = inl fs' ->
  forall n, ~ In n (map (fun kv => script_name (s_scripts (pl_scheme pl)) (fst kv)) (all_entries cfg)) ->
  get_key n fs' = get_key n fs.
Proof.
  intros Ho Hr pl pl' ct fs di r text ok cfg fs' PI G C P H.
  now destruct (scripts_created outer order Ho Hr _ _ _ _ _ _ _ _ _ _ PI G C P H) as [A _].
Qed.

(** ** Platform.Init *)
Theorem init_ok pl pl' : plat_init pl = Some pl' ->
  pl_console pl' <> [] /\ pl_graphical pl' <> [] /\
  (pl_console pl <> [] -> pl_console pl' = pl_console pl) /\
  (pl_graphical pl <> [] -> pl_graphical pl' = pl_graphical pl) /\
  Forall (fun p => is_abs p = true) (scheme_paths (pl_scheme pl')) /\
  pl_scheme pl' = pl_scheme pl /\ pl_uid pl' = pl_uid pl /\ pl_gid pl' = pl_gid pl /\
  pl_uname pl' = pl_uname pl /\ pl_gname pl' = pl_gname pl.
Proof.
  unfold plat_init. intros H.
  destruct (forallb is_abs (scheme_paths (pl_scheme pl))) eqn:F.
  2:{ destruct (pl_console pl), (pl_graphical pl); discriminate. }
  assert (FA : Forall (fun p => is_abs p = true) (scheme_paths (pl_scheme pl))).
  { apply Forall_forall. rewrite forallb_forall in F. exact F. }
  destruct (pl_console pl) eqn:E1, (pl_graphical pl) eqn:E2; try discriminate; injection H as <-; cbn;
    (split; [discriminate|]; split; [discriminate|]; split; [congruence|]; split; [congruence|]; auto 10).
Qed.
Theorem init_iff pl : (exists pl', plat_init pl = Some pl') <->
  (pl_console pl <> [] \/ pl_graphical pl <> []) /\ Forall (fun p => is_abs p = true) (scheme_paths (pl_scheme pl)).
Proof.
  unfold plat_init. split.
  - intros (pl' & H). destruct (forallb is_abs (scheme_paths (pl_scheme pl))) eqn:F.
    2:{ destruct (pl_console pl), (pl_graphical pl); discriminate. }
    split.
    + destruct (pl_console pl), (pl_graphical pl); try discriminate; [right|left|left]; discriminate.
    + apply Forall_forall. rewrite forallb_forall in F. exact F.
  - intros [H F]. assert (F' : forallb is_abs (scheme_paths (pl_scheme pl)) = true).
    { apply forallb_forall. rewrite Forall_forall in F. exact F. }
    rewrite F'. destruct (pl_console pl), (pl_graphical pl); eauto. destruct H; congruence.
Qed.
Theorem init_idem pl pl' : plat_init pl = Some pl' -> plat_init pl' = Some pl'.
Proof.
  intros H. pose proof (init_ok _ _ H) as (N1 & N2 & _ & _ & F & _).
  assert (F' : forallb is_abs (scheme_paths (pl_scheme pl')) = true).
  { apply forallb_forall. rewrite Forall_forall in F. exact F. }
  unfold plat_init. rewrite F'. destruct pl' as [[|a con] [|b gra] sch u g un gn]; cbn in *; congruence.
Qed.
