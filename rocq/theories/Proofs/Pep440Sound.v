(** Soundness of the version parser, and the round trip through String. *)
From Coq Require Import String Ascii List Bool ZArith NArith Lia.
From Verif.Model Require Import GoStr Regex Pep440.
From Verif.Spec Require Import Pep440Spec VersionGrammar.
From Verif.Proofs Require Import Order GoStrFacts RegexFacts Pep440Cmp Pep440Parse.
Import ListNotations.
Local Arguments Z.compare : simpl never.
Local Arguments N.ltb : simpl never.
Local Arguments N.pow : simpl never.
Local Arguments Z.pow : simpl never.

(** ** The language of an expression *)
Fixpoint L (r : re) (w : str) : Prop :=
  match r with
  | REps => w = []
  | RChr p => exists x, w = [x] /\ p x = true
  | RSeq a b => exists w1 w2, w = w1 ++ w2 /\ L a w1 /\ L b w2
  | RAlt a b => L a w \/ L b w
  | RStar r => exists ws, w = concat ws /\ Forall (L r) ws
  | RGrp _ r => L r w
  end.
Lemma M_lang r s s' c c' : M r s s' c c' -> exists w, s = w ++ s' /\ L r w.
Proof.
  induction 1 as [| |? ? ? ? ? ? ? ? ? (w1 & -> & L1) ? (w2 & -> & L2)|? ? ? ? ? ? ? (w & -> & IH)
    |? ? ? ? ? ? ? (w & -> & IH)| |? ? ? ? ? ? ? ? (w1 & -> & L1) ? ? (w2 & -> & L2)
    |? ? ? ? ? ? ? (w & -> & IH)].
  - exists []. now split.
  - exists [x]. split; auto. exists x. auto.
  - exists (w1 ++ w2). rewrite app_assoc. split; auto. exists w1, w2. auto.
  - exists w. simpl. auto.
  - exists w. simpl. auto.
  - exists []. split; auto. exists []. now split.
  - destruct L2 as (ws & -> & F). exists (w1 ++ concat ws). rewrite app_assoc. split; auto.
    exists (w1 :: ws). auto.
  - exists w. auto.
Qed.
Lemma full_match_lang r s c : full_match r s = Some c -> L r s.
Proof.
  unfold full_match. intros H. apply run_sound in H as (s' & c' & HM & Hk).
  destruct s'; [|discriminate]. apply M_lang in HM as (w & -> & H). now rewrite app_nil_r.
Qed.

Lemma L_star_class p w : L (RStar (RChr p)) w -> forallb p w = true.
Proof.
  intros (ws & -> & F). induction F as [|x ws (y & -> & Hy) F IH]; simpl; auto. now rewrite Hy.
Qed.
Lemma L_plus_class p w : L (RPlus (RChr p)) w -> w <> [] /\ forallb p w = true.
Proof.
  intros (w1 & w2 & -> & (x & -> & Hx) & H). apply L_star_class in H. simpl. rewrite Hx. split; auto.
  congruence.
Qed.
Lemma L_lit p w0 w : L (RLit p w0) w -> Forall2 (fun a b => p a b = true) w0 w.
Proof.
  revert w. induction w0 as [|x w0 IH]; simpl; intros w.
  - intros ->. constructor.
  - intros (w1 & w2 & -> & (y & -> & Hy) & H). constructor; auto.
Qed.
Lemma L_lit_eq w0 w : L (lit w0) w -> w = w0.
Proof.
  intros H. apply L_lit in H. induction H; auto. apply byte_eqb_eq in H. congruence.
Qed.
Lemma L_lit_ci w0 w : L (lit_ci w0) w -> to_lower w = to_lower w0.
Proof.
  intros H. apply L_lit in H. induction H; auto. simpl. rewrite IHForall2. f_equal.
  unfold eq_ci in H. apply byte_eqb_eq in H. congruence.
Qed.
Lemma L_words ws w : Forall (fun w => to_lower w = w) ws -> L (RAlts (map lit_ci ws)) w -> In (to_lower w) ws.
Proof.
  induction 1 as [|w0 ws H F IH]; intros HL.
  - destruct HL as (x & _ & Hx). discriminate.
  - destruct ws as [|w1 ws].
    + simpl. left. apply L_lit_ci in HL. congruence.
    + destruct HL as [HL|HL].
      * left. apply L_lit_ci in HL. congruence.
      * right. auto.
Qed.
Lemma L_sep w : L r_sep w -> opt_sep w.
Proof. intros [(x & -> & Hx)|H]; [right; exists x; auto|left; exact H]. Qed.
Lemma L_digits w : L r_digits w -> number w.
Proof. intros H. apply L_plus_class in H. exact H. Qed.
Lemma L_opt_num n w : L (ROpt (RGrp n r_digits)) w -> opt_number w.
Proof. intros [H|H]; [right; now apply L_digits|left; exact H]. Qed.

Lemma L_lp nl nn ws w : Forall (fun w => to_lower w = w) ws -> L (r_lp nl nn ws) w ->
  exists p, wf_lp ws p /\ render_lp p = w.
Proof.
  intros Hl (s1 & t1 & -> & H1 & w' & t2 & -> & H2 & s2 & n & -> & H3 & H4).
  exists {| lp_sep1 := s1; lp_word := w'; lp_sep2 := s2; lp_num := n |}.
  split; [|reflexivity]. unfold wf_lp. simpl.
  apply L_sep in H1, H3. apply L_opt_num in H4. apply L_words in H2; auto.
Qed.

Lemma L_alnums w : L r_alnums w -> word w.
Proof. intros H. apply L_plus_class in H. exact H. Qed.

Lemma lang_surface s : L re_version s -> exists x, wf_surface x /\ render x = s.
Proof.
  intros (lead & s1 & -> & H1 & v & s2 & -> & H2 & ep & s3 & -> & H3 & rel & s4 & -> & H4 &
          pr & s5 & -> & H5 & po & s6 & -> & H6 & de & s7 & -> & H7 & lo & trail & -> & H8 & H9).
  apply L_star_class in H1, H9.
  assert (B : forall t, forallb cls_re_space t = true -> forallb blank t = true).
  { intros t Ht. rewrite forallb_forall in *. intros c Hc. rewrite <- blank_space. auto. }
  apply B in H1, H9. clear B.
  assert (V : v = [] \/ v = $"v" \/ v = $"V").
  { destruct H2 as [H2|H2]; [|left; exact H2]. right. apply L_lit_ci in H2. simpl in H2.
    apply to_lower_cons in H2 as (y & w' & -> & Hy & E). apply to_lower_nil in E. subst w'.
    simpl. clear -Hy. assert (y = "v"%char \/ y = "V"%char) by (revert y Hy; chars).
    destruct H; subst; auto. }
  assert (E : exists e, (forall n, e = Some n -> number n) /\
                ep = match e with Some e => e ++ $"!" | None => [] end).
  { destruct H3 as [(a & b & -> & Ha & Hb)|H3].
    - exists (Some a). apply L_digits in Ha. apply L_lit_eq in Hb. subst b. split; auto.
      intros n En. injection En as <-. auto.
    - exists None. split; [discriminate|exact H3]. }
  assert (R : exists r0 rs, number r0 /\ Forall number rs /\ rel = r0 ++ dotted rs).
  { destruct H4 as (a & b & -> & Ha & ws & -> & F). apply L_digits in Ha.
    exists a. assert (exists rs, Forall number rs /\ concat ws = dotted rs) as (rs & F1 & ->).
    { induction F as [|u ws (x & y & -> & Hx & Hy) F (rs & F1 & IH)].
      - exists []. split; constructor.
      - apply L_lit_eq in Hx. apply L_digits in Hy. subst x. exists (y :: rs). split; [now constructor|].
        simpl. now rewrite IH. }
    exists rs. auto. }
  assert (P : exists p, (forall q, p = Some q -> wf_lp pre_words q) /\
                pr = match p with Some p => render_lp p | None => [] end).
  { destruct H5 as [H5|H5].
    - apply (L_lp "pre_l" "pre_n" pre_words) in H5 as (p & Hp & <-); [|apply lower_words_pre].
      exists (Some p). split; auto. intros q Eq. injection Eq as <-. auto.
    - exists None. split; [discriminate|exact H5]. }
  assert (Q : exists p, (forall n, p = Some (PDash n) -> number n) /\
                (forall q, p = Some (PWord q) -> wf_lp post_words q) /\
                po = match p with Some (PDash n) => "-"%char :: n | Some (PWord p) => render_lp p
                     | None => [] end).
  { destruct H6 as [[H6|H6]|H6].
    - destruct H6 as (a & b & -> & Ha & Hb). apply L_lit_eq in Ha. apply L_digits in Hb. subst a.
      exists (Some (PDash b)). split; [|split; [discriminate|reflexivity]]. intros n En. injection En as <-. exact Hb.
    - apply (L_lp "post_l" "post_n2" post_words) in H6 as (p & Hp & <-); [|apply lower_words_post].
      exists (Some (PWord p)). split; [discriminate|split; [|reflexivity]]. intros q Eq. injection Eq as <-. exact Hp.
    - exists None. repeat split; try discriminate. exact H6. }
  assert (D : exists p, (forall q, p = Some q -> wf_lp dev_words q) /\
                de = match p with Some p => render_lp p | None => [] end).
  { destruct H7 as [H7|H7].
    - apply (L_lp "dev_l" "dev_n" dev_words) in H7 as (p & Hp & <-); [|apply lower_words_dev].
      exists (Some p). split; auto. intros q Eq. injection Eq as <-. auto.
    - exists None. split; [discriminate|exact H7]. }
  assert (Lo : exists l, (forall w k, l = Some (w, k) -> word w /\ seps_words k) /\
                lo = match l with Some (w, k) => "+"%char :: w ++ flat k | None => [] end).
  { destruct H8 as [(a & b & -> & Ha & (w & k & -> & Hw & ws & -> & F))|H8].
    - apply L_lit_eq in Ha. subst a. apply L_alnums in Hw.
      assert (exists k, seps_words k /\ concat ws = flat k) as (k & Hk & ->).
      { induction F as [|u ws (x & y & -> & (c & -> & Hc) & Hy) F (k & F1 & IH)].
        - exists []. split; constructor.
        - apply L_alnums in Hy. exists ((c, y) :: k). split; [constructor; auto|].
          simpl. now rewrite IH. }
      exists (Some (w, k)). split; auto. intros w' k' Ew. injection Ew as <- <-. auto.
    - exists None. split; [discriminate|exact H8]. }
  destruct E as (e & He & ->), R as (r0 & rs & R0 & R1 & ->), P as (p & Hp & ->),
    Q as (q & Q1 & Q2 & ->), D as (d & Hd & ->), Lo as (l & Hl & ->).
  exists {| g_lead := lead; g_v := v; g_epoch := e; g_rel0 := r0; g_rels := rs; g_pre := p;
            g_post := q; g_dev := d; g_local := l; g_trail := trail |}.
  split; [|destruct l as [[? ?]|]; reflexivity].
  unfold wf_surface. simpl. repeat (split; auto).
Qed.

(** ** Longest match *)
Definition with_parts (x : surface) pr po de : surface :=
  {| g_lead := g_lead x; g_v := g_v x; g_epoch := g_epoch x; g_rel0 := g_rel0 x;
     g_rels := g_rels x; g_pre := pr; g_post := po; g_dev := de;
     g_local := g_local x; g_trail := g_trail x |}.
Definition wf_parts (pr : option letterpart) (po : option postpart) (de : option letterpart) : Prop :=
  (forall p, pr = Some p -> wf_lp pre_words p) /\
  (forall n, po = Some (PDash n) -> number n) /\
  (forall p, po = Some (PWord p) -> wf_lp post_words p) /\
  (forall p, de = Some p -> wf_lp dev_words p).
Definition r_lpo (o : option letterpart) : str := match o with Some p => render_lp p | None => [] end.
Definition r_po (o : option postpart) : str :=
  match o with Some (PDash n) => "-"%char :: n | Some (PWord p) => render_lp p | None => [] end.
Definition part_numbers (pr : option letterpart) (po : option postpart) (de : option letterpart) : list str :=
  (match pr with Some p => [lp_num p] | None => [] end)
  ++ (match po with Some p => [post_num p] | None => [] end)
  ++ (match de with Some p => [lp_num p] | None => [] end).

Lemma with_parts_ok x pr po de : wf_surface x -> wf_parts pr po de ->
  r_lpo pr ++ r_po po ++ r_lpo de = render_pre x ++ render_post x ++ render_dev x ->
  (Forall (fun n => (dec_val n < 2 ^ 63)%N) (part_numbers (g_pre x) (g_post x) (g_dev x)) ->
   Forall (fun n => (dec_val n < 2 ^ 63)%N) (part_numbers pr po de)) ->
  wf_surface (with_parts x pr po de) /\ render (with_parts x pr po de) = render x /\
  (numbers_fit x -> numbers_fit (with_parts x pr po de)).
Proof.
  intros W (A & B & C & D) E N.
  pose proof W as (W1 & W2 & W3 & W4 & W5 & W6 & W7 & W8 & W9 & W10 & W11). split; [|split].
  - unfold wf_surface. simpl. repeat (split; auto).
  - unfold render. change (render_pre (with_parts x pr po de)) with (r_lpo pr).
    change (render_post (with_parts x pr po de)) with (r_po po).
    change (render_dev (with_parts x pr po de)) with (r_lpo de). simpl. do 4 f_equal.
    change (render_local (with_parts x pr po de)) with (render_local x).
    rewrite !(app_assoc _ _ (render_local x ++ _)), E. now rewrite !app_assoc.
  - unfold numbers_fit, numbers. simpl. fold (part_numbers pr po de).
    fold (part_numbers (g_pre x) (g_post x) (g_dev x)).
    rewrite !app_comm_cons, !Forall_app. intros (F1 & F2 & F3). auto.
Qed.

Definition lp_shift (p : letterpart) (sep : str) : letterpart :=    (* append [sep] as second separator *)
  {| lp_sep1 := lp_sep1 p; lp_word := lp_word p; lp_sep2 := sep; lp_num := lp_num p |}.
Definition lp_nosep (p : letterpart) : letterpart :=
  {| lp_sep1 := []; lp_word := lp_word p; lp_sep2 := lp_sep2 p; lp_num := lp_num p |}.
Lemma wf_shift ws p y : wf_lp ws p -> sep_char y = true -> wf_lp ws (lp_shift p [y]).
Proof. intros (A & B & C & D) Hy. unfold wf_lp. simpl. repeat split; auto. right. eauto. Qed.
Lemma wf_nosep ws p : wf_lp ws p -> wf_lp ws (lp_nosep p).
Proof. intros (A & B & C & D). unfold wf_lp. simpl. repeat split; auto. now left. Qed.
Lemma shift_render p q y t : lp_sep2 p = [] -> lp_num p = [] -> lp_sep1 q = [y] ->
  render_lp (lp_shift p [y]) ++ render_lp (lp_nosep q) ++ t = render_lp p ++ render_lp q ++ t.
Proof.
  intros E1 E2 E3. unfold render_lp. simpl. rewrite E1, E2, E3, <- !app_assoc. reflexivity.
Qed.

(** When a letter part without separator and number is followed by one that starts
    with a separator *)
Lemma starts_sep_lp ws q t : wf_lp ws q ->
  (forall w, In w ws -> exists x w', w = x :: w' /\ is_lower_alpha x = true) ->
  starts_sep (render_lp q ++ t) = true -> exists y, lp_sep1 q = [y] /\ sep_char y = true.
Proof.
  intros (A & B & _) Hw H. destruct A as [A|(y & A & Hy)]; [|eauto].
  unfold render_lp in H. rewrite A in H. rewrite <- !app_assoc in H. cbn [app] in H.
  destruct (word_head (lp_word q) ws (lp_sep2 q ++ lp_num q ++ t) B Hw) as (? & ? & _ & _ & _ & E).
  congruence.
Qed.

Lemma wf_parts_of x : wf_surface x -> wf_parts (g_pre x) (g_post x) (g_dev x).
Proof. intros W. unfold wf_parts. split; [|split; [|split]]; intros; apply W; auto. Qed.

Lemma munch_post x : wf_surface x ->
  exists x', wf_surface x' /\ render x' = render x /\ (numbers_fit x -> numbers_fit x') /\
    (forall p, g_post x' = Some (PWord p) -> lp_num p = [] -> lp_sep2 p = [] ->
       starts_sep (render_dev x') = false).
Proof.
  intros W.
  assert (Same : (forall p, g_post x = Some (PWord p) -> lp_num p = [] -> lp_sep2 p = [] ->
       starts_sep (render_dev x) = false) -> exists x', wf_surface x' /\ render x' = render x /\ (numbers_fit x -> numbers_fit x') /\
    (forall p, g_post x' = Some (PWord p) -> lp_num p = [] -> lp_sep2 p = [] ->
       starts_sep (render_dev x') = false)) by (intros; exists x; auto).
  destruct (starts_sep (render_dev x)) eqn:S; [|apply Same; auto].
  destruct (g_post x) as [[n|p]|] eqn:Ep; [apply Same; intros; congruence| |apply Same; intros; congruence].
  destruct (lp_num p) as [|a num] eqn:En; [|apply Same; intros q Eq; injection Eq as <-; congruence].
  destruct (lp_sep2 p) as [|a sep] eqn:Es; [|apply Same; intros q Eq; injection Eq as <-; congruence].
  clear Same.
  destruct (g_dev x) as [d|] eqn:Ed; [|unfold render_dev in S; rewrite Ed in S; discriminate].
  pose proof (wf_parts_of x W) as (W1 & W2 & W3 & W4). rewrite Ep in *. rewrite Ed in *.
  unfold render_dev in S. rewrite Ed in S. rewrite <- (app_nil_r (render_lp d)) in S.
  destruct (starts_sep_lp dev_words d [] (W4 d eq_refl) letters_dev S) as (y & Ey & Hy).
  destruct (with_parts_ok x (g_pre x) (Some (PWord (lp_shift p [y]))) (Some (lp_nosep d)) W) as (A & B & C).
  - split; [|split; [|split]]; try discriminate; intros q Eq; try (apply W1; exact Eq);
      injection Eq as <-; try (apply wf_shift; auto); try (apply wf_nosep; auto).
  - unfold r_po, r_lpo, render_pre, render_post, render_dev. rewrite Ep, Ed.
    f_equal. rewrite <- (app_nil_r (render_lp (lp_nosep d))), <- (app_nil_r (render_lp d)).
    now apply shift_render.
  - unfold part_numbers. rewrite Ep, Ed. simpl. auto.
  - exists (with_parts x (g_pre x) (Some (PWord (lp_shift p [y]))) (Some (lp_nosep d))).
    repeat (split; auto). simpl. intros q Eq. injection Eq as <-. discriminate.
Qed.

Lemma munch_exists x : wf_surface x ->
  exists x', wf_surface x' /\ munch x' /\ render x' = render x /\ (numbers_fit x -> numbers_fit x').
Proof.
  intros W0. destruct (munch_post x W0) as (x1 & W & R & F & Mp).
  rewrite <- R. assert (G : exists x', wf_surface x' /\ munch x' /\ render x' = render x1 /\
                             (numbers_fit x1 -> numbers_fit x')).
  2:{ destruct G as (x' & A & B & C & D). exists x'.
      split; [exact A|split; [exact B|split; [exact C|]]]. intros H. exact (D (F H)). }
  clear x W0 R F. rename x1 into x.
  assert (Same : (forall p, g_pre x = Some p -> lp_num p = [] -> lp_sep2 p = [] ->
     starts_sep (render_post x ++ render_dev x) = false) -> exists x', wf_surface x' /\ munch x' /\ render x' = render x /\
                             (numbers_fit x -> numbers_fit x')) by (intros; exists x; unfold munch; auto).
  destruct (starts_sep (render_post x ++ render_dev x)) eqn:S; [|apply Same; auto].
  destruct (g_pre x) as [p|] eqn:Ep; [|apply Same; intros; congruence].
  destruct (lp_num p) as [|a num] eqn:En; [|apply Same; intros q Eq; injection Eq as <-; congruence].
  destruct (lp_sep2 p) as [|a sep] eqn:Es; [|apply Same; intros q Eq; injection Eq as <-; congruence].
  clear Same.
  pose proof (wf_parts_of x W) as (W1 & W2 & W3 & W4). rewrite Ep in *.
  destruct (g_post x) as [[n|q]|] eqn:Eo; unfold render_post in S; rewrite Eo in S.
  - (* implicit post release becomes the number of the pre-release *)
    set (p' := {| lp_sep1 := lp_sep1 p; lp_word := lp_word p; lp_sep2 := $"-"; lp_num := n |}).
    assert (Hp : wf_lp pre_words p').
    { destruct (W1 p eq_refl) as (A & B & _). unfold wf_lp. simpl. repeat split; auto.
      - right. exists "-"%char. auto.
      - right. now apply W2. }
    destruct (with_parts_ok x (Some p') None (g_dev x) W) as (A & B & C).
    + split; [|split; [|split]]; try discriminate; intros q Eq; try (apply W4; exact Eq); injection Eq as <-; exact Hp.
    + unfold r_po, r_lpo, render_pre, render_post, render_dev. rewrite Ep, Eo.
      unfold render_lp at 1 3. simpl. rewrite En, Es, <- !app_assoc. simpl. reflexivity.
    + unfold part_numbers. rewrite Ep, Eo. simpl. rewrite En. intros HF. inversion HF. auto.
    + exists (with_parts x (Some p') None (g_dev x)). repeat (split; auto).
      * simpl. intros q Eq. injection Eq as <-. discriminate.
      * simpl. discriminate.
  - destruct (starts_sep_lp post_words q (render_dev x) (W3 q eq_refl) letters_post S) as (y & Ey & Hy).
    destruct (with_parts_ok x (Some (lp_shift p [y])) (Some (PWord (lp_nosep q))) (g_dev x) W) as (A & B & C).
    + split; [|split; [|split]]; try discriminate; intros r Eq; try (apply W4; exact Eq);
        injection Eq as <-; try (apply wf_shift; auto); try (apply wf_nosep; auto).
    + unfold r_po, render_pre, render_post. rewrite Ep, Eo. unfold r_lpo at 1. now apply shift_render.
    + unfold part_numbers. rewrite Ep, Eo. simpl. auto.
    + exists (with_parts x (Some (lp_shift p [y])) (Some (PWord (lp_nosep q))) (g_dev x)).
      repeat (split; auto).
      * simpl. intros r Eq. injection Eq as <-. discriminate.
      * simpl. intros r Eq. injection Eq as <-. intros E1 E2. exact (Mp q eq_refl E1 E2).
  - cbn [app] in S. unfold render_dev in S. destruct (g_dev x) as [d|] eqn:Ed; [|discriminate].
    rewrite <- (app_nil_r (render_lp d)) in S.
    destruct (starts_sep_lp dev_words d [] (W4 d eq_refl) letters_dev S) as (y & Ey & Hy).
    destruct (with_parts_ok x (Some (lp_shift p [y])) None (Some (lp_nosep d)) W) as (A & B & C).
    + split; [|split; [|split]]; try discriminate; intros r Eq;
        injection Eq as <-; try (apply wf_shift; auto); try (apply wf_nosep; auto).
    + unfold r_po, r_lpo, render_pre, render_post, render_dev. rewrite Ep, Eo, Ed. cbn [app].
      rewrite <- (app_nil_r (render_lp (lp_nosep d))), <- (app_nil_r (render_lp d)).
      now apply shift_render.
    + unfold part_numbers. rewrite Ep, Eo, Ed. simpl. auto.
    + exists (with_parts x (Some (lp_shift p [y])) None (Some (lp_nosep d))).
      repeat (split; auto).
      * simpl. intros r Eq. injection Eq as <-. discriminate.
      * simpl. discriminate.
Qed.

(** ** Acceptance and meaning *)
Lemma num_value_fit n : num_value n <> None <-> (dec_val n < 2 ^ 63)%N.
Proof.
  unfold num_value. destruct (N.ltb_spec (dec_val n) (2 ^ 63)); split; try congruence; lia.
Qed.
Lemma opt_num_value_fit n : opt_num_value n <> None <-> (dec_val n < 2 ^ 63)%N.
Proof.
  destruct n as [|d n]; [|apply num_value_fit]. simpl. split; [|congruence]. intros _. reflexivity.
Qed.
Lemma nums_value_fit l : nums_value l <> None <-> Forall (fun n => (dec_val n < 2 ^ 63)%N) l.
Proof.
  induction l as [|n l IH]; simpl.
  - split; [constructor|congruence].
  - split.
    + intros H. destruct (num_value n) eqn:E; [|congruence]. destruct (nums_value l) eqn:F; [|congruence].
      constructor; [apply num_value_fit; congruence|]. apply IH. congruence.
    + intros H. inversion H as [|? ? H1 H2]; subst. apply num_value_fit in H1. apply IH in H2.
      destruct (num_value n), (nums_value l); congruence.
Qed.
Lemma part_value_fit o : part_value o <> None <->
  Forall (fun n => (dec_val n < 2 ^ 63)%N) (match o with Some n => [n] | None => [] end).
Proof.
  destruct o as [n|]; simpl.
  - split.
    + intros H. constructor; auto. apply opt_num_value_fit. now destruct (opt_num_value n).
    + intros H. inversion H as [|? ? H1 _]; subst. apply opt_num_value_fit in H1.
      destruct (opt_num_value n); congruence.
  - split; [constructor|congruence].
Qed.
Lemma value_fit seg x : value_with seg x <> None <-> numbers_fit x.
Proof.
  unfold numbers_fit, numbers. rewrite app_comm_cons, !Forall_app.
  rewrite <- (nums_value_fit (g_rel0 x :: g_rels x)).
  pose proof (part_value_fit (option_map lp_num (g_pre x))) as P1.
  pose proof (part_value_fit (option_map post_num (g_post x))) as P2.
  pose proof (part_value_fit (option_map lp_num (g_dev x))) as P3.
  unfold value_with.
  replace (match g_pre x with Some p => [lp_num p] | None => [] end)
    with (match option_map lp_num (g_pre x) with Some n => [n] | None => [] end) by now destruct (g_pre x).
  replace (match g_post x with Some p => [post_num p] | None => [] end)
    with (match option_map post_num (g_post x) with Some n => [n] | None => [] end) by now destruct (g_post x).
  replace (match g_dev x with Some p => [lp_num p] | None => [] end)
    with (match option_map lp_num (g_dev x) with Some n => [n] | None => [] end) by now destruct (g_dev x).
  rewrite <- P1, <- P2, <- P3.
  assert (E : (match g_epoch x with None => Some 0%Z | Some e => num_value e end) <> None <->
              Forall (fun n => (dec_val n < 2 ^ 63)%N) (match g_epoch x with Some e => [e] | None => [] end)).
  { destruct (g_epoch x) as [e|].
    - rewrite num_value_fit. split; [auto|]. intros H. now inversion H.
    - split; [constructor|congruence]. }
  rewrite <- E.
  destruct (match g_epoch x with None => Some 0%Z | Some e => num_value e end),
    (nums_value (g_rel0 x :: g_rels x)), (part_value (option_map lp_num (g_pre x))),
    (part_value (option_map post_num (g_post x))), (part_value (option_map lp_num (g_dev x)));
    intuition congruence.
Qed.

Theorem parse_sound s v : parse_version s = Some v ->
  exists x, wf_surface x /\ munch x /\ numbers_fit x /\ render x = s /\ value_with model_seg x = Some v.
Proof.
  intros H. unfold parse_version in H. destruct (full_match re_version s) as [c|] eqn:E; [|discriminate].
  assert (P : parse_version s = Some v) by (unfold parse_version; now rewrite E). clear H.
  apply full_match_lang, lang_surface in E as (x & W & <-).
  destruct (munch_exists x W) as (x' & W' & Hm & R & _). rewrite <- R, parse_render in P by auto.
  exists x'. split; auto. split; auto. split; [apply (value_fit model_seg); congruence|]. auto.
Qed.
Theorem parse_accepts s : parse_version s <> None <-> is_version s.
Proof.
  split.
  - destruct (parse_version s) as [v|] eqn:E; [|congruence]. intros _.
    apply parse_sound in E as (x & W & _ & F & R & _). exists x. auto.
  - intros (x & W & F & <-). destruct (munch_exists x W) as (x' & W' & Hm & R & F').
    rewrite <- R, parse_render by auto. apply value_fit. auto.
Qed.

(** Local segments *)
Lemma lower_alnum_digit : forall c, is_lower_alpha (lower c) || is_digit c = true ->
  lower_alnum (lower c) = true /\ (is_digit (lower c) = is_digit c).
Proof. chars. Qed.
Lemma word_lower w : word w -> to_lower w <> [] /\ forallb lower_alnum (to_lower w) = true /\
  forallb is_digit (to_lower w) = forallb is_digit w.
Proof.
  intros [H1 H2]. split; [now destruct w|]. clear H1. induction w as [|c w IH]; simpl; auto.
  simpl in H2. apply andb_true_iff in H2 as [Hc Hw]. destruct (lower_alnum_digit c Hc) as [E1 E2].
  destruct (IH Hw) as [E3 E4]. rewrite E1, E2, E3, E4. auto.
Qed.
Lemma atoi_nonminus c w : lower_alnum c = true -> all_digits (c :: w) = false -> atoi (c :: w) = None.
Proof.
  intros Hc Hd. unfold atoi.
  destruct (ascii_dec c "-") as [->|N1]; [discriminate|].
  destruct (ascii_dec c "+") as [->|N2]; [discriminate|].
  clear Hc. destruct c as [[] [] [] [] [] [] [] []];
    first [exfalso; now apply N1 | exfalso; now apply N2 | cbv beta iota zeta; now rewrite Hd].
Qed.
Lemma model_seg_digits w : word w -> forallb is_digit w = true ->
  model_seg w = if (dec_val w <? 2 ^ 63)%N then SInt (wrap32 (Z.of_N (dec_val w))) else SStr w.
Proof.
  intros [H1 _] H2. unfold model_seg, intstr_parse. rewrite to_lower_digits by auto.
  rewrite atoi_digits by (now apply all_digits_spec). now destruct (dec_val w <? 2 ^ 63)%N.
Qed.
Lemma model_seg_other w : word w -> forallb is_digit w = false ->
  model_seg w = SStr (to_lower w) /\ atoi (to_lower w) = None.
Proof.
  intros Hw Hd. destruct (word_lower w Hw) as (E1 & E2 & E3). unfold model_seg, intstr_parse.
  assert (A : atoi (to_lower w) = None).
  { destruct (to_lower w) as [|c l] eqn:E; [congruence|]. apply atoi_nonminus.
    - simpl in E2. apply andb_true_iff in E2. tauto.
    - unfold all_digits. rewrite E3. exact Hd. }
  rewrite A. auto.
Qed.
Lemma model_seg_value w : word w -> (forallb is_digit w = true -> (dec_val w < 2 ^ 31)%N) ->
  model_seg w = seg_value w.
Proof.
  intros Hw Hf. unfold seg_value. destruct (forallb is_digit w) eqn:E.
  - rewrite model_seg_digits by auto. specialize (Hf eq_refl).
    destruct (N.ltb_spec (dec_val w) (2 ^ 63)); [|lia].
    rewrite wrap32_small; auto. lia.
  - now apply model_seg_other.
Qed.
Lemma local_words_word x : wf_surface x -> Forall word (local_words x).
Proof.
  intros (_ & _ & _ & _ & _ & _ & _ & _ & _ & Hl & _). unfold local_words.
  destruct (g_local x) as [[w l]|]; [|constructor]. destruct (Hl w l eq_refl) as [H F].
  constructor; auto. rewrite Forall_map. revert F. apply Forall_impl. tauto.
Qed.
Lemma value_with_ext f g x : (forall w, In w (local_words x) -> f w = g w) ->
  value_with f x = value_with g x.
Proof. intros H. unfold value_with. now rewrite (map_ext_in f g). Qed.

Theorem parse_render_value x : wf_surface x -> munch x -> locals_fit x ->
  parse_version (render x) = value x.
Proof.
  intros W Hm Hl. rewrite parse_render by auto. apply value_with_ext. intros w Hw.
  apply local_words_word in W. rewrite Forall_forall in W. unfold locals_fit in Hl.
  rewrite Forall_forall in Hl. apply model_seg_value; auto.
Qed.

(** ** What the parser returns *)
Lemma num_value_range n z : num_value n = Some z -> int64_ok z.
Proof.
  unfold num_value, int64_ok. destruct (N.ltb_spec (dec_val n) (2 ^ 63)) as [H|H]; [|congruence].
  intros E. injection E as <-. split; [lia|]. lia.
Qed.
Lemma opt_num_value_range n z : opt_num_value n = Some z -> int64_ok z.
Proof.
  destruct n; [|apply num_value_range]. simpl. intros E. injection E as <-. unfold int64_ok. lia.
Qed.
Lemma nums_value_range l r : nums_value l = Some r -> Forall int64_ok r /\ length r = length l.
Proof.
  revert r. induction l as [|n l IH]; simpl; intros r E.
  - injection E as <-. split; constructor.
  - destruct (num_value n) eqn:En; [|congruence]. destruct (nums_value l) eqn:El; [|congruence].
    injection E as <-. destruct (IH _ eq_refl) as [H1 H2]. split; [|simpl; congruence].
    constructor; auto. eapply num_value_range; eauto.
Qed.
Lemma letter_value_canonical w : In (to_lower w) pre_words -> canonical_letter (letter_value w).
Proof.
  intros H. unfold letter_value, canonical_letter. simpl in H.
  destruct H as [H|[H|[H|[H|[H|[H|[H|[H|[]]]]]]]]]; rewrite <- H; vm_compute; auto.
Qed.
Definition parsed_seg (s : intorstr) : Prop :=
  match s with
  | SInt i => (- 2 ^ 31 <= i < 2 ^ 31)%Z
  | SStr s => s <> [] /\ forallb lower_alnum s = true /\ atoi s = None
  end.
Lemma wrap32_range z : (- 2 ^ 31 <= wrap32 z < 2 ^ 31)%Z.
Proof.
  unfold wrap32, wrap. change (2 ^ (32 - 1))%Z with (2 ^ 31)%Z.
  pose proof (Z.mod_pos_bound (z + 2 ^ 31) (2 ^ 32) ltac:(lia)). lia.
Qed.
Lemma digits_lower_alnum w : forallb is_digit w = true -> forallb lower_alnum w = true.
Proof.
  rewrite !forallb_forall. intros H c Hc. unfold lower_alnum. rewrite (H c Hc). apply orb_true_r.
Qed.
Lemma model_seg_parsed w : word w -> parsed_seg (model_seg w).
Proof.
  intros Hw. destruct (forallb is_digit w) eqn:E.
  - pose proof Hw as [Hn _]. rewrite model_seg_digits by auto.
    destruct (dec_val w <? 2 ^ 63)%N eqn:F; simpl.
    + apply wrap32_range.
    + split; auto. split; [now apply digits_lower_alnum|].
      rewrite atoi_digits by now apply all_digits_spec. now rewrite F.
  - destruct (model_seg_other w Hw E) as [-> A]. destruct (word_lower w Hw) as (E1 & E2 & _).
    simpl. auto.
Qed.

Definition parsed (v : version) : Prop :=
  ranged_public (pub v) /\
  (forall l n, pre (pub v) = Some (l, n) -> canonical_letter l) /\
  Forall parsed_seg (local v).

Lemma canonical_letter_rank l : canonical_letter l -> letter_rank l <> None.
Proof. intros [->|[->| ->]]; vm_compute; congruence. Qed.

Theorem parse_result s v : parse_version s = Some v -> parsed v.
Proof.
  intros H. apply parse_sound in H as (x & W & _ & _ & _ & V). unfold value_with in V.
  destruct (match g_epoch x with Some e => num_value e | None => Some 0%Z end) as [e|] eqn:Ee; [|discriminate].
  destruct (nums_value (g_rel0 x :: g_rels x)) as [r|] eqn:Er; [|discriminate].
  destruct (part_value (option_map lp_num (g_pre x))) as [pn|] eqn:Ep; [|discriminate].
  destruct (part_value (option_map post_num (g_post x))) as [po|] eqn:Eo; [|discriminate].
  destruct (part_value (option_map lp_num (g_dev x))) as [d|] eqn:Ed; [|discriminate].
  injection V as <-. unfold parsed. simpl.
  apply nums_value_range in Er as [R1 R2].
  assert (PN : forall o z, part_value o = Some (Some z) -> int64_ok z).
  { intros [n|] z; simpl; [|discriminate]. destruct (opt_num_value n) eqn:En; [|discriminate].
    intros E. injection E as <-. eapply opt_num_value_range; eauto. }
  assert (LP : forall l n, (match g_pre x, pn with Some p, Some n => Some (letter_value (lp_word p), n) | _, _ => None end)
     = Some (l, n) -> canonical_letter l /\ int64_ok n).
  { intros l n E. destruct (g_pre x) as [p|] eqn:Epre; [|discriminate]. destruct pn as [m|]; [|discriminate].
    injection E as <- <-. split; [|eapply PN; eauto]. apply letter_value_canonical.
    assert (wf_lp pre_words p) as (_ & Hw & _) by now apply W. exact Hw. }
  unfold ranged_public. simpl. repeat split.
  - destruct (g_epoch x) as [ep|].
    + apply num_value_range in Ee. apply Ee.
    + injection Ee as <-. lia.
  - destruct (g_epoch x) as [ep|].
    + apply num_value_range in Ee. apply Ee.
    + injection Ee as <-. lia.
  - intros ->. discriminate.
  - exact R1.
  - apply canonical_letter_rank. eapply LP; eauto.
  - eapply LP; eauto.
  - eapply LP; eauto.
  - subst po. eapply PN; eauto.
  - subst po. eapply PN; eauto.
  - subst d. eapply PN; eauto.
  - subst d. eapply PN; eauto.
  - intros l n E. eapply LP; eauto.
  - rewrite Forall_map. apply local_words_word in W. revert W. apply Forall_impl. apply model_seg_parsed.
Qed.

Lemma parsed_canonical v : parsed v -> Forall nonneg_seg (local v) -> canonical v.
Proof.
  intros (H1 & H2 & H3) Hn. split; [exact H1|split; [exact H2|]]. clear H1 H2. revert Hn.
  induction H3 as [|s l Hs H3 IH]; intros Hn; constructor; inversion Hn; subst; auto.
  destruct s; simpl in *; unfold int32_ok; auto. lia.
Qed.
Lemma parsed_wf v : parsed v -> no_overflow v -> wf_version v.
Proof.
  intros (H1 & H2 & H3) [Hp Hn]. split; [split; auto|]. clear H1 H2 Hp.
  induction H3 as [|s l Hs H3 IH]; constructor; inversion Hn; subst; auto.
  destruct s; simpl in *; unfold int32_ok; auto. lia.
Qed.
Theorem parse_wf s v : parse_version s = Some v -> no_overflow v -> wf_version v.
Proof. intros H. apply parsed_wf. eapply parse_result; eauto. Qed.

(** ** String, then parse *)
Definition lp_of (sep l : str) (n : Z) : letterpart :=
  {| lp_sep1 := sep; lp_word := l; lp_sep2 := []; lp_num := itoa n |}.
Definition spell_version (v : version) : surface :=
  {| g_lead := []; g_v := [];
     g_epoch := if (0 <? epoch (pub v))%Z then Some (itoa (epoch (pub v))) else None;
     g_rel0 := hd [] (map itoa (release (pub v)));
     g_rels := tl (map itoa (release (pub v)));
     g_pre := match pre (pub v) with Some (l, n) => Some (lp_of [] l n) | None => None end;
     g_post := match post (pub v) with Some n => Some (PWord (lp_of $"." $"post" n)) | None => None end;
     g_dev := match dev (pub v) with Some n => Some (lp_of $"." $"dev" n) | None => None end;
     g_local := match local v with
                | [] => None
                | s :: l => Some (seg_string s, map (fun s => ("."%char, seg_string s)) l)
                end;
     g_trail := [] |}.

Lemma itoa_number z : (0 <= z)%Z -> number (itoa z).
Proof. intros H. apply all_digits_spec. now apply itoa_digits. Qed.
Lemma itoa_value z : int64_ok z -> num_value (itoa z) = Some z.
Proof.
  intros H. rewrite <- atoi_number by (apply itoa_number; apply H). now apply atoi_itoa.
Qed.
Lemma itoa_opt_value z : int64_ok z -> opt_num_value (itoa z) = Some z.
Proof.
  intros H. pose proof (itoa_number z (proj1 H)) as [Hn _]. rewrite <- itoa_value by auto.
  destruct (itoa z); [congruence|reflexivity].
Qed.
Lemma alnum_word s : s <> [] -> forallb lower_alnum s = true -> word s.
Proof.
  intros H1 H2. split; auto. rewrite forallb_forall in *. intros c Hc. specialize (H2 c Hc).
  clear -H2. unfold lower_alnum in H2. revert c H2. chars.
Qed.
Lemma seg_word s : canonical_seg s -> word (seg_string s).
Proof.
  destruct s as [i|s]; simpl.
  - intros H. destruct (itoa_number i (proj1 H)) as [H1 H2]. apply alnum_word; auto.
    now apply digits_lower_alnum.
  - intros (H1 & H2 & _). now apply alnum_word.
Qed.
Lemma lower_alnum_lower : forall c, lower_alnum c = true -> lower c = c.
Proof. chars. Qed.
Lemma to_lower_alnum s : forallb lower_alnum s = true -> to_lower s = s.
Proof.
  induction s as [|c s IH]; simpl; auto. rewrite andb_true_iff. intros [H1 H2].
  rewrite lower_alnum_lower, IH by auto. reflexivity.
Qed.
Lemma seg_roundtrip s : canonical_seg s -> model_seg (seg_string s) = s.
Proof.
  intros H. destruct s as [i|s]; simpl in *; unfold model_seg, intstr_parse.
  - rewrite to_lower_digits by (apply (itoa_number i (proj1 H))).
    rewrite atoi_itoa by (unfold int32_ok in H; lia).
    now rewrite wrap32_small by (unfold int32_ok in H; lia).
  - destruct H as (H1 & H2 & H3). rewrite to_lower_alnum by auto. now rewrite H3.
Qed.

Lemma render_spell v : release (pub v) <> [] -> render (spell_version v) = version_string v.
Proof.
  intros Hr. unfold render, version_string, public_string, render_epoch, render_release, render_pre,
    render_post, render_dev, render_local, spell_version. simpl.
  rewrite <- !app_assoc. f_equal.
  { now destruct (0 <? epoch (pub v))%Z. }
  destruct (release (pub v)) as [|r0 rs]; [congruence|]. cbn [map hd tl].
  fold (dotted (map itoa rs)). rewrite join_dotted, <- app_assoc. do 2 f_equal.
  f_equal. { destruct (pre (pub v)) as [[l n]|]; reflexivity. }
  f_equal. { destruct (post (pub v)); reflexivity. }
  f_equal. { destruct (dev (pub v)); reflexivity. }
  assert (E : forall l, concat (map (fun p : ascii * str => fst p :: snd p)
                (map (fun s => ("."%char, seg_string s)) l)) = local_string $"." l).
  { induction l as [|s l IH]; auto. simpl in *. now rewrite IH. }
  rewrite app_nil_r. destruct (local v) as [|s l]; auto. cbn [local_string].
  rewrite <- E. reflexivity.
Qed.

Theorem parse_string v : canonical v -> parse_version (version_string v) = Some v.
Proof.
  intros (R & Hl & Hs). destruct R as (R1 & R2 & R3 & R4 & R5 & R6).
  assert (N : Forall number (map itoa (release (pub v)))).
  { rewrite Forall_map. revert R3. apply Forall_impl. intros z H. apply itoa_number, H. }
  rewrite <- render_spell by auto. rewrite parse_render.
  - unfold value_with, spell_version. cbn [g_epoch g_rel0 g_rels g_pre g_post g_dev g_local local_words].
    replace (match (if (0 <? epoch (pub v))%Z then Some (itoa (epoch (pub v))) else None) with
             | Some e => num_value e | None => Some 0%Z end) with (Some (epoch (pub v))).
    2:{ destruct (Z.ltb_spec 0 (epoch (pub v))); [now rewrite itoa_value|]. unfold int64_ok in R1. f_equal. lia. }
    assert (E : hd [] (map itoa (release (pub v))) :: tl (map itoa (release (pub v))) = map itoa (release (pub v)))
      by (destruct (release (pub v)); [congruence|reflexivity]).
    rewrite E.
    assert (NV : nums_value (map itoa (release (pub v))) = Some (release (pub v))).
    { clear -R3. induction R3 as [|z l H R3 IH]; simpl; auto. now rewrite itoa_value, IH. }
    rewrite NV.
    assert (P : part_value (option_map lp_num (match pre (pub v) with Some (l, n) => Some (lp_of [] l n) | None => None end))
                = Some (option_map snd (pre (pub v)))).
    { destruct (pre (pub v)) as [[l n]|] eqn:Ep; [|reflexivity]. simpl.
      rewrite itoa_opt_value; [reflexivity|]. now apply (R4 l n). }
    rewrite P.
    assert (Q : part_value (option_map post_num (match post (pub v) with Some n => Some (PWord (lp_of $"." $"post" n)) | None => None end))
                = Some (post (pub v))).
    { destruct (post (pub v)) as [n|] eqn:Ep; [|reflexivity]. simpl.
      rewrite itoa_opt_value; [reflexivity|]. now apply R5. }
    rewrite Q.
    assert (D : part_value (option_map lp_num (match dev (pub v) with Some n => Some (lp_of $"." $"dev" n) | None => None end))
                = Some (dev (pub v))).
    { destruct (dev (pub v)) as [n|] eqn:Ep; [|reflexivity]. simpl.
      rewrite itoa_opt_value; [reflexivity|]. now apply R6. }
    rewrite D. f_equal.
    destruct v as [[e r p po d] lo]. simpl in *. f_equal.
    + f_equal. destruct p as [[l n]|]; [|reflexivity]. simpl. do 2 f_equal.
      destruct (Hl l n eq_refl) as [->|[->| ->]]; reflexivity.
    + unfold local_words. simpl. destruct Hs as [|s l Hs Hls]; [reflexivity|]. simpl. f_equal.
      * now apply seg_roundtrip.
      * rewrite !map_map. simpl. clear -Hls. induction Hls as [|s l H _ IH]; simpl; auto.
        now rewrite seg_roundtrip, IH.
  - unfold wf_surface, spell_version. cbn [g_lead g_v g_epoch g_rel0 g_rels g_pre g_post g_dev g_local g_trail].
    split; [reflexivity|]. split; [now left|]. split.
    { intros e He. destruct (0 <? epoch (pub v))%Z; [|discriminate]. injection He as <-. apply itoa_number, R1. }
    destruct (release (pub v)) as [|r0 rs]; [congruence|]. cbn [map hd tl] in *. inversion N as [|? ? N1 N2]; subst.
    split; [auto|]. split; [auto|].
    split.
    { intros p Hp. destruct (pre (pub v)) as [[l n]|] eqn:Ep; [|discriminate]. injection Hp as <-.
      unfold wf_lp, lp_of. simpl. split; [now left|]. split; [|split; [now left|]].
      - destruct (Hl l n eq_refl) as [->|[->| ->]]; simpl; tauto.
      - right. apply itoa_number. now apply (R4 l n). }
    split. { intros n Hn. destruct (post (pub v)); discriminate. }
    split.
    { intros p Hp. destruct (post (pub v)) as [n|] eqn:Ep; [|discriminate]. injection Hp as <-.
      unfold wf_lp, lp_of. simpl. split; [right; exists "."%char; auto|]. split; [tauto|split; [now left|]].
      right. apply itoa_number. now apply R5. }
    split.
    { intros p Hp. destruct (dev (pub v)) as [n|] eqn:Ep; [|discriminate]. injection Hp as <-.
      unfold wf_lp, lp_of. simpl. split; [right; exists "."%char; auto|]. split; [tauto|split; [now left|]].
      right. apply itoa_number. now apply R6. }
    split; [|reflexivity].
    intros w l Hw. destruct Hs as [|s ss Hs Hls]; [discriminate|]. injection Hw as <- <-.
    split; [now apply seg_word|]. rewrite Forall_map. simpl. revert Hls. apply Forall_impl.
    intros s' Hs'. split; [reflexivity|]. now apply seg_word.
  - split.
    + simpl. intros p Hp. destruct (pre (pub v)) as [[l n]|] eqn:Ep; [|discriminate]. injection Hp as <-.
      simpl. intros E. destruct (itoa_number n) as [H _]; [now apply (R4 l n)|]. congruence.
    + simpl. intros p Hp. destruct (post (pub v)) as [n|] eqn:Ep; [|discriminate]. injection Hp as <-.
      simpl. intros E. destruct (itoa_number n) as [H _]; [now apply R5|]. congruence.
Qed.

Theorem parse_idempotent s v : parse_version s = Some v -> Forall nonneg_seg (local v) ->
  parse_version (version_string v) = Some v.
Proof. intros H Hn. apply parse_string, parsed_canonical; auto. eapply parse_result; eauto. Qed.

(** ** Ordering of parsed strings *)
Lemma parsed_antisym sa sb a b : parse_version sa = Some a -> parse_version sb = Some b ->
  no_overflow a -> no_overflow b -> Z.sgn (cmp b a) = (- Z.sgn (cmp a b))%Z.
Proof. intros. apply cmp_antisym_sgn; eapply parse_wf; eauto. Qed.
Lemma parsed_refl s a : parse_version s = Some a -> no_overflow a -> cmp a a = 0%Z.
Proof. intros. apply cmp_refl. eapply parse_wf; eauto. Qed.
Lemma parsed_trans sa sb sc a b c :
  parse_version sa = Some a -> parse_version sb = Some b -> parse_version sc = Some c ->
  no_overflow a -> no_overflow b -> no_overflow c ->
  (cmp a b <= 0 -> cmp b c <= 0 -> cmp a c <= 0)%Z.
Proof. intros A B C Ha Hb Hc. apply cmp_le_trans; [apply (parse_wf sa)|apply (parse_wf sb)|apply (parse_wf sc)]; auto. Qed.
Lemma parsed_congruence sa sb sc a b c :
  parse_version sa = Some a -> parse_version sb = Some b -> parse_version sc = Some c ->
  no_overflow a -> no_overflow b -> no_overflow c ->
  cmp a b = 0%Z -> Z.sgn (cmp a c) = Z.sgn (cmp b c).
Proof. intros A B C Ha Hb Hc. apply cmp_eq_subst_sgn; [apply (parse_wf sa)|apply (parse_wf sb)|apply (parse_wf sc)]; auto. Qed.
Lemma parsed_sign sa sb a b : parse_version sa = Some a -> parse_version sb = Some b ->
  no_overflow a -> no_overflow b -> sign (cmp a b) = pep440_compare a b.
Proof. intros. apply cmp_sign; eapply parse_wf; eauto. Qed.

Lemma reparse_fails : exists s v, parse_version s = Some v /\ parse_version (version_string v) = None.
Proof.
  exists $"1+2147483648", {| pub := mkPublic 0 [1%Z] None None None; local := [SInt (-2147483648)] |}.
  split; vm_compute; reflexivity.
Qed.

(** Two derivations of one string have the same meaning. *)
Lemma grammar_unambiguous x y : wf_surface x -> munch x -> locals_fit x ->
  wf_surface y -> munch y -> locals_fit y -> render x = render y -> value x = value y.
Proof. intros. rewrite <- !parse_render_value by auto. congruence. Qed.

Definition example_surface : surface :=
  {| g_lead := $" "; g_v := $"v"; g_epoch := Some $"1"; g_rel0 := $"02"; g_rels := [$"0"; $"10"];
     g_pre := Some {| lp_sep1 := $"-"; lp_word := $"Alpha"; lp_sep2 := $"_"; lp_num := [] |};
     g_post := Some (PDash $"7");
     g_dev := Some {| lp_sep1 := $"."; lp_word := $"DEV"; lp_sep2 := []; lp_num := $"003" |};
     g_local := Some ($"Ubuntu", [("-"%char, $"016"); ("_"%char, $"x86")]);
     g_trail := [] |}.
Lemma example_surface_ok : wf_surface example_surface /\ munch example_surface /\
  locals_fit example_surface /\ numbers_fit example_surface /\
  render example_surface = $" v1!02.0.10-Alpha_-7.DEV003+Ubuntu-016_x86" /\
  value example_surface =
    Some {| pub := {| epoch := 1; release := [2; 0; 10]; pre := Some ($"a", 0);
                      post := Some 7; dev := Some 3 |};
            local := [SStr $"ubuntu"; SInt 16; SStr $"x86"] |}%Z.
Proof.
  split.
  { unfold wf_surface, example_surface. simpl.
    assert (N : forall n, n <> [] -> forallb is_digit n = true -> number n) by (split; auto).
    assert (W : forall w, w <> [] -> forallb (fun c => is_lower_alpha (lower c) || is_digit c) w = true -> word w)
      by (split; auto).
    split; [reflexivity|]. split; [auto|].
    split. { intros e E. injection E as <-. now apply N. }
    split; [now apply N|]. split; [repeat constructor; congruence|].
    split. { intros p E. injection E as <-. repeat split; simpl; auto.
             - right. exists "-"%char. auto.
             - tauto.
             - right. exists "_"%char. auto.
             - now left. }
    split. { intros n E. injection E as <-. now apply N. }
    split; [discriminate|].
    split. { intros p E. injection E as <-. repeat split; simpl; auto.
             - right. exists "."%char. auto.
             - now left.
             - right. now apply N. }
    split; [|reflexivity].
    intros w l E. injection E as <- <-. split; [now apply W|].
    repeat constructor; simpl; congruence. }
  split. { split; simpl; intros p E; [injection E as <-; simpl; congruence|discriminate]. }
  split. { repeat (constructor; [intros H; vm_compute; try reflexivity; discriminate H|]). constructor. }
  split. { repeat (constructor; [vm_compute; reflexivity|]). constructor. }
  split; reflexivity.
Qed.
Lemma example_canonical : exists v, parse_version (render example_surface) = Some v /\
  canonical v /\ Forall nonneg_seg (local v).
Proof.
  destruct example_surface_ok as (W & Hm & Hl & _ & _ & E). eexists. split.
  { rewrite parse_render_value by auto. exact E. }
  assert (N : Forall nonneg_seg [SStr $"ubuntu"; SInt 16; SStr $"x86"])
    by (repeat (apply Forall_cons; [simpl; auto; lia|]); constructor).
  split; [|exact N].
  apply parsed_canonical; [|exact N]. apply (parse_result (render example_surface)).
  rewrite parse_render_value by auto. exact E.
Qed.
