(** Proofs about the package-index client. *)
From Coq Require Import String Ascii List Bool ZArith NArith Lia Permutation Sorting.Sorted.
From Verif.Model Require Import GoStr GoPath Regex Pep440 Specifier Pep345 WheelName SimpleAPI.
From Verif.Spec Require Import Pep440Spec VersionGrammar SpecifierSpec WheelNameSpec PathSpec SimpleAPISpec.
From Verif.Proofs Require Import Order Pep440Cmp GoStrFacts RegexFacts Pep440Parse Pep440Sound SpecifierMatch GoPathFacts WheelNameFacts.
Import ListNotations.
Open Scope Z_scope.
Local Arguments byte_eqb : simpl never.
Local Arguments str_eqb : simpl never.
Local Arguments Z.compare : simpl never.
Local Arguments N.ltb : simpl never.

(** ** Trees *)
Fixpoint node_ind2 (P : node -> Prop)
    (H : forall ty d a ch, Forall P ch -> P (Node ty d a ch)) (n : node) : P n :=
  match n with
  | Node ty d a ch => H ty d a ch ((fix go l : Forall P l :=
      match l with [] => Forall_nil _ | c :: l' => Forall_cons _ (node_ind2 P H c) (go l') end) ch)
  end.
Lemma is_element_anchor n : is_element $"a" n = true <-> anchor n.
Proof.
  unfold is_element, anchor. destruct (n_type n); split; try (intros [? _]; discriminate); try discriminate.
  - intros H. apply str_eqb_eq in H. auto.
  - intros [_ H]. now apply str_eqb_eq.
Qed.
Lemma in_visit n doc : In n (visit_after doc) <-> within n doc.
Proof.
  induction doc as [ty d a ch IH] using node_ind2. cbn [visit_after]. rewrite in_app_iff, in_flat_map. split.
  - intros [(c & Hc & H)|[<-|[]]]; [|constructor]. econstructor; eauto. rewrite Forall_forall in IH. now apply IH.
  - intros H. inversion H as [|? ? ? ? c Hc Hn]; subst; [right; now left|]. left. exists c. split; auto.
    rewrite Forall_forall in IH. now apply IH.
Qed.
Lemma in_document n doc : In n (document_order doc) <-> within n doc.
Proof.
  induction doc as [ty d a ch IH] using node_ind2. cbn [document_order]. split.
  - intros [<-|H]; [constructor|]. apply in_flat_map in H as (c & Hc & H). econstructor; eauto.
    rewrite Forall_forall in IH. now apply IH.
  - intros H. inversion H as [|? ? ? ? c Hc Hn]; subst; [now left|]. right. apply in_flat_map. exists c. split; auto.
    rewrite Forall_forall in IH. now apply IH.
Qed.
(** If nothing below a selected node is selected, then the selected nodes come
    in the same order in both traversals. *)
Lemma filter_nil {A} (f : A -> bool) l : (forall x, In x l -> f x = false) -> filter f l = [].
Proof. induction l as [|x l IH]; auto. intros H. cbn [filter]. rewrite H by now left. apply IH. intros; apply H. now right. Qed.
Lemma filter_flat_map {A B} (f : B -> bool) (g : A -> list B) l :
  filter f (flat_map g l) = flat_map (fun x => filter f (g x)) l.
Proof. induction l as [|x l IH]; auto. cbn [flat_map]. now rewrite filter_app, IH. Qed.
Lemma order_agree (f : node -> bool) doc :
  (forall a c b, within a doc -> f a = true -> In c (n_children a) -> within b c -> f b = false) ->
  filter f (visit_after doc) = filter f (document_order doc).
Proof.
  induction doc as [ty d at_ ch IH] using node_ind2. intros H. cbn [visit_after document_order].
  rewrite filter_app. cbn [filter]. destruct (f (Node ty d at_ ch)) eqn:E.
  - rewrite !filter_nil; auto.
    + intros x Hx. apply in_flat_map in Hx as (c & Hc & Hx). apply in_document in Hx.
      apply (H (Node ty d at_ ch) c x); auto. constructor.
    + intros x Hx. apply in_flat_map in Hx as (c & Hc & Hx). apply in_visit in Hx.
      apply (H (Node ty d at_ ch) c x); auto. constructor.
  - rewrite app_nil_r, !filter_flat_map.
    assert (K : forall c, In c ch -> filter f (visit_after c) = filter f (document_order c)).
    { intros c Hc. rewrite Forall_forall in IH. apply IH; auto. intros a c' b Ha Fa Hc' Hb.
      eapply H; eauto. econstructor; eauto. }
    clear -K. induction ch as [|c ch IHch]; auto. cbn [flat_map]. rewrite K by now left.
    rewrite IHch; auto. intros; apply K. now right.
Qed.
Lemma within_trans a b c : within a b -> within b c -> within a c.
Proof. intros H1 H2. induction H2; auto. econstructor; eauto. Qed.
Lemma link_text_spec n : (forall t, within t n -> n_type t = TextNode -> n_children t = []) ->
  link_text n = text_content n.
Proof.
  intros H. unfold link_text, text_content. rewrite <- (order_agree is_text).
  - induction (visit_after n) as [|x l IH]; auto. cbn [flat_map filter]. rewrite IH. unfold is_text at 2.
    destruct (n_type x); auto.
  - intros a c b Ha Fa Hc Hb. unfold is_text in Fa. destruct (n_type a) eqn:E; try discriminate.
    rewrite (H a Ha E) in Hc. contradiction.
Qed.

(** ** Links *)
Lemma link_attrs_spec resolve l : forall href data,
  match link_attrs resolve l href data with
  | None => exists a, In a l /\ a_ns a = [] /\ a_key a = $"href" /\ resolve (a_val a) = None
  | Some (h, d) =>
      (forall a, In a l -> a_ns a = [] -> a_key a = $"href" -> resolve (a_val a) <> None) /\
      match attribute $"href" l with Some v => resolve v = Some h | None => h = href end /\
      forall key, lookup key d =
        match (if has_prefix $"data-" key then attribute key l else None) with
        | Some v => Some v | None => lookup key data end
  end.
Proof.
  induction l as [|a l IH]; intros href data; cbn [link_attrs attribute].
  - split; [intros ? []|]. split; auto. intros key. now destruct (has_prefix $"data-" key).
  - destruct (str_eqb (a_ns a) [] && str_eqb (a_key a) $"href") eqn:E1.
    + apply andb_true_iff in E1 as [E1 E2]. apply str_eqb_eq in E1, E2.
      destruct (resolve (a_val a)) as [h|] eqn:R; [|exists a; split; [now left|auto]].
      specialize (IH h data). destruct (link_attrs resolve l h data) as [[h' d']|].
      * destruct IH as (B & H1 & H2). split.
        { intros x [<-|Hx] N K; [congruence|now apply B]. }
        split.
        -- destruct (attribute $"href" l); auto. now subst h'.
        -- intros key. rewrite H2. destruct (has_prefix $"data-" key) eqn:P; auto.
           destruct (attribute key l); auto.
           destruct (str_eqb (a_ns a) [] && str_eqb (a_key a) key) eqn:E; auto.
           apply andb_true_iff in E as [_ E]. apply str_eqb_eq in E. rewrite <- E, E2 in P. discriminate.
      * destruct IH as (x & Hx & Q). exists x. split; [now right|auto].
    + assert (NB : a_ns a = [] -> a_key a = $"href" -> False).
      { intros N K. rewrite N, K in E1. discriminate. }
      destruct (str_eqb (a_ns a) [] && has_prefix $"data-" (a_key a)) eqn:E2.
      * apply andb_true_iff in E2 as [E2 E3].
        specialize (IH href ((a_key a, a_val a) :: data)).
        destruct (link_attrs resolve l href _) as [[h' d']|].
        -- destruct IH as (B & H1 & H2). split.
           { intros x [<-|Hx] N K; [exfalso; auto|now apply B]. }
           split; [destruct (attribute $"href" l); auto|].
           intros key. rewrite H2. cbn [lookup]. rewrite E2. cbn [andb].
           destruct (str_eqb (a_key a) key) eqn:E.
           ++ apply str_eqb_eq in E. subst key. rewrite E3. destruct (attribute (a_key a) l); auto.
           ++ destruct (has_prefix $"data-" key); auto. destruct (attribute key l); auto.
        -- destruct IH as (x & Hx & Q). exists x. split; [now right|auto].
      * specialize (IH href data). destruct (link_attrs resolve l href data) as [[h' d']|].
        -- destruct IH as (B & H1 & H2). split.
           { intros x [<-|Hx] N K; [exfalso; auto|now apply B]. }
           split; [destruct (attribute $"href" l); auto|].
           intros key. rewrite H2. destruct (has_prefix $"data-" key) eqn:P; auto.
           destruct (attribute key l); auto.
           destruct (str_eqb (a_ns a) []) eqn:N; auto. cbn [andb] in *.
           destruct (str_eqb (a_key a) key) eqn:E; auto. apply str_eqb_eq in E. congruence.
        -- destruct IH as (x & Hx & Q). exists x. split; [now right|auto].
Qed.
Lemma collect_links_spec resolve l :
  (forall n, In n l -> anchor n -> link_text n = text_content n) ->
  match collect_links resolve l with
  | None => exists n, In n l /\ anchor n /\ bad_href resolve n
  | Some links => Forall2 (link_of resolve) (filter (is_element $"a") l) links /\
                  forall n, In n l -> anchor n -> ~ bad_href resolve n
  end.
Proof.
  induction l as [|n l IH]; intros T; cbn [collect_links filter].
  - split; [constructor|]. intros ? [].
  - specialize (IH (fun n' H => T n' (or_intror H))).
    destruct (is_element $"a" n) eqn:E.
    + apply is_element_anchor in E. pose proof (link_attrs_spec resolve (n_attrs n) [] []) as L.
      destruct (link_attrs resolve (n_attrs n) [] []) as [[h d]|].
      * destruct L as (B & L1 & L2). destruct (collect_links resolve l) as [links|].
        -- destruct IH as [IH1 IH2]. split.
           ++ constructor; auto. split; [cbn [l_text]; apply T; auto; now left|]. cbn [l_href l_attrs]. split.
              ** destruct (attribute $"href" (n_attrs n)); auto.
              ** intros key. rewrite L2. cbn [lookup]. destruct (has_prefix _ key); auto. now destruct (attribute key (n_attrs n)).
           ++ intros n' [<-|Hn] An (a & Ha & N & K & R); [now apply (B a)|]. apply (IH2 n'); auto. exists a. auto.
        -- destruct IH as (n' & Hn & An & Bn). exists n'. split; [now right|auto].
      * exists n. split; [now left|]. split; auto.
    + destruct (collect_links resolve l) as [links|].
      * destruct IH as [IH1 IH2]. split; auto. intros n' [<-|Hn] An; [|auto].
        apply is_element_anchor in An. congruence.
      * destruct IH as (n' & Hn & An & Bn). exists n'. split; [now right|auto].
Qed.
Theorem page_links resolve doc : html_page doc ->
  match collect_links resolve (visit_after doc) with
  | None => exists n, within n doc /\ anchor n /\ bad_href resolve n
  | Some links => Forall2 (link_of resolve) (filter (is_element $"a") (document_order doc)) links
  end.
Proof.
  intros [H1 H2]. pose proof (collect_links_spec resolve (visit_after doc)) as L.
  destruct (collect_links resolve (visit_after doc)) as [links|].
  - destruct L as [L _].
    + intros n Hn _. apply in_visit in Hn. apply link_text_spec. intros t Ht. apply H1. eapply within_trans; eauto.
    + rewrite <- order_agree; auto. intros a c b Ha Fa Hc Hb. apply is_element_anchor in Fa.
      destruct (is_element $"a" b) eqn:E; auto. apply is_element_anchor in E. exfalso. eapply H2; eauto.
  - destruct L as (n & Hn & L).
    + intros n Hn _. apply in_visit in Hn. apply link_text_spec. intros t Ht. apply H1. eapply within_trans; eauto.
    + apply in_visit in Hn. eauto.
Qed.
Theorem page_links_fail resolve doc : html_page doc ->
  (collect_links resolve (visit_after doc) = None <-> exists n, within n doc /\ anchor n /\ bad_href resolve n).
Proof.
  intros [H1 H2]. pose proof (collect_links_spec resolve (visit_after doc)) as L.
  assert (T : forall n, In n (visit_after doc) -> anchor n -> link_text n = text_content n).
  { intros n Hn _. apply in_visit in Hn. apply link_text_spec. intros t Ht. apply H1. eapply within_trans; eauto. }
  specialize (L T). destruct (collect_links resolve (visit_after doc)) as [links|].
  - destruct L as [_ L]. split; [discriminate|]. intros (n & Hn & An & Bn). apply in_visit in Hn. exfalso. eapply L; eauto.
  - split; auto. intros _. destruct L as (n & Hn & L). apply in_visit in Hn. eauto.
Qed.

(** ** Names *)
Lemma name_char_valid s : forallb name_char s = true <-> valid_name s.
Proof.
  unfold valid_name. rewrite forallb_forall. split; intros H c Hc; specialize (H c Hc); revert H; unfold name_char;
  rewrite !orb_true_iff, !andb_true_iff, !N.leb_le, !byte_eqb_eq; intuition auto.
Qed.
Theorem normalize_idem s : normalize (normalize s) = normalize s.
Proof.
  unfold normalize, replace_runs. rewrite replace_runs_lower, to_lower_idem. f_equal.
  apply (replace_runs_idem "-"%char s). reflexivity.
Qed.
Lemma replace_runs_chars c b s : In c (replace_runs_from b $"-" s) -> c = "-"%char \/ (In c s /\ name_sep c = false).
Proof.
  revert b. induction s as [|x s IH]; intros b; cbn [replace_runs_from]; [intros []|].
  destruct (in_set $"-_." x) eqn:E; intros H.
  - apply in_app_or in H as [H|H].
    + destruct b; [contradiction|]. destruct H as [<-|[]]. now left.
    + apply IH in H as [H|[H1 H2]]; auto. right. split; auto. now right.
  - destruct H as [<-|H]; [right; split; [now left|exact E]|]. apply IH in H as [H|[H1 H2]]; auto. right. split; auto. now right.
Qed.
(** a lower-case letter, a digit or a dash *)
Definition lname (c : ascii) : bool :=
  ((97 <=? code c) && (code c <=? 122) || (48 <=? code c) && (code c <=? 57))%N || byte_eqb c "-"%char.
Lemma lname_lower : forall c, implb (name_char c && negb (name_sep c)) (lname (lower c)) = true.
Proof. chars. Qed.
Lemma normalize_chars s : valid_name s -> forallb lname (normalize s) = true.
Proof.
  intros H. apply name_char_valid in H. rewrite forallb_forall in *. unfold normalize, to_lower. intros c Hc.
  apply in_map_iff in Hc as (x & <- & Hx). apply replace_runs_chars in Hx as [->|[H1 H2]]; [reflexivity|].
  apply H in H1. pose proof (lname_lower x) as L. rewrite H1, H2 in L. exact L.
Qed.
Lemma lname_ok : forall c, implb (lname c) (negb (byte_eqb c "/") && negb (byte_eqb c ".")) = true.
Proof. chars. Qed.
Theorem normalize_plain s : valid_name s -> s <> [] -> plain_comp (normalize s).
Proof.
  intros H Hn. pose proof (normalize_chars s H) as N. rewrite forallb_forall in N.
  assert (P : forall c, In c (normalize s) -> c <> "/"%char /\ c <> "."%char).
  { intros c Hc. apply N in Hc. pose proof (lname_ok c) as L. rewrite Hc in L. cbn [implb] in L.
    apply andb_true_iff in L as [L1 L2]. apply negb_true_iff in L1, L2. apply byte_eqb_neq in L1, L2. auto. }
  split; [|split; [|split]].
  - destruct s as [|x s]; [congruence|]. unfold normalize, replace_runs. cbn [replace_runs_from].
    destruct (in_set $"-_." x); discriminate.
  - intros Q. now apply P in Q.
  - intros E. rewrite E in P. destruct (P "."%char); [now left|congruence].
  - intros E. rewrite E in P. destruct (P "."%char); [now left|congruence].
Qed.
Theorem list_invalid e name : ~ valid_name name -> list_package_files e name = ([], None).
Proof.
  intros H. unfold list_package_files. destruct (forallb name_char name) eqn:E; auto.
  apply name_char_valid in E. contradiction.
Qed.
Theorem list_request e name : valid_name name -> name <> [] -> e_base_path e <> [] ->
  fst (list_package_files e name) =
    [e_base_url e ++ path_text (is_abs (e_base_path e)) (clean_comps (e_base_path e) ++ [normalize name])].
Proof.
  intros H Hn Hb. unfold list_package_files. pose proof (proj2 (name_char_valid name) H) as E. rewrite E.
  cbn [negb fst]. unfold package_url. rewrite join_plain1; auto. now apply normalize_plain.
Qed.

(** ** Requires-Python *)
Lemma keep_link_spec py l : keep_link py l = true <-> acceptable py l.
Proof.
  unfold keep_link, acceptable. destruct py as [v|]; [|split; [intros _ ? ? [=]|auto]].
  destruct (lookup $"data-requires-python" (l_attrs l)) as [req|]; [|split; [intros _ ? ? _ [=]|auto]].
  destruct (str_eqb req []) eqn:E.
  - apply str_eqb_eq in E. subst. split; auto. intros _ v' req' _ [= <-]. congruence.
  - apply str_eqb_neq in E. split.
    + intros H v' req' [= <-] [= <-] _ C. now rewrite C in H.
    + intros H. specialize (H v req eq_refl eq_refl E). destruct (have_required_python v req) as [[]|]; congruence.
Qed.
Theorem list_filters e name reqs links : list_package_files e name = (reqs, Some links) ->
  exists url page keep, reqs = [url] /\ get_index e url = Some page /\
    (forall l, keep l = true <-> acceptable (e_python e) l) /\ links = filter keep page.
Proof.
  unfold list_package_files. destruct (forallb name_char name); cbn [negb]; [|intros [=]].
  destruct (get_index e (package_url e name)) as [page|] eqn:E; intros [= <- <-].
  exists (package_url e name), page, (keep_link (e_python e)). split; auto. split; auto. split; auto.
  intros l. apply keep_link_spec.
Qed.

(** ** Downloads *)
Lemma unescape_plain plus s : ~ In "%"%char s -> (plus = true -> ~ In "+"%char s) -> unescape plus s = Some s.
Proof.
  intros H1 H2. induction s as [|c s IH]; auto. cbn [unescape].
  destruct (byte_eqb c "%") eqn:E; [apply byte_eqb_eq in E; subst; exfalso; apply H1; now left|].
  rewrite IH.
  - destruct plus; auto. destruct (byte_eqb c "+") eqn:F; auto. apply byte_eqb_eq in F. subst.
    exfalso. apply (H2 eq_refl). now left.
  - intros Q. apply H1. now right.
  - intros P Q. apply (H2 P). now right.
Qed.
Definition plain_piece (s : str) : Prop := ~ In "%"%char s /\ ~ In "+"%char s /\ ~ In ";"%char s.
Lemma plain_piece_app a b : plain_piece (a ++ b) <-> plain_piece a /\ plain_piece b.
Proof. unfold plain_piece. rewrite !in_app_iff. tauto. Qed.
Lemma cut_parts c s : (fst (cut c s)) ++ match snd (cut c s) with Some t => c :: t | None => [] end = s.
Proof.
  induction s as [|x s IH]; auto. cbn [cut]. destruct (byte_eqb c x) eqn:E.
  - apply byte_eqb_eq in E. now subst.
  - destruct (cut c s) as [a b]. cbn [fst snd] in *. cbn [app]. now rewrite IH.
Qed.
Lemma parse_pieces_plain l : Forall plain_piece l ->
  snd (parse_pieces l) = true /\
  forall k v, In (k ++ "="%char :: v) l -> ~ In "="%char k -> In (k, v) (fst (parse_pieces l)).
Proof.
  induction 1 as [|s l Hs Hl [IH1 IH2]]; [split; auto; intros k v []|].
  cbn [parse_pieces]. destruct (parse_pieces l) as [m ok]. cbn [fst snd] in *.
  destruct (contains_byte ";" s) eqn:C.
  { exfalso. apply contains_byte_spec in C. destruct Hs as (_ & _ & Hs). contradiction. }
  destruct s as [|x s].
  - split; auto. intros k v [E|H] N; [destruct k; discriminate|auto].
  - pose proof (cut_parts "="%char (x :: s)) as P. set (kv := cut "="%char (x :: s)) in *.
    destruct kv as [k0 v0] eqn:Ekv. cbn [fst snd] in P.
    assert (P1 : plain_piece k0 /\ plain_piece (match v0 with Some v => v | None => [] end)).
    { rewrite <- P in Hs. apply plain_piece_app in Hs as [Hk Hv]. split; auto. destruct v0 as [v0|]; auto.
      change ("="%char :: v0) with (["="%char] ++ v0) in Hv. now apply plain_piece_app in Hv. }
    destruct P1 as [(K1 & K2 & _) (V1 & V2 & _)].
    rewrite (unescape_plain true k0), (unescape_plain true (match v0 with Some v => v | None => [] end)) by auto.
    cbn [fst snd]. split; auto. intros k v [E|H] N.
    + left. subst kv. rewrite E, cut_app in Ekv by auto. now injection Ekv as <- <-.
    + right. auto.
Qed.
Lemma split_on_forall {P : str -> Prop} c s : (forall a b, P (a ++ b) -> P a /\ P b) -> P s -> Forall P (split_on c s).
Proof.
  intros HP. rewrite <- (join_split_on c s) at 1. induction (split_on c s) as [|x l IH]; intros H; auto.
  destruct l as [|y l]; [constructor; auto; constructor|]. cbn [join] in H. apply HP in H as [H1 H].
  apply HP in H as [_ H]. constructor; auto.
Qed.
Theorem get_checked e url before frag content k v h :
  url = before ++ $"#" ++ frag -> ~ In "#"%char before ->
  ~ In "%"%char frag -> ~ In "+"%char frag -> ~ In ";"%char frag ->
  get e url = Some content ->
  piece_by "&"%char (k ++ $"=" ++ v) frag -> ~ In "="%char k -> e_hash e k = Some h ->
  h content = v.
Proof.
  intros -> HB F1 F2 F3 G Hp Hk Hh. unfold get, url_fragment in G.
  change ($"#" ++ frag) with ("#"%char :: frag) in G. rewrite cut_app in G by auto. cbn [fst] in G.
  rewrite unescape_plain in G by (auto; discriminate).
  destruct (negb (e_url_ok e before)); [discriminate|].
  destruct (e_fetch e _) as [[st c]|]; [|discriminate]. destruct (negb (st =? 200)); [discriminate|].
  apply split_piece_by in Hp. destruct frag as [|x frag].
  { cbn [split_on] in Hp. destruct Hp as [E|[]]. destruct k; discriminate. }
  assert (PP : Forall plain_piece (split_on "&"%char (x :: frag))).
  { apply split_on_forall; [intros a b; apply plain_piece_app|]. now repeat split. }
  destruct (parse_pieces_plain _ PP) as [Q1 Q2]. cbn [parse_query] in G.
  destruct (parse_pieces (split_on "&"%char (x :: frag))) as [kvs ok]. cbn [fst snd] in *. subst ok. cbn [andb] in G.
  destruct (forallb (checksum_ok e c) kvs) eqn:FB; [|discriminate]. injection G as ->.
  rewrite forallb_forall in FB. specialize (FB (k, v) (Q2 k v Hp Hk)). unfold checksum_ok in FB. cbn [fst snd] in FB.
  rewrite Hh in FB. now apply str_eqb_eq.
Qed.
Lemma cut_no_sep c s : ~ In c (fst (cut c s)).
Proof.
  induction s as [|x s IH]; [intros []|]. cbn [cut]. destruct (byte_eqb c x) eqn:E; [intros []|].
  destruct (cut c s) as [a b]. cbn [fst] in *. intros [->|H]; auto. now rewrite byte_eqb_refl in E.
Qed.
Lemma parse_pieces_plain_inv l : Forall plain_piece l -> forall k v, In (k, v) (fst (parse_pieces l)) ->
  ~ In "="%char k /\ (In (k ++ "="%char :: v) l \/ (v = [] /\ In k l)).
Proof.
  induction 1 as [|s l Hs Hl IH]; [intros k v []|]. intros k v.
  cbn [parse_pieces]. destruct (parse_pieces l) as [m ok]. cbn [fst snd] in *.
  assert (R : In (k, v) m -> ~ In "="%char k /\ (In (k ++ "="%char :: v) (s :: l) \/ v = [] /\ In k (s :: l))).
  { intros H. destruct (IH _ _ H) as [A [B|[B C]]]; split; auto; [left|right; split]; cbn [In]; auto. }
  destruct (contains_byte ";" s) eqn:C; [exact R|].
  destruct s as [|x s]; [exact R|].
  pose proof (cut_parts "="%char (x :: s)) as P. pose proof (cut_no_sep "="%char (x :: s)) as Q.
  set (kv := cut "="%char (x :: s)) in *.
  destruct kv as [k0 v0] eqn:Ekv. cbn [fst snd] in P, Q.
  assert (P1 : plain_piece k0 /\ plain_piece (match v0 with Some v => v | None => [] end)).
  { rewrite <- P in Hs. apply plain_piece_app in Hs as [Hk Hv]. split; auto. destruct v0 as [v0|]; auto.
    change ("="%char :: v0) with (["="%char] ++ v0) in Hv. now apply plain_piece_app in Hv. }
  destruct P1 as [(K1 & K2 & _) (V1 & V2 & _)].
  rewrite (unescape_plain true k0), (unescape_plain true (match v0 with Some v => v | None => [] end)) by auto.
  cbn [fst]. intros [E|H]; [|auto]. injection E as <- <-. split; auto. destruct v0 as [v0|].
  - left. left. now rewrite <- P.
  - right. split; auto. left. rewrite <- P. now rewrite app_nil_r.
Qed.
Theorem get_accepted e url before frag content :
  url = before ++ $"#" ++ frag -> ~ In "#"%char before ->
  ~ In "%"%char frag -> ~ In "+"%char frag -> ~ In ";"%char frag ->
  e_url_ok e before = true -> e_fetch e url = Some (200, content) ->
  (forall k v h, piece_by "&"%char (k ++ $"=" ++ v) frag -> ~ In "="%char k -> e_hash e k = Some h -> h content = v) ->
  (forall k, piece_by "&"%char k frag -> ~ In "="%char k -> e_hash e k = None) ->
  get e url = Some content.
Proof.
  intros -> HB F1 F2 F3 HU HF HC HN. unfold get, url_fragment.
  change ($"#" ++ frag) with ("#"%char :: frag) in *. rewrite cut_app by auto. cbn [fst].
  rewrite unescape_plain by (auto; discriminate). rewrite HU, HF. cbn [negb]. change (200 =? 200) with true. cbn [negb].
  destruct frag as [|x frag]; auto.
  assert (PP : Forall plain_piece (split_on "&"%char (x :: frag))).
  { apply split_on_forall; [intros a b; apply plain_piece_app|]. now repeat split. }
  pose proof (parse_pieces_plain_inv _ PP) as Q. cbn [parse_query].
  destruct (parse_pieces (split_on "&"%char (x :: frag))) as [kvs ok]. cbn [fst] in Q.
  replace (forallb (checksum_ok e content) kvs) with true; [now rewrite andb_false_r|]. symmetry.
  rewrite forallb_forall. intros [k v] Hkv. destruct (Q _ _ Hkv) as [A [B|[B C]]]; unfold checksum_ok; cbn [fst snd].
  - destruct (e_hash e k) as [h|] eqn:Eh; auto. apply str_eqb_eq. apply (HC k v h); auto. now apply split_piece_by.
  - rewrite (HN k); auto. now apply split_piece_by.
Qed.
Theorem get_content e url content : get e url = Some content -> e_fetch e url = Some (200, content).
Proof.
  unfold get. destruct (negb (e_url_ok e _)); [discriminate|]. destruct (url_fragment url) as [frag|]; [|discriminate].
  destruct (e_fetch e url) as [[st c]|]; [|discriminate]. destruct (st =? 200) eqn:E; [|discriminate].
  apply Z.eqb_eq in E. subst. cbn [negb]. destruct frag as [|x frag]; [congruence|].
  destruct (parse_query (x :: frag)) as [kvs ok]. destruct (ok && negb (forallb (checksum_ok e c) kvs)); congruence.
Qed.
(** The gap: any ill-formed piece in the fragment disables the check. *)
Definition sample_env (h : str -> str) : env :=
  {| e_base_url := $"https://pypi.org"; e_base_path := $"/simple/"; e_url_ok := fun _ => true;
     e_fetch := fun _ => Some (200, $"evil"); e_parse_html := fun _ => None; e_resolve := fun _ h => Some h;
     e_hook := fun _ => true; e_hash := fun k => if str_eqb k $"sha256" then Some h else None;
     e_python := None |}.
Theorem get_unchecked (h : str -> str) : h $"evil" <> $"00" ->
  get (sample_env h) $"https://host/x.whl#sha256=00&a=b;c" = Some $"evil" /\
  get (sample_env h) $"https://host/x.whl#sha256=00" = None.
Proof.
  intros H. split; [reflexivity|].
  replace (get (sample_env h) $"https://host/x.whl#sha256=00") with (if true && negb (str_eqb (h $"evil") $"00" && true) then None else Some $"evil") by reflexivity.
  apply str_eqb_neq in H. now rewrite H.
Qed.

(** ** Signatures *)
Theorem signature_requests e l :
  fst (get_signature e l) = (if match lookup $"data-gpg-sig" (l_attrs l) with Some v => str_eqb v $"false" | None => false end
                             then [] else [l_href l]).
Proof. unfold get_signature. destruct (lookup $"data-gpg-sig" (l_attrs l)) as [v|]; auto. now destruct (str_eqb v $"false"). Qed.
Theorem signature_none e l : lookup $"data-gpg-sig" (l_attrs l) = Some $"false" -> get_signature e l = ([], None).
Proof. unfold get_signature. now intros ->. Qed.
Theorem signature_wrong_url e l : ~ In (l_href l ++ $".asc") (fst (get_signature e l)).
Proof.
  rewrite signature_requests. destruct (match lookup _ _ with Some _ => _ | None => _ end); [intros []|].
  intros [H|[]]. assert (L : length (l_href l) = length (l_href l ++ $".asc")) by now rewrite H at 1.
  rewrite app_length in L. cbn in L. lia.
Qed.

(** ** Yanked; repository version *)
Theorem yanked_spec resolve n l : link_of resolve n l ->
  (is_yanked l = true <-> exists v, attribute $"data-yanked" (n_attrs n) = Some v).
Proof.
  intros (_ & _ & H). unfold is_yanked. rewrite (H $"data-yanked").
  change (has_prefix $"data-" $"data-yanked") with true. cbn iota.
  destruct (attribute $"data-yanked" (n_attrs n)); cbn [is_some]; split; try discriminate; eauto. intros [? ?]; discriminate.
Qed.
Definition version_step (n : node) (ver : str) : str :=
  if negb (is_element $"meta" n) then ver
  else if negb (str_eqb (match get_attr [] $"name" (n_attrs n) with Some v => v | None => [] end) $"pypi:repository-version")
  then ver else match get_attr [] $"content" (n_attrs n) with Some v => v | None => ver end.
Lemma version_step_spec n ver : version_step n ver = ver \/ exists v, version_step n ver = v /\
  n_type n = ElementNode /\ n_data n = $"meta" /\
    get_attr [] $"name" (n_attrs n) = Some $"pypi:repository-version" /\ get_attr [] $"content" (n_attrs n) = Some v.
Proof.
  unfold version_step. destruct (is_element $"meta" n) eqn:E; auto. cbn [negb].
  destruct (get_attr [] $"name" (n_attrs n)) as [nm|]; auto.
  destruct (str_eqb nm $"pypi:repository-version") eqn:F; auto. cbn [negb]. apply str_eqb_eq in F. subst.
  destruct (get_attr [] $"content" (n_attrs n)) as [v|] eqn:G; auto. right. exists v.
  unfold is_element in E. destruct (n_type n) eqn:T; try discriminate. apply str_eqb_eq in E. auto.
Qed.
Lemma version_step_hit n ver v : n_type n = ElementNode -> n_data n = $"meta" ->
    get_attr [] $"name" (n_attrs n) = Some $"pypi:repository-version" -> get_attr [] $"content" (n_attrs n) = Some v ->
  version_step n ver = v.
Proof. intros H1 H2 H3 H4. unfold version_step, is_element. now rewrite H1, H2, H3, H4. Qed.
Lemma version_text_fold l ver : version_text l ver = fold_left (fun a n => version_step n a) l ver.
Proof. revert ver. induction l as [|n l IH]; intros ver; [reflexivity|]. apply IH. Qed.
Lemma version_text_none l ver : (forall n v, In n l -> ~ (n_type n = ElementNode /\ n_data n = $"meta" /\
    get_attr [] $"name" (n_attrs n) = Some $"pypi:repository-version" /\ get_attr [] $"content" (n_attrs n) = Some v)) ->
  version_text l ver = ver.
Proof.
  rewrite version_text_fold. revert ver. induction l as [|n l IH]; intros ver H; auto. cbn [fold_left].
  destruct (version_step_spec n ver) as [->|(v & _ & Q)].
  - apply IH. intros; apply H. now right.
  - exfalso. eapply H; [now left|exact Q].
Qed.
Lemma version_text_some l w : forall ver, (forall n v, In n l -> n_type n = ElementNode /\ n_data n = $"meta" /\
    get_attr [] $"name" (n_attrs n) = Some $"pypi:repository-version" /\ get_attr [] $"content" (n_attrs n) = Some v -> v = w) ->
  (ver = w \/ exists n, In n l /\ n_type n = ElementNode /\ n_data n = $"meta" /\
    get_attr [] $"name" (n_attrs n) = Some $"pypi:repository-version" /\ get_attr [] $"content" (n_attrs n) = Some w) ->
  version_text l ver = w.
Proof.
  induction l as [|n l IH]; intros ver H E.
  - destruct E as [->|(n & [] & _)]. reflexivity.
  - change (version_text l (version_step n ver) = w). apply IH; [intros n' v Hn; apply H; now right|].
    destruct (version_step_spec n ver) as [Q|(v & Q & D)].
    + destruct E as [->|(n' & [<-|Hn] & D)]; [now left| |right; exists n'; auto].
      left. destruct D as (D1 & D2 & D3 & D4). now apply version_step_hit.
    + left. rewrite Q. apply (H n v); [now left|exact D].
Qed.
Theorem version_undeclared doc : (forall v, ~ declares doc v) -> get_version doc = parse_version $"1.0".
Proof.
  intros H. unfold get_version. rewrite version_text_none; [reflexivity|].
  intros n v Hn D. apply in_visit in Hn. apply (H v). exists n. auto.
Qed.
Theorem version_declared doc v : declares doc v -> (forall w, declares doc w -> w = v) -> v <> [] ->
  get_version doc = parse_version v.
Proof.
  intros (n & Hn & D) U Hv. unfold get_version. rewrite (version_text_some (visit_after doc) v []).
  - apply str_eqb_neq in Hv. now rewrite Hv.
  - intros n' w Hn' D'. apply in_visit in Hn'. apply U. exists n'. auto.
  - right. exists n. apply in_visit in Hn. auto.
Qed.
Theorem check_spec doc :
  match get_version doc with
  | None => html_version_check doc = CheckError
  | Some v =>
      (html_version_check doc = CheckError <-> nth 0 (release (pub v)) 0 > 1) /\
      (html_version_check doc = CheckOK true <-> nth 0 (release (pub v)) 0 <= 1 /\ nth 1 (release (pub v)) 0 > 0)
  end.
Proof.
  unfold html_version_check. destruct (get_version doc) as [v|]; auto.
  unfold major, minor, release_segment.
  destruct (Z.ltb_spec 1 (nth 0 (release (pub v)) 0)).
  - split; [intuition lia|]. split; [discriminate|lia].
  - split; [split; [discriminate|lia]|]. destruct (Z.ltb_spec 0 (nth 1 (release (pub v)) 0)).
    + split; [lia|auto].
    + split; [discriminate|lia].
Qed.

(** ** Wheel selection *)
Lemma usable_spec tags links l d : In (l, d) (usable tags links) <->
  In l links /\ parse_filename (l_text l) = Some d /\ supports tags (f_tag d) = true.
Proof.
  induction links as [|x links IH]; cbn [usable]; [simpl; tauto|].
  destruct (parse_filename (l_text x)) as [dx|] eqn:E.
  - destruct (supports tags (f_tag dx)) eqn:S; cbn [negb In].
    + split.
      * intros [[= <- <-]|H]; [auto|]. apply IH in H. tauto.
      * intros ([->|H1] & H2 & H3); [left; congruence|right; apply IH; auto].
    + rewrite IH. split; [tauto|]. intros ([->|H1] & H2 & H3); [congruence|auto].
  - rewrite IH. split; [simpl; tauto|]. intros ([->|H1] & H2 & H3); [congruence|auto].
Qed.
Lemma better_in l : forall b r, fold_left better l b = Some r -> b = Some r \/ In r l.
Proof.
  induction l as [|c l IH]; intros b r; cbn [fold_left]; auto. intros H. apply IH in H as [H|H]; [|right; now right].
  unfold better in H. destruct b as [b|]; [destruct (cmp b c <? 0)|]; auto; injection H as ->; right; now left.
Qed.
Lemma select_in spec choices excl r : select spec choices excl = Some r ->
  In r choices /\ match_specifier spec r = true.
Proof.
  unfold select. rewrite select_loop_folds.
  set (P := filter (fun c => match_specifier spec c && excluded_by excl c) choices).
  set (Q := filter (fun c => match_specifier spec c && negb (excluded_by excl c)) choices).
  destruct (fold_left better P None) as [x|] eqn:E; intros H.
  - injection H as ->. apply better_in in E as [E|E]; [discriminate|]. apply filter_In in E as [E1 E2].
    apply andb_true_iff in E2. tauto.
  - apply better_in in H as [H|H]; [discriminate|]. apply filter_In in H as [E1 E2]. apply andb_true_iff in E2. tauto.
Qed.

(** Distinct parsed versions have distinct normal forms. *)
Lemma itoa_chars z c : 0 <= z -> In c (itoa z) -> is_digit c = true.
Proof.
  intros H Hc. pose proof (itoa_digits z H) as D. apply all_digits_spec in D as [_ D]. rewrite forallb_forall in D. auto.
Qed.
Lemma join_in {A} (sep : list A) l c : In c (fold_right (fun x r => x ++ sep ++ r) [] l) -> In c sep \/ exists x, In x l /\ In c x.
Proof.
  induction l as [|x l IH]; cbn [fold_right]; [intros []|]. rewrite !in_app_iff. intros [H|[H|H]]; auto.
  - right. exists x. split; auto. now left.
  - apply IH in H as [H|(y & H1 & H2)]; auto. right. exists y. split; auto. now right.
Qed.
Lemma join_chars sep l c : In c (join sep l) -> In c sep \/ exists x, In x l /\ In c x.
Proof.
  induction l as [|x l IH]; [intros []|]. destruct l as [|y l].
  - intros H. right. exists x. split; auto. now left.
  - change (join sep (x :: y :: l)) with (x ++ sep ++ join sep (y :: l)). rewrite !in_app_iff. intros [H|[H|H]]; auto.
    + right. exists x. split; auto. now left.
    + apply IH in H as [H|(z & H1 & H2)]; auto. right. exists z. split; auto. now right.
Qed.
Lemma public_no_plus v : ranged_public v -> (forall l n, pre v = Some (l, n) -> canonical_letter l) ->
  ~ In "+"%char (public_string v).
Proof.
  intros (R1 & R2 & R3 & R4 & R5 & R6) L H. unfold public_string in H. rewrite !in_app_iff in H.
  assert (D : forall z, int64_ok z -> In "+"%char (itoa z) -> False).
  { intros z Hz Hc. apply itoa_chars in Hc; [discriminate|apply Hz]. }
  destruct H as [H|[H|[H|[H|H]]]].
  - destruct (0 <? epoch v); [|contradiction]. apply in_app_iff in H as [H|[H|[]]]; [now apply (D (epoch v))|discriminate].
  - apply join_chars in H as [[H|[]]|(x & Hx & H)]; [discriminate|]. apply in_map_iff in Hx as (z & <- & Hz).
    rewrite Forall_forall in R3. apply (D z); auto.
  - destruct (pre v) as [[l n]|] eqn:E; [|contradiction]. apply in_app_iff in H as [H|H].
    + destruct (L l n eq_refl) as [->|[->| ->]]; repeat (destruct H as [H|H]; [discriminate|]); contradiction.
    + destruct (R4 l n eq_refl). now apply (D n).
  - destruct (post v) as [n|]; [|contradiction]. apply in_app_iff in H as [H|H].
    + repeat (destruct H as [H|H]; [discriminate|]); contradiction.
    + apply (D n); auto.
  - destruct (dev v) as [n|]; [|contradiction]. apply in_app_iff in H as [H|H].
    + repeat (destruct H as [H|H]; [discriminate|]); contradiction.
    + apply (D n); auto.
Qed.
Lemma local_string_join sep l : local_string sep l = match l with [] => [] | _ => sep ++ join $"." (map seg_string l) end.
Proof.
  revert sep. induction l as [|s l IH]; intros sep; auto. cbn [local_string map]. rewrite IH. f_equal.
  destruct l as [|t l]; [now rewrite app_nil_r|reflexivity].
Qed.
Lemma itoa_neg z : z < 0 -> itoa z = "-"%char :: dec (Z.to_N (- z)).
Proof. intros H. unfold itoa. destruct (Z.ltb_spec z 0); [|lia]. reflexivity. Qed.
Lemma itoa_inj_all x y : itoa x = itoa y -> x = y.
Proof.
  intros E. destruct (Z_lt_ge_dec x 0) as [Hx|Hx], (Z_lt_ge_dec y 0) as [Hy|Hy].
  - rewrite !itoa_neg in E by auto. injection E as E. destruct (dec_spec (Z.to_N (- x))) as (_ & _ & E1).
    destruct (dec_spec (Z.to_N (- y))) as (_ & _ & E2). rewrite E in E1. rewrite E1 in E2. lia.
  - rewrite itoa_neg in E by auto. assert (H : is_digit "-"%char = true); [|discriminate].
    apply (itoa_chars y); [lia|]. rewrite <- E. now left.
  - rewrite (itoa_neg y) in E by auto. assert (H : is_digit "-"%char = true); [|discriminate].
    apply (itoa_chars x); [lia|]. rewrite E. now left.
  - apply itoa_inj; auto; lia.
Qed.
Lemma alnum_not : forall c, lower_alnum c = true -> byte_eqb c "." = false /\ byte_eqb c "-" = false.
Proof. intros c H. split; revert c H; chars. Qed.
Lemma seg_no_dot s : parsed_seg s -> ~ In "."%char (seg_string s).
Proof.
  destruct s as [i|s]; cbn [parsed_seg seg_string].
  - intros _ H. destruct (Z_lt_ge_dec i 0) as [Hi|Hi].
    + rewrite itoa_neg in H by auto. destruct H as [H|H]; [discriminate|].
      destruct (dec_spec (Z.to_N (- i))) as (_ & D & _). rewrite forallb_forall in D. apply D in H. discriminate.
    + apply itoa_chars in H; [discriminate|lia].
  - intros (_ & H & _) Hc. rewrite forallb_forall in H. apply H in Hc. apply alnum_not in Hc as [Hc _]. discriminate.
Qed.
Lemma seg_string_inj a b : parsed_seg a -> parsed_seg b -> seg_string a = seg_string b -> a = b.
Proof.
  assert (M : forall i s, parsed_seg (SInt i) -> parsed_seg (SStr s) -> itoa i = s -> False).
  { intros i s Hi (H1 & H2 & H3) <-. destruct (Z_lt_ge_dec i 0) as [Ni|Ni].
    - rewrite itoa_neg in H2 by auto. discriminate.
    - rewrite atoi_itoa in H3; [discriminate|]. cbn [parsed_seg] in Hi. lia. }
  destruct a as [i|s], b as [j|t]; cbn [seg_string]; intros Ha Hb E.
  - f_equal. now apply itoa_inj_all.
  - exfalso. eauto.
  - exfalso. eauto.
  - congruence.
Qed.
Theorem version_string_inj v w : parsed v -> parsed w -> version_string v = version_string w -> v = w.
Proof.
  intros (V1 & V2 & V3) (W1 & W2 & W3) E. unfold version_string in E. rewrite !local_string_join in E.
  assert (C : forall p l, ~ In "+"%char p ->
    cut "+"%char (p ++ match l with [] => [] | _ :: _ => $"+" ++ join $"." (map seg_string l) end) =
    (p, match l with [] => None | _ :: _ => Some (join $"." (map seg_string l)) end)).
  { intros p l H. destruct l; [rewrite app_nil_r; now apply cut_none|]. now apply cut_app. }
  pose proof (f_equal (cut "+"%char) E) as K. rewrite !C in K by now apply public_no_plus.
  injection K as K1 K2. destruct v as [pv lv], w as [pw lw]. cbn [pub local] in *. f_equal.
  - assert (Cv : canonical {| pub := pv; local := [] |}) by (split; [auto|split; [auto|constructor]]).
    assert (Cw : canonical {| pub := pw; local := [] |}) by (split; [auto|split; [auto|constructor]]).
    apply parse_string in Cv, Cw. unfold version_string in Cv, Cw. cbn [pub local local_string] in *.
    rewrite app_nil_r in *. rewrite K1 in Cv. congruence.
  - assert (S : map seg_string lv = map seg_string lw).
    { assert (N : forall l, Forall parsed_seg l -> Forall (fun s => ~ In "."%char s) (map seg_string l)).
      { intros l H. rewrite Forall_map. revert H. apply Forall_impl. apply seg_no_dot. }
      destruct lv as [|a lv], lw as [|b lw]; try discriminate; auto.
      assert (K3 : join ["."%char] (map seg_string (a :: lv)) = join ["."%char] (map seg_string (b :: lw))) by congruence.
      rewrite <- (split_on_join "."%char (map seg_string (a :: lv))), <- (split_on_join "."%char (map seg_string (b :: lw)));
        auto; try discriminate. now rewrite K3. }
    clear -V3 W3 S. revert lw W3 S. induction V3 as [|a lv Ha Hl IH]; intros [|b lw] W S; try discriminate; auto.
    inversion W; subst. injection S as S1 S2. f_equal; auto. now apply seg_string_inj.
Qed.
Lemma parse_filename_parsed s d : parse_filename s = Some d -> parsed (f_version d).
Proof.
  intros H. apply parse_filename_sound in H as (p & v & _ & _ & Hv & ->). cbn [fields_data f_version].
  eapply parse_result; eauto.
Qed.

(** *** The loop for the best rank *)
Lemma preference_pos tags t : (1 <= preference tags t)%nat.
Proof. apply preference_range. Qed.
Lemma min_rank_loop_spec tags links : (forall l, In l links -> (1 <= link_rank tags l)%nat) -> forall r ml,
  (r = 0%nat -> ml = []) -> (forall l, In l ml -> link_rank tags l = r) ->
  exists r', (forall l, In l (min_rank_loop tags links r ml) <-> (In l ml \/ In l links) /\ link_rank tags l = r') /\
    (forall l, In l links -> (r' <= link_rank tags l)%nat) /\ (r <> 0%nat -> (r' <= r)%nat) /\
    ((r' = r /\ (links = [] \/ r <> 0%nat)) \/ exists l, In l links /\ link_rank tags l = r').
Proof.
  induction links as [|x links IH]; intros Hp r ml H0 Hm; cbn [min_rank_loop].
  - exists r. split; [|split; [intros ? []|split; [lia|left; auto]]]. intros l. simpl. split; [|tauto]. intros H. split; auto.
  - assert (Px : (1 <= link_rank tags x)%nat) by (apply Hp; now left).
    set (rk := link_rank tags x) in *.
    destruct ((r =? 0)%nat || (rk <? r)%nat)%bool eqn:R.
    + rewrite Nat.eqb_refl. cbn [app].
      destruct (IH (fun l H => Hp l (or_intror H)) rk [x] ltac:(lia) ltac:(intros l [<-|[]]; reflexivity))
        as (r' & H1 & H2 & H3 & H4).
      exists r'. assert (L : (r' <= rk)%nat) by (apply H3; lia). split; [|split; [|split]].
      * intros l. rewrite H1. split.
        -- intros [[[<-|[]]|H] E]; split; auto; right; [now left|now right].
        -- intros [[H|[<-|H]] E]; split; auto; [|left; now left].
           exfalso. specialize (Hm _ H). apply orb_true_iff in R as [R|R].
           ++ apply Nat.eqb_eq in R. rewrite (H0 R) in H. contradiction.
           ++ apply Nat.ltb_lt in R. lia.
      * intros l [<-|H]; [exact L|auto].
      * intros Hr. apply orb_true_iff in R as [R|R]; [apply Nat.eqb_eq in R; lia|apply Nat.ltb_lt in R; lia].
      * right. destruct H4 as [[-> _]|(l & Hl & E)]; [exists x; split; [now left|reflexivity]|exists l; split; [now right|auto]].
    + apply orb_false_iff in R as [R1 R2]. apply Nat.eqb_neq in R1. apply Nat.ltb_ge in R2.
      destruct (rk =? r)%nat eqn:Q.
      * apply Nat.eqb_eq in Q.
        destruct (IH (fun l H => Hp l (or_intror H)) r (ml ++ [x]) ltac:(lia)) as (r' & H1 & H2 & H3 & H4).
        { intros l H. apply in_app_iff in H as [H|[<-|[]]]; auto. }
        exists r'. split; [|split; [|split]].
        -- intros l. rewrite H1, in_app_iff. simpl. intuition (subst; auto).
        -- intros l [<-|H]; [fold rk; rewrite Q; auto|auto].
        -- auto.
        -- destruct H4 as [[-> _]|(l & Hl & E)]; [left; auto|right; exists l; split; [now right|auto]].
      * apply Nat.eqb_neq in Q.
        destruct (IH (fun l H => Hp l (or_intror H)) r ml H0 Hm) as (r' & H1 & H2 & H3 & H4).
        exists r'. split; [|split; [|split]].
        -- intros l. rewrite H1. split; [intros [[H|H] E]; split; auto; right; now right|].
           intros [[H|[<-|H]] E]; split; auto. exfalso. fold rk in E. assert (r' <= r)%nat by auto. lia.
        -- intros l [<-|H]; [fold rk; assert (r' <= r)%nat by auto; lia|auto].
        -- auto.
        -- destruct H4 as [[-> _]|(l & Hl & E)]; [left; auto|right; exists l; split; [now right|auto]].
Qed.

(** *** The comparison of build tags is a strict weak order on wheels *)
Lemma build_less_weak links : (forall l, In l links -> exists d, parse_filename (l_text l) = Some d) ->
  strict_weak build_less links.
Proof.
  intros H. assert (N : forall l, In l links -> nonneg_build (link_build l)).
  { intros l Hl. destruct (H l Hl) as (d & E). unfold link_build. rewrite E. eapply parse_filename_build; eauto. }
  unfold build_less. split.
  - intros a b Ha Hb. rewrite Z.ltb_lt, Z.ltb_ge. intros L.
    destruct (build_laws (link_build a) (link_build b) (link_build b)) as [A _]; auto. apply A in L. lia.
  - intros a b c Ha Hb Hc. rewrite !Z.ltb_lt. intros L.
    destruct (Z_lt_ge_dec (build_cmp (link_build a) (link_build c)) 0) as [|G]; [now left|right].
    destruct (Z_lt_ge_dec (build_cmp (link_build c) (link_build b)) 0) as [|G']; [auto|exfalso].
    destruct (build_laws (link_build b) (link_build c) (link_build a)) as [A T]; auto.
    destruct (build_laws (link_build c) (link_build b) (link_build a)) as [A' _]; auto.
    destruct (build_laws (link_build c) (link_build a) (link_build a)) as [A2 _]; auto.
    destruct (build_laws (link_build a) (link_build b) (link_build a)) as [A3 _]; auto.
    assert (build_cmp (link_build b) (link_build a) <= 0); [|apply A3 in L; lia].
    apply T.
    + destruct (Z_gt_dec (build_cmp (link_build b) (link_build c)) 0) as [X|]; [apply A' in X; lia|lia].
    + destruct (Z_gt_dec (build_cmp (link_build c) (link_build a)) 0) as [X|]; [|lia].
      destruct (build_laws (link_build a) (link_build c) (link_build a)) as [A4 _]; auto. apply A4 in X. lia.
Qed.

(** *** SelectWheel *)
Lemma link_rank_spec tags l d : parse_filename (l_text l) = Some d -> link_rank tags l = preference tags (f_tag d).
Proof. unfold link_rank. now intros ->. Qed.
Lemma link_build_spec l d : parse_filename (l_text l) = Some d -> link_build l = f_build d.
Proof. unfold link_build. now intros ->. Qed.
Lemma same_version_spec v tags links l : parsed v -> In l (same_version v (usable tags links)) <->
  exists d, In l links /\ parse_filename (l_text l) = Some d /\ supports tags (f_tag d) = true /\ f_version d = v.
Proof.
  intros Hv. unfold same_version. rewrite in_map_iff. split.
  - intros ([l' d] & E & H). cbn [fst] in E. subst l'. apply filter_In in H as [H1 H2]. apply usable_spec in H1 as (A & B & C).
    exists d. repeat split; auto. cbn [snd] in H2. apply str_eqb_eq in H2. apply version_string_inj in H2; auto.
    eapply parse_filename_parsed; eauto.
  - intros (d & H1 & H2 & H3 & <-). exists (l, d). split; auto. apply filter_In. split; [now apply usable_spec|].
    apply str_eqb_refl.
Qed.
Definition wheel_versions tags links : list version := map (fun p => f_version (snd p)) (usable tags links).
Lemma wheel_versions_spec tags links v : In v (wheel_versions tags links) <->
  exists l d, In l links /\ parse_filename (l_text l) = Some d /\ supports tags (f_tag d) = true /\ f_version d = v.
Proof.
  unfold wheel_versions. rewrite in_map_iff. split.
  - intros ([l d] & E & H). apply usable_spec in H. cbn [snd] in E. exists l, d. tauto.
  - intros (l & d & H1 & H2 & H3 & H4). exists (l, d). split; auto. apply usable_spec. auto.
Qed.
Definition wheel_policy tags links : version -> bool :=
  allow_multi [allow_no_prereleases []; allow_yanked (map fst (usable tags links))].
(** The whole function in one statement. *)
Lemma select_links_some sort tags spec links l : sorts sort ->
  select_links sort tags spec links = Some l ->
  exists d, In l links /\ parse_filename (l_text l) = Some d /\ supports tags (f_tag d) = true /\
    match_specifier spec (f_version d) = true /\
    select spec (wheel_versions tags links) (Some (wheel_policy tags links)) = Some (f_version d) /\
    (forall l' d', In l' links -> parse_filename (l_text l') = Some d' -> supports tags (f_tag d') = true ->
       f_version d' = f_version d ->
       (preference tags (f_tag d) <= preference tags (f_tag d'))%nat /\
       (preference tags (f_tag d') = preference tags (f_tag d) -> build_cmp (f_build d') (f_build d) >= 0)).
Proof.
  intros HS H. unfold select_links in H. fold (wheel_versions tags links) in H. fold (wheel_policy tags links) in H.
  destruct (select spec (wheel_versions tags links) (Some (wheel_policy tags links))) as [v|] eqn:E; [|discriminate].
  destruct (select_in _ _ _ _ E) as [Hin Hm].
  assert (Pv : parsed v).
  { apply wheel_versions_spec in Hin as (l0 & d0 & _ & P & _ & <-). eapply parse_filename_parsed; eauto. }
  pose proof (same_version_spec v tags links) as SV.
  set (L := same_version v (usable tags links)) in *.
  assert (Done : forall d, In l links -> parse_filename (l_text l) = Some d -> supports tags (f_tag d) = true -> f_version d = v ->
    (forall l', In l' L -> (link_rank tags l <= link_rank tags l')%nat /\
       (link_rank tags l' = link_rank tags l -> build_cmp (link_build l') (link_build l) >= 0)) ->
    exists d, In l links /\ parse_filename (l_text l) = Some d /\ supports tags (f_tag d) = true /\
    match_specifier spec (f_version d) = true /\ Some v = Some (f_version d) /\
    (forall l' d', In l' links -> parse_filename (l_text l') = Some d' -> supports tags (f_tag d') = true ->
       f_version d' = f_version d ->
       (preference tags (f_tag d) <= preference tags (f_tag d'))%nat /\
       (preference tags (f_tag d') = preference tags (f_tag d) -> build_cmp (f_build d') (f_build d) >= 0))).
  { intros d D1 D2 D3 <- D5. exists d. repeat (split; [auto; fail|]). intros l' d' H1 H2 H3 H4.
    rewrite <- (link_rank_spec tags l d), <- (link_rank_spec tags l' d'), <- (link_build_spec l d), <- (link_build_spec l' d') by auto.
    apply D5. apply SV; auto. exists d'. auto. }
  assert (Single : forall x, x = l -> L = [x] -> exists d, In l links /\ parse_filename (l_text l) = Some d /\ supports tags (f_tag d) = true /\ f_version d = v /\
    (forall l', In l' L -> (link_rank tags l <= link_rank tags l')%nat /\
       (link_rank tags l' = link_rank tags l -> build_cmp (link_build l') (link_build l) >= 0))).
  { intros x -> EL. assert (I : In l L) by (rewrite EL; now left). apply SV in I as (d & D1 & D2 & D3 & D4); auto.
    exists d. repeat (split; [auto; fail|]). rewrite EL. intros l' [<-|[]]. split; auto. intros _.
    destruct (build_order (link_build l) (link_build l)) as (_ & Q & _).
    1, 2: rewrite (link_build_spec l d D2); eapply parse_filename_build; eauto.
    assert (build_cmp (link_build l) (link_build l) = 0) by now apply Q. lia. }
  assert (LP : forall x, In x L -> exists d, parse_filename (l_text x) = Some d).
  { intros x Hx. apply SV in Hx as (d & _ & D & _); eauto. }
  destruct (min_rank_loop_spec tags L) with (r := 0%nat) (ml := @nil link) as (r' & M1 & M2 & _ & M4); auto.
  { intros x Hx. destruct (LP x Hx) as (d & D). rewrite (link_rank_spec tags x d D). apply preference_pos. }
  { intros ? []. }
  set (ML := min_rank_loop tags L 0 []) in *.
  assert (InML : forall x, In x ML <-> In x L /\ link_rank tags x = r').
  { intros x. rewrite M1. simpl. tauto. }
  assert (Fin : In l ML -> (forall l', In l' ML -> build_cmp (link_build l') (link_build l) >= 0) ->
    exists d, In l links /\ parse_filename (l_text l) = Some d /\ supports tags (f_tag d) = true /\ f_version d = v /\
    (forall l', In l' L -> (link_rank tags l <= link_rank tags l')%nat /\
       (link_rank tags l' = link_rank tags l -> build_cmp (link_build l') (link_build l) >= 0))).
  { intros I B. apply InML in I as [I R]. pose proof I as I'. apply SV in I' as (d & D1 & D2 & D3 & D4); auto.
    exists d. repeat (split; [auto; fail|]). intros l' Hl'. split; [rewrite R; auto|]. intros R'. apply B. apply InML. split; auto. congruence. }
  assert (Sorted : match sort build_less ML with x :: _ => Some x | [] => None end = Some l ->
    In l ML /\ (forall l', In l' ML -> build_cmp (link_build l') (link_build l) >= 0)).
  { intros S. destruct (HS build_less ML) as [P Q]. destruct (sort build_less ML) as [|x rest]; [discriminate|].
    injection S as ->. assert (I : In l ML) by (eapply Permutation_in; [exact P|now left]). split; auto.
    intros l' Hl'. apply Permutation_sym in P. apply (Permutation_in l' P) in Hl'. destruct Hl' as [<-|Hl'].
    - assert (nonneg_build (link_build l)).
      { apply InML in I as [I _]. destruct (LP l I) as (d & D). rewrite (link_build_spec l d D). eapply parse_filename_build; eauto. }
      destruct (build_order (link_build l) (link_build l)) as (_ & Z & _); auto.
      assert (build_cmp (link_build l) (link_build l) = 0) by now apply Z. lia.
    - assert (SW : strict_weak build_less ML).
      { apply build_less_weak. intros y Hy. apply InML in Hy as [Hy _]. auto. }
      specialize (Q SW). inversion Q as [|? ? _ F]; subst. rewrite Forall_forall in F. specialize (F l' Hl').
      unfold build_less in F. apply Z.ltb_ge in F. lia. }
  assert (Fin' : In l ML /\ (forall l', In l' ML -> build_cmp (link_build l') (link_build l) >= 0) ->
    exists d, In l links /\ parse_filename (l_text l) = Some d /\ supports tags (f_tag d) = true /\ f_version d = v /\
    (forall l', In l' L -> (link_rank tags l <= link_rank tags l')%nat /\
       (link_rank tags l' = link_rank tags l -> build_cmp (link_build l') (link_build l) >= 0))) by (intros []; auto).
  assert (MLone : forall x, ML = [x] -> x = l -> In l ML /\ (forall l', In l' ML -> build_cmp (link_build l') (link_build l) >= 0)).
  { intros x EM ->. rewrite EM. split; [now left|]. intros l' [<-|[]].
    assert (nonneg_build (link_build l)).
    { assert (I : In l ML) by (rewrite EM; now left). apply InML in I as [I _].
      destruct (LP l I) as (d & D). rewrite (link_build_spec l d D). eapply parse_filename_build; eauto. }
    destruct (build_order (link_build l) (link_build l)) as (_ & Z & _); auto.
    assert (build_cmp (link_build l) (link_build l) = 0) by now apply Z. lia. }
  assert (Res : exists d, In l links /\ parse_filename (l_text l) = Some d /\ supports tags (f_tag d) = true /\ f_version d = v /\
    (forall l', In l' L -> (link_rank tags l <= link_rank tags l')%nat /\
       (link_rank tags l' = link_rank tags l -> build_cmp (link_build l') (link_build l) >= 0))).
  { destruct L as [|x [|y L']] eqn:EL.
    - exfalso. apply wheel_versions_spec in Hin as (l0 & d0 & A & B & C & D).
      assert (I : In l0 []) by (apply SV; auto; exists d0; auto). contradiction.
    - injection H as ->. eapply Single; eauto.
    - fold ML in H. apply Fin'. destruct ML as [|a [|b ML']] eqn:EM; [now apply Sorted|injection H as ->; eapply MLone; eauto|now apply Sorted]. }
  destruct Res as (d & D1 & D2 & D3 & D4 & D5). eapply Done; eauto.
Qed.
Theorem select_links_none sort tags spec links : sorts sort ->
  select_links sort tags spec links = None <->
  (forall l d, In l links -> parse_filename (l_text l) = Some d -> supports tags (f_tag d) = true ->
     match_specifier spec (f_version d) = false).
Proof.
  intros HS. unfold select_links. fold (wheel_versions tags links). fold (wheel_policy tags links).
  destruct (select spec (wheel_versions tags links) (Some (wheel_policy tags links))) as [v|] eqn:E.
  - destruct (select_in _ _ _ _ E) as [Hin Hm]. split.
    + intros H. exfalso.
      assert (Pv : parsed v).
      { apply wheel_versions_spec in Hin as (l0 & d0 & _ & P & _ & <-). eapply parse_filename_parsed; eauto. }
      pose proof (same_version_spec v tags links) as SV. set (L := same_version v (usable tags links)) in *.
      apply wheel_versions_spec in Hin as (l0 & d0 & A & B & C & D).
      assert (I : In l0 L) by (apply SV; auto; exists d0; auto).
      destruct (min_rank_loop_spec tags L) with (r := 0%nat) (ml := @nil link) as (r' & M1 & M2 & _ & M4); auto.
      { intros x Hx. apply SV in Hx as (d & _ & Dx & _); auto. rewrite (link_rank_spec tags x d Dx). apply preference_pos. }
      { intros ? []. }
      set (ML := min_rank_loop tags L 0 []) in *.
      assert (NE : exists x, In x ML).
      { destruct M4 as [[-> [EL|C0]]|(x & Hx & Rx)].
        - rewrite EL in I. contradiction.
        - congruence.
        - exists x. apply M1. split; auto. }
      destruct NE as (x & Hx). destruct L as [|a [|b L']]; [contradiction|discriminate|]. fold ML in H.
      destruct ML as [|c [|c' ML']]; [contradiction|discriminate|].
      destruct (HS build_less (c :: c' :: ML')) as [P _]. destruct (sort build_less (c :: c' :: ML')); [|discriminate].
      apply Permutation_length in P. discriminate.
    + intros H. apply wheel_versions_spec in Hin as (l0 & d0 & A & B & C & D). subst v. rewrite (H l0 d0) in Hm; auto. discriminate.
  - split; auto. intros _ l d H1 H2 H3. eapply select_none; eauto. apply wheel_versions_spec. exists l, d. auto.
Qed.

(** *** Forms used by the property file *)
Lemma insert_perm {A} less (x : A) l : Permutation (insert_sorted less x l) (x :: l).
Proof.
  induction l as [|y l IH]; cbn [insert_sorted]; auto. destruct (less y x); auto.
  rewrite IH. apply perm_swap.
Qed.
Lemma insertion_sort_perm {A} less (l : list A) : Permutation (insertion_sort less l) l.
Proof. induction l as [|x l IH]; cbn; auto. rewrite insert_perm. now constructor. Qed.
Lemma insertion_sorts {A} : @sorts A insertion_sort.
Proof.
  intros less l. split; [apply insertion_sort_perm|]. intros [S1 S2]. induction l as [|x l IH]; cbn; [constructor|].
  assert (IHl : StronglySorted (fun a b => less b a = false) (insertion_sort less l)).
  { apply IH; intros; [apply S1|eapply S2]; eauto; now right. }
  assert (Hin : forall y, In y (insertion_sort less l) -> In y (x :: l)).
  { intros y Hy. right. eapply Permutation_in; [apply insertion_sort_perm|exact Hy]. }
  clear IH. fold (insertion_sort less l). revert IHl Hin. generalize (insertion_sort less l) as m.
  induction m as [|y m IHm]; intros Hs Hin; cbn [insert_sorted]; [repeat constructor|].
  inversion Hs as [|? ? Hs' Hy]; subst. rewrite Forall_forall in Hy. destruct (less y x) eqn:E.
  - constructor; [apply IHm; auto; intros; apply Hin; now right|]. apply Forall_forall. intros z Hz.
    apply (Permutation_in z (insert_perm less x m)) in Hz as [<-|Hz]; [|auto].
    apply S1; auto; [apply Hin; now left|now left].
  - constructor; auto. apply Forall_forall. intros z [<-|Hz]; auto.
    destruct (less z x) eqn:F; auto. destruct (S2 z x y) as [Q|Q]; auto; try congruence.
    + apply Hin. now right.
    + now left.
    + apply Hin. now left.
    + rewrite (Hy z Hz) in Q. discriminate.
Qed.
Lemma as_preferred_spec tags a b : supports tags a = true ->
  (preference tags a <= preference tags b)%nat -> as_preferred tags a b.
Proof.
  intros Sa L j t Hj Ho. unfold preference in *. destruct (preference_from_spec tags a 0) as (k & E1 & E2 & E3 & E4).
  destruct (preference_from_spec tags b 0) as (k' & F1 & F2 & F3 & F4). rewrite E1, F1 in L.
  assert (k' <= j)%nat.
  { destruct (le_lt_dec k' j) as [|Q]; auto. exfalso. eapply F3; eauto. }
  destruct E4 as [->|(x & X1 & X2)].
  - assert (j < length tags)%nat by (apply nth_error_Some; congruence). lia.
  - exists k, x. repeat split; auto. lia.
Qed.
Theorem selected_candidate sort tags spec links l : sorts sort ->
  select_links sort tags spec links = Some l -> exists d, candidate tags spec links l d.
Proof.
  intros HS H. apply select_links_some in H as (d & H1 & H2 & H3 & H4 & _); auto. exists d.
  split; auto. split; auto. split; auto. now apply supports_spec.
Qed.
Theorem selected_preferred sort tags spec links l l' d d' : sorts sort ->
  select_links sort tags spec links = Some l -> parse_filename (l_text l) = Some d ->
  candidate tags spec links l' d' -> f_version d' = f_version d ->
  as_preferred tags (f_tag d) (f_tag d').
Proof.
  intros HS H Hd (C1 & C2 & C3 & C4) E. apply select_links_some in H as (d0 & H1 & H2 & H3 & H4 & H5 & H6); auto.
  assert (d0 = d) as -> by congruence. apply supports_spec in C3. apply as_preferred_spec; auto.
  now apply (H6 l' d').
Qed.
Theorem selection_fails sort tags spec links : sorts sort ->
  (select_links sort tags spec links = None <-> forall l d, ~ candidate tags spec links l d).
Proof.
  intros HS. rewrite select_links_none by auto. split.
  - intros H l d (C1 & C2 & C3 & C4). rewrite (H l d) in C4; auto; [discriminate|]. now apply supports_spec.
  - intros H l d H1 H2 H3. destruct (match_specifier spec (f_version d)) eqn:M; auto. exfalso. apply (H l d).
    split; auto. split; auto. split; auto. now apply supports_spec.
Qed.
Theorem selected_lowest_build sort tags spec links l l' d d' : sorts sort ->
  select_links sort tags spec links = Some l -> parse_filename (l_text l) = Some d ->
  candidate tags spec links l' d' -> f_version d' = f_version d ->
  as_preferred tags (f_tag d') (f_tag d) ->
  build_compare (f_build d) (f_build d') <> Gt.
Proof.
  intros HS H Hd (C1 & C2 & C3 & C4) E AP. apply select_links_some in H as (d0 & H1 & H2 & H3 & H4 & H5 & H6); auto.
  assert (d0 = d) as -> by congruence. apply supports_spec in C3. destruct (H6 l' d') as [L B]; auto.
  assert (P : preference tags (f_tag d') = preference tags (f_tag d)).
  { apply supports_spec in H3 as (i & Hi & Oi). unfold preference in *.
    destruct (preference_from_spec tags (f_tag d) 0) as (k & E1 & E2 & E3 & E4).
    destruct (preference_from_spec tags (f_tag d') 0) as (k' & F1 & F2 & F3 & F4).
    destruct E4 as [->|(x & X1 & X2)].
    - exfalso. apply In_nth_error in Hi as (j & Hj). assert (j < length tags)%nat by (apply nth_error_Some; congruence).
      eapply E3; eauto.
    - destruct (AP k x X1 X2) as (j' & t' & J1 & J2 & J3).
      assert (k' <= j')%nat by (destruct (le_lt_dec k' j'); auto; exfalso; eapply F3; eauto). lia. }
  specialize (B P). intros G.
  assert (N1 : nonneg_build (f_build d)) by (eapply parse_filename_build; eauto).
  assert (N2 : nonneg_build (f_build d')) by (eapply parse_filename_build; eauto).
  destruct (build_order (f_build d) (f_build d') N1 N2) as (_ & _ & G1). apply G1 in G.
  destruct (build_laws (f_build d') (f_build d) (f_build d)) as [A _]; auto. apply A in G. lia.
Qed.
Lemma allow_yanked_spec tags links v : parsed v ->
  (allow_yanked (map fst (usable tags links)) v = true <-> yanked_version tags links v).
Proof.
  intros Hv. unfold allow_yanked, yanked_version. rewrite existsb_exists.
  assert (K : forall ls s, In s (yanked_versions ls) <->
     exists l d, In l ls /\ is_yanked l = true /\ parse_filename (l_text l) = Some d /\ version_string (f_version d) = s).
  { induction ls as [|l ls IH]; intros s; cbn [yanked_versions].
    - split; [intros []|intros (? & ? & [] & _)].
    - destruct (is_yanked l) eqn:Y.
      + destruct (parse_filename (l_text l)) as [d|] eqn:P; cbn [In]; rewrite IH; split.
        * intros [<-|(l' & d' & H1 & H2 & H3 & H4)]; [exists l, d|exists l', d']; simpl; auto.
        * intros (l' & d' & [<-|H1] & H2 & H3 & H4); [left; congruence|right; exists l', d'; auto].
        * intros (l' & d' & H1 & H2 & H3 & H4); exists l', d'. split; [now right|auto].
        * intros (l' & d' & [<-|H1] & H2 & H3 & H4); [congruence|exists l', d'; auto].
      + rewrite IH. split; intros (l' & d' & H1 & H2 & H3 & H4); exists l', d'.
        * split; [now right|auto].
        * destruct H1 as [<-|H1]; [congruence|auto]. }
  split.
  - intros (s & Hs & E). apply K in Hs as (l & d & H1 & H2 & H3 & <-). apply str_eqb_eq in E.
    apply in_map_iff in H1 as ([l' d'] & E1 & H1). cbn [fst] in E1. subst l'. apply usable_spec in H1 as (U1 & U2 & U3).
    exists l, d. assert (d' = d) as -> by congruence. repeat (split; [auto; fail|]). split; [now apply supports_spec|].
    split; auto. symmetry. apply version_string_inj; auto. eapply parse_filename_parsed; eauto.
  - intros (l & d & H1 & H2 & H3 & H4 & <-). apply supports_spec in H3. exists (version_string (f_version d)).
    split; [|apply str_eqb_refl]. apply K. exists l, d. split; auto. apply in_map_iff. exists (l, d). split; auto.
    apply usable_spec. auto.
Qed.
Lemma is_prerelease_spec v : is_prerelease (pub v) = true <-> pre_or_dev v.
Proof. unfold is_prerelease, pre_or_dev. destruct (pre (pub v)), (dev (pub v)); simpl; intuition congruence. Qed.
Lemma policy_spec tags links v : parsed v ->
  (wheel_policy tags links v = true <-> ~ pre_or_dev v /\ yanked_version tags links v).
Proof.
  intros Hv. unfold wheel_policy. rewrite allow_multi_spec. split.
  - intros H. split.
    + specialize (H _ (or_introl eq_refl)). unfold allow_no_prereleases in H. intros P. apply is_prerelease_spec in P. now rewrite P in H.
    + apply allow_yanked_spec; auto. apply H. right. now left.
  - intros [H1 H2] e [<-|[<-|[]]].
    + unfold allow_no_prereleases. destruct (is_prerelease (pub v)) eqn:E; auto. apply is_prerelease_spec in E. contradiction.
    + now apply allow_yanked_spec.
Qed.
Lemma candidate_version tags spec links l d : candidate tags spec links l d ->
  In (f_version d) (wheel_versions tags links) /\ match_specifier spec (f_version d) = true.
Proof.
  intros (C1 & C2 & C3 & C4). split; auto. apply wheel_versions_spec. exists l, d. apply supports_spec in C3. auto.
Qed.
Definition page_wf tags links : Prop := forall l d, In l links -> parse_filename (l_text l) = Some d ->
  supports tags (f_tag d) = true -> no_overflow (f_version d).
Lemma page_wf_versions tags links : (forall l d, In l links -> parse_filename (l_text l) = Some d -> no_overflow (f_version d)) ->
  Forall wf_version (wheel_versions tags links).
Proof.
  intros H. apply Forall_forall. intros v Hv. apply wheel_versions_spec in Hv as (l & d & H1 & H2 & H3 & <-).
  apply parsed_wf; [eapply parse_filename_parsed; eauto|]. eapply H; eauto.
Qed.
Theorem selected_yanked sort tags spec links l d : sorts sort ->
  (forall l d, In l links -> parse_filename (l_text l) = Some d -> no_overflow (f_version d)) ->
  (forall l d, candidate tags spec links l d -> ~ pre_or_dev (f_version d)) ->
  select_links sort tags spec links = Some l -> parse_filename (l_text l) = Some d ->
  yanked_version tags links (f_version d) ->
  forall l' d', candidate tags spec links l' d' -> yanked_version tags links (f_version d').
Proof.
  intros HS HW HP H Hd Y l' d' C. apply select_links_some in H as (d0 & H1 & H2 & H3 & H4 & H5 & H6); auto.
  assert (d0 = d) as -> by congruence.
  destruct (select_classes _ _ _ _ (page_wf_versions tags links HW) H5) as (_ & _ & _ & K).
  assert (C0 : candidate tags spec links l d).
  { split; auto. split; auto. split; auto. now apply supports_spec. }
  assert (P : wheel_policy tags links (f_version d) = true).
  { apply policy_spec; [eapply parse_filename_parsed; eauto|]. split; eauto. }
  destruct (candidate_version _ _ _ _ _ C) as [V1 V2]. specialize (K P _ V1 V2). apply policy_spec in K; [tauto|].
  destruct C as (_ & C & _). eapply parse_filename_parsed; eauto.
Qed.
Theorem selected_newest sort tags spec links l d : sorts sort ->
  (forall l d, In l links -> parse_filename (l_text l) = Some d -> no_overflow (f_version d)) ->
  (forall l, In l links -> is_yanked l = false) ->
  select_links sort tags spec links = Some l -> parse_filename (l_text l) = Some d ->
  forall l' d', candidate tags spec links l' d' ->
  pep440_compare (f_version d') (f_version d) <> Gt.
Proof.
  intros HS HW HY H Hd l' d' C. apply select_links_some in H as (d0 & H1 & H2 & H3 & H4 & H5 & H6); auto.
  assert (d0 = d) as -> by congruence.
  destruct (select_classes _ _ _ _ (page_wf_versions tags links HW) H5) as (_ & _ & K & _).
  assert (P : forall v, parsed v -> wheel_policy tags links v = false).
  { intros v Hv. apply not_true_iff_false. intros Q. apply policy_spec in Q as [_ (x & dx & X1 & _ & _ & X4 & _)]; auto.
    rewrite (HY x X1) in X4. discriminate. }
  destruct (candidate_version _ _ _ _ _ C) as [V1 V2]. destruct C as (C1 & C2 & _).
  assert (L : cmp (f_version d') (f_version d) <= 0).
  { apply K; auto. rewrite !P; auto; eapply parse_filename_parsed; eauto. }
  rewrite <- cmp_sign; [|eapply parsed_wf; eauto; eapply parse_filename_parsed; eauto..].
  unfold sign. destruct (cmp (f_version d') (f_version d)); cbn; try congruence; lia.
Qed.
(** *** Witnesses *)
Definition py3_any : list tag := [mkTag $"cp39" $"cp39" $"linux"; mkTag $"py3" $"none" $"any"].
Definition wheel (s : str) : link := mkLink s [] [].
Definition yanked (s : str) : link := mkLink s [] [($"data-yanked", [])].
Lemma pick_prerelease : forall sort, select_links sort py3_any []
  [wheel $"x-1.0-py3-none-any.whl"; wheel $"x-2.0rc1-py3-none-any.whl"] = Some (wheel $"x-2.0rc1-py3-none-any.whl").
Proof. intros. vm_compute. reflexivity. Qed.
Lemma pick_yanked_pre : forall sort, select_links sort py3_any []
  [wheel $"x-1.0-py3-none-any.whl"; yanked $"x-2.0rc1-py3-none-any.whl"] = Some (yanked $"x-2.0rc1-py3-none-any.whl").
Proof. intros. vm_compute. reflexivity. Qed.
Lemma pick_yanked_file : forall sort, select_links sort py3_any []
  [yanked $"x-1.0-cp39-cp39-linux.whl"; wheel $"x-1.0-py3-none-any.whl"] = Some (yanked $"x-1.0-cp39-cp39-linux.whl").
Proof. intros. vm_compute. reflexivity. Qed.
Lemma pick_lowest_build : select_links insertion_sort py3_any []
  [wheel $"x-1.0-2-py3-none-any.whl"; wheel $"x-1.0-1-py3-none-any.whl"] = Some (wheel $"x-1.0-1-py3-none-any.whl").
Proof. intros. vm_compute. reflexivity. Qed.
Lemma pick_spelling : forall sort, select_links sort py3_any []
  [wheel $"x-1.0-py3-none-any.whl"; wheel $"x-1.0.0-cp39-cp39-linux.whl"] = Some (wheel $"x-1.0-py3-none-any.whl").
Proof. intros. vm_compute. reflexivity. Qed.
