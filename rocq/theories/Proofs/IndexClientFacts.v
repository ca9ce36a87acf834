(** Facts about the requests to a package index. *)
From Coq Require Import String Ascii List Bool ZArith Lia.
From Verif.Model Require Import GoStr Pep440 Specifier WheelName SimpleAPI IndexClient.
From Verif.Spec Require Import WheelNameSpec SimpleAPISpec UrlSpec IndexClientSpec.
From Verif.Proofs Require Import Order GoStrFacts SimpleAPIFacts UrlFacts.
Import ListNotations.
Local Open Scope Z_scope.

Theorem get_why_ok e url content : get_why e url = Good content <-> get e url = Some content.
Proof.
  unfold get_why, get. destruct (e_url_ok e _); cbn [negb]; [|split; discriminate]. destruct (url_fragment url) as [frag|]; [|split; discriminate].
  destruct (e_fetch e url) as [[s c]|]; [|split; discriminate]. destruct (s =? 200); cbn [negb]; [|split; discriminate].
  destruct frag as [|a frag]; [split; congruence|]. destruct (parse_query _) as [kvs ok]. destruct (ok && _); split; congruence.
Qed.

Lemma cut_found c s b r : cut c s = (b, Some r) -> s = b ++ c :: r /\ ~ In c b.
Proof. intros C. pose proof (cut_parts c s) as P. pose proof (cut_no_sep c s) as N. rewrite C in *. cbn [fst snd] in *. auto. Qed.
Lemma cut_absent c s b : cut c s = (b, None) -> b = s /\ ~ In c s.
Proof. intros C. pose proof (cut_parts c s) as P. pose proof (cut_no_sep c s) as N. rewrite C in *. cbn [fst snd] in *. rewrite app_nil_r in P. subst. auto. Qed.
Lemma fragment_exact url frag : (exists base, has_fragment url base frag) <-> url_fragment url = Some frag.
Proof.
  unfold url_fragment. destruct (cut "#"%char url) as [b [r|]] eqn:C.
  - apply cut_found in C as [-> NB]. split.
    + intros (base & [(N & _)|(raw & E & N & D)]); [exfalso; apply N; apply in_app_iff; right; now left|].
      assert (raw = r) as ->.
      { change ($"#" ++ raw) with ("#"%char :: raw) in E. assert (X : cut "#"%char (b ++ "#"%char :: r) = cut "#"%char (base ++ "#"%char :: raw)) by now rewrite E. rewrite !cut_app in X by auto. congruence. }
      now apply decodes_unescape.
    + intros D. exists b. right. exists r. split; auto. split; auto. now apply unescape_decodes.
  - apply cut_absent in C as [-> N]. split.
    + intros (base & [(_ & _ & ->)|(raw & E & NB & D)]); auto. exfalso. apply N. rewrite E. apply in_app_iff. right. now left.
    + intros [= <-]. exists url. left. auto.
Qed.
Lemma fragment_base url base frag : has_fragment url base frag -> fst (cut "#"%char url) = base.
Proof.
  intros [(N & -> & ->)|(raw & -> & N & D)].
  - destruct (cut "#"%char url) as [b [r|]] eqn:C; [apply cut_found in C as [-> _]; exfalso; apply N; apply in_app_iff; right; now left|]. now apply cut_absent in C as [-> _].
  - change ($"#" ++ raw) with ("#"%char :: raw). now rewrite cut_app.
Qed.
Lemma valid_exact e url frag : valid_url e url frag <-> e_url_ok e (fst (cut "#"%char url)) = true /\ url_fragment url = Some frag.
Proof.
  split.
  - intros (base & F & U). rewrite (fragment_base _ _ _ F). split; auto. apply fragment_exact. eauto.
  - intros [U F]. apply fragment_exact in F as (base & F). exists base. split; auto. now rewrite <- (fragment_base _ _ _ F).
Qed.


Lemma empty_gives_nothing k v : ~ gives [] k v.
Proof.
  intros (p & rk & rv & P & NP & _). apply NP. destruct P as (l1 & l2 & P & _). destruct l1; [|discriminate]. destruct p; [reflexivity|discriminate].
Qed.
Lemma reason_unique e url x y : reason e url x -> reason e url y -> x = y.
Proof.
  assert (B : forall z, z <> BadURL -> reason e url z -> exists frag, valid_url e url frag).
  { intros z N R. destruct z; cbn [reason] in R; [congruence| | |]; destruct R as (f & R); exists f; [apply R|destruct R as (c & R); apply R|destruct R as (c & R); apply R]. }
  intros X Y. destruct x, y; try reflexivity; try (exfalso; destruct (B _ ltac:(discriminate) X) as (f & V); now apply (Y f)); try (exfalso; destruct (B _ ltac:(discriminate) Y) as (f & V); now apply (X f));
    cbn [reason] in *; clear B; repeat match goal with H : exists _, _ |- _ => destruct H | H : _ /\ _ |- _ => destruct H end; try congruence; exfalso; eauto. all: match goal with X : forall f, ~ _ |- _ => eapply X; eassumption end.
Qed.
Lemma good_no_reason e url content x : get_why e url = Good content -> ~ reason e url x.
Proof.
  intros G R. apply get_why_ok in G. pose proof (get_content _ _ _ G) as T.
  assert (V : exists frag, valid_url e url frag).
  { unfold get in G. destruct (e_url_ok e _) eqn:U; [|discriminate]. cbn [negb] in G. destruct (url_fragment url) as [frag|] eqn:F; [|discriminate]. exists frag. now apply valid_exact. }
  destruct V as (frag & V). destruct x; cbn [reason] in R.
  - now apply (R frag).
  - destruct R as (_ & _ & R). congruence.
  - destruct R as (_ & c & _ & R & N). congruence.
  - destruct R as (f & c & V' & R & W & k & v & h & GV & H & N). assert (c = content) as -> by congruence. destruct V' as (base & F & U).
    destruct F as [(NI & -> & ->)|(raw & E & NB & D)]; [eapply empty_gives_nothing; eauto|]. apply N. eapply get_checks; eauto.
Qed.
Theorem get_reason e url x : get_why e url = Bad x <-> reason e url x.
Proof.
  assert (S : forall x, get_why e url = Bad x -> reason e url x).
  { clear x. intros x. unfold get_why. destruct (e_url_ok e _) eqn:U; cbn [negb].
    2:{ intros [= <-] frag V. apply valid_exact in V as [V _]. congruence. }
    destruct (url_fragment url) as [frag|] eqn:F.
    2:{ intros [= <-] frag V. apply valid_exact in V as [_ V]. congruence. }
    assert (V : valid_url e url frag) by now apply valid_exact.
    destruct (e_fetch e url) as [[s c]|] eqn:T; [|intros [= <-]; exists frag; auto].
    destruct (s =? 200) eqn:H; cbn [negb]; [apply Z.eqb_eq in H as ->|apply Z.eqb_neq in H; intros [= <-]; exists frag, c; auto].
    destruct frag as [|a frag]; [discriminate|]. destruct (query_spec (a :: frag)) as [Q1 Q2]. destruct (parse_query _) as [kvs ok]. cbn [fst snd] in *.
    destruct ok; [|discriminate]. cbn [andb]. pose proof (proj1 Q1 eq_refl) as W. specialize (Q2 W). destruct (forallb _ kvs) eqn:FB; [discriminate|]. intros [= <-].
    exists (a :: frag), c. split; auto. split; auto. split; auto. assert (X : exists kv, In kv kvs /\ checksum_ok e c kv = false).
    { clear - FB. induction kvs as [|kv kvs IH]; [discriminate|]. cbn [forallb] in FB. destruct (checksum_ok e c kv) eqn:K; [|exists kv; split; auto; now left].
      destruct (IH FB) as (kv' & I & K'). exists kv'. split; auto. now right. }
    destruct X as ((k, v) & I & K). unfold checksum_ok in K. cbn [fst snd] in K. destruct (e_hash e k) as [h|] eqn:H; [|discriminate].
    exists k, v, h. split; [now apply Q2|]. split; auto. intros E. rewrite E, str_eqb_refl in K. discriminate. }
  split; auto. intros R. destruct (get_why e url) as [content|y] eqn:G; [exfalso; eapply good_no_reason; eauto|]. f_equal. apply (reason_unique e url); auto.
Qed.

(** *** Requests *)
Lemma filled_agent c : agent_of c (c_agent (fill_defaults c)).
Proof. unfold fill_defaults, agent_of. destruct (c_agent c); cbn; [now right|left; split; auto; discriminate]. Qed.
Lemma filled_base c : base_of c (c_base (fill_defaults c)).
Proof. unfold fill_defaults, base_of. destruct (c_base c); cbn; [now right|left; split; auto; discriminate]. Qed.
Lemma fill_idem c : fill_defaults (fill_defaults c) = fill_defaults c.
Proof. destruct c as [[|b0 b] [|a0 a]]; reflexivity. Qed.
Theorem requests_made e c url : (forall frag, ~ valid_url e url frag) /\ get_requests e c url = [] \/
  (exists frag, valid_url e url frag) /\ exists a, agent_of c a /\ get_requests e c url = [mkRequest url a].
Proof.
  unfold get_requests. destruct (get_why e url) as [content|x] eqn:G.
  - right. split; [|exists (c_agent (fill_defaults c)); split; auto using filled_agent].
    apply get_why_ok in G. unfold get in G. destruct (e_url_ok e _) eqn:U; [|discriminate]. cbn [negb] in G. destruct (url_fragment url) as [frag|] eqn:F; [|discriminate]. exists frag. now apply valid_exact.
  - apply get_reason in G. destruct x; cbn [reason] in G; [left; auto| | |]; right; (split; [firstorder|exists (c_agent (fill_defaults c)); split; auto using filled_agent]).
Qed.

Lemma asks_made e c url : asks e url (c_agent (fill_defaults c)) (get_requests e c url).
Proof.
  destruct (requests_made e c url) as [[A B]|[A (a & _ & B)]]; [left; auto|right]. split; auto. revert B. unfold get_requests. destruct (get_why e url) as [|[]]; intros B; auto; discriminate.
Qed.
Theorem all_requests e c l url : exists agent, agent_of c agent /\ asks e (l_href l) agent (fst (get_file e (c, l))) /\ asks e url agent (fst (get_page e c url)).
Proof. exists (c_agent (fill_defaults c)). split; [apply filled_agent|]. split; apply asks_made. Qed.

(** *** Pages *)
Theorem page_exact e c url links : (forall content doc, e_parse_html e content = Some doc -> html_page doc) ->
  snd (get_page e c url) = Good links -> shows e url links.
Proof.
  intros P. unfold get_page. cbn [snd]. destruct (get_why e url) as [content|x] eqn:G; [|discriminate]. destruct (e_parse_html e content) as [doc|] eqn:H; [|discriminate].
  destruct (e_hook e doc) eqn:K; cbn [negb]; [|discriminate]. pose proof (page_links (e_resolve e url) doc (P _ _ H)) as L. destruct (collect_links _ _) as [l|]; [|discriminate].
  intros [= <-]. exists content, doc. auto.
Qed.
Theorem page_fails e c url x : (forall content doc, e_parse_html e content = Some doc -> html_page doc) ->
  snd (get_page e c url) = Bad x <->
  match x with
  | NoPage y => reason e url y
  | BadHTML => exists content, get_why e url = Good content /\ e_parse_html e content = None
  | Refused => exists content doc, get_why e url = Good content /\ e_parse_html e content = Some doc /\ e_hook e doc = false
  | BadHRef => exists content doc n, get_why e url = Good content /\ e_parse_html e content = Some doc /\ e_hook e doc = true /\
      within n doc /\ anchor n /\ bad_href (e_resolve e url) n
  end.
Proof.
  intros P. unfold get_page. cbn [snd]. destruct (get_why e url) as [content|y] eqn:G.
  2:{ destruct x as [y'| | |]; [rewrite <- get_reason, G; split; congruence| | |]; (split; [discriminate|]); intros X; exfalso; destruct X as (? & X); [|destruct X as (? & X)|destruct X as (? & ? & X)]; destruct X as [X _]; discriminate. }
  destruct (e_parse_html e content) as [doc|] eqn:H.
  2:{ destruct x as [y'| | |]; (split; [try discriminate; eauto|]).
      - intros R. exfalso. eapply good_no_reason; eauto.
      - auto.
      - intros (c' & d & X & Y & _). congruence.
      - intros (c' & d & n & X & Y & _). congruence. }
  destruct (e_hook e doc) eqn:K; cbn [negb].
  2:{ destruct x as [y'| | |]; (split; [try discriminate; eauto|]).
      - intros R. exfalso. eapply good_no_reason; eauto.
      - intros (c' & X & Y). congruence.
      - auto.
      - intros (c' & d & n & X & Y & Z & _). congruence. }
  pose proof (page_links_fail (e_resolve e url) doc (P _ _ H)) as L. destruct (collect_links _ _) as [l|].
  - split; [discriminate|]. intros R. exfalso. destruct x as [y'| | |].
    + eapply good_no_reason; eauto.
    + destruct R as (c' & X & Y). congruence.
    + destruct R as (c' & d & X & Y & Z). congruence.
    + destruct R as (c' & d & n & X & Y & Z & W). assert (c' = content) as -> by congruence. assert (d = doc) as -> by congruence. destruct L as [_ L]. discriminate L. eauto.
  - destruct L as [L _]. destruct (L eq_refl) as (n & L1). destruct x as [y'| | |]; (split; [try discriminate; eauto 10|]).
    + intros R. exfalso. eapply good_no_reason; eauto.
    + intros (c' & X & Y). congruence.
    + intros (c' & d & X & Y & Z). congruence.
    + auto.
Qed.

Theorem packages_listed e c : (forall content doc, e_parse_html e content = Some doc -> html_page doc) ->
  exists base agent, base_of c base /\ agent_of c agent /\ asks e base agent (fst (list_packages e c)) /\
    match snd (list_packages e c) with
    | Good packages => exists links, shows e base links /\ packages = map (fun l => (mkClient base agent, l)) links
    | Bad x => snd (get_page e c base) = Bad x
    end.
Proof.
  intros P. exists (c_base (fill_defaults c)), (c_agent (fill_defaults c)). split; [apply filled_base|]. split; [apply filled_agent|].
  pose proof (page_exact e (fill_defaults c) (c_base (fill_defaults c))) as X. unfold list_packages. unfold get_page in *. cbn [fst snd] in *. split.
  - rewrite <- (fill_idem c) at 2. apply asks_made.
  - match goal with |- match match ?p with _ => _ end with _ => _ end => destruct p as [links|x] end; auto. exists links. split; [now apply X|]. now destruct (fill_defaults c).
Qed.
Theorem files_listed e p : (forall content doc, e_parse_html e content = Some doc -> html_page doc) ->
  (exists agent, agent_of (fst p) agent /\ asks e (l_href (snd p)) agent (fst (list_files e p))) /\
  match snd (list_files e p) with
  | Good files => exists links, shows e (l_href (snd p)) links /\ files = map (fun l => (fst p, l)) links
  | Bad x => snd (get_page e (fst p) (l_href (snd p))) = Bad x
  end.
Proof.
  intros P. pose proof (page_exact e (fst p) (l_href (snd p))) as X. unfold list_files. unfold get_page in *. cbn [fst snd] in *. split.
  - exists (c_agent (fill_defaults (fst p))). split; [apply filled_agent|]. apply asks_made.
  - match goal with |- match match ?p with _ => _ end with _ => _ end => destruct p as [links|x] end; auto. exists links. split; [now apply X|]. reflexivity.
Qed.

(** *** Signatures *)
Theorem signature_exact e f : let url := l_href (snd f) in let attr := lookup $"data-gpg-sig" (l_attrs (snd f)) in
  (snd (signature e f) = Bad NoSignature <-> attr = Some $"false" \/ attr <> Some $"true" /\ reason e url (HTTPStatus 404)) /\
  (attr <> Some $"false" -> fst (signature e f) = fst (get_file e f) /\
     (forall content, snd (signature e f) = Good content <-> snd (get_file e f) = Good content) /\
     forall x, snd (signature e f) = Bad (NoFile x) -> snd (get_file e f) = Bad x).
Proof.
  cbv zeta. unfold signature, get_file. cbn [fst snd]. rewrite <- get_reason. destruct (lookup _ _) as [v|].
  - destruct (str_eqb v $"false") eqn:VF; [apply str_eqb_eq in VF; subst v; cbn [fst snd]; split; [split; auto|congruence]|].
    assert (NF : Some v <> Some $"false") by (intros [= ->]; rewrite str_eqb_refl in VF; discriminate). cbn [fst snd].
    destruct (str_eqb v $"true") eqn:VT; [apply str_eqb_eq in VT; subst v|assert (NT : Some v <> Some $"true") by (intros [= ->]; rewrite str_eqb_refl in VT; discriminate)];
      destruct (get_why _ _) as [c|[]]; try (destruct (code =? 404) eqn:C; [apply Z.eqb_eq in C as ->|apply Z.eqb_neq in C]);
      (split; [split; [try discriminate; auto|intros [X|[X Y]]; congruence]|intros _; split; auto; split; intros; try split; congruence]).
  - change (str_eqb [] $"false") with false. change (str_eqb [] $"true") with false. cbn [fst snd]. assert (NF : @None str <> Some $"false") by discriminate. assert (NT : @None str <> Some $"true") by discriminate.
    destruct (get_why _ _) as [c|[]]; try (destruct (code =? 404) eqn:C; [apply Z.eqb_eq in C as ->|apply Z.eqb_neq in C]);
      (split; [split; [try discriminate; auto|intros [X|[X Y]]; congruence]|intros _; split; auto; split; intros; try split; congruence]).
Qed.

Theorem signature_wrong e f : let url := l_href (snd f) in
  (forall content, snd (signature e f) = Good content -> snd (get_file e f) = Good content) /\
  forall r sig, In r (fst (signature e f)) -> signature_url url sig -> rq_url r <> sig.
Proof.
  intros url. split.
  - intros content H. unfold signature, get_file in *. cbn [fst snd] in *. destruct (str_eqb _ $"false"); [discriminate|]. cbn [snd] in H.
    destruct (get_why _ _) as [c|x]; [congruence|discriminate].
  - intros r sig I (base & frag & F & ->). assert (R : rq_url r = url).
    { unfold signature in I. destruct (str_eqb _ $"false"); cbn [fst] in I; [destruct I|]. unfold get_requests in I. destruct (get_why _ _) as [|[]]; destruct I as [<-|[]] || destruct I; reflexivity. }
    rewrite R. intros E. assert (L : length url = length (base ++ $".asc")) by now rewrite <- E. rewrite app_length in L. cbn in L.
    destruct F as [(_ & -> & _)|(raw & F & NB & _)]; [lia|]. rewrite F in E. apply app_inv_head in E. discriminate.
Qed.

(** *** The version of the repository *)
Theorem new_client_refuses e sort tags name spec content doc v : get e (package_url e name) = Some content -> e_parse_html e content = Some doc ->
  get_version doc = Some v -> nth 0 (release (pub v)) 0 > 1 ->
  snd (list_package_files (new_env e) name) = None /\ snd (select_wheel (new_env e) sort tags name spec) = None.
Proof.
  intros G H V M. pose proof (check_spec doc) as K. rewrite V in K. destruct K as [[_ K] _]. specialize (K M).
  assert (L : snd (list_package_files (new_env e) name) = None).
  { unfold list_package_files. destruct (forallb name_char name); cbn [negb snd]; auto. unfold get_index. change (get (new_env e) (package_url (new_env e) name)) with (get e (package_url e name)). rewrite G.
    change (e_parse_html (new_env e) content) with (e_parse_html e content). rewrite H. change (e_hook (new_env e) doc) with (version_hook doc). unfold version_hook. now rewrite K. }
  split; auto. unfold select_wheel. destruct (list_package_files (new_env e) name) as [r l]. cbn [snd] in *. now rewrite L.
Qed.

Theorem new_client_page e c url : snd (get_page (new_env e) c url) = Bad Refused <->
  exists content doc, get e url = Some content /\ e_parse_html e content = Some doc /\
    (get_version doc = None \/ exists v, get_version doc = Some v /\ nth 0 (release (pub v)) 0 > 1).
Proof.
  assert (H : forall doc, version_hook doc = false <-> get_version doc = None \/ exists v, get_version doc = Some v /\ nth 0 (release (pub v)) 0 > 1).
  { intros doc. pose proof (check_spec doc) as K. unfold version_hook. destruct (get_version doc) as [v|].
    - destruct K as [K _]. split.
      + intros X. right. exists v. split; auto. apply K. now destruct (html_version_check doc).
      + intros [X|(w & [= <-] & X)]; [discriminate|]. apply K in X. now rewrite X.
    - rewrite K. split; auto. }
  unfold get_page. cbn [snd]. change (get_why (new_env e) url) with (get_why e url). destruct (get_why e url) as [content|x] eqn:G.
  - apply get_why_ok in G. change (e_parse_html (new_env e)) with (e_parse_html e). destruct (e_parse_html e content) as [doc|] eqn:P.
    + change (e_hook (new_env e) doc) with (version_hook doc). split.
      * intros X. exists content, doc. split; auto. split; auto. apply H. destruct (version_hook doc); auto. cbn [negb] in X. destruct (collect_links _ _); discriminate.
      * intros (c' & d & X & Y & Z). assert (c' = content) as -> by congruence. assert (d = doc) as -> by congruence. apply H in Z. now rewrite Z.
    + split; [discriminate|]. intros (c' & d & X & Y & Z). congruence.
  - split; [discriminate|]. intros (c' & d & X & Y & Z). apply get_why_ok in X. congruence.
Qed.

(** *** A check that finds out whether a document is a page, for examples *)
Lemma within_listed n d : within n d -> In n (document_order d).
Proof. induction 1 as [|ty data attrs children c I _ IH]; [destruct n; now left|]. right. apply in_flat_map. eauto. Qed.
Definition pageb (doc : node) : bool :=
  forallb (fun t => match n_type t with TextNode => match n_children t with [] => true | _ => false end | _ => true end) (document_order doc) &&
  forallb (fun a => negb (is_element $"a" a) || forallb (fun c => forallb (fun b => negb (is_element $"a" b)) (document_order c)) (n_children a)) (document_order doc).
Lemma is_anchor n : anchor n -> is_element $"a" n = true.
Proof. intros [T D]. unfold is_element. rewrite T, D. reflexivity. Qed.
Lemma pageb_ok doc : pageb doc = true -> html_page doc.
Proof.
  unfold pageb. intros H. apply andb_true_iff in H as [T A]. rewrite forallb_forall in T, A. split.
  - intros t W E. apply within_listed in W. specialize (T _ W). rewrite E in T. now destruct (n_children t).
  - intros a c b W Ha I B Hb. apply within_listed in W. specialize (A _ W). rewrite (is_anchor _ Ha) in A. cbn [negb orb] in A. rewrite forallb_forall in A. specialize (A _ I).
    rewrite forallb_forall in A. apply within_listed in B. specialize (A _ B). rewrite (is_anchor _ Hb) in A. discriminate.
Qed.
Lemma index_pages hook s content doc : e_parse_html (an_index hook s) content = Some doc -> html_page doc.
Proof. cbn [an_index e_parse_html]. destruct (str_eqb content _); intros [= <-]; apply pageb_ok; reflexivity. Qed.
