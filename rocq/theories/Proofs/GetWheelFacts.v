(** Proofs about Model/GetWheel.v. *)
From Coq Require Import String Ascii List Bool ZArith Lia.
From Verif.Model Require Import GoStr Pep440 WheelName SimpleAPI GetWheel.
From Verif.Spec Require Import WheelNameSpec SimpleAPISpec GetWheelSpec UrlSpec.
From Verif.Proofs Require Import Order GoStrFacts SimpleAPIFacts UrlFacts.
Import ListNotations.
Local Open Scope nat_scope.

Lemma keep_all links : filter (keep_link None) links = links.
Proof. induction links as [|l links IH]; [reflexivity|]. cbn [filter keep_link]. now rewrite IH. Qed.
Lemma fetch_first e f links : (exists before l after, links = before ++ l :: after /\ l_text l = f /\ Forall (fun m => l_text m <> f) before /\ fetch_named e f links = ([l_href l], get e (l_href l))) \/
  (Forall (fun m => l_text m <> f) links /\ fetch_named e f links = ([], None)).
Proof.
  induction links as [|l links IH]; [right; auto|]. cbn [fetch_named]. destruct (str_eqb (l_text l) f) eqn:E.
  - apply str_eqb_eq in E. left. exists [], l, links. auto.
  - assert (N : l_text l <> f) by (intros X; apply str_eqb_eq in X; congruence). destruct IH as [(b & m & a & -> & T & F & X)|[F X]].
    + left. exists (l :: b), m, a. auto.
    + right. auto.
Qed.
Lemma firsts f b (l : link) a b' l' a' : b ++ l :: a = b' ++ l' :: a' -> l_text l = f -> l_text l' = f -> Forall (fun m => l_text m <> f) b -> Forall (fun m => l_text m <> f) b' -> l = l'.
Proof.
  intros E T T' F. revert b' E. induction F as [|x b X _ IH]; intros b' E F'.
  - destruct F' as [|y b' Y]; cbn [app] in E; injection E as -> _; congruence.
  - destruct F' as [|y b' Y F']; cbn [app] in E; [injection E as -> _; congruence|]. injection E as _ E. eauto.
Qed.
(** What is written, and which pages are asked for *)
Theorem wheel_exact e f reqs content : get_wheel e f = (reqs, Some content) <->
  exists d before l after, parse_filename f = Some d /\ valid_name (f_dist d) /\ get_index (new_client e) (package_url e (f_dist d)) = Some (before ++ l :: after) /\
    l_text l = f /\ Forall (fun m => l_text m <> f) before /\ get e (l_href l) = Some content /\ reqs = [package_url e (f_dist d); l_href l].
Proof.
  unfold get_wheel. split.
  - destruct (parse_filename f) as [d|]; [|discriminate]. unfold list_package_files. destruct (forallb name_char (f_dist d)) eqn:V; [|discriminate]. apply name_char_valid in V. cbn [negb].
    change (package_url (new_client e) (f_dist d)) with (package_url e (f_dist d)). change (e_python (new_client e)) with (@None version).
    destruct (get_index _ _) as [links|] eqn:G; [|discriminate]. rewrite keep_all.
    destruct (fetch_first (new_client e) f links) as [(b & l & a & -> & T & F & X)|[F X]]; rewrite X; [|discriminate]. intros E. injection E as <- C. exists d, b, l, a. repeat (split; auto).
  - intros (d & b & l & a & P & V & G & T & F & C & ->). rewrite P. unfold list_package_files. apply name_char_valid in V. rewrite V. cbn [negb].
    change (package_url (new_client e) (f_dist d)) with (package_url e (f_dist d)). change (e_python (new_client e)) with (@None version). rewrite G, keep_all.
    destruct (fetch_first (new_client e) f (b ++ l :: a)) as [(b' & l' & a' & E & T' & F' & X)|[F' X]].
    + rewrite X. rewrite <- (firsts f _ _ _ _ _ _ E T T' F F'). change (get (new_client e) (l_href l)) with (get e (l_href l)). rewrite C. reflexivity.
    + apply Forall_app in F' as [_ F']. inversion F'; congruence.
Qed.
Lemma find_anchor resolve (f : str) ns : forall b l a, Forall2 (link_of resolve) ns (b ++ l :: a) -> l_text l = f -> Forall (fun m => l_text m <> f) b ->
  exists nb n na, ns = nb ++ n :: na /\ text_content n = f /\ Forall (fun m => text_content m <> f) nb /\ link_of resolve n l.
Proof.
  induction ns as [|n ns IH]; intros b l a H T F; [inversion H; destruct b; discriminate|]. inversion H as [|? y ? ys L H' E1 E2]; subst. destruct b as [|m b]; cbn [app] in E2.
  - injection E2 as -> ->. exists [], n, ns. split; auto. split; [destruct L as [<- _]; auto|]. auto.
  - injection E2 as -> ->. inversion F as [|? ? N F']; subst. destruct (IH b l a H' eq_refl F') as (nb & n' & na & -> & X & Y & Z). exists (n :: nb), n', na. split; auto. split; auto. split; auto.
    constructor; auto. destruct L as [<- _]. auto.
Qed.
(** In terms of the page *)
Theorem wheel_page e f reqs content : (forall body doc, e_parse_html e body = Some doc -> html_page doc) -> get_wheel e f = (reqs, Some content) ->
  exists d page body doc before n after href, parse_filename f = Some d /\ page = package_url e (f_dist d) /\ e_fetch e page = Some (200%Z, body) /\ e_parse_html e body = Some doc /\
    (exists w, html_version_check doc = CheckOK w) /\
    filter (is_element $"a") (document_order doc) = before ++ n :: after /\ text_content n = f /\ Forall (fun m => text_content m <> f) before /\
    match attribute $"href" (n_attrs n) with Some h => e_resolve e page h = Some href | None => href = [] end /\
    reqs = [page; href] /\ e_fetch e href = Some (200%Z, content) /\
    forall before raw frag k v h, href = before ++ $"#" ++ raw -> ~ In "#"%char before -> decodes false raw frag -> well_formed_list frag ->
      gives frag k v -> e_hash e k = Some h -> h content = v.
Proof.
  intros HP W. apply wheel_exact in W as (d & b & l & a & P & V & G & T & F & C & ->). unfold get_index in G. destruct (get (new_client e) _) as [body|] eqn:B; [|discriminate].
  change (get e (package_url e (f_dist d)) = Some body) in B. apply get_content in B. change (e_parse_html (new_client e)) with (e_parse_html e) in G. destruct (e_parse_html e body) as [doc|] eqn:D; [|discriminate].
  assert (VC : exists w, html_version_check doc = CheckOK w) by (cbn [new_client e_hook] in G; destruct (html_version_check doc) as [|w]; [discriminate|eauto]).
  destruct (negb _); [discriminate|]. change (e_resolve (new_client e)) with (e_resolve e) in G. pose proof (page_links (e_resolve e (package_url e (f_dist d))) doc (HP _ _ D)) as L. rewrite G in L.
  destruct (find_anchor _ f _ _ _ _ L T F) as (nb & n & na & E & X & Y & (_ & R & _)).
  exists d, (package_url e (f_dist d)), body, doc, nb, n, na, (l_href l). repeat (split; auto); [now apply get_content|].
  intros b0 raw frag k v h HR A1 A2 A3 A4 A5. eapply (get_checks e (l_href l)); eauto.
Qed.
(** Nothing else is asked for. *)
Theorem wheel_requests e f : fst (get_wheel e f) = [] \/ exists d, parse_filename f = Some d /\ (fst (get_wheel e f) = [package_url e (f_dist d)] \/
  exists links l, get_index (new_client e) (package_url e (f_dist d)) = Some links /\ In l links /\ l_text l = f /\ fst (get_wheel e f) = [package_url e (f_dist d); l_href l]).
Proof.
  unfold get_wheel. destruct (parse_filename f) as [d|]; [|now left]. unfold list_package_files. destruct (forallb name_char (f_dist d)); [|now left]. cbn [negb]. right. exists d. split; auto.
  change (package_url (new_client e) (f_dist d)) with (package_url e (f_dist d)). change (e_python (new_client e)) with (@None version).
  destruct (get_index _ _) as [links|]; [|now left]. rewrite keep_all. destruct (fetch_first (new_client e) f links) as [(b & l & a & -> & T & F & X)|[F X]]; rewrite X; [|now left].
  right. exists (b ++ l :: a), l. split; auto. split; [rewrite in_app_iff; right; now left|]. auto.
Qed.
(** Pages of plain links *)
Lemma within_link m h t : within m (link_node h t) -> m = link_node h t \/ m = Node TextNode t [] [].
Proof.
  unfold link_node. intros W. inversion W as [|? ? ? ? c I V]; subst; auto. destruct I as [<-|[]]. inversion V as [|? ? ? ? c I V']; subst; auto. destruct I.
Qed.
Lemma link_page l : html_page (Node OtherNode [] [] (map (fun x => link_node (fst x) (snd x)) l)).
Proof.
  assert (W : forall m, within m (Node OtherNode [] [] (map (fun x => link_node (fst x) (snd x)) l)) -> n_type m = OtherNode \/ exists h t, m = link_node h t \/ m = Node TextNode t [] []).
  { intros m W. inversion W as [|? ? ? ? c I V]; subst; auto. apply in_map_iff in I as ([h t] & <- & _). right. exists h, t. now apply within_link. }
  split.
  - intros t V T. destruct (W t V) as [E|(h & x & [-> | ->])]; [congruence|discriminate T|reflexivity].
  - intros a c b V [A1 A2] I B. destruct (W a V) as [E|(h & x & [-> | ->])]; [congruence| |discriminate A1]. destruct I as [<-|[]]. inversion B as [|? ? ? ? c' I' _]; subst; [intros [X _]; discriminate X|destruct I'].
Qed.
