(** C19, C20, C22-C25, C58, C64: the package index. *)
From Coq Require Import String Ascii List Bool ZArith.
From Verif.Model Require Import GoStr GoPath Pep440 Specifier Pep345 WheelName SimpleAPI.
From Verif.Spec Require Import Pep440Spec VersionGrammar SpecifierSpec WheelNameSpec PathSpec SimpleAPISpec UrlSpec ExactSpec.
From Verif.Proofs Require Import WheelNameFacts SimpleAPIFacts UrlFacts ExactFacts.
Import ListNotations.
Open Scope Z_scope.

(** ** C19: the selected wheel is admissible *)
Theorem C19_selected_is_candidate : forall sort tags spec links l, sorts sort ->
  select_links sort tags spec links = Some l -> exists d, candidate tags spec links l d.
Proof. exact selected_candidate. Qed.
Print Assumptions C19_selected_is_candidate.
Theorem C19_fails_iff_no_candidate : forall sort tags spec links, sorts sort ->
  (select_links sort tags spec links = None <-> forall l d, ~ candidate tags spec links l d).
Proof. exact selection_fails. Qed.
Print Assumptions C19_fails_iff_no_candidate.
(** Among the wheels with the same spelling of the version ... *)
Theorem C19_most_preferred_partial : forall sort tags spec links l l' d d', sorts sort ->
  select_links sort tags spec links = Some l -> parse_filename (l_text l) = Some d ->
  candidate tags spec links l' d' -> f_version d' = f_version d ->
  as_preferred tags (f_tag d) (f_tag d').
Proof. exact selected_preferred. Qed.
Print Assumptions C19_most_preferred_partial.
(** ... but not among all wheels of an equal version: here 1.0.0 has the better tag. *)
Theorem C19_most_preferred_refuted : forall sort, select_links sort py3_any []
  [wheel $"x-1.0-py3-none-any.whl"; wheel $"x-1.0.0-cp39-cp39-linux.whl"] = Some (wheel $"x-1.0-py3-none-any.whl").
Proof. exact pick_spelling. Qed.
Print Assumptions C19_most_preferred_refuted.
(** SelectWheel asks the server what ListPackageFiles asks, and selects among the files that it lists, by the specifier that it is
    given. *)
Theorem C19_select_wheel : forall e sort tags name spec, sorts sort ->
  fst (select_wheel e sort tags name spec) = fst (list_package_files e name) /\
  match snd (select_wheel e sort tags name spec) with
  | Some l => exists links d, snd (list_package_files e name) = Some links /\ candidate tags spec links l d
  | None => forall links, snd (list_package_files e name) = Some links -> forall l d, ~ candidate tags spec links l d
  end.
Proof. exact select_wheel_spec. Qed.
Print Assumptions C19_select_wheel.
Example C19_sorting_exists : @sorts link insertion_sort.
Proof. exact insertion_sorts. Qed.
Example C19_nonvacuous : select_links insertion_sort py3_any []
  [wheel $"x-1.0-py3-none-any.whl"; wheel $"x-1.1-cp39-cp39-linux.whl"; wheel $"x-1.1-py3-none-any.whl";
   wheel $"x-1.2-cp27-cp27-linux.whl"; wheel $"x-1.3.tar.gz"] = Some (wheel $"x-1.1-cp39-cp39-linux.whl").
Proof. vm_compute. reflexivity. Qed.

(** ** C20: newest, not a pre-release, not yanked, highest build *)

(** On pages without yanked files the newest candidate is taken (pre-releases
    included). *)
Theorem C20_newest_partial : forall sort tags spec links l d, sorts sort ->
  (forall l d, In l links -> parse_filename (l_text l) = Some d -> no_overflow (f_version d)) ->
  (forall l, In l links -> is_yanked l = false) ->
  select_links sort tags spec links = Some l -> parse_filename (l_text l) = Some d ->
  forall l' d', candidate tags spec links l' d' ->
  pep440_compare (f_version d') (f_version d) <> Gt.
Proof. exact selected_newest. Qed.
Print Assumptions C20_newest_partial.
(** If no candidate is a pre-release, a version with a yanked file is only
    chosen when every candidate's version has one. *)
Theorem C20_yanked_partial : forall sort tags spec links l d, sorts sort ->
  (forall l d, In l links -> parse_filename (l_text l) = Some d -> no_overflow (f_version d)) ->
  (forall l d, candidate tags spec links l d -> ~ pre_or_dev (f_version d)) ->
  select_links sort tags spec links = Some l -> parse_filename (l_text l) = Some d ->
  yanked_version tags links (f_version d) ->
  forall l' d', candidate tags spec links l' d' -> yanked_version tags links (f_version d').
Proof. exact selected_yanked. Qed.
Print Assumptions C20_yanked_partial.
(** On all pages: versions that are [withdrawn] (final, with a yanked file) are passed over if there is another candidate, and
    among the rest the newest is taken. *)
Theorem C20_version_partial : forall sort tags spec links l d, sorts sort ->
  (forall l d, In l links -> parse_filename (l_text l) = Some d -> no_overflow (f_version d)) ->
  select_links sort tags spec links = Some l -> parse_filename (l_text l) = Some d ->
  forall l' d', candidate tags spec links l' d' ->
  (withdrawn tags links (f_version d) -> withdrawn tags links (f_version d')) /\
  ((withdrawn tags links (f_version d) <-> withdrawn tags links (f_version d')) -> pep440_compare (f_version d') (f_version d) <> Gt).
Proof. exact selected_version. Qed.
Print Assumptions C20_version_partial.
Example C20_version_case : select_links insertion_sort py3_any []
  [yanked $"x-3.0-py3-none-any.whl"; wheel $"x-2.0-py3-none-any.whl"; yanked $"x-2.1rc1-py3-none-any.whl"; wheel $"x-1.0-py3-none-any.whl"]
  = Some (yanked $"x-2.1rc1-py3-none-any.whl").
Proof. vm_compute. reflexivity. Qed.
(** A pre-release is chosen although a final release matches. *)
Theorem C20_prerelease_refuted : forall sort, select_links sort py3_any []
  [wheel $"x-1.0-py3-none-any.whl"; wheel $"x-2.0rc1-py3-none-any.whl"] = Some (wheel $"x-2.0rc1-py3-none-any.whl").
Proof. exact pick_prerelease. Qed.
Print Assumptions C20_prerelease_refuted.
(** A yanked pre-release is chosen although a final release is not yanked, and
    a yanked file although another file of the same version is not. *)
Theorem C20_yanked_refuted : forall sort,
  select_links sort py3_any []
    [wheel $"x-1.0-py3-none-any.whl"; yanked $"x-2.0rc1-py3-none-any.whl"] = Some (yanked $"x-2.0rc1-py3-none-any.whl") /\
  select_links sort py3_any []
    [yanked $"x-1.0-cp39-cp39-linux.whl"; wheel $"x-1.0-py3-none-any.whl"] = Some (yanked $"x-1.0-cp39-cp39-linux.whl").
Proof. exact (fun sort => conj (pick_yanked_pre sort) (pick_yanked_file sort)). Qed.
Print Assumptions C20_yanked_refuted.
(** Among wheels of the same version and preference the build tag is the
    lowest, not the highest. *)
Theorem C20_build_tag_refuted : forall sort tags spec links l l' d d', sorts sort ->
  select_links sort tags spec links = Some l -> parse_filename (l_text l) = Some d ->
  candidate tags spec links l' d' -> f_version d' = f_version d ->
  as_preferred tags (f_tag d') (f_tag d) ->
  build_compare (f_build d) (f_build d') <> Gt.
Proof. exact selected_lowest_build. Qed.
Print Assumptions C20_build_tag_refuted.
Example C20_build_tag_example : select_links insertion_sort py3_any []
  [wheel $"x-1.0-2-py3-none-any.whl"; wheel $"x-1.0-1-py3-none-any.whl"] = Some (wheel $"x-1.0-1-py3-none-any.whl").
Proof. exact pick_lowest_build. Qed.

(** ** C22: project names *)
Theorem C22_normalize_idempotent_partial : forall s, normalize (normalize s) = normalize s.
Proof. exact normalize_idem. Qed.
Print Assumptions C22_normalize_idempotent_partial.
Theorem C22_normalize_identifies_partial : forall a b, normalize a = normalize b <-> same_project a b.
Proof. exact same_project_spec. Qed.
Print Assumptions C22_normalize_identifies_partial.
Theorem C22_one_path_element_partial : forall s, valid_name s -> s <> [] -> plain_comp (normalize s).
Proof. exact normalize_plain. Qed.
Print Assumptions C22_one_path_element_partial.
Theorem C22_invalid_rejected_partial : forall e name, ~ valid_name name -> list_package_files e name = ([], None).
Proof. exact list_invalid. Qed.
Print Assumptions C22_invalid_rejected_partial.
Theorem C22_request_partial : forall e name, valid_name name -> name <> [] -> e_base_path e <> [] ->
  fst (list_package_files e name) =
    [e_base_url e ++ path_text (is_abs (e_base_path e)) (clean_comps (e_base_path e) ++ [normalize name])].
Proof. exact list_request. Qed.
Print Assumptions C22_request_partial.
(** The empty name is not rejected: the index page itself is requested. *)
Theorem C22_empty_name_refuted : forall h,
  fst (list_package_files (sample_env h) []) = [$"https://pypi.org/simple"].
Proof. reflexivity. Qed.
Print Assumptions C22_empty_name_refuted.
Example C22_nonvacuous : normalize $"Zope._Interface" = $"zope-interface" /\
  fst (list_package_files (sample_env (fun _ => [])) $"Zope.Interface") = [$"https://pypi.org/simple/zope-interface"] /\
  list_package_files (sample_env (fun _ => [])) $"../x" = ([], None).
Proof. vm_compute. auto. Qed.

(** ** C64: the links of a page *)
Theorem C64_links_in_document_order : forall resolve doc, html_page doc ->
  match collect_links resolve (visit_after doc) with
  | None => exists n, within n doc /\ anchor n /\ bad_href resolve n
  | Some links => Forall2 (link_of resolve) (filter (is_element $"a") (document_order doc)) links
  end.
Proof. exact page_links. Qed.
Print Assumptions C64_links_in_document_order.
Theorem C64_fails_only_on_bad_href : forall resolve doc, html_page doc ->
  (collect_links resolve (visit_after doc) = None <->
   exists n, within n doc /\ anchor n /\ bad_href resolve n).
Proof. exact page_links_fail. Qed.
Print Assumptions C64_fails_only_on_bad_href.
Example C64_nonvacuous :
  collect_links (fun h => Some ($"http://h/" ++ h)) (visit_after
    (Node OtherNode [] [] [Node ElementNode $"a" [mkAttr [] $"href" $"f"; mkAttr [] $"data-yanked" []]
       [Node ElementNode $"b" [] [Node TextNode $"x" [] []]; Node TextNode $"y" [] []]]))
  = Some [mkLink $"xy" $"http://h/f" [($"data-yanked", [])]].
Proof. reflexivity. Qed.

(** ** C23: Requires-Python *)
Theorem C23_listing : forall e name reqs links, list_package_files e name = (reqs, Some links) ->
  exists url page keep, reqs = [url] /\ get_index e url = Some page /\
    (forall l, keep l = true <-> acceptable (e_python e) l) /\ links = filter keep page.
Proof. exact list_filters. Qed.
Print Assumptions C23_listing.
Example C23_nonvacuous : exists v, parse_version $"3.7" = Some v /\
  acceptable (Some v) (mkLink [] [] [($"data-requires-python", $">=3.6")]) /\
  ~ acceptable (Some v) (mkLink [] [] [($"data-requires-python", $">=3.8")]).
Proof.
  eexists. split; [vm_compute; reflexivity|]. split.
  - intros v req [= <-] [= <-] _. vm_compute. discriminate.
  - intros H. eapply H; [reflexivity|reflexivity|discriminate|]. vm_compute. reflexivity.
Qed.

(** ** C24: checksums *)
(** [raw] is the fragment as it is written in the URL, [frag] the fragment that it encodes. *)
Theorem C24_checksum_partial : forall e url before raw frag content k v h,
  url = before ++ $"#" ++ raw -> ~ In "#"%char before -> decodes false raw frag -> well_formed_list frag ->
  get e url = Some content -> gives frag k v -> e_hash e k = Some h -> h content = v.
Proof. exact get_checks. Qed.
Print Assumptions C24_checksum_partial.
(** Exactly when a download succeeds; in particular, if the list is not well-formed then nothing is checked. *)
Theorem C24_exact : forall e url before raw frag content,
  url = before ++ $"#" ++ raw -> ~ In "#"%char before -> decodes false raw frag ->
  (get e url = Some content <->
   e_url_ok e before = true /\ e_fetch e url = Some (200, content) /\
   (well_formed_list frag -> forall k v h, gives frag k v -> e_hash e k = Some h -> h content = v)).
Proof. exact get_exact. Qed.
Print Assumptions C24_exact.
Theorem C24_no_fragment : forall e url content, ~ In "#"%char url ->
  (get e url = Some content <-> e_url_ok e url = true /\ e_fetch e url = Some (200, content)).
Proof. exact get_no_fragment. Qed.
Print Assumptions C24_no_fragment.
Theorem C24_bad_fragment : forall e url before raw,
  url = before ++ $"#" ++ raw -> ~ In "#"%char before -> (forall d, ~ decodes false raw d) -> get e url = None.
Proof. exact get_bad_fragment. Qed.
Print Assumptions C24_bad_fragment.
(** The common case: nothing in the fragment is encoded. *)
Theorem C24_plain_partial : forall e url before frag content k v h,
  url = before ++ $"#" ++ frag -> ~ In "#"%char before ->
  ~ In "%"%char frag -> ~ In "+"%char frag -> ~ In ";"%char frag ->
  get e url = Some content ->
  piece_by "&"%char (k ++ $"=" ++ v) frag -> ~ In "="%char k -> e_hash e k = Some h ->
  h content = v.
Proof. exact get_checked. Qed.
Print Assumptions C24_plain_partial.
Theorem C24_content_is_response : forall e url content,
  get e url = Some content -> e_fetch e url = Some (200, content).
Proof. exact get_content. Qed.
Print Assumptions C24_content_is_response.
(** A ';' anywhere in the fragment switches the check off; the second part shows
    that the same content is refused without it. *)
Theorem C24_checksum_refuted : forall h : str -> str, h $"evil" <> $"00" ->
  get (sample_env h) $"https://host/x.whl#sha256=00&a=b;c" = Some $"evil" /\
  get (sample_env h) $"https://host/x.whl#sha256=00" = None.
Proof. exact get_unchecked. Qed.
Print Assumptions C24_checksum_refuted.
Example C24_nonvacuous : get (sample_env (fun _ => $"00")) $"https://host/x.whl#sha256=00&egg=x" = Some $"evil" /\
  get (sample_env (fun _ => $"01")) $"https://host/x.whl#egg=x&sha256=00" = None /\
  get (sample_env (fun _ => $"00")) $"https://host/x.whl#sha256=%2530%30" = Some $"evil" /\ get (sample_env (fun _ => $"01")) $"https://host/x.whl#sha256=%2530%30" = None /\
  get (sample_env (fun _ => $"00")) $"https://host/x.whl#a%" = None /\ get (sample_env (fun _ => $"01")) $"https://host/x.whl#sha256=00&a%25" = Some $"evil".
Proof. vm_compute. auto 10. Qed.
Example C24_nonvacuous_encoded : decodes false $"sha256=%2530%30" $"sha256=%300" /\ well_formed_list $"sha256=%300" /\ gives $"sha256=%300" $"sha256" $"00" /\
  ~ well_formed_list $"sha256=00&a%".
Proof. exact encoded_example. Qed.

(** ** C25: signatures *)
Theorem C25_no_signature_partial : forall e l,
  lookup $"data-gpg-sig" (l_attrs l) = Some $"false" -> get_signature e l = ([], None).
Proof. exact signature_none. Qed.
Print Assumptions C25_no_signature_partial.
(** The signature URL is never requested, whatever the link and the server. *)
Theorem C25_signature_url_refuted : forall e l, ~ In (l_href l ++ $".asc") (fst (get_signature e l)).
Proof. exact signature_wrong_url. Qed.
Print Assumptions C25_signature_url_refuted.

(** ** C58: yanked files and repository version *)
Theorem C58_yanked : forall resolve n l, link_of resolve n l ->
  (is_yanked l = true <-> exists v, attribute $"data-yanked" (n_attrs n) = Some v).
Proof. exact yanked_spec. Qed.
Print Assumptions C58_yanked.
Theorem C58_version_undeclared : forall doc, (forall v, ~ declares doc v) ->
  get_version doc = parse_version $"1.0".
Proof. exact version_undeclared. Qed.
Print Assumptions C58_version_undeclared.
Theorem C58_version_declared : forall doc v, declares doc v -> (forall w, declares doc w -> w = v) -> v <> [] ->
  get_version doc = parse_version v.
Proof. exact version_declared. Qed.
Print Assumptions C58_version_declared.
Theorem C58_version_check : forall doc,
  match get_version doc with
  | None => html_version_check doc = CheckError
  | Some v =>
      (html_version_check doc = CheckError <-> nth 0 (release (pub v)) 0 > 1) /\
      (html_version_check doc = CheckOK true <-> nth 0 (release (pub v)) 0 <= 1 /\ nth 1 (release (pub v)) 0 > 0)
  end.
Proof. exact check_spec. Qed.
Print Assumptions C58_version_check.
Example C58_nonvacuous :
  let page v := Node OtherNode [] [] [Node ElementNode $"meta"
    [mkAttr [] $"name" $"pypi:repository-version"; mkAttr [] $"content" v] []] in
  html_version_check (page $"1.0") = CheckOK false /\ html_version_check (page $"1.1") = CheckOK true /\
  html_version_check (page $"2.0") = CheckError.
Proof. vm_compute. auto. Qed.
