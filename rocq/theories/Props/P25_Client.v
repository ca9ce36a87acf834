(** C90, C91 and an addition to C58: the client of the package index. [get_why] is the download of a URL with
    its error; [signature], [list_packages] and [list_files] give the requests made and the result. *)
From Coq Require Import String Ascii List Bool ZArith.
From Verif.Model Require Import GoStr Pep440 Specifier WheelName SimpleAPI IndexClient.
From Verif.Spec Require Import WheelNameSpec SimpleAPISpec UrlSpec IndexClientSpec.
From Verif.Proofs Require Import SimpleAPIFacts IndexClientFacts.
Import ListNotations.
Local Open Scope Z_scope.

(** ** C90: the errors of the package index are told apart *)
(** A download succeeds as C24 says, and otherwise the error is the reason. *)
Theorem C90_content : forall e url content, get_why e url = Good content <-> get e url = Some content.
Proof. exact get_why_ok. Qed.
Print Assumptions C90_content.
Theorem C90_reason : forall e url x, get_why e url = Bad x <-> reason e url x.
Proof. exact get_reason. Qed.
Print Assumptions C90_reason.
(** "No signature" is reported if the index says so, or if it does not say that there is one and the server answers 404. *)
Theorem C90_signature : forall e f, let url := l_href (snd f) in let attr := lookup $"data-gpg-sig" (l_attrs (snd f)) in
  (snd (signature e f) = Bad NoSignature <-> attr = Some $"false" \/ attr <> Some $"true" /\ reason e url (HTTPStatus 404)) /\
  (attr <> Some $"false" -> fst (signature e f) = fst (get_file e f) /\
     (forall content, snd (signature e f) = Good content <-> snd (get_file e f) = Good content) /\
     forall x, snd (signature e f) = Bad (NoFile x) -> snd (get_file e f) = Bad x).
Proof. exact signature_exact. Qed.
Print Assumptions C90_signature.
(** A download makes one request, to this URL and with the user agent of the client; or none if that is no URL. *)
Theorem C90_requests : forall e c l url, exists agent, agent_of c agent /\
  asks e (l_href l) agent (fst (get_file e (c, l))) /\ asks e url agent (fst (get_page e c url)).
Proof. exact all_requests. Qed.
Print Assumptions C90_requests.
(** Why a page cannot be read *)
Theorem C90_page : forall e c url x, (forall content doc, e_parse_html e content = Some doc -> html_page doc) ->
  snd (get_page e c url) = Bad x <->
  match x with
  | NoPage y => reason e url y
  | BadHTML => exists content, get_why e url = Good content /\ e_parse_html e content = None
  | Refused => exists content doc, get_why e url = Good content /\ e_parse_html e content = Some doc /\ e_hook e doc = false
  | BadHRef => exists content doc n, get_why e url = Good content /\ e_parse_html e content = Some doc /\ e_hook e doc = true /\
      within n doc /\ anchor n /\ bad_href (e_resolve e url) n
  end.
Proof. exact page_fails. Qed.
Print Assumptions C90_page.
Example C90_nonvacuous : let f attr := (mkClient [] $"me", mkLink [] $"https://h/x.whl#sha256=00" attr) in let ask s attr := signature (an_index (fun _ => true) s) (f attr) in
  let one := [mkRequest $"https://h/x.whl#sha256=00" $"me"] in
  ask 404 [] = (one, Bad NoSignature) /\ ask 404 [($"data-gpg-sig", $"true")] = (one, Bad (NoFile (HTTPStatus 404))) /\
  ask 500 [($"data-gpg-sig", [])] = (one, Bad (NoFile (HTTPStatus 500))) /\ ask 200 [] = (one, Good $"wheel") /\ ask 200 [($"data-gpg-sig", $"false")] = ([], Bad NoSignature) /\
  get_why (an_index (fun _ => true) 200) $"https://h/y" = Bad Transport /\ get_why (an_index (fun _ => true) 200) $"https://h/y#%" = Bad BadURL /\
  get_why (sample_env (fun _ => $"01")) $"https://host/x.whl#egg=x&sha256=00" = Bad Mismatch.
Proof. vm_compute. auto 12. Qed.

(** ** C91: listings of the index are complete *)
(** All projects of the first page, in its order; their links carry the client with its base URL and user agent. *)
Theorem C91_packages : forall e c, (forall content doc, e_parse_html e content = Some doc -> html_page doc) ->
  exists base agent, base_of c base /\ agent_of c agent /\ asks e base agent (fst (list_packages e c)) /\
    match snd (list_packages e c) with
    | Good packages => exists links, shows e base links /\ packages = map (fun l => (mkClient base agent, l)) links
    | Bad x => snd (get_page e c base) = Bad x
    end.
Proof. exact packages_listed. Qed.
Print Assumptions C91_packages.
(** All files of the page of a project, in its order, whatever Python they require *)
Theorem C91_files : forall e p, (forall content doc, e_parse_html e content = Some doc -> html_page doc) ->
  (exists agent, agent_of (fst p) agent /\ asks e (l_href (snd p)) agent (fst (list_files e p))) /\
  match snd (list_files e p) with
  | Good files => exists links, shows e (l_href (snd p)) links /\ files = map (fun l => (fst p, l)) links
  | Bad x => snd (get_page e (fst p) (l_href (snd p))) = Bad x
  end.
Proof. exact files_listed. Qed.
Print Assumptions C91_files.
Example C91_nonvacuous : let e := an_index (fun _ => true) 200 in let c := mkClient $"https://pypi.org/simple/" $"github.com/datawire/ocibuild/pkg/python/pep503" in
  let x := mkLink $"X" $"https://pypi.org/simple/x" [] in
  (forall content doc, e_parse_html e content = Some doc -> html_page doc) /\
  list_packages e (mkClient [] []) = ([mkRequest (c_base c) (c_agent c)], Good [(c, x)]) /\
  list_files e (c, x) = ([mkRequest (l_href x) (c_agent c)], Good [(c, mkLink $"x-1.0-py3-none-any.whl" $"https://h/x.whl#sha256=00" [($"data-requires-python", $">=4")])]) /\
  snd (list_files (new_env e) (c, x)) = Bad Refused.
Proof. split; [exact (index_pages _ _)|vm_compute; auto]. Qed.

(** ** C25: GetSignature asks for the file and never for its signature, *)
Theorem C25_url_refuted : forall e f, let url := l_href (snd f) in
  (forall content, snd (signature e f) = Good content -> snd (get_file e f) = Good content) /\
  forall r sig, In r (fst (signature e f)) -> signature_url url sig -> rq_url r <> sig.
Proof. exact signature_wrong. Qed.
Print Assumptions C25_url_refuted.
(** so that it returns the file where there is a signature. *)
Theorem C25_signature_refuted : let l := mkLink $"x.whl" $"https://h/x.whl" [($"data-gpg-sig", $"true")] in
  signature_url (l_href l) $"https://h/x.whl.asc" /\ get_why a_signed_index $"https://h/x.whl.asc" = Good $"signature" /\
  snd (signature a_signed_index (mkClient [] [], l)) = Good $"wheel".
Proof.
  split; [|vm_compute; auto]. exists $"https://h/x.whl", []. split; [left; split; [|auto]|reflexivity]. intros I. repeat (destruct I as [I|I]; [discriminate|]). destruct I.
Qed.
Print Assumptions C25_signature_refuted.

(** ** C58: the client that simple_repo_api.NewClient gives refuses pages of a newer repository version. *)
Theorem C58_refuses : forall e sort tags name spec content doc v, get e (package_url e name) = Some content -> e_parse_html e content = Some doc ->
  get_version doc = Some v -> nth 0 (release (pub v)) 0 > 1 ->
  snd (list_package_files (new_env e) name) = None /\ snd (select_wheel (new_env e) sort tags name spec) = None.
Proof. exact new_client_refuses. Qed.
Print Assumptions C58_refuses.
Theorem C58_page : forall e c url, snd (get_page (new_env e) c url) = Bad Refused <->
  exists content doc, get e url = Some content /\ e_parse_html e content = Some doc /\
    (get_version doc = None \/ exists v, get_version doc = Some v /\ nth 0 (release (pub v)) 0 > 1).
Proof. exact new_client_page. Qed.
Print Assumptions C58_page.
Example C58_refuses_nonvacuous : let e := an_index (fun _ => true) 200 in
  (exists content doc v, get e (package_url e $"x") = Some content /\ e_parse_html e content = Some doc /\ get_version doc = Some v /\ nth 0 (release (pub v)) 0 > 1) /\
  select_wheel e insertion_sort py3_any $"X" [] = ([$"https://pypi.org/simple/x"], Some (mkLink $"x-1.0-py3-none-any.whl" $"https://h/x.whl#sha256=00" [($"data-requires-python", $">=4")])).
Proof.
  split; [|vm_compute; reflexivity]. eexists _, _, _. split; [vm_compute; reflexivity|]. split; [vm_compute; reflexivity|]. split; [vm_compute; reflexivity|]. reflexivity.
Qed.
