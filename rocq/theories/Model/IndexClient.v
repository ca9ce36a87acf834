(** pkg/python/pep503 and pkg/python/pypa/simple_repo_api: the methods of the clients that SimpleAPI.v leaves
    out, the header of the requests, and which error a request ends with. *)
From Coq Require Import String Ascii List Bool ZArith.
From Verif.Model Require Import GoStr Regex Pep440 Specifier Pep345 WheelName SimpleAPI.
Import ListNotations.
Local Open Scope Z_scope.

(** simple_repo_api.go:27-33 type Client: BaseURL and UserAgent; the other fields are in [env] *)
Record client := mkClient { c_base : str; c_agent : str }.
(** simple_repo_api.go:35-47 PyPIBaseURL, fillDefaults *)
Definition fill_defaults (c : client) : client :=
  mkClient (match c_base c with [] => $"https://pypi.org/simple/" | b => b end)
           (match c_agent c with [] => $"github.com/datawire/ocibuild/pkg/python/pep503" | a => a end).
(** A GET request: the URL and the header User-Agent *)
Record request := mkRequest { rq_url : str; rq_agent : str }.

(** The errors of Client.get: http.NewRequest, the transport, HTTPError (:49-57), :107-110 *)
Inductive get_error := BadURL | Transport | HTTPStatus (code : Z) | Mismatch.
Inductive result (E A : Type) := Good (a : A) | Bad (e : E).
Arguments Good {E A} a.
Arguments Bad {E A} e.
(** simple_repo_api.go:59-119 get *)
Definition get_why (e : env) (url : str) : result get_error str :=
  if negb (e_url_ok e (fst (cut "#"%char url))) then Bad BadURL
  else match url_fragment url with
  | None => Bad BadURL
  | Some frag =>
      match e_fetch e url with
      | None => Bad Transport
      | Some (status, content) =>
          if negb (status =? 200) then Bad (HTTPStatus status)
          else match frag with
               | [] => Good content
               | _ =>
                   let '(kvs, ok) := parse_query frag in
                   if ok && negb (forallb (checksum_ok e content) kvs) then Bad Mismatch
                   else Good content
               end
      end
  end.
(** :60-67: the request that get makes, if the URL is one *)
Definition get_requests (e : env) (c : client) (url : str) : list request :=
  match get_why e url with Bad BadURL => [] | _ => [mkRequest url (c_agent (fill_defaults c))] end.

(** :146-200 getHTML5Index *)
Inductive page_error := NoPage (e : get_error) | BadHTML | Refused | BadHRef.
Definition get_page (e : env) (c : client) (url : str) : list request * result page_error (list link) :=
  (get_requests e c url,
   match get_why e url with
   | Bad x => Bad (NoPage x)
   | Good content =>
       match e_parse_html e content with
       | None => Bad BadHTML
       | Some doc =>
           if negb (e_hook e doc) then Bad Refused
           else match collect_links (e_resolve e url) (visit_after doc) with
                | None => Bad BadHRef
                | Some links => Good links
                end
       end
   end).

(** :202-219 ListPackages; a PackageLink is a link with the completed client *)
Definition list_packages (e : env) (c : client) : list request * result page_error (list (client * link)) :=
  let c := fill_defaults c in
  let '(requests, page) := get_page e c (c_base c) in
  (requests, match page with Bad x => Bad x | Good links => Good (map (fun l => (c, l)) links) end).
(** :226-238 PackageLink.ListFiles *)
Definition list_files (e : env) (p : client * link) : list request * result page_error (list (client * link)) :=
  let '(requests, page) := get_page e (fst p) (l_href (snd p)) in
  (requests, match page with Bad x => Bad x | Good links => Good (map (fun l => (fst p, l)) links) end).

(** :286-289 FileLink.Get *)
Definition get_file (e : env) (f : client * link) : list request * result get_error str :=
  (get_requests e (fst f) (l_href (snd f)), get_why e (l_href (snd f))).
(** :291-309 ErrNoSignature, GetSignature *)
Inductive signature_error := NoSignature | NoFile (e : get_error).
Definition signature (e : env) (f : client * link) : list request * result signature_error str :=
  let url := l_href (snd f) in
  let attr := match lookup $"data-gpg-sig" (l_attrs (snd f)) with Some v => v | None => [] end in
  if str_eqb attr $"false" then ([], Bad NoSignature)
  else (get_requests e (fst f) url,
        match get_why e url with
        | Good content => Good content
        | Bad x => Bad (if str_eqb attr $"true" then NoFile x
                        else match x with
                             | HTTPStatus s => if s =? 404 then NoSignature else NoFile x
                             | _ => NoFile x
                             end)
        end).

(** pypa_repo_api.go:28-42 NewClient: the clients check the version of the pages (pep629 HTMLVersionCheck) *)
Definition version_hook (doc : node) : bool := match html_version_check doc with CheckError => false | CheckOK _ => true end.
Definition new_env (e : env) : env :=
  {| e_base_url := e_base_url e; e_base_path := e_base_path e; e_url_ok := e_url_ok e; e_fetch := e_fetch e;
     e_parse_html := e_parse_html e; e_resolve := e_resolve e; e_hook := version_hook; e_hash := e_hash e; e_python := e_python e |}.
