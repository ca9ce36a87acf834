(** Requests to a package index and their outcome. *)
From Coq Require Import String Ascii List Bool ZArith.
From Verif.Model Require Import GoStr SimpleAPI IndexClient.
From Verif.Spec Require Import WheelNameSpec SimpleAPISpec UrlSpec.
Import ListNotations.
Local Open Scope Z_scope.

(** [url] is [base] with the fragment [frag] (empty if there is none) *)
Definition has_fragment (url base frag : str) : Prop :=
  (~ In "#"%char url /\ base = url /\ frag = []) \/
  exists raw, url = base ++ $"#" ++ raw /\ ~ In "#"%char base /\ decodes false raw frag.
(** A request that can be made *)
Definition valid_url (e : env) (url frag : str) : Prop := exists base, has_fragment url base frag /\ e_url_ok e base = true.
(** The fragment gives a checksum that the content does not have *)
Definition wrong_sum (e : env) (frag content : str) : Prop :=
  well_formed_list frag /\ exists k v h, gives frag k v /\ e_hash e k = Some h /\ h content <> v.

(** Why a request failed *)
Definition reason (e : env) (url : str) (x : get_error) : Prop :=
  match x with
  | BadURL => forall frag, ~ valid_url e url frag
  | Transport => exists frag, valid_url e url frag /\ e_fetch e url = None
  | HTTPStatus s => exists frag content, valid_url e url frag /\ e_fetch e url = Some (s, content) /\ s <> 200
  | Mismatch => exists frag content, valid_url e url frag /\ e_fetch e url = Some (200, content) /\ wrong_sum e frag content
  end.

(** One request, or none if that is no URL *)
Definition asks (e : env) (url agent : str) (requests : list request) : Prop :=
  (forall frag, ~ valid_url e url frag) /\ requests = [] \/
  (exists frag, valid_url e url frag) /\ requests = [mkRequest url agent].
(** Where an index has the signature of the file at [url]: PEP 503, "with a .asc appended to it" *)
Definition signature_url (url sig : str) : Prop := exists base frag, has_fragment url base frag /\ sig = base ++ $".asc".

(** The links of a page, in the order of the document *)
Definition shows (e : env) (url : str) (links : list link) : Prop :=
  exists content doc, get_why e url = Good content /\ e_parse_html e content = Some doc /\ e_hook e doc = true /\
    Forall2 (link_of (e_resolve e url)) (filter (is_element $"a") (document_order doc)) links.

(** The user agent and the base URL that a client uses *)
Definition agent_of (c : client) (a : str) : Prop := a = c_agent c /\ a <> [] \/ c_agent c = [] /\ a = $"github.com/datawire/ocibuild/pkg/python/pep503".
Definition base_of (c : client) (b : str) : Prop := b = c_base c /\ b <> [] \/ c_base c = [] /\ b = $"https://pypi.org/simple/".

(** An index with one project, for examples *)
Definition an_anchor (href text : str) (more : list attr) : node :=
  Node ElementNode $"a" (mkAttr [] $"href" href :: more) [Node TextNode text [] []].
Definition an_index (hook : node -> bool) (status : Z) : env :=
  {| e_base_url := $"https://pypi.org"; e_base_path := $"/simple/"; e_url_ok := fun _ => true;
     e_fetch := fun u => if str_eqb u $"https://pypi.org/simple/" then Some (200, $"root")
                         else if str_eqb u $"https://pypi.org/simple/x" then Some (200, $"files")
                         else if str_eqb u $"https://h/x.whl#sha256=00" then Some (status, $"wheel") else None;
     e_parse_html := fun c => Some (Node OtherNode [] [] (if str_eqb c $"root" then [an_anchor $"x" $"X" []]
                         else [an_anchor $"https://h/x.whl#sha256=00" $"x-1.0-py3-none-any.whl" [mkAttr [] $"data-requires-python" $">=4"];
                               Node ElementNode $"meta" [mkAttr [] $"name" $"pypi:repository-version"; mkAttr [] $"content" $"2.0"] []]));
     e_resolve := fun u h => Some (if str_eqb h $"x" then u ++ h else h);
     e_hook := hook; e_hash := fun k => if str_eqb k $"sha256" then Some (fun c => if str_eqb c $"wheel" then $"00" else $"01") else None;
     e_python := None |}.
(** The same with a signature *)
Definition a_signed_index : env :=
  {| e_base_url := $"https://pypi.org"; e_base_path := $"/simple/"; e_url_ok := fun _ => true;
     e_fetch := fun u => if str_eqb u $"https://h/x.whl" then Some (200, $"wheel") else if str_eqb u $"https://h/x.whl.asc" then Some (200, $"signature") else None;
     e_parse_html := fun _ => None; e_resolve := fun _ h => Some h; e_hook := fun _ => true; e_hash := fun _ => None; e_python := None |}.
