(** pkg/python/pep503, pep592, pep629, pkg/htmlutil and
    pkg/python/pypa/simple_repo_api: the package-index client.

    The network, the HTML parser, URL resolution and the digest functions are
    the fields of [env]; every theorem quantifies over them. *)
From Coq Require Import String Ascii List Bool ZArith NArith.
From Verif.Model Require Import GoStr GoPath Regex Pep440 Specifier Pep345 WheelName.
Import ListNotations.
Open Scope Z_scope.

(** golang.org/x/net/html.Node: type, data, attributes (namespace, key, value)
    and children. *)
Inductive nodetype : Type := ElementNode | TextNode | OtherNode.
Record attr : Type := mkAttr { a_ns : str; a_key : str; a_val : str }.
Inductive node : Type :=
| Node (ty : nodetype) (data : str) (attrs : list attr) (children : list node).
Definition n_type (n : node) : nodetype := let '(Node t _ _ _) := n in t.
Definition n_data (n : node) : str := let '(Node _ d _ _) := n in d.
Definition n_attrs (n : node) : list attr := let '(Node _ _ a _) := n in a.
Definition n_children (n : node) : list node := let '(Node _ _ _ c) := n in c.

(** pep503/simple_repo_api.go:121-138 visitHTML and pkg/htmlutil VisitHTML with
    before = nil: the nodes in the order in which [after] is called. *)
Fixpoint visit_after (n : node) : list node :=
  match n with Node _ _ _ children => flat_map visit_after children ++ [n] end.

Definition is_element (name : str) (n : node) : bool :=
  match n_type n with ElementNode => str_eqb (n_data n) name | _ => false end.

(** simple_repo_api.go:140-144 type Link.  [l_attrs]: the DataAttrs map, most
    recent assignment first. *)
Record link : Type := mkLink { l_text : str; l_href : str; l_attrs : list (str * str) }.
Fixpoint lookup (k : str) (m : list (str * str)) : option str :=
  match m with
  | [] => None
  | (k', v) :: m' => if str_eqb k' k then Some v else lookup k m'
  end.

(** simple_repo_api.go:163-183 the attribute loop for one <a>; [None] is the
    error from URL resolution *)
Fixpoint link_attrs (resolve : str -> option str) (l : list attr) (href : str)
    (data : list (str * str)) : option (str * list (str * str)) :=
  match l with
  | [] => Some (href, data)
  | a :: l' =>
      if str_eqb (a_ns a) [] && str_eqb (a_key a) $"href" then
        match resolve (a_val a) with
        | None => None
        | Some h => link_attrs resolve l' h data
        end
      else if str_eqb (a_ns a) [] && has_prefix $"data-" (a_key a) then
        link_attrs resolve l' href ((a_key a, a_val a) :: data)
      else link_attrs resolve l' href data
  end.
(** :184-191 the text of one <a> *)
Definition link_text (n : node) : str :=
  flat_map (fun c => match n_type c with TextNode => n_data c | _ => [] end) (visit_after n).
(** :159-196 the visitor of getHTML5Index *)
Fixpoint collect_links (resolve : str -> option str) (l : list node) : option (list link) :=
  match l with
  | [] => Some []
  | n :: l' =>
      if is_element $"a" n then
        match link_attrs resolve (n_attrs n) [] [] with
        | None => None
        | Some (href, data) =>
            match collect_links resolve l' with
            | None => None
            | Some links => Some (mkLink (link_text n) href data :: links)
            end
        end
      else collect_links resolve l'
  end.

(** ** URLs: the fragment handling of net/url *)
Definition unhex (c : ascii) : option N :=
  let n := code c in
  if ((48 <=? n) && (n <=? 57))%N then Some (n - 48)%N
  else if ((97 <=? n) && (n <=? 102))%N then Some (n - 87)%N
  else if ((65 <=? n) && (n <=? 70))%N then Some (n - 55)%N
  else None.
(** url.unescape; [plus]: '+' means a space (query components) *)
Fixpoint unescape (plus : bool) (s : str) : option str :=
  match s with
  | [] => Some []
  | c :: s' =>
      if byte_eqb c "%"%char then
        match s' with
        | a :: b :: s'' =>
            match unhex a, unhex b, unescape plus s'' with
            | Some x, Some y, Some r => Some (ascii_of_N (16 * x + y) :: r)
            | _, _, _ => None
            end
        | _ => None
        end
      else match unescape plus s' with
           | None => None
           | Some r => Some ((if plus && byte_eqb c "+"%char then " "%char else c) :: r)
           end
  end.
(** url.Parse: text before and decoded fragment after the first '#' *)
Definition url_fragment (url : str) : option str :=
  match cut "#"%char url with
  | (_, None) => Some []
  | (_, Some f) => unescape false f
  end.
(** url.ParseQuery (Go 1.17): the pairs in order of appearance, and whether the
    returned error is nil. *)
Fixpoint parse_pieces (l : list str) : list (str * str) * bool :=
  match l with
  | [] => ([], true)
  | key :: l' =>
      let '(m, ok) := parse_pieces l' in
      if contains_byte ";"%char key then (m, false)
      else match key with
           | [] => (m, ok)
           | _ =>
               let '(k, v) := cut "="%char key in
               match unescape true k, unescape true (match v with Some v => v | None => [] end) with
               | Some k, Some v => ((k, v) :: m, ok)
               | _, _ => (m, false)
               end
           end
  end.
Definition parse_query (s : str) : list (str * str) * bool :=
  match s with [] => ([], true) | _ => parse_pieces (split_on "&"%char s) end.

(** ** The client *)
Record env : Type := {
  e_base_url : str;                        (* scheme and host of Client.BaseURL, as url.URL.String prints them *)
  e_base_path : str;                       (* its path *)
  e_url_ok : str -> bool;                  (* url.Parse accepts the part before '#' *)
  e_fetch : str -> option (Z * str);       (* network: status code and body, or a transport error *)
  e_parse_html : str -> option node;       (* html.Parse *)
  e_resolve : str -> str -> option str;    (* url.URL.Parse relative to the final request URL *)
  e_hook : node -> bool;                   (* HTMLHook; false is an error *)
  e_hash : str -> option (str -> str);     (* HashlibAlgorithmsGuaranteed: hex digest by name *)
  e_python : option version                (* Client.Python *)
}.

(** simple_repo_api.go:60-119 Client.get: [None] is any error.  The order of the
    iteration over the parsed pairs only affects the error text. *)
Definition checksum_ok (e : env) (content : str) (kv : str * str) : bool :=
  match e_hash e (fst kv) with
  | None => true
  | Some h => str_eqb (h content) (snd kv)
  end.
Definition get (e : env) (url : str) : option str :=
  if negb (e_url_ok e (fst (cut "#"%char url))) then None
  else match url_fragment url with
  | None => None                                    (* http.NewRequestWithContext fails *)
  | Some frag =>
      match e_fetch e url with
      | None => None
      | Some (status, content) =>
          if negb (status =? 200) then None
          else match frag with
               | [] => Some content
               | _ =>
                   let '(kvs, ok) := parse_query frag in
                   if ok && negb (forallb (checksum_ok e content) kvs) then None
                   else Some content
               end
      end
  end.

(** :146-200 getHTML5Index *)
Definition get_index (e : env) (url : str) : option (list link) :=
  match get e url with
  | None => None
  | Some content =>
      match e_parse_html e content with
      | None => None
      | Some doc =>
          if negb (e_hook e doc) then None
          else collect_links (e_resolve e url) (visit_after doc)
      end
  end.

(** :240-242 normalize *)
Definition normalize (s : str) : str := to_lower (replace_runs $"-" s).
(** :247-257 the character check *)
Definition name_char (c : ascii) : bool :=
  let n := code c in
  ((97 <=? n) && (n <=? 122) || (65 <=? n) && (n <=? 90) || (48 <=? n) && (n <=? 57))%N
  || byte_eqb c "."%char || byte_eqb c "-"%char || byte_eqb c "_"%char.
(** :269-276 the Requires-Python filter; [true]: the link is kept *)
Definition keep_link (py : option version) (l : link) : bool :=
  match py with
  | None => true
  | Some py =>
      match lookup $"data-requires-python" (l_attrs l) with
      | None => true
      | Some req =>
          if str_eqb req [] then true
          else match have_required_python py req with
               | Some false => false
               | _ => true
               end
      end
  end.
(** :244-284 ListPackageFiles: the requests made, and the result.  Of
    url.URL.String only the path part is modelled. *)
Definition package_url (e : env) (name : str) : str :=
  e_base_url e ++ path_join [e_base_path e; normalize name].
Definition list_package_files (e : env) (name : str) : list str * option (list link) :=
  if negb (forallb name_char name) then ([], None)
  else
    let url := package_url e name in
    ([url],
     match get_index e url with
     | None => None
     | Some links => Some (filter (keep_link (e_python e)) links)
     end).

(** :286-289 FileLink.Get *)
Definition file_get (e : env) (l : link) : list str * option str := ([l_href l], get e (l_href l)).
(** :293-309 GetSignature: the requests made, and the result *)
Definition get_signature (e : env) (l : link) : list str * option str :=
  match lookup $"data-gpg-sig" (l_attrs l) with
  | Some v => if str_eqb v $"false" then ([], None) else ([l_href l], get e (l_href l))
  | None => ([l_href l], get e (l_href l))
  end.

(** ** pep592/yank.go *)
(** :12-15 IsYanked *)
Definition is_yanked (l : link) : bool := is_some (lookup $"data-yanked" (l_attrs l)).
(** :21-36 ExcludeYanked: the keys of the map *)
Fixpoint yanked_versions (links : list link) : list str :=
  match links with
  | [] => []
  | l :: links' =>
      if is_yanked l then
        match parse_filename (l_text l) with
        | None => yanked_versions links'
        | Some d => version_string (f_version d) :: yanked_versions links'
        end
      else yanked_versions links'
  end.
(** :38-41 Allow *)
Definition allow_yanked (links : list link) (v : version) : bool :=
  existsb (str_eqb (version_string v)) (yanked_versions links).

(** ** pep629/simple_api_versions.go *)
(** pkg/htmlutil GetAttr *)
Fixpoint get_attr (ns key : str) (l : list attr) : option str :=
  match l with
  | [] => None
  | a :: l' => if str_eqb (a_ns a) ns && str_eqb (a_key a) key then Some (a_val a) else get_attr ns key l'
  end.
(** :21-40 the visitor of GetVersion: the last declared content wins *)
Fixpoint version_text (l : list node) (ver : str) : str :=
  match l with
  | [] => ver
  | n :: l' =>
      version_text l'
        (if negb (is_element $"meta" n) then ver
         else if negb (str_eqb (match get_attr [] $"name" (n_attrs n) with Some v => v | None => [] end)
                               $"pypi:repository-version") then ver
         else match get_attr [] $"content" (n_attrs n) with Some v => v | None => ver end)
  end.
(** :19-49 GetVersion *)
Definition get_version (doc : node) : option version :=
  let s := version_text (visit_after doc) [] in
  parse_version (if str_eqb s [] then $"1.0" else s).
(** :51-64 HTMLVersionCheck: error, or success with or without a warning;
    SupportedVersion is 1.0 *)
Inductive check_result : Type := CheckError | CheckOK (warned : bool).
Definition html_version_check (doc : node) : check_result :=
  match get_version doc with
  | None => CheckError
  | Some v => if 1 <? major (pub v) then CheckError else CheckOK (0 <? minor (pub v))
  end.

(** ** simple_repo_api/pypa_repo_api.go *)
(** :52-65 the wheels that parse and that the platform supports, with their
    parsed names *)
Fixpoint usable (tags : list tag) (links : list link) : list (link * filename_data) :=
  match links with
  | [] => []
  | l :: links' =>
      match parse_filename (l_text l) with
      | None => usable tags links'
      | Some d => if negb (supports tags (f_tag d)) then usable tags links' else (l, d) :: usable tags links'
      end
  end.
(** :75 version2links[selectedVersion.String()] *)
Definition same_version (v : version) (l : list (link * filename_data)) : list link :=
  map fst (filter (fun p => str_eqb (version_string (f_version (snd p))) (version_string v)) l).
(** ParseFilename(link.Text) with the error ignored, at :84 and :101-102, on a
    link whose name did parse before *)
Definition link_rank (tags : list tag) (l : link) : nat :=
  match parse_filename (l_text l) with Some d => preference tags (f_tag d) | None => 0%nat end.
Definition link_build (l : link) : option buildtag :=
  match parse_filename (l_text l) with Some d => f_build d | None => None end.
(** :80-94 the loop for the lowest rank *)
Fixpoint min_rank_loop (tags : list tag) (links : list link) (min_rank : nat) (min_list : list link) : list link :=
  match links with
  | [] => min_list
  | l :: links' =>
      let rank := link_rank tags l in
      let reset := ((min_rank =? 0)%nat || (rank <? min_rank)%nat)%bool in
      let min_rank := if reset then rank else min_rank in
      let min_list := if reset then [] else min_list in
      min_rank_loop tags links' min_rank
        (if (rank =? min_rank)%nat then min_list ++ [l] else min_list)
  end.
(** :100-104 the less function of sort.Slice *)
Definition build_less (a b : link) : bool := build_cmp (link_build a) (link_build b) <? 0.
(** :44-108 SelectWheel after ListPackageFiles.  sort.Slice is the parameter
    [sort] (it is not stable, so its result is not determined by the inputs).
    Indexing an empty list, a panic in Go, is [None] and unreachable. *)
Definition select_links (sort : (link -> link -> bool) -> list link -> list link)
    (tags : list tag) (spec : specifier) (links : list link) : option link :=
  let wheels := usable tags links in
  match select spec (map (fun p => f_version (snd p)) wheels)
          (Some (allow_multi [allow_no_prereleases []; allow_yanked (map fst wheels)])) with
  | None => None
  | Some v =>
      match same_version v wheels with
      | [l] => Some l
      | links =>
          match min_rank_loop tags links 0%nat [] with
          | [l] => Some l
          | links => match sort build_less links with l :: _ => Some l | [] => None end
          end
      end
  end.
Definition select_wheel (e : env) sort (tags : list tag) (name : str) (spec : specifier)
    : list str * option link :=
  let '(reqs, links) := list_package_files e name in
  (reqs, match links with None => None | Some links => select_links sort tags spec links end).
