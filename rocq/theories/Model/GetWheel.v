(** cmd_python_getwheel.go: "ocibuild python getwheel" *)
From Coq Require Import String Ascii List Bool ZArith.
From Verif.Model Require Import GoStr Pep440 WheelName SimpleAPI.
Import ListNotations.

(** :47-59 the loop over the links: the requests made, and what is written to the standard output
    ([None]: an error, and nothing is written) *)
Fixpoint fetch_named (e : env) (filename : str) (links : list link) : list str * option str :=
  match links with
  | [] => ([], None)
  | l :: links => if str_eqb (l_text l) filename then file_get e l else fetch_named e filename links
  end.
(** pypa_repo_api.go:29-41 NewClient(nil, nil): no Python version, and the check of pep629 for pages *)
Definition new_client (e : env) : env :=
  Build_env (e_base_url e) (e_base_path e) (e_url_ok e) (e_fetch e) (e_parse_html e) (e_resolve e)
    (fun doc => match html_version_check doc with CheckError => false | CheckOK _ => true end) (e_hash e) None.
(** :34-60 RunE.  Simplified: writing to the standard output does not fail. *)
Definition get_wheel (e : env) (filename : str) : list str * option str :=
  match parse_filename filename with
  | None => ([], None)
  | Some d =>
      let e := new_client e in
      let '(reqs, links) := list_package_files e (f_dist d) in
      match links with
      | None => (reqs, None)
      | Some links => let '(more, content) := fetch_named e filename links in (reqs ++ more, content)
      end
  end.
