(** C76: "ocibuild python getwheel".  [get_wheel e f] models the command for the file name [f] and the
    index [e]: the pages that it asks for, and what it writes to its output ([None]: it fails, and
    writes nothing). *)
From Coq Require Import String Ascii List Bool ZArith.
From Verif.Model Require Import GoStr Pep440 WheelName SimpleAPI GetWheel.
From Verif.Spec Require Import WheelNameSpec SimpleAPISpec GetWheelSpec UrlSpec.
From Verif.Proofs Require Import GetWheelFacts.
Import ListNotations.
Local Open Scope nat_scope.

(** It writes what the first link with that text on the page of the project leads to, with the checksums
    of the link; the page has a version of the API that is understood (C58). *)
Theorem C76_content_partial : forall e f reqs content, (forall body doc, e_parse_html e body = Some doc -> html_page doc) -> get_wheel e f = (reqs, Some content) ->
  exists d page body doc before n after href, parse_filename f = Some d /\ page = package_url e (f_dist d) /\ e_fetch e page = Some (200%Z, body) /\ e_parse_html e body = Some doc /\
    (exists w, html_version_check doc = CheckOK w) /\
    filter (is_element $"a") (document_order doc) = before ++ n :: after /\ text_content n = f /\ Forall (fun m => text_content m <> f) before /\
    match attribute $"href" (n_attrs n) with Some h => e_resolve e page h = Some href | None => href = [] end /\
    reqs = [page; href] /\ e_fetch e href = Some (200%Z, content) /\
    forall before raw frag k v h, href = before ++ $"#" ++ raw -> ~ In "#"%char before -> decodes false raw frag -> well_formed_list frag ->
      gives frag k v -> e_hash e k = Some h -> h content = v.
Proof. exact wheel_page. Qed.
Print Assumptions C76_content_partial.
(** It succeeds exactly if the name is that of a wheel, the page can be read and lists it, and the file can be read. *)
Theorem C76_succeeds : forall e f reqs content, get_wheel e f = (reqs, Some content) <->
  exists d before l after, parse_filename f = Some d /\ valid_name (f_dist d) /\ get_index (new_client e) (package_url e (f_dist d)) = Some (before ++ l :: after) /\
    l_text l = f /\ Forall (fun m => l_text m <> f) before /\ get e (l_href l) = Some content /\ reqs = [package_url e (f_dist d); l_href l].
Proof. exact wheel_exact. Qed.
Print Assumptions C76_succeeds.
(** It asks for nothing but the page and the file. *)
Theorem C76_requests : forall e f, fst (get_wheel e f) = [] \/ exists d, parse_filename f = Some d /\ (fst (get_wheel e f) = [package_url e (f_dist d)] \/
  exists links l, get_index (new_client e) (package_url e (f_dist d)) = Some links /\ In l links /\ l_text l = f /\ fst (get_wheel e f) = [package_url e (f_dist d); l_href l]).
Proof. exact wheel_requests. Qed.
Print Assumptions C76_requests.
(** The checksums are not always checked (C24): this link tells another checksum, and the file is written. *)
Theorem C76_content_refuted : let e := an_index in let e := Build_env (e_base_url e) (e_base_path e) (e_url_ok e) (e_fetch e)
    (fun body => if str_eqb body $"<html>" then Some (Node OtherNode [] [] [link_node $"/f/4#m=5&x;" $"foo_bar-3.0-py3-none-any.whl"]) else None) (e_resolve e) (e_hook e) (e_hash e) (e_python e) in
  snd (get_wheel e $"foo_bar-3.0-py3-none-any.whl") = Some $"https://pypi.org/f/4" /\ snd (get_wheel an_index $"foo_bar-3.0-py3-none-any.whl") = None.
Proof. vm_compute. auto. Qed.
Print Assumptions C76_content_refuted.
Example C76_nonvacuous : get_wheel an_index $"foo_bar-2.0-py3-none-any.whl" = ([$"https://pypi.org/simple/foo-bar"; $"https://pypi.org/f/2#m=2"], Some $"https://pypi.org/f/2") /\
  get_wheel an_index $"foo_bar-4.0-py3-none-any.whl" = ([$"https://pypi.org/simple/foo-bar"], None) /\ get_wheel an_index $"foo_bar" = ([], None) /\
  (forall body doc, e_parse_html an_index body = Some doc -> html_page doc).
Proof.
  split; [vm_compute; reflexivity|]. split; [vm_compute; reflexivity|]. split; [vm_compute; reflexivity|].
  intros body doc E. cbn [an_index e_parse_html] in E. destruct (str_eqb body $"<html>"); [|discriminate]. injection E as <-.
  exact (link_page [($"/f/1", $"foo_bar-1.0-py3-none-any.whl"); ($"/f/2#m=2", $"foo_bar-2.0-py3-none-any.whl"); ($"/f/3", $"foo_bar-2.0-py3-none-any.whl"); ($"/f/4#m=5", $"foo_bar-3.0-py3-none-any.whl")]).
Qed.
