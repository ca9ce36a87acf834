(** A package index for examples. *)
From Coq Require Import String Ascii List Bool ZArith.
From Verif.Model Require Import GoStr SimpleAPI.
Import ListNotations.

(** Its page has links to an old wheel and two with the same name; the files hold their own URLs.  The
    "checksum" is the last byte of the content. *)
Definition link_node (href text : str) : node := Node ElementNode $"a" [mkAttr [] $"href" href] [Node TextNode text [] []].
Definition an_index : env :=
  Build_env $"https://pypi.org" $"/simple/" (fun _ => true)
    (fun url => Some (200%Z, if str_eqb url $"https://pypi.org/simple/foo-bar" then $"<html>" else fst (cut "#"%char url)))
    (fun body => if str_eqb body $"<html>" then Some (Node OtherNode [] [] [link_node $"/f/1" $"foo_bar-1.0-py3-none-any.whl"; link_node $"/f/2#m=2" $"foo_bar-2.0-py3-none-any.whl";
                                                       link_node $"/f/3" $"foo_bar-2.0-py3-none-any.whl"; link_node $"/f/4#m=5" $"foo_bar-3.0-py3-none-any.whl"]) else None)
    (fun base href => Some ($"https://pypi.org" ++ href)) (fun _ => false)
    (fun k => if str_eqb k $"m" then Some (fun content => match rev content with c :: _ => [c] | [] => [] end) else None) None.
