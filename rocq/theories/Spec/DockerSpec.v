(** What a Docker daemon does with its images. *)
From Coq Require Import String Ascii List Bool ZArith.
From Verif.Model Require Import GoStr Docker.
Import ListNotations.

(** Nothing but the image with the tag [tag] may be different. *)
Definition only_tag (tag : str) (s s' : store) : Prop := forall t, t <> tag -> image_of t s' = image_of t s.
(** "docker image load" with an archive for [tag], or with the first part of one *)
Definition loads (load : str -> store -> store * bool) (tag text : str) : Prop :=
  (forall k s, only_tag tag s (fst (load (firstn k text) s))) /\
  (forall s, snd (load text s) = true -> image_of tag (fst (load text s)) = Some text).
(** "docker image rm" *)
Definition removes (remove : str -> store -> store * bool) (tag : str) : Prop :=
  forall s, only_tag tag s (fst (remove tag s)) /\ if snd (remove tag s) then image_of tag (fst (remove tag s)) = None else fst (remove tag s) = s.
(** Other clients leave the image alone. *)
Definition strangers (others : nat -> store -> store) (tag : str) : Prop := forall n s, image_of tag (others n s) = image_of tag s.

(** *** examples *)
Definition ex_load (tag text : str) (input : str) (s : store) : store * bool := if str_eqb input text then ((tag, text) :: s, true) else (s, false).
Definition ex_remove (tag : str) (s : store) : store * bool :=
  match image_of tag s with Some _ => (filter (fun e => negb (str_eqb tag (fst e))) s, true) | None => (s, false) end.
Definition ex_tag : str := $"ocibuild.local/python-inspect:12.345".
(** fn runs another image, which it leaves there; another client comes in between. *)
Definition ex_around (rm : bool) (write : option nat) (res : outcome) : around :=
  mkAround (fun _ => true) true true write true rm (ex_load ex_tag $"archive") ex_remove
    (fun _ s => (($"busybox", $"b") :: s, res)) (fun n s => match n with 2 => ($"other", $"o") :: s | _ => s end).
