(** What is to be read from a file. *)
From Coq Require Import String Ascii List Bool.
From Verif.Model Require Import GoStr LayerFile.
Import ListNotations.

Definition holds_text (f : hfile) (text : str) : Prop := f = Regular true text \/ f = Special true text.
(** The first part of a text *)
Definition starts (part text : str) : Prop := exists rest, text = part ++ rest.
