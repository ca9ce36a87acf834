(** Layers that can be read to their end. *)
From Coq Require Import String Ascii List Bool ZArith.
From Verif.Model Require Import GoStr Tar AssertLayers.
Import ListNotations.

(** [l] can be read, with these entries and these bytes after the archive *)
Definition reads (l : stream) (es : list (header * str)) (tail : str) : Prop :=
  st_open l = None /\ st_items l = map (fun e => (fst e, inl (snd e))) es /\ st_end l = None /\ st_tail l = inl tail /\ st_close l = None.
Definition same_layer (a b : stream) : Prop := exists es tail, reads a es tail /\ reads b es tail.
(** If the texts of two layers are the same, so are the layers. *)
Definition tells_apart (full : list (header * str) -> str -> str) (a b : stream) : Prop :=
  forall es t es' t', reads a es t -> reads b es' t' -> full es t = full es' t' -> es = es' /\ t = t'.

(** Exactly one of the lines has the property. *)
Definition once (P : str -> Prop) (l : list str) : Prop := exists a x b, l = a ++ x :: b /\ P x /\ Forall (fun y => ~ P y) (a ++ b).
Definition begins (c : ascii) (line : str) : Prop := exists x, line = c :: x.
(** The text [d] of a diff, below three lines of heading, removes one line and adds one. *)
Definition one_changed (d : str) : Prop := exists h1 h2 h3 rest,
  d = join ["010"%char] (h1 :: h2 :: h3 :: rest) /\ Forall (fun l => ~ In "010"%char l) (h1 :: h2 :: h3 :: rest) /\
  once (begins "-") rest /\ once (begins "+") rest.
(** Texts of diffs: one line of two is changed, and another is removed besides *)
Definition diff_one : str := join ["010"%char] [$"--- Expected"; $"+++ Actual"; $"@@ -1,2 +1,2 @@"; $" a"; $"-b"; $"+c"; $""].
Definition diff_two : str := join ["010"%char] [$"--- Expected"; $"+++ Actual"; $"@@ -1,3 +1,2 @@"; $" a"; $"-b"; $"-d"; $"+c"; $""].

(** Example: a layer of two entries, one with a different content, one that cannot be closed *)
Definition layer_a : stream := mkStream None [(with_name (plain_header TypeDir 493) $"a/", inl []); (with_name (plain_header TypeReg 420) $"a/x", inl $"hello")] None (inl []) None.
Definition layer_b : stream := mkStream None [(with_name (plain_header TypeDir 493) $"a/", inl []); (with_name (plain_header TypeReg 420) $"a/x", inl $"hullo")] None (inl []) None.
Definition layer_c : stream := mkStream None (st_items layer_a) None (inl []) (Some 5%nat).
(** A text with names and contents *)
Definition brief (es : list (header * str)) (t : str) : str := concat (map (fun e => th_name (fst e) ++ $"=" ++ snd e ++ $";") es) ++ t.
