(** White space of Unicode, in UTF-8. *)
From Coq Require Import String Ascii List Bool NArith.
From Verif.Model Require Import GoStr.
Import ListNotations.
Local Open Scope N_scope.

(** The characters with the property White_Space *)
Definition white_space : list N :=
  [9; 10; 11; 12; 13; 32; 133; 160; 5760; 8192; 8193; 8194; 8195; 8196; 8197; 8198; 8199; 8200; 8201; 8202; 8232; 8233; 8239; 8287; 12288].
(** UTF-8, up to U+FFFF *)
Definition encode (c : N) : str :=
  map ascii_of_N
    (if c <? 128 then [c]
     else if c <? 2048 then [192 + c / 64; 128 + c mod 64]
     else [224 + c / 4096; 128 + c / 64 mod 64; 128 + c mod 64]).
Definition space_word (w : str) : Prop := exists c, In c white_space /\ w = encode c.
(** nothing but white space *)
Inductive blanks : str -> Prop :=
| blanks_nil : blanks []
| blanks_app w s : space_word w -> blanks s -> blanks (w ++ s).
(** not starting, and not ending, with white space *)
Definition solid_start (s : str) : Prop := forall w r, space_word w -> s <> w ++ r.
Definition solid_end (s : str) : Prop := forall w r, space_word w -> s <> r ++ w.
Definition solid_ends (s : str) : Prop := solid_start s /\ solid_end s.
(** a byte of a character of ASCII *)
Definition ascii_byte (c : ascii) : Prop := N_of_ascii c < 128.
