(** Percent-encoding (RFC 3986) and the form encoding of key-value lists (the HTML standard). *)
From Coq Require Import String Ascii List Bool NArith.
From Verif.Model Require Import GoStr.
From Verif.Spec Require Import WheelNameSpec.
Import ListNotations.

(** [hex_digit c n]: [c] is the hexadecimal digit of value [n], in either case. *)
Inductive hex_digit : ascii -> N -> Prop :=
| HX_digit n : (n < 10)%N -> hex_digit (ascii_of_N (48 + n)) n
| HX_lower n : (10 <= n < 16)%N -> hex_digit (ascii_of_N (87 + n)) n
| HX_upper n : (10 <= n < 16)%N -> hex_digit (ascii_of_N (55 + n)) n.

(** [decodes plus raw s]: [raw] is an encoding of [s]: "%" and two digits stand for a byte, in form
    encoding ([plus]) "+" for a blank, and every other byte for itself. *)
Inductive decodes (plus : bool) : str -> str -> Prop :=
| D_nil : decodes plus [] []
| D_byte a b x y raw s : hex_digit a x -> hex_digit b y -> decodes plus raw s ->
    decodes plus ("%"%char :: a :: b :: raw) (ascii_of_N (16 * x + y) :: s)
| D_blank raw s : plus = true -> decodes plus raw s -> decodes plus ("+"%char :: raw) (" "%char :: s)
| D_self c raw s : c <> "%"%char -> ~ (plus = true /\ c = "+"%char) -> decodes plus raw s -> decodes plus (c :: raw) (c :: s).

(** A list of pairs "k=v&k=v...", as the standard library of Go reads it: no semicolons, and every "%"
    followed by two digits. *)
Definition well_formed_list (s : str) : Prop :=
  forall p, piece_by "&"%char p s -> ~ In ";"%char p /\ exists d, decodes true p d.
(** The list [s] gives the value [v] for [k]; a piece without "=" gives the empty value, and an empty
    piece gives nothing. *)
Definition gives (s k v : str) : Prop :=
  exists p raw_k raw_v, piece_by "&"%char p s /\ p <> [] /\ ~ In "="%char raw_k /\
    (p = raw_k ++ $"=" ++ raw_v \/ (p = raw_k /\ raw_v = [])) /\ decodes true raw_k k /\ decodes true raw_v v.
