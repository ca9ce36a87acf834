(** What a configuration file says, written as Python's configparser writes it. *)
From Coq Require Import String Ascii List Bool Arith.
From Verif.Model Require Import GoStr ConfigParser.
From Verif.Spec Require Import WhiteSpaceSpec.
Import ListNotations.

(** RawConfigParser.write: ["[section]\n"], then ["key = value\n"] with every newline
    of the value followed by a tab, and an empty line after each section. *)
Definition render_value (v : str) : str := join (nl :: $"	") (split_on nl v).
Definition render_item (kv : str * str) : str := fst kv ++ $" = " ++ render_value (snd kv) ++ [nl].
Definition render_section (s : str * section) : str :=
  $"[" ++ fst s ++ $"]" ++ [nl] ++ concat (map render_item (snd s)) ++ [nl].
Definition render (c : config) : str := concat (map render_section c).

(** A parser with one-byte delimiters [ds], among them "=", and one-byte comment
    marks [cs]; no inline comments; empty lines belong to values. *)
Record usual (p : parser) (ds cs : list ascii) : Prop := mkUsual {
  us_delims : p_delims p = map (fun c => [c]) ds;
  us_comments : p_comments p = map (fun c => [c]) cs;
  us_inline : p_inline p = [];
  us_empty : p_empty_lines p = true;
  us_eq : In "="%char ds;
  us_ds : forall c, In c ds -> is_space c = false /\ ascii_byte c;
  us_cs : forall c, In c cs -> is_space c = false /\ c <> "["%char
}.

(** does not start with one of these bytes *)
Definition not_starting (bad : list ascii) (s : str) : Prop :=
  match s with [] => True | c :: _ => ~ In c bad end.

(** what the format can express *)
Definition good_name (n : str) : Prop := ~ In nl n.
Definition good_key (ds cs : list ascii) (k : str) : Prop :=
  k <> [] /\ solid_ends k /\ ~ In nl k /\ (forall c, In c ds -> ~ In c k) /\ not_starting ("["%char :: cs) k.
(** The lines of a value carry no white space around them, the further ones do not look
    like comments, and the last one is not empty unless it is the only one. *)
Definition good_value (cs : list ascii) (v : str) : Prop :=
  Forall solid_ends (split_on nl v) /\ Forall (not_starting cs) (tl (split_on nl v)) /\
  (forall w, v <> w ++ [nl]).
Record good_config (p : parser) (ds cs : list ascii) (c : config) : Prop := mkGood {
  gc_names : NoDup (map fst c);
  gc_name : forall n s, In (n, s) c -> good_name n;
  gc_keys : forall n s, In (n, s) c -> NoDup (map fst s);
  gc_key : forall n s k v, In (n, s) c -> In (k, v) s -> good_key ds cs k /\ p_transform p k = k;
  gc_value : forall n s k v, In (n, s) c -> In (k, v) s -> good_value cs v
}.

(** A line at the margin that is neither empty, a comment, a header nor an item *)
Definition stray (ds cs : list ascii) (l : str) : Prop :=
  match l with
  | [] => False
  | c :: _ => solid_start l /\ c <> "["%char /\ ~ In c cs /\ (forall d, In d ds -> ~ In d l)
  end.

(** Lines that can belong to the section they stand in: none of them is a header *)
Definition no_header (lines : list str) : Prop :=
  Forall (fun l => forall a b, blanks a -> l <> a ++ "["%char :: b) lines.

Definition is_error {A} (r : cres A) : Prop := exists e, r = CErr e.

(** An example *)
Definition example_config : config :=
  [($"console_scripts", [($"foo", $"pkg.mod:main"); ($"bar baz", $"x = y #z")]);
   ($" a ]", [($"k", []); ($"long", $"first" ++ [nl; nl] ++ $"[third]")]);
   ([], [])].
(** Another one, with characters outside ASCII: a no-break space inside a value, an em space inside a key *)
Definition example_wide : config :=
  [(map ascii_of_nat [195; 188], [($"a" ++ map ascii_of_nat [226; 128; 131] ++ $"b", $"x" ++ map ascii_of_nat [194; 160] ++ $"y")])].
