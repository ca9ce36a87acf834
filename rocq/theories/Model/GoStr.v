(** Go strings as byte lists, and the parts of packages [strings], [strconv]
    and the integer types that the modelled code calls.  These are models of
    the Go standard library (whose source is not in /repo), restricted to
    ASCII: bytes >= 0x80 are never letters, digits, white space or upper case. *)
From Coq Require Import String Ascii List Bool ZArith NArith Lia.
Import ListNotations.

Notation str := (list ascii).

(** String literals: [$"abc"]. *)
Notation "$ s" := (list_ascii_of_string s%string) (at level 0, s at level 0).

Definition byte_eqb (a b : ascii) : bool := Ascii.eqb a b.
Definition code (a : ascii) : N := N_of_ascii a.

(** Go [==] on strings. *)
Fixpoint str_eqb (a b : str) : bool :=
  match a, b with
  | [], [] => true
  | x :: a', y :: b' => byte_eqb x y && str_eqb a' b'
  | _, _ => false
  end.

(** Go [<] on strings / [strings.Compare]: bytewise lexicographic. *)
Fixpoint str_compare (a b : str) : comparison :=
  match a, b with
  | [], [] => Eq
  | [], _ :: _ => Lt
  | _ :: _, [] => Gt
  | x :: a', y :: b' =>
      match N.compare (code x) (code y) with
      | Eq => str_compare a' b'
      | c => c
      end
  end.
Definition str_ltb (a b : str) : bool :=
  match str_compare a b with Lt => true | _ => false end.

(** strings.HasPrefix *)
Fixpoint has_prefix (p s : str) : bool :=
  match p, s with
  | [], _ => true
  | x :: p', y :: s' => byte_eqb x y && has_prefix p' s'
  | _ :: _, [] => false
  end.
(** strings.HasSuffix *)
Definition has_suffix (p s : str) : bool := has_prefix (rev p) (rev s).
(** strings.TrimPrefix *)
Definition trim_prefix (p s : str) : str :=
  if has_prefix p s then skipn (length p) s else s.
(** strings.TrimSuffix *)
Definition trim_suffix (p s : str) : str :=
  if has_suffix p s then firstn (length s - length p) s else s.
(** strings.Contains with a one-byte needle / strings.ContainsRune *)
Definition contains_byte (c : ascii) (s : str) : bool := existsb (byte_eqb c) s.
(** strings.ContainsAny *)
Definition in_set (set : str) (c : ascii) : bool := existsb (byte_eqb c) set.

(** strings.Split with a one-byte separator: always at least one element. *)
Fixpoint split_on (c : ascii) (s : str) : list str :=
  match s with
  | [] => [[]]
  | x :: s' =>
      if byte_eqb c x then [] :: split_on c s'
      else match split_on c s' with
           | [] => [[x]]
           | h :: t => (x :: h) :: t
           end
  end.

(** strings.SplitN(s, c, 2): the text before the first separator and, if the
    separator occurs, the text after it. *)
Fixpoint cut (c : ascii) (s : str) : str * option str :=
  match s with
  | [] => ([], None)
  | x :: s' =>
      if byte_eqb c x then ([], Some s')
      else let '(a, b) := cut c s' in (x :: a, b)
  end.

(** strings.Join *)
Fixpoint join (sep : str) (l : list str) : str :=
  match l with
  | [] => []
  | [x] => x
  | x :: l' => x ++ sep ++ join sep l'
  end.

(** strings.FieldsFunc: maximal non-empty runs of bytes not satisfying [f]. *)
Fixpoint fields_aux (f : ascii -> bool) (s cur : str) : list str :=
  match s with
  | [] => match cur with [] => [] | _ => [rev cur] end
  | x :: s' =>
      if f x then match cur with
                  | [] => fields_aux f s' []
                  | _ => rev cur :: fields_aux f s' []
                  end
      else fields_aux f s' (x :: cur)
  end.
Definition fields_func (f : ascii -> bool) (s : str) : list str := fields_aux f s [].

(** unicode.IsSpace on ASCII: \t \n \v \f \r and space. *)
Definition is_space (c : ascii) : bool :=
  ((9 <=? code c) && (code c <=? 13))%N || (code c =? 32)%N.
Fixpoint trim_left (f : ascii -> bool) (s : str) : str :=
  match s with
  | x :: s' => if f x then trim_left f s' else s
  | [] => []
  end.
Definition trim_right (f : ascii -> bool) (s : str) : str := rev (trim_left f (rev s)).
(** strings.TrimSpace *)
Definition trim_space (s : str) : str := trim_right is_space (trim_left is_space s).

(** unicode.ToLower / strings.ToLower on ASCII *)
Definition lower (c : ascii) : ascii :=
  if ((65 <=? code c) && (code c <=? 90))%N then ascii_of_N (code c + 32) else c.
Definition to_lower (s : str) : str := map lower s.

Definition is_digit (c : ascii) : bool := ((48 <=? code c) && (code c <=? 57))%N.
Definition is_lower_alpha (c : ascii) : bool := ((97 <=? code c) && (code c <=? 122))%N.

(** *** Machine integers *)
Definition wrap (bits : Z) (z : Z) : Z :=
  ((z + 2 ^ (bits - 1)) mod 2 ^ bits - 2 ^ (bits - 1))%Z.
(** Go [int] (64-bit platforms) and [int32] *)
Definition wrap64 : Z -> Z := wrap 64.
Definition wrap32 : Z -> Z := wrap 32.
Definition max_int64 : Z := (2 ^ 63 - 1)%Z.
Definition min_int64 : Z := (- 2 ^ 63)%Z.

(** *** Decimal: strconv.Itoa, strconv.Atoi *)
Definition digit_char (d : N) : ascii := ascii_of_N (48 + d).
Fixpoint dec_aux (fuel : nat) (n : N) (acc : str) : str :=
  match fuel with
  | O => acc
  | S k =>
      let acc' := digit_char (n mod 10) :: acc in
      if (n / 10 =? 0)%N then acc' else dec_aux k (n / 10)%N acc'
  end.
(** fuel: one step per binary digit is more than enough *)
Definition dec (n : N) : str := dec_aux (S (N.size_nat n)) n [].
(** strconv.Itoa *)
Definition itoa (z : Z) : str :=
  if (z <? 0)%Z then "-"%char :: dec (Z.to_N (- z)) else dec (Z.to_N z).

Definition digit_val (c : ascii) : N := (code c - 48)%N.
Definition dec_val_from (acc : N) (s : str) : N :=
  fold_left (fun a c => (10 * a + digit_val c)%N) s acc.
(** value of a digit string *)
Definition dec_val (s : str) : N := dec_val_from 0 s.

Definition all_digits (s : str) : bool :=
  match s with [] => false | _ => forallb is_digit s end.

(** strconv.Atoi on a 64-bit platform: optional sign, at least one digit,
    error on range overflow.  [None] is the error return. *)
Definition atoi (s : str) : option Z :=
  let '(neg, d) :=
    match s with
    | "-"%char :: d => (true, d)
    | "+"%char :: d => (false, d)
    | _ => (false, s)
    end in
  if all_digits d then
    let v := Z.of_N (dec_val d) in
    let v := if neg then (- v)%Z else v in
    if ((min_int64 <=? v) && (v <=? max_int64))%Z then Some v else None
  else None.
