(** Python's packaging.utils.parse_wheel_filename (packaging 24.1), for texts of ASCII characters without
    newlines.  Versions are read as PEP 440 has it; see C05 for these. *)
From Coq Require Import String Ascii List Bool NArith ZArith.
From Verif.Model Require Import GoStr Pep440 WheelName SimpleAPI.
Import ListNotations.

(** str.split with one character *)
Fixpoint pieces (sep : ascii) (s : str) : list str :=
  match s with
  | [] => [[]]
  | c :: s =>
      if Ascii.eqb c sep then [] :: pieces sep s
      else match pieces sep s with x :: l => (c :: x) :: l | [] => [[c]] end
  end.
(** str.lower *)
Definition py_lower_char (c : ascii) : ascii :=
  let n := N_of_ascii c in if ((65 <=? n) && (n <=? 90))%N then ascii_of_N (n + 32) else c.
Definition py_lower (s : str) : str := map py_lower_char s.
(** canonicalize_name: every run of "-", "_" and "." becomes one "-", then lower case *)
Definition run_char (c : ascii) : bool := (Ascii.eqb c "-" || Ascii.eqb c "_" || Ascii.eqb c ".")%char.
Fixpoint one_dash (in_run : bool) (s : str) : str :=
  match s with
  | [] => []
  | c :: s => if run_char c then (if in_run then [] else ["-"%char]) ++ one_dash true s else c :: one_dash false s
  end.
Definition canonicalize_name (s : str) : str := py_lower (one_dash false s).
(** parse_tag: an element for each combination *)
Definition py_tags (p a q : str) : list (str * str * str) :=
  flat_map (fun x => flat_map (fun y => map (fun z => (py_lower x, py_lower y, py_lower z)) (pieces "."%char q)) (pieces "."%char a)) (pieces "."%char p).
(** the check of the project name: letters, digits, "_" and ".", without "__" *)
Definition word_or_dot (c : ascii) : bool :=
  let n := N_of_ascii c in
  ((48 <=? n) && (n <=? 57) || (65 <=? n) && (n <=? 90) || (97 <=? n) && (n <=? 122) || (n =? 95) || (n =? 46))%N.
Fixpoint double_underscore (s : str) : bool :=
  match s with
  | [] => false
  | c :: r => match r with
              | d :: _ => Ascii.eqb c "_" && Ascii.eqb d "_" || double_underscore r
              | [] => false
              end
  end.
Definition project_part (s : str) : bool := forallb word_or_dot s && negb (double_underscore s).
(** the match of (\d+)(.* ) *)
Definition py_digit (c : ascii) : bool := let n := N_of_ascii c in ((48 <=? n) && (n <=? 57))%N.
Fixpoint leading_digits (s : str) : str * str :=
  match s with
  | [] => ([], [])
  | c :: r => if py_digit c then let '(d, t) := leading_digits r in (c :: d, t) else ([], s)
  end.
Definition py_int (s : str) : N := fold_left (fun n c => 10 * n + (N_of_ascii c - 48))%N s 0%N.

Record py_wheel := mkPyWheel { pw_name : str; pw_version : version; pw_build : option (N * str); pw_tags : list (str * str * str) }.
(** the part before ".whl" *)
Definition stem (s : str) : option str :=
  match rev s with
  | "l"%char :: "h"%char :: "w"%char :: "."%char :: r => Some (rev r)
  | _ => None
  end.
Definition py_parts (n v : str) (b : option str) (p a q : str) : option py_wheel :=
  if project_part n then
    match parse_version v, b with
    | None, _ => None
    | Some v, None => Some (mkPyWheel (canonicalize_name n) v None (py_tags p a q))
    | Some v, Some b =>
        match leading_digits b with
        | ([], _) => None
        | (d, l) => Some (mkPyWheel (canonicalize_name n) v (Some (py_int d, l)) (py_tags p a q))
        end
    end
  else None.
Definition parse_wheel_filename (s : str) : option py_wheel :=
  match stem s with
  | None => None
  | Some t =>
      match pieces "-"%char t with
      | [n; v; p; a; q] => py_parts n v None p a q
      | [n; v; b; p; a; q] => py_parts n v (Some b) p a q
      | _ => None
      end
  end.

(** What the result of ParseFilename means: the normalized name, the version, the build tag, and the tags that Decompress gives *)
Definition meaning (d : filename_data) : py_wheel :=
  mkPyWheel (normalize (f_dist d)) (f_version d) (option_map (fun b => (Z.to_N (b_int b), b_str b)) (f_build d))
    (map (fun t => (py_lower (t_python t), py_lower (t_abi t), py_lower (t_platform t))) (decompress (f_tag d))).
(** Names on which the two agree: no empty field, a project name as Python has them, a build number below 2^63 *)
Definition agreed_name (s : str) : Prop :=
  Forall (fun c => (N_of_ascii c < 128)%N /\ c <> "010"%char) s /\
  (forall t, stem s = Some t -> Forall (fun x => x <> []) (pieces "-"%char t) /\ project_part (hd [] (pieces "-"%char t)) = true /\
    forall n v b p a q, pieces "-"%char t = [n; v; b; p; a; q] -> (py_int (fst (leading_digits b)) < 2 ^ 63)%N).
