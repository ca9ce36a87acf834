(** Where the code looks at letters and white space outside ASCII: reVersion is case-insensitive, and
    strings.TrimSpace removes white space of Unicode.  Strings are UTF-8. *)
From Coq Require Import String Ascii List Bool ZArith NArith.
From Verif.Model Require Import GoStr Regex Pep440 Specifier Pep345.
From Verif.Model Require Export UniSpace.
Import ListNotations.
Open Scope Z_scope.

(** U+017F LATIN SMALL LETTER LONG S and U+212A KELVIN SIGN: the letters outside ASCII that (?i) of package
    regexp takes for the same as letters of ASCII, s and k *)
Definition long_s : str := utf8 [197; 191]%N.
Definition kelvin : str := utf8 [226; 132; 170]%N.
(** A letter under (?i), a word, and [a-z0-9] *)
Definition fold_chr (c : ascii) : re :=
  if byte_eqb c "s"%char then RAlt (RChr (eq_ci c)) (lit long_s)
  else if byte_eqb c "k"%char then RAlt (RChr (eq_ci c)) (lit kelvin)
  else RChr (eq_ci c).
Fixpoint lit_fold (s : str) : re :=
  match s with
  | [] => REps
  | c :: s => RSeq (fold_chr c) (lit_fold s)
  end.
Definition r_alnum_fold : re := RAlt (RAlt (RChr cls_alnum_ci) (lit long_s)) (lit kelvin).
Definition r_alnums_fold : re := RPlus r_alnum_fold.

(** 03_tail.go:571-600 reVersion, as Model/Pep440.v, with these letters; \s is white space of ASCII only *)
Definition r_pre_fold : re :=
  ROpt (RGrp "pre" (RSeqs [r_sep; RGrp "pre_l" (RAlts (map lit_fold [$"a"; $"b"; $"c"; $"rc"; $"alpha"; $"beta"; $"pre"; $"preview"]));
                           r_sep; ROpt (RGrp "pre_n" r_digits)])).
Definition r_post_fold : re :=
  ROpt (RGrp "post" (RAlt
    (RSeq (lit $"-") (RGrp "post_n1" r_digits))
    (RSeqs [r_sep; RGrp "post_l" (RAlts (map lit_fold [$"post"; $"rev"; $"r"])); r_sep; ROpt (RGrp "post_n2" r_digits)]))).
Definition r_dev_fold : re :=
  ROpt (RGrp "dev" (RSeqs [r_sep; RGrp "dev_l" (lit_fold $"dev"); r_sep; ROpt (RGrp "dev_n" r_digits)])).
Definition r_local_fold : re :=
  ROpt (RSeq (lit $"+") (RGrp "local" (RSeq r_alnums_fold (RStar (RSeq r_sep1 r_alnums_fold))))).
Definition re_version_fold : re :=
  RSeqs [r_spaces; ROpt (lit_fold $"v"); r_epoch; r_release; r_pre_fold; r_post_fold; r_dev_fold; r_local_fold; r_spaces].
(** strings.ToLower of what the groups of reVersion can hold: ASCII and the two letters; the long s is a
    small letter, the Kelvin sign becomes k *)
Fixpoint to_lower_fold (s : str) : str :=
  match s with
  | [] => []
  | c :: s' =>
      match s' with
      | c' :: c'' :: s'' => if str_eqb [c; c'; c''] kelvin then "k"%char :: to_lower_fold s'' else lower c :: to_lower_fold s'
      | _ => lower c :: to_lower_fold s'
      end
  end.
(** 03_tail.go:631-668 parseLetterNumber *)
Definition parse_letter_number_fold (letter number : str) (acceptable : list (str * list str)) : res (option (str * Z)) :=
  if str_eqb letter [] && str_eqb number [] then Ok None
  else
    let letter := to_lower_fold letter in
    let number := if negb (str_eqb letter []) && str_eqb number [] then $"0" else number in
    let l :=
      if existsb (fun a => str_eqb letter (fst a)) acceptable then Some letter
      else find_letter letter acceptable in
    match l with
    | None => Err
    | Some l =>
        if str_eqb number [] then Ok (Some (l, 0))
        else match atoi number with
             | Some n => Ok (Some (l, n))
             | None => Err
             end
    end.
(** 03_tail.go:602-722 parseVersion *)
Definition parse_version_fold (s : str) : option version :=
  match full_match re_version_fold s with
  | None => None
  | Some c =>
      let ep := group c "epoch" in
      match (if str_eqb ep [] then Some 0 else atoi ep), map_atoi (split_on "."%char (group c "release")) with
      | Some e, Some r =>
          match parse_letter_number_fold (group c "pre_l") (group c "pre_n")
                  [($"a", [$"alpha"]); ($"b", [$"beta"]); ($"rc", [$"c"; $"pre"; $"preview"])],
                parse_letter_number_fold (group c "post_l") (group c "post_n1" ++ group c "post_n2") [($"post", [[]; $"rev"; $"r"])],
                parse_letter_number_fold (group c "dev_l") (group c "dev_n") [($"dev", [])] with
          | Ok p, Ok po, Ok d =>
              Some {| pub := {| epoch := e; release := r; pre := p; post := option_map snd po; dev := option_map snd d |};
                      local := map (fun part => intstr_parse (to_lower_fold part)) (fields_func (in_set $"-_.") (group c "local")) |}
          | _, _, _ => None
          end
      | _, _ => None
      end
  end.

(** 02_version_specifiers.go:136-200 parseSpecifierClause; 45-60 ParseSpecifier *)
Definition parse_clause_u (s : str) : res clause :=
  match clause_operator (trim_space_u s) with
  | Ok (op, s, min_segments, dev_ok, local_ok) =>
      match parse_version_fold s with
      | None => Err
      | Some v =>
          if (length (release (pub v)) <? min_segments)%nat then Err
          else if is_some (dev (pub v)) && negb dev_ok then Err
          else if (0 <? length (local v))%nat && negb local_ok then Err
          else Ok {| c_op := op; c_ver := v |}
      end
  | Err => Err
  | Panic => Panic
  end.
Fixpoint parse_clauses_u (l : list str) : res specifier :=
  match l with
  | [] => Ok []
  | s :: l' =>
      match trim_space_u s with
      | [] => parse_clauses_u l'
      | s =>
          match parse_clause_u s with
          | Ok c =>
              match parse_clauses_u l' with
              | Ok cs => Ok (c :: cs)
              | Err => Err
              | Panic => Panic
              end
          | Err => Err
          | Panic => Panic
          end
      end
  end.
Definition parse_specifier_u (s : str) : res specifier := parse_clauses_u (fields_func (fun c => byte_eqb c ","%char) s).

(** pep345/metadata.go:80-111 parseVersionSpecifierClause; 27-38 ParseVersionSpecifier; 17-23 HaveRequiredPython *)
Definition parse_pyclause_u (s : str) : option pyclause :=
  let '(op, s) := pyclause_operator (trim_space_u s) in
  match parse_version_fold s with
  | None => None
  | Some v => Some {| py_op := op; py_ver := v |}
  end.
Fixpoint parse_pyclauses_u (l : list str) : option (list pyclause) :=
  match l with
  | [] => Some []
  | s :: l' =>
      match parse_pyclause_u s with
      | None => None
      | Some c =>
          match parse_pyclauses_u l' with
          | None => None
          | Some cs => Some (c :: cs)
          end
      end
  end.
Definition parse_pyspecifier_u (s : str) : option (list pyclause) := parse_pyclauses_u (fields_func (fun c => byte_eqb c ","%char) s).
Definition have_required_python_u (have : version) (requirement : str) : option bool :=
  match parse_pyspecifier_u requirement with
  | None => None
  | Some req => Some (match_pyspecifier req have)
  end.
