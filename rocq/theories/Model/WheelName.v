(** pkg/python/pep425/tags.go and the file-name part of
    pkg/python/pypa/bdist/binary_distribution_format.go. *)
From Coq Require Import String Ascii List Bool ZArith NArith.
From Verif.Model Require Import GoStr Regex Pep440.
Import ListNotations.
Open Scope Z_scope.

(** ** pep425/tags.go *)

(** tags.go:11-15 type Tag *)
Record tag : Type := mkTag { t_python : str; t_abi : str; t_platform : str }.
(** Go == on Tag values *)
Definition tag_eqb (a b : tag) : bool :=
  str_eqb (t_python a) (t_python b) && str_eqb (t_abi a) (t_abi b)
  && str_eqb (t_platform a) (t_platform b).

(** tags.go:17-27 Tag.Decompress *)
Definition decompress (t : tag) : list tag :=
  flat_map (fun x =>
    flat_map (fun y =>
      map (fun z => mkTag x y z) (split_on "."%char (t_platform t)))
      (split_on "."%char (t_abi t)))
    (split_on "."%char (t_python t)).

(** tags.go:29-39 ParseTag; [None] is the error return *)
Definition parse_tag (s : str) : option tag :=
  match split_on "-"%char s with
  | [a; b; c] => Some (mkTag a b c)
  | _ => None
  end.
(** tags.go:41-43 Tag.String *)
Definition tag_string (t : tag) : str := t_python t ++ $"-" ++ t_abi t ++ $"-" ++ t_platform t.

(** tags.go:58-73 Intersect *)
Definition intersect (a b : list tag) : bool :=
  existsb (fun a1 =>
    existsb (fun a2 =>
      existsb (fun b1 =>
        existsb (fun b2 => tag_eqb a2 b2) (decompress b1)) b) (decompress a1)) a.
(** tags.go:81-85 Installer.Supports *)
Definition supports (inst : list tag) (t : tag) : bool := intersect inst [t].
(** tags.go:87-97 Installer.Preference *)
Fixpoint preference_from (i : nat) (inst : list tag) (t : tag) : nat :=
  match inst with
  | [] => (i + 1)%nat
  | it :: inst' => if intersect [it] [t] then (i + 1)%nat else preference_from (S i) inst' t
  end.
Definition preference (inst : list tag) (t : tag) : nat := preference_from 0 inst t.

(** ** Wheel file names *)

(** binary_distribution_format.go:553-556 type BuildTag; nil is [None] *)
Record buildtag : Type := mkBuild { b_int : Z; b_str : str }.
(** :558-560 BuildTag.String *)
Definition build_string (t : buildtag) : str := itoa (b_int t) ++ b_str t.
(** :562-584 BuildTag.Cmp *)
Definition build_cmp (a b : option buildtag) : Z :=
  match a, b with
  | None, None => 0
  | None, Some _ => -1
  | Some _, None => 1
  | Some a, Some b =>
      let d := wrap64 (b_int a - b_int b) in
      if negb (d =? 0) then d
      else if str_ltb (b_str a) (b_str b) then -1
      else if str_ltb (b_str b) (b_str a) then 1
      else 0
  end.

(** :502-507 type FileNameData *)
Record filename_data : Type := mkFileName {
  f_dist : str; f_version : version; f_build : option buildtag; f_tag : tag
}.

(** :509-518 reFilename, without the anchors.  The classes are classes of
    runes in Go; as '-' and the digits are ASCII the byte-wise reading is the
    same. *)
Definition not_dash (c : ascii) : bool := negb (byte_eqb c "-"%char).
Definition r_field (name : string) : re := RGrp name (RPlus (RChr not_dash)).
Definition r_build : re :=
  ROpt (RSeqs [lit $"-"; RGrp "build_n" (RPlus (RChr is_digit));
               ROpt (RGrp "build_l" (RSeq (RChr (fun c => not_dash c && negb (is_digit c)))
                                          (RStar (RChr not_dash))))]).
Definition re_filename : re :=
  RSeqs [r_field "distribution"; lit $"-"; r_field "version"; r_build;
         lit $"-"; r_field "python"; lit $"-"; r_field "abi"; lit $"-"; r_field "platform";
         lit $".whl"].

(** [n, _ := strconv.Atoi(buildN)] at :536 for a digit string: on overflow the
    ignored error comes with the largest int. *)
Definition atoi_saturating (s : str) : Z :=
  match atoi s with Some n => n | None => max_int64 end.

(** :520-551 ParseFilename *)
Definition parse_filename (s : str) : option filename_data :=
  match full_match re_filename s with
  | None => None
  | Some c =>
      match parse_version (group c "version") with
      | None => None
      | Some v =>
          Some {| f_dist := group c "distribution";
                  f_version := v;
                  f_build := if str_eqb (group c "build_n") [] then None
                             else Some (mkBuild (atoi_saturating (group c "build_n")) (group c "build_l"));
                  f_tag := mkTag (group c "python") (group c "abi") (group c "platform") |}
      end
  end.

(** regexp "[-_.]+".ReplaceAllLiteralString(s, rep): leftmost-longest runs.
    [in_run]: the previous byte belonged to a run (already replaced). *)
Fixpoint replace_runs_from (in_run : bool) (rep s : str) : str :=
  match s with
  | [] => []
  | c :: s' =>
      if in_set $"-_." c then (if in_run then [] else rep) ++ replace_runs_from true rep s'
      else c :: replace_runs_from false rep s'
  end.
Definition replace_runs (rep s : str) : str := replace_runs_from false rep s.

(** strings.Count with a one-byte needle *)
Definition count_byte (c : ascii) (s : str) : nat := length (filter (byte_eqb c) s).

(** :592-626 GenerateFilename; [None] is the error return *)
Definition generate_filename (d : filename_data) : option str :=
  match normalize_version (f_version d) with
  | None => None
  | Some ver =>
      let head := replace_runs $"_" (f_dist d) ++ $"-" ++ version_string ver in
      match (match f_build d with
             | None => Some head
             | Some b =>
                 if contains_byte "-"%char (build_string b) then None
                 else Some (head ++ $"-" ++ build_string b)
             end) with
      | None => None
      | Some head =>
          let compat := tag_string (f_tag d) in
          if negb (count_byte "-"%char compat =? 2)%nat then None
          else Some (head ++ $"-" ++ compat ++ $".whl")
      end
  end.
