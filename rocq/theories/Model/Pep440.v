(** pkg/python/pep440: versions (01_version_scheme.go) and the version parser
    (03_tail.go). *)
From Coq Require Import String Ascii List Bool ZArith NArith.
From Verif.Model Require Import GoStr Regex.
Import ListNotations.
Open Scope Z_scope.

(** Result of a Go function that may return an error or panic. *)
Inductive res (A : Type) : Type :=
| Ok (a : A)
| Err
| Panic.
Arguments Ok {A} a.  Arguments Err {A}.  Arguments Panic {A}.

(** k8s.io/apimachinery/pkg/util/intstr.IntOrString: tag plus int32 or string. *)
Inductive intorstr : Type :=
| SInt (i : Z)       (* Type == Int, IntVal *)
| SStr (s : str).    (* Type == String, StrVal *)

(** 01_version_scheme.go:60-71 type PublicVersion; 73-76 type PreRelease
    (a letter string and a number). *)
Record public : Type := mkPublic {
  epoch : Z;
  release : list Z;
  pre : option (str * Z);
  post : option Z;
  dev : option Z
}.
(** 01_version_scheme.go:190-193 type LocalVersion; :44 type Version = LocalVersion *)
Record version : Type := mkVersion {
  pub : public;
  local : list intorstr
}.

(** 01_version_scheme.go:98-118 PublicVersion.writeTo.
    The panic on an empty release list is modelled by printing nothing for the
    release; all theorems are about versions with a non-empty release. *)
Definition public_string (v : public) : str :=
  (if 0 <? epoch v then itoa (epoch v) ++ $"!" else [])
  ++ join $"." (map itoa (release v))
  ++ match pre v with Some (l, n) => l ++ itoa n | None => [] end
  ++ match post v with Some n => $".post" ++ itoa n | None => [] end
  ++ match dev v with Some n => $".dev" ++ itoa n | None => [] end.

(** intstr.IntOrString.String *)
Definition seg_string (s : intorstr) : str :=
  match s with SInt i => itoa i | SStr s => s end.

(** 01_version_scheme.go:202-212 LocalVersion.String *)
Fixpoint local_string (sep : str) (l : list intorstr) : str :=
  match l with
  | [] => []
  | s :: l' => sep ++ seg_string s ++ local_string $"." l'
  end.
Definition version_string (v : version) : str :=
  public_string (pub v) ++ local_string $"+" (local v).

(** 01_version_scheme.go:225-253 cmpLocalSegment.  [a - b] is int32 arithmetic;
    the panic for two absent segments is unreachable from cmpLocal. *)
Definition cmp_local_segment (a b : option intorstr) : Z :=
  match a, b with
  | None, None => 0
  | None, Some _ => -1
  | Some _, None => 1
  | Some (SInt x), Some (SInt y) => wrap32 (x - y)
  | Some (SStr x), Some (SStr y) =>
      if str_ltb x y then -1 else if str_ltb y x then 1 else 0
  | Some (SInt _), Some (SStr _) => 1
  | Some (SStr _), Some (SInt _) => -1
  end.

(** 01_version_scheme.go:255-269 cmpLocal: positions i = 0, 1, ... up to the
    longer list; written as recursion over both lists. *)
Fixpoint cmp_local (a b : list intorstr) : Z :=
  let head (l : list intorstr) := match l with [] => None | x :: _ => Some x end in
  match a with
  | [] =>
      match b with
      | [] => 0
      | y :: _ => cmp_local_segment None (Some y)   (* = -1, so the loop stops *)
      end
  | x :: a' =>
      let d := cmp_local_segment (Some x) (head b) in
      if d =? 0 then cmp_local a' (tl b) else d
  end.

(** 01_version_scheme.go:331-336 releaseSegment *)
Definition release_segment (r : list Z) (n : nat) : Z := nth n r 0.

(** 01_version_scheme.go:338-345 cmpRelease: index loop up to the longer list. *)
Fixpoint cmp_release_from (a b : list Z) (i fuel : nat) : Z :=
  match fuel with
  | O => 0
  | S k =>
      let d := wrap64 (release_segment a i - release_segment b i) in
      if d =? 0 then cmp_release_from a b (S i) k else d
  end.
Definition cmp_release (a b : public) : Z :=
  cmp_release_from (release a) (release b) 0 (max (length (release a)) (length (release b))).

(** 01_version_scheme.go:428-441 preReleaseOrder; letters outside the map make
    cmpPreRelease panic, here they get 0.  Parsed versions never have them. *)
Definition pre_order (l : str) : Z :=
  if str_eqb l $"a" || str_eqb l $"alpha" then -3
  else if str_eqb l $"b" || str_eqb l $"beta" then -2
  else if str_eqb l $"rc" || str_eqb l $"c" || str_eqb l $"pre" || str_eqb l $"preview" then -1
  else 0.

Definition is_some {A} (o : option A) : bool := match o with Some _ => true | None => false end.

(** the (aL, aN) pair of 01_version_scheme.go:443-469 cmpPreRelease *)
Definition pre_rank (v : public) : Z * Z :=
  match pre v with
  | Some (l, n) => (pre_order l, n)
  | None => if is_some (dev v) && negb (is_some (post v)) then (-4, 0) else (0, 0)
  end.
Definition cmp_prerelease (a b : public) : Z :=
  let '(aL, aN) := pre_rank a in
  let '(bL, bN) := pre_rank b in
  if negb (aL =? bL) then wrap64 (aL - bL) else wrap64 (aN - bN).

(** 01_version_scheme.go:510-520 cmpPostRelease *)
Definition opt_default (d : Z) (o : option Z) : Z := match o with Some x => x | None => d end.
Definition cmp_postrelease (a b : public) : Z :=
  wrap64 (opt_default (-1) (post a) - opt_default (-1) (post b)).

(** 01_version_scheme.go:574-585 cmpDevRelease *)
Definition cmp_devrelease (a b : public) : Z :=
  match dev a, dev b with
  | None, None => 0
  | None, Some _ => 1
  | Some _, None => -1
  | Some x, Some y => wrap64 (x - y)
  end.

(** 01_version_scheme.go:621-623 cmpEpoch *)
Definition cmp_epoch (a b : public) : Z := wrap64 (epoch a - epoch b).

(** 01_version_scheme.go:870-937 PublicVersion.Cmp: first non-zero difference *)
Definition orelse (d e : Z) : Z := if d =? 0 then e else d.
Definition public_cmp (a b : public) : Z :=
  orelse (cmp_epoch a b)
    (orelse (cmp_release a b)
       (orelse (cmp_prerelease a b)
          (orelse (cmp_postrelease a b) (cmp_devrelease a b)))).

(** 01_version_scheme.go:275-280 LocalVersion.Cmp *)
Definition cmp (a b : version) : Z :=
  orelse (public_cmp (pub a) (pub b)) (cmp_local (local a) (local b)).

(** 01_version_scheme.go:308-314 IsFinal *)
Definition public_is_final (v : public) : bool :=
  negb (is_some (pre v)) && negb (is_some (post v)) && negb (is_some (dev v)).
Definition is_final (v : version) : bool :=
  public_is_final (pub v) && match local v with [] => true | _ => false end.
(** 01_version_scheme.go:570-572 IsPreRelease *)
Definition is_prerelease (v : public) : bool := is_some (pre v) || is_some (dev v).
(** 01_version_scheme.go:352-354 Major, Minor, Micro *)
Definition major (v : public) : Z := release_segment (release v) 0.
Definition minor (v : public) : Z := release_segment (release v) 1.
Definition micro (v : public) : Z := release_segment (release v) 2.

(** ** 03_tail.go:571-600 reVersion, without the anchors.  [sep] is [-_\.]? *)
Definition r_digits : re := RPlus (RChr cls_digit).
Definition r_sep1 : re := RChr (in_set $"-_.").
Definition r_sep : re := ROpt r_sep1.
Definition r_spaces : re := RStar (RChr cls_re_space).
(* [a-z0-9]+ under (?i) *)
Definition cls_alnum_ci (c : ascii) : bool := is_lower_alpha (lower c) || is_digit c.
Definition r_alnums : re := RPlus (RChr cls_alnum_ci).

Definition r_epoch : re := ROpt (RSeq (RGrp "epoch" r_digits) (lit $"!")).
Definition r_release : re :=
  RGrp "release" (RSeq r_digits (RStar (RSeq (lit $".") r_digits))).
Definition r_pre_l : re :=
  RGrp "pre_l" (RAlts (map lit_ci
    [$"a"; $"b"; $"c"; $"rc"; $"alpha"; $"beta"; $"pre"; $"preview"])).
Definition r_pre : re :=
  ROpt (RGrp "pre" (RSeqs [r_sep; r_pre_l; r_sep; ROpt (RGrp "pre_n" r_digits)])).
Definition r_post : re :=
  ROpt (RGrp "post" (RAlt
    (RSeq (lit $"-") (RGrp "post_n1" r_digits))
    (RSeqs [r_sep; RGrp "post_l" (RAlts (map lit_ci [$"post"; $"rev"; $"r"]));
            r_sep; ROpt (RGrp "post_n2" r_digits)]))).
Definition r_dev : re :=
  ROpt (RGrp "dev" (RSeqs [r_sep; RGrp "dev_l" (lit_ci $"dev");
                           r_sep; ROpt (RGrp "dev_n" r_digits)])).
Definition r_local : re :=
  ROpt (RSeq (lit $"+")
    (RGrp "local" (RSeq r_alnums (RStar (RSeq r_sep1 r_alnums))))).
Definition re_version : re :=
  RSeqs [r_spaces; ROpt (lit_ci $"v");
         r_epoch; r_release; r_pre; r_post; r_dev; r_local; r_spaces].

(** intstr.Parse: strconv.Atoi, then FromInt which truncates to int32 (only
    logging when the value overflows); on Atoi failure FromString. *)
Definition intstr_parse (s : str) : intorstr :=
  match atoi s with
  | Some i => SInt (wrap32 i)
  | None => SStr s
  end.

(** 03_tail.go:631-668 parseLetterNumber.  [acceptable] lists canonical letters
    with their aliases; the map has no alias shared by two canonical letters,
    so the iteration order of the Go map is irrelevant.
    Result: error, or no part, or (letter, number). *)
Fixpoint find_letter (letter : str) (acceptable : list (str * list str)) : option str :=
  match acceptable with
  | [] => None
  | (canonical, others) :: rest =>
      if existsb (str_eqb letter) others then Some canonical else find_letter letter rest
  end.
Definition parse_letter_number (letter number : str)
    (acceptable : list (str * list str)) : res (option (str * Z)) :=
  if str_eqb letter [] && str_eqb number [] then Ok None
  else
    let letter := to_lower letter in
    let number := if negb (str_eqb letter []) && str_eqb number [] then $"0" else number in
    let l :=
      if existsb (fun a => str_eqb letter (fst a)) acceptable then Some letter
      else find_letter letter acceptable in
    match l with
    | None => Err
    | Some l =>
        if str_eqb number [] then Ok (Some (l, 0))
        else match atoi number with
             | Some n => Ok (Some (l, n))
             | None => Err
             end
    end.

Fixpoint map_atoi (l : list str) : option (list Z) :=
  match l with
  | [] => Some []
  | s :: l' =>
      match atoi s, map_atoi l' with
      | Some z, Some r => Some (z :: r)
      | _, _ => None
      end
  end.

(** 03_tail.go:602-722 parseVersion = 01_version_scheme.go:48-54 ParseVersion *)
Definition parse_version (s : str) : option version :=
  match full_match re_version s with
  | None => None
  | Some c =>
      let ep := group c "epoch" in
      match (if str_eqb ep [] then Some 0 else atoi ep),
            map_atoi (split_on "."%char (group c "release")) with
      | Some e, Some r =>
          match parse_letter_number (group c "pre_l") (group c "pre_n")
                  [($"a", [$"alpha"]); ($"b", [$"beta"]);
                   ($"rc", [$"c"; $"pre"; $"preview"])],
                parse_letter_number (group c "post_l") (group c "post_n1" ++ group c "post_n2")
                  [($"post", [[]; $"rev"; $"r"])],
                parse_letter_number (group c "dev_l") (group c "dev_n") [($"dev", [])] with
          | Ok p, Ok po, Ok d =>
              Some {| pub := {| epoch := e; release := r; pre := p;
                                post := option_map snd po; dev := option_map snd d |};
                      local := map (fun part => intstr_parse (to_lower part))
                                 (fields_func (in_set $"-_.") (group c "local")) |}
          | _, _, _ => None
          end
      | _, _ => None
      end
  end.

(** 01_version_scheme.go:642-648 LocalVersion.Normalize *)
Definition normalize_version (v : version) : option version := parse_version (version_string v).
