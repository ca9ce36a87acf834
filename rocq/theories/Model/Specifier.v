(** pkg/python/pep440/02_version_specifiers.go: version specifiers, matching,
    exclusion policies and Select. *)
From Coq Require Import String Ascii List Bool ZArith NArith.
From Verif.Model Require Import GoStr Regex Pep440.
Import ListNotations.
Open Scope Z_scope.

(** 02_version_specifiers.go:79-93 type CmpOp *)
Inductive cmpop : Type :=
| OpCompatible | OpStrictMatch | OpPrefixMatch | OpStrictExclude | OpPrefixExclude
| OpLE | OpGE | OpLT | OpGT.

(** 02_version_specifiers.go:131-134 type SpecifierClause; :43 type Specifier *)
Record clause : Type := mkClause { c_op : cmpop; c_ver : version }.
Definition specifier : Type := list clause.

(** Go [s[n:]]: a run-time panic when n exceeds the length. *)
Definition slice_from (n : nat) (s : str) : res str :=
  if (length s <? n)%nat then Panic else Ok (skipn n s).

(** 02_version_specifiers.go:136-183 the switch on the operator: operator, rest
    of the text, minSegments, devOK, localOK. *)
Definition eq_variant (strict prefix : cmpop) (s : str)
    : res (cmpop * str * nat * bool * bool) :=
  match slice_from 2 s with
  | Ok s =>
      if has_suffix $".*" s then Ok (prefix, trim_suffix $".*" s, 1%nat, false, false)
      else Ok (strict, s, 1%nat, true, true)
  | Err => Err | Panic => Panic
  end.
Definition plain_variant (op : cmpop) (min : nat) (s : str)
    : res (cmpop * str * nat * bool * bool) :=
  match slice_from 2 s with
  | Ok s => Ok (op, s, min, true, false)
  | Err => Err | Panic => Panic
  end.
Definition clause_operator (s : str) : res (cmpop * str * nat * bool * bool) :=
  if has_prefix $"~=" s then plain_variant OpCompatible 2 s
  else if has_prefix $"==" s && negb (has_prefix $"===" s) then
    eq_variant OpStrictMatch OpPrefixMatch s
  else if has_prefix $"!=" s then eq_variant OpStrictExclude OpPrefixExclude s
  else if has_prefix $"<=" s then plain_variant OpLE 1 s
  else if has_prefix $">=" s then plain_variant OpGE 1 s
  else if has_prefix $"<" s then plain_variant OpLT 1 s    (* str[2:] at line 175 *)
  else if has_prefix $">" s then plain_variant OpGT 1 s    (* str[2:] at line 178 *)
  else Err.                                                (* "===" and default *)

(** 02_version_specifiers.go:136-200 parseSpecifierClause *)
Definition parse_clause (s : str) : res clause :=
  match clause_operator (trim_space s) with
  | Ok (op, s, min_segments, dev_ok, local_ok) =>
      match parse_version s with
      | None => Err
      | Some v =>
          if (length (release (pub v)) <? min_segments)%nat then Err
          else if is_some (dev (pub v)) && negb dev_ok then Err
          else if (0 <? length (local v))%nat && negb local_ok then Err
          else Ok {| c_op := op; c_ver := v |}
      end
  | Err => Err
  | Panic => Panic
  end.

(** 02_version_specifiers.go:45-60 ParseSpecifier *)
Fixpoint parse_clauses (l : list str) : res specifier :=
  match l with
  | [] => Ok []
  | s :: l' =>
      match trim_space s with
      | [] => parse_clauses l'
      | s =>
          match parse_clause s with
          | Ok c =>
              match parse_clauses l' with
              | Ok cs => Ok (c :: cs)
              | Err => Err
              | Panic => Panic
              end
          | Err => Err
          | Panic => Panic
          end
      end
  end.
Definition parse_specifier (s : str) : res specifier :=
  parse_clauses (fields_func (fun c => byte_eqb c ","%char) s).

(** 02_version_specifiers.go:202-218 SpecifierClause.String; 62-68 Specifier.String *)
Definition op_string (op : cmpop) : str :=
  match op with
  | OpCompatible => $"~="
  | OpStrictMatch | OpPrefixMatch => $"=="
  | OpStrictExclude | OpPrefixExclude => $"!="
  | OpLE => $"<=" | OpGE => $">=" | OpLT => $"<" | OpGT => $">"
  end.
Definition clause_string (c : clause) : str := op_string (c_op c) ++ version_string (c_ver c).
Definition specifier_string (s : specifier) : str := join $"," (map clause_string s).

(** 02_version_specifiers.go:479-485, 517-523 *)
Definition match_le (spec ver : version) : bool := 0 <=? cmp spec ver.
Definition match_ge (spec ver : version) : bool := cmp spec ver <=? 0.
Definition match_lt (spec ver : version) : bool := 0 <? cmp spec ver.
Definition match_gt (spec ver : version) : bool := cmp spec ver <? 0.

(** 02_version_specifiers.go:362-367 matchStrictMatch *)
Definition match_strict (spec ver : version) : bool :=
  match local spec with
  | [] => public_cmp (pub spec) (pub ver) =? 0
  | _ => cmp spec ver =? 0
  end.

(** 02_version_specifiers.go:369-433 matchPrefixMatch; [terminal] is
    terminalPart: 0 release, 1 pre, 2 post. *)
Definition set_release (v : public) (r : list Z) : public :=
  {| epoch := epoch v; release := r; pre := pre v; post := post v; dev := dev v |}.
Definition match_prefix (spec_ ver_ : version) : bool :=
  let spec := pub spec_ in
  let ver := pub ver_ in
  let terminal := if is_some (post spec) then 2 else if is_some (pre spec) then 1 else 0 in
  if negb (cmp_epoch spec ver =? 0) then false
  else
    let ver :=
      if (terminal =? 0) && (length (release spec) <? length (release ver))%nat
      then set_release ver (firstn (length (release spec)) (release ver)) else ver in
    if negb (cmp_release spec ver =? 0) then false
    else if terminal =? 0 then true
    else if negb (Bool.eqb (is_some (pre ver)) (is_some (pre spec))) then false
    else if match pre spec, pre ver with
            | Some (sl, sn), Some (vl, vn) =>
                negb (pre_order vl =? pre_order sl) || negb (vn =? sn)
            | _, _ => false
            end then false
    else if terminal =? 1 then true
    else if negb (cmp_postrelease spec ver =? 0) then false
    else true.

(** 02_version_specifiers.go:273-280 matchCompatible.  [removelast] of the
    release; for an empty release (never produced by the parser) the Go code
    panics instead. *)
Definition compatible_prefix (spec : version) : version :=
  {| pub := {| epoch := epoch (pub spec); release := removelast (release (pub spec));
               pre := None; post := None; dev := None |};
     local := local spec |}.
Definition match_compatible (spec ver : version) : bool :=
  match_ge spec ver && match_prefix (compatible_prefix spec) ver.

(** 02_version_specifiers.go:113-129 CmpOp.match, :454-460 the excludes, and
    :220-222 SpecifierClause.Match *)
Definition match_clause (c : clause) (ver : version) : bool :=
  let spec := c_ver c in
  match c_op c with
  | OpCompatible => match_compatible spec ver
  | OpStrictMatch => match_strict spec ver
  | OpPrefixMatch => match_prefix spec ver
  | OpStrictExclude => negb (match_strict spec ver)
  | OpPrefixExclude => negb (match_prefix spec ver)
  | OpLE => match_le spec ver
  | OpGE => match_ge spec ver
  | OpLT => match_lt spec ver
  | OpGT => match_gt spec ver
  end.
(** 02_version_specifiers.go:70-77 Specifier.Match *)
Fixpoint match_specifier (s : specifier) (ver : version) : bool :=
  match s with
  | [] => true
  | c :: s' => if negb (match_clause c ver) then false else match_specifier s' ver
  end.

(** 02_version_specifiers.go:580-622 ExclusionBehavior implementations.  An
    ExclusionBehavior is its Allow method. *)
Definition allow_all (_ : version) : bool := true.
Fixpoint listed (l : list version) (ver : version) : bool :=
  match l with
  | [] => false
  | item :: l' => if cmp item ver =? 0 then true else listed l' ver
  end.
Definition allow_no_prereleases (allow_list : list version) (ver : version) : bool :=
  if negb (is_prerelease (pub ver)) then true else listed allow_list ver.
Fixpoint allow_multi (m : list (version -> bool)) (ver : version) : bool :=
  match m with
  | [] => true
  | e :: m' => if negb (e ver) then false else allow_multi m' ver
  end.

(** 02_version_specifiers.go:624-649 Select.  A nil ExclusionBehavior is [None]. *)
Definition better (best : option version) (choice : version) : option version :=
  match best with
  | None => Some choice
  | Some b => if cmp b choice <? 0 then Some choice else best
  end.
Fixpoint select_loop (spec : specifier) (excl : option (version -> bool)) (choices : list version)
    (best best_excluded : option version) : option version :=
  match choices with
  | [] => match best with Some _ => best | None => best_excluded end
  | choice :: rest =>
      if match_specifier spec choice then
        if match excl with None => true | Some allow => negb (allow choice) end
        then select_loop spec excl rest (better best choice) best_excluded
        else select_loop spec excl rest best (better best_excluded choice)
      else select_loop spec excl rest best best_excluded
  end.
Definition select (spec : specifier) (choices : list version) (excl : option (version -> bool))
    : option version := select_loop spec excl choices None None.
