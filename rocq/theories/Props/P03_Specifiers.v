(** C07-C14: version specifiers. *)
From Coq Require Import String Ascii List Bool ZArith.
From Verif.Model Require Import GoStr Pep440 Specifier.
From Verif.Spec Require Import Pep440Spec VersionGrammar SpecifierSpec ExactSpec PrintedSpec.
From Verif.Proofs Require Import SpecifierParse SpecifierMatch ExactFacts PrintedFacts.
Import ListNotations.
Open Scope Z_scope.

(** C07.  The full statement lacks the last hypothesis (for < and > at least one
    blank must follow the operator). *)
Theorem C07_parse_clause_partial : forall op ws v ver,
  forallb blank ws = true -> trimmed v -> parse_version v = Some ver ->
  (op = OpLT \/ op = OpGT -> ws <> []) ->
  parse_specifier (clause_text op ws v) =
    if permitted op ver then Ok [{| c_op := op; c_ver := ver |}] else Err.
Proof. exact parse_clause_text. Qed.
Print Assumptions C07_parse_clause_partial.

(** Without the blank: "<2.0" is rejected, "<12.0" means "< 2.0", "<" panics. *)
Theorem C07_parse_clause_refuted :
  parse_version $"2.0" <> None /\ parse_specifier $"<2.0" = Err /\
  parse_specifier $"<12.0" = parse_specifier $"< 2.0" /\ parse_specifier $"< 2.0" <> Err /\
  parse_specifier $"<" = Panic.
Proof. exact lt_text_wrong. Qed.
Print Assumptions C07_parse_clause_refuted.

(** Exactly what is accepted and with which result, for all texts: the parts between commas, each the text of a permitted clause;
    but one character after < and > is passed over, whatever it is. *)
Theorem C07_exact_partial : forall s cs, parse_specifier s = Ok cs <-> Forall2 read_as (parts s) cs.
Proof. exact specifier_read. Qed.
Print Assumptions C07_exact_partial.

Example C07_case : parse_specifier $"~= 1.4.5a4" =
  Ok [mkClause OpCompatible (mkVersion (mkPublic 0 [1; 4; 5] (Some ($"a", 4)) None None) [])].
Proof. reflexivity. Qed.

Example C07_exact_case : parts $" >x1.0 ,,!= 2.*" = [$">x1.0"; $"!= 2.*"] /\
  read_as $">x1.0" (mkClause OpGT (ver_of $"1.0")) /\ read_as $"!= 2.*" (mkClause OpPrefixExclude (ver_of $"2")).
Proof.
  split; [reflexivity|]. split.
  - exists $"x", $"1.0". split; [reflexivity|]. split; [exists "x"%char; split; [reflexivity|discriminate]|]. split; reflexivity.
  - exists [], $" 2". split; [reflexivity|]. split; [reflexivity|]. split; reflexivity.
Qed.

(** C08 *)
Theorem C08_match_is_conjunction : forall cs v,
  match_specifier cs v = true <-> (forall c, In c cs -> match_clause c v = true).
Proof. exact match_specifier_spec. Qed.
Print Assumptions C08_match_is_conjunction.

Theorem C08_order_and_duplicates : forall cs ds v, (forall c, In c cs <-> In c ds) ->
  match_specifier cs v = match_specifier ds v.
Proof. exact match_specifier_same. Qed.
Print Assumptions C08_order_and_duplicates.

Theorem C08_comma_is_conjunction : forall a b ca cb,
  parse_specifier a = Ok ca -> parse_specifier b = Ok cb ->
  parse_specifier (a ++ $"," ++ b) = Ok (ca ++ cb).
Proof. exact parse_specifier_conj. Qed.
Print Assumptions C08_comma_is_conjunction.

Theorem C08_conjunction_of_lists : forall cs ds v,
  match_specifier (cs ++ ds) v = match_specifier cs v && match_specifier ds v.
Proof. exact match_specifier_app. Qed.
Print Assumptions C08_conjunction_of_lists.

Theorem C08_empty : parse_specifier [] = Ok [].
Proof. exact parse_specifier_empty. Qed.

Example C08_case : match parse_specifier $" >=1.0 , , !=1.5.*,<= 2.0" with
  | Ok cs => map (match_specifier cs) [ver_of $"1.4"; ver_of $"1.5.1"; ver_of $"2.0"; ver_of $"0.9"]
  | _ => [] end = [true; false; true; false].
Proof. vm_compute. reflexivity. Qed.

(** C09 *)
Theorem C09_exclude_is_complement : forall s v, ~ In ","%char s ->
  match parse_specifier ($"==" ++ s), parse_specifier ($"!=" ++ s) with
  | Ok cs, Ok ds => match_specifier ds v = negb (match_specifier cs v)
  | Err, Err => True
  | _, _ => False
  end.
Proof. exact exclude_text. Qed.
Print Assumptions C09_exclude_is_complement.

Theorem C09_strict_match : forall V v, ranged_version V -> ranged_version v ->
  (match_clause {| c_op := OpStrictMatch; c_ver := V |} v = true <-> strictly_equal V v) /\
  (match_clause {| c_op := OpStrictExclude; c_ver := V |} v = true <-> ~ strictly_equal V v).
Proof. exact clause_strict. Qed.
Print Assumptions C09_strict_match.

(** every version that the parser returns is ranged *)
Theorem C09_parsed_are_ranged : forall s v, parse_version s = Some v -> ranged_version v.
Proof. exact parsed_ranged. Qed.
Print Assumptions C09_parsed_are_ranged.

Example C09_case :
  match_strict (ver_of $"1.0") (ver_of $"1+local") = true /\
  match_strict (ver_of $"1.0+x") (ver_of $"1+local") = false /\
  match_strict (ver_of $"1.0+x") (ver_of $"1.0.0+X") = true.
Proof. repeat split; vm_compute; reflexivity. Qed.

(** C10.  ~= V.N is ">= V.N, == V.*"; the last component is dropped by [series]. *)
Theorem C10_compatible : forall V v,
  match_clause {| c_op := OpCompatible; c_ver := V |} v =
  match_clause {| c_op := OpGE; c_ver := V |} v && match_clause {| c_op := OpPrefixMatch; c_ver := series V |} v.
Proof. exact clause_compatible. Qed.
Print Assumptions C10_compatible.

Theorem C10_compatible_meaning : forall V v, wf_version V -> wf_version v -> local V = [] ->
  match_compatible V v = true <-> at_least V v /\ prefix_agrees (series V) v.
Proof. exact match_compatible_spec. Qed.
Print Assumptions C10_compatible_meaning.

Theorem C10_two_components : forall s cs c,
  parse_specifier s = Ok cs -> In c cs -> c_op c = OpCompatible ->
  (2 <= length (release (pub (c_ver c))))%nat /\ local (c_ver c) = [].
Proof. exact clause_compatible_min. Qed.
Print Assumptions C10_two_components.

Example C10_case :
  map (match_compatible (ver_of $"2.2.post3")) (map ver_of [$"2.2"; $"2.2.post3"; $"2.9"; $"3.0"])
  = [false; true; true; false] /\ parse_specifier $"~=2" = Err.
Proof. split; vm_compute; reflexivity. Qed.

(** C11 *)
Theorem C11_prefix_match : forall P v, ranged_version P -> ranged_version v ->
  (match_clause {| c_op := OpPrefixMatch; c_ver := P |} v = true <-> prefix_agrees P v) /\
  (match_clause {| c_op := OpPrefixExclude; c_ver := P |} v = true <-> ~ prefix_agrees P v).
Proof. exact clause_prefix. Qed.
Print Assumptions C11_prefix_match.

Example C11_case :
  map (match_prefix (ver_of $"1.1.0")) (map ver_of [$"1.1"; $"1.1.0.7"; $"1.1.post1"; $"1.1.1"; $"1!1.1"])
  = [true; true; true; false; false] /\
  map (match_prefix (ver_of $"1.1a1")) (map ver_of [$"1.1.0a1.post2"; $"1.1"; $"1.1a2"; $"1.1alpha1"])
  = [true; false; false; true].
Proof. split; vm_compute; reflexivity. Qed.

(** C12.  >= is right; <= is right for candidates without local label; < and >
    are right except possibly for candidates with the same release as V. *)
Theorem C12_ge_partial : forall V v, wf_version V -> wf_version v -> local V = [] ->
  match_ge V v = true <-> at_least V v.
Proof. exact match_ge_spec. Qed.
Print Assumptions C12_ge_partial.

Theorem C12_le_partial : forall V v, wf_version V -> wf_version v -> local V = [] -> local v = [] ->
  match_le V v = true <-> at_most V v.
Proof. exact match_le_spec. Qed.
Print Assumptions C12_le_partial.

Theorem C12_le_sound_partial : forall V v, wf_version V -> wf_version v ->
  match_le V v = true -> at_most V v.
Proof. exact match_le_sound. Qed.
Print Assumptions C12_le_sound_partial.

Theorem C12_lt_partial : forall V v, wf_version V -> wf_version v ->
  (below V v -> match_lt V v = true) /\
  (match_lt V v = true -> ~ same_base v V -> below V v) /\
  (match_lt V v = true -> ~ pre_or_dev v \/ pre_or_dev V -> below V v).
Proof. exact match_lt_spec. Qed.
Print Assumptions C12_lt_partial.

Theorem C12_gt_partial : forall V v, wf_version V -> wf_version v ->
  (above V v -> match_gt V v = true) /\
  (match_gt V v = true -> ~ same_base v V -> above V v) /\
  (match_gt V v = true -> local v = [] -> ~ is_post v \/ is_post V -> above V v).
Proof. exact match_gt_spec. Qed.
Print Assumptions C12_gt_partial.

(** What the four operators do for all versions: they compare with the order of PEP 440, the local labels included
    and without exceptions for pre- and post-releases. *)
Theorem C12_exact_partial : forall V v, wf_version V -> wf_version v ->
  (match_ge V v = true <-> pep440_compare v V <> Lt) /\ (match_le V v = true <-> pep440_compare v V <> Gt) /\
  (match_gt V v = true <-> pep440_compare v V = Gt) /\ (match_lt V v = true <-> pep440_compare v V = Lt).
Proof. exact ordered_exact. Qed.
Print Assumptions C12_exact_partial.

Theorem C12_le_local_refuted : exists V v,
  parse_version $"1.0" = Some V /\ parse_version $"1.0+local" = Some v /\
  at_most V v /\ match_clause {| c_op := OpLE; c_ver := V |} v = false.
Proof. exact le_local_wrong. Qed.
Print Assumptions C12_le_local_refuted.

Theorem C12_lt_prerelease_refuted : exists V v,
  parse_version $"1.0" = Some V /\ parse_version $"1.0rc1" = Some v /\
  ~ below V v /\ match_clause {| c_op := OpLT; c_ver := V |} v = true.
Proof. exact lt_pre_wrong. Qed.
Print Assumptions C12_lt_prerelease_refuted.

Theorem C12_gt_postrelease_refuted : exists V v w,
  parse_version $"1.0" = Some V /\ parse_version $"1.0.post1" = Some v /\
  parse_version $"1.0+local" = Some w /\
  ~ above V v /\ match_clause {| c_op := OpGT; c_ver := V |} v = true /\
  ~ above V w /\ match_clause {| c_op := OpGT; c_ver := V |} w = true.
Proof. exact gt_post_wrong. Qed.
Print Assumptions C12_gt_postrelease_refuted.

Example C12_case : wf_version (ver_of $"1.0") /\ wf_version (ver_of $"1.0.post2.dev1") /\
  match_ge (ver_of $"1.0") (ver_of $"1.0.post2.dev1") = true /\
  match_le (ver_of $"1.0") (ver_of $"1.0rc3") = true.
Proof. split; [|split; [|split; vm_compute; reflexivity]]; apply wf_check; reflexivity. Qed.

(** C13.  For specifiers without prefix clauses and without < and >. *)
Theorem C13_string_round_trip_partial : forall s cs, parse_specifier s = Ok cs ->
  (forall c, In c cs -> printable_op (c_op c) /\ Forall nonneg_seg (local (c_ver c))) ->
  parse_specifier (specifier_string cs) = Ok cs.
Proof. exact parse_string_parse. Qed.
Print Assumptions C13_string_round_trip_partial.

Theorem C13_prefix_refuted : exists cs ds v, parse_specifier $"==1.0.*" = Ok cs /\
  parse_specifier (specifier_string cs) = Ok ds /\ match_specifier cs v = true /\ match_specifier ds v = false.
Proof. exact string_drops_star. Qed.
Print Assumptions C13_prefix_refuted.

Theorem C13_less_than_refuted : exists cs,
  parse_specifier $"< 2.0" = Ok cs /\ parse_specifier (specifier_string cs) = Err.
Proof. exact string_lt_unparsable. Qed.
Print Assumptions C13_less_than_refuted.

(** What becomes of every specifier that is printed and parsed again: prefix clauses become exact ones, and the versions after
    < and > lose their first digit. *)
Theorem C13_exact_partial : forall s cs, parse_specifier s = Ok cs -> (forall c, In c cs -> Forall nonneg_seg (local (c_ver c))) ->
  forall ds, parse_specifier (specifier_string cs) = Ok ds <-> Forall2 read_again cs ds.
Proof. exact printed_again. Qed.
Print Assumptions C13_exact_partial.

Example C13_exact_case : exists cs ds, parse_specifier $"==1.0.*, < 12.0" = Ok cs /\ specifier_string cs = $"==1.0,<12.0" /\
  (forall c, In c cs -> Forall nonneg_seg (local (c_ver c))) /\ Forall2 read_again cs ds /\
  ds = [mkClause OpStrictMatch (ver_of $"1.0"); mkClause OpLT (ver_of $"2.0")].
Proof.
  eexists; eexists. split; [vm_compute; reflexivity|]. split; [vm_compute; reflexivity|].
  split; [intros c [<-|[<-|[]]]; constructor|]. split; [|reflexivity].
  constructor; [reflexivity|]. constructor; [|constructor]. split; [reflexivity|]. split; reflexivity.
Qed.

Example C13_case : exists cs, parse_specifier $"~=1.4,!=1.5+a.1, >= 1.0.dev1" = Ok cs /\
  specifier_string cs = $"~=1.4,!=1.5+a.1,>=1.0.dev1" /\
  forall c, In c cs -> printable_op (c_op c) /\ Forall nonneg_seg (local (c_ver c)).
Proof.
  exists [mkClause OpCompatible (ver_of $"1.4"); mkClause OpStrictExclude (ver_of $"1.5+a.1");
          mkClause OpGE (ver_of $"1.0.dev1")].
  split; [vm_compute; reflexivity|]. split; [vm_compute; reflexivity|].
  intros c [<-|[<-|[<-|[]]]]; (split; [exact I|]); vm_compute; repeat constructor; discriminate.
Qed.

(** C14.  Nothing is returned only when nothing matches; what is returned is a
    matching choice; without a policy it is the newest one. *)
Theorem C14_select_none_partial : forall spec choices excl,
  select spec choices excl = None <-> (forall c, In c choices -> match_specifier spec c = false).
Proof. exact select_none. Qed.
Print Assumptions C14_select_none_partial.

Theorem C14_select_newest_partial : forall spec choices r,
  Forall wf_version choices -> select spec choices None = Some r ->
  In r choices /\ match_specifier spec r = true /\
  (forall c, In c choices -> match_specifier spec c = true -> cmp c r <= 0).
Proof. exact select_max_nil. Qed.
Print Assumptions C14_select_newest_partial.

(** With a policy it is the newest of its class, but the roles of the two
    classes are swapped: an allowed choice is returned only when all matching
    choices are allowed. *)
Theorem C14_select_policy_partial : forall spec choices allow r,
  Forall wf_version choices -> select spec choices (Some allow) = Some r ->
  In r choices /\ match_specifier spec r = true /\
  (forall c, In c choices -> match_specifier spec c = true -> allow c = allow r -> cmp c r <= 0) /\
  (allow r = true -> forall c, In c choices -> match_specifier spec c = true -> allow c = true).
Proof. exact select_classes. Qed.
Print Assumptions C14_select_policy_partial.

(** The policies themselves do what they say. *)
Theorem C14_exclude_prereleases_partial : forall l v, Forall ranged_version l -> ranged_version v ->
  (allow_no_prereleases l v = true <-> ~ pre_or_dev v \/ exists x, In x l /\ pep440_compare x v = Eq).
Proof. exact allow_no_prereleases_spec. Qed.
Print Assumptions C14_exclude_prereleases_partial.

Theorem C14_multi_excluder_partial : forall m v,
  allow_multi m v = true <-> (forall e, In e m -> e v = true).
Proof. exact allow_multi_spec. Qed.
Print Assumptions C14_multi_excluder_partial.

Theorem C14_select_prefers_excluded_refuted : exists spec final prere,
  parse_specifier $">=1.0" = Ok spec /\ parse_version $"1.5" = Some final /\ parse_version $"2.0a1" = Some prere /\
  allow_no_prereleases [] final = true /\ allow_no_prereleases [] prere = false /\
  match_specifier spec final = true /\
  select spec [final; prere] (Some (allow_no_prereleases [])) = Some prere.
Proof. exact select_prefers_excluded. Qed.
Print Assumptions C14_select_prefers_excluded_refuted.

Example C14_case : Forall wf_version (map ver_of [$"1.0"; $"1.2.0"; $"1.2"; $"3.0rc1"]) /\
  select [] (map ver_of [$"1.0"; $"1.2.0"; $"1.2"; $"1.1"]) None = parse_version $"1.2.0".
Proof.
  split; [|vm_compute; reflexivity]. cbn [map]. do 4 (apply Forall_cons; [apply wf_check; reflexivity|]). constructor.
Qed.
