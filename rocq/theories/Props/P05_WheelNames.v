(** C15-C18: build tags, wheel file names, compatibility tags. *)
From Coq Require Import String Ascii List Bool ZArith.
From Verif.Model Require Import GoStr Pep440 WheelName.
From Verif.Spec Require Import Pep440Spec VersionGrammar WheelNameSpec.
From Verif.Proofs Require Import Pep440Sound WheelNameFacts.
Import ListNotations.
Open Scope Z_scope.

(** ** C15: build tags *)

(** On tags with non-negative numbers: none first, then number, then string. *)
Theorem C15_build_tag_order_partial : forall a b, nonneg_build a -> nonneg_build b ->
  (build_cmp a b < 0 <-> build_compare a b = Lt) /\
  (build_cmp a b = 0 <-> a = b) /\
  (build_cmp a b > 0 <-> build_compare a b = Gt).
Proof. exact build_order. Qed.
Print Assumptions C15_build_tag_order_partial.
Theorem C15_build_tag_laws_partial : forall a b c,
  nonneg_build a -> nonneg_build b -> nonneg_build c ->
  (build_cmp a b < 0 <-> build_cmp b a > 0) /\
  (build_cmp a b <= 0 -> build_cmp b c <= 0 -> build_cmp a c <= 0).
Proof. exact build_laws. Qed.
Print Assumptions C15_build_tag_laws_partial.
(** ... which are all the tags that come from file names. *)
Theorem C15_parsed_tags_partial : forall s d, parse_filename s = Some d -> nonneg_build (f_build d).
Proof. exact parse_filename_build. Qed.
Print Assumptions C15_parsed_tags_partial.
(** Without the restriction the subtraction wraps around. *)
Theorem C15_build_tag_order_refuted : exists a b, b_int a < b_int b /\ build_cmp (Some a) (Some b) > 0.
Proof. exists (mkBuild (- 2 ^ 63) []), (mkBuild 1 []). vm_compute. auto. Qed.
Print Assumptions C15_build_tag_order_refuted.
Example C15_nonvacuous : nonneg_build (Some (mkBuild 2 $"a")) /\
  build_cmp (Some (mkBuild 2 $"a")) (Some (mkBuild 10 [])) < 0 /\
  build_cmp (Some (mkBuild 2 $"a")) (Some (mkBuild 2 $"b")) < 0 /\
  build_cmp None (Some (mkBuild 0 [])) < 0.
Proof. vm_compute. repeat split; discriminate. Qed.

(** ** C16: file names *)

(** A generated name parses to the same parts; only separators in the
    distribution name may change. *)
Theorem C16_filename_roundtrip : forall d, wf_name d ->
  exists s dist, generate_filename d = Some s /\
    parse_filename s = Some {| f_dist := dist; f_version := f_version d;
                               f_build := f_build d; f_tag := f_tag d |} /\
    same_dist dist (f_dist d) /\ ~ In "-"%char dist /\ ~ In "."%char dist.
Proof. exact generate_parse_text. Qed.
Print Assumptions C16_filename_roundtrip.
Theorem C16_filename_injective : forall d e s, wf_name d -> wf_name e ->
  generate_filename d = Some s -> generate_filename e = Some s ->
  same_dist (f_dist d) (f_dist e) /\
  f_version d = f_version e /\ f_build d = f_build e /\ f_tag d = f_tag e.
Proof. exact generate_same_name. Qed.
Print Assumptions C16_filename_injective.
(** The parser accepts exactly the rendered fields with a valid version, and
    reads each field as written. *)
Theorem C16_parse_accepts : forall p v, wf_fields p -> parse_version (n_version p) = Some v ->
  parse_filename (render_fields p) = Some (fields_data p v).
Proof. exact parse_filename_render. Qed.
Print Assumptions C16_parse_accepts.
Theorem C16_parse_only_accepts : forall s d, parse_filename s = Some d ->
  exists p v, wf_fields p /\ s = render_fields p /\ parse_version (n_version p) = Some v /\
  d = fields_data p v.
Proof. exact parse_filename_sound. Qed.
Print Assumptions C16_parse_only_accepts.
Example C16_nonvacuous : exists d, wf_name d /\
  generate_filename d = Some $"my_pkg-1.0rc1-2b-py2.py3-none-any.whl".
Proof.
  exists {| f_dist := $"my.-pkg";
            f_version := {| pub := {| epoch := 0; release := [1; 0]; pre := Some ($"rc", 1);
                                      post := None; dev := None |}; local := [] |};
            f_build := Some (mkBuild 2 $"b"); f_tag := mkTag $"py2.py3" $"none" $"any" |}.
  split; [|vm_compute; reflexivity].
  split; [discriminate|]. split.
  - apply parsed_canonical; [|constructor]. apply (parse_result $"1.0rc1"). vm_compute. reflexivity.
  - split.
    + intros b [= <-]. vm_compute. repeat split; try discriminate. intros [H|[]]; discriminate.
    + vm_compute. repeat split; try discriminate; intros H; repeat (destruct H as [H|H]; [discriminate|]); auto.
Qed.

(** ** C17: support and preference *)
Theorem C17_supports : forall inst t,
  supports inst t = true <-> exists i, In i inst /\ overlap i t.
Proof. exact supports_spec. Qed.
Print Assumptions C17_supports.
Theorem C17_preference_is_first : forall inst t k, (k < length inst)%nat ->
  preference inst t = S k <->
  (exists x, nth_error inst k = Some x /\ overlap x t) /\
  (forall j x, (j < k)%nat -> nth_error inst j = Some x -> ~ overlap x t).
Proof. exact preference_spec. Qed.
Print Assumptions C17_preference_is_first.
Theorem C17_preference_range : forall inst t,
  (1 <= preference inst t <= length inst + 1)%nat /\
  (preference inst t = (length inst + 1)%nat <-> supports inst t = false).
Proof. exact preference_range. Qed.
Print Assumptions C17_preference_range.
Example C17_nonvacuous :
  let inst := [mkTag $"cp39" $"cp39" $"linux_x86_64"; mkTag $"py3" $"none" $"any"] in
  supports inst (mkTag $"py2.py3" $"none" $"any") = true /\
  preference inst (mkTag $"py2.py3" $"none" $"any") = 2%nat /\
  preference inst (mkTag $"py2" $"none" $"any") = 3%nat.
Proof. vm_compute. auto. Qed.

(** ** C18: tags as text *)
Theorem C18_tag_roundtrip : forall t,
  ~ In "-"%char (t_python t) -> ~ In "-"%char (t_abi t) -> ~ In "-"%char (t_platform t) ->
  parse_tag (tag_string t) = Some t.
Proof. exact parse_tag_string. Qed.
Print Assumptions C18_tag_roundtrip.
Theorem C18_tag_rejects : forall s, parse_tag s = None <-> count_occ ascii_dec s "-"%char <> 2%nat.
Proof. exact parse_tag_dashes. Qed.
Print Assumptions C18_tag_rejects.
Theorem C18_tag_string_parse : forall s t, parse_tag s = Some t -> tag_string t = s /\
  ~ In "-"%char (t_python t) /\ ~ In "-"%char (t_abi t) /\ ~ In "-"%char (t_platform t).
Proof. exact tag_string_parse. Qed.
Print Assumptions C18_tag_string_parse.
Example C18_nonvacuous : parse_tag $"cp39-abi3-manylinux1_x86_64" =
  Some (mkTag $"cp39" $"abi3" $"manylinux1_x86_64") /\ parse_tag $"cp39-abi3" = None.
Proof. vm_compute. auto. Qed.
