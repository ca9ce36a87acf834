(** Preparing the compiler *)
From Coq Require Import String Ascii List Bool ZArith Lia.
From Verif.Model Require Import GoStr GoPath LookPath WheelName Platform Inspect PyCompile.
From Verif.Spec Require Import PathSpec LookPathSpec InspectSpec.
From Verif.Proofs Require Import Order GoPathFacts InspectFacts.
Import ListNotations.
Local Open Scope nat_scope.

Theorem compiler_found lookpath cwd name args exe : lookpath name = Some exe -> exe <> [] -> is_abs cwd = true ->
  exists e, external_compiler lookpath cwd (name :: args) = Compiler e args /\ is_abs e = true /\ clean e = e /\
  e = clean (if is_abs exe then exe else cwd ++ $"/" ++ exe).
Proof.
  intros L N A. cbn [external_compiler]. rewrite L. destruct (is_abs exe) eqn:X.
  - eexists. split; [reflexivity|]. rewrite clean_idem, is_abs_clean, X. auto.
  - destruct cwd as [|d cwd]; [discriminate|]. exists (path_join [d :: cwd; exe]). split; [reflexivity|].
    rewrite join2 by (auto; discriminate). rewrite clean_idem, is_abs_clean. repeat split; auto.
Qed.
Theorem compiler_only lookpath cwd cmdline e args : external_compiler lookpath cwd cmdline = Compiler e args ->
  exists name exe, cmdline = name :: args /\ lookpath name = Some exe.
Proof.
  destruct cmdline as [|name rest]; [discriminate|]. cbn [external_compiler]. destruct (lookpath name) as [exe|] eqn:L; [|discriminate].
  intros E. injection E as _ <-. eauto.
Qed.
Lemma set_keeps p k d q : set_plat p k d = Some q -> ~ same_key $"PyCompile" k -> pf_compile q = pf_compile p.
Proof.
  intros E N. destruct p as [[con gra sch uid gid un gn] ver mag tags comp]. unfold set_plat in E.
  repeat match type of E with (if ?b then _ else _) = _ => destruct b eqn:?; [match type of E with option_map _ ?x = _ => destruct x; [|discriminate] end; try (injection E as <-; reflexivity)|] end; [|discriminate].
  exfalso. apply N. unfold same_key. unfold field in *. now apply str_eqb_eq.
Qed.
Theorem unset d p l : d = DMap l -> (forall k v, In (k, v) l -> ~ same_key $"PyCompile" k) -> read_plat d = Some p -> pf_compile p = [].
Proof.
  intros -> N. unfold read_plat. cbn [as_map]. assert (Z : pf_compile zero_plat = []) by reflexivity. revert Z. generalize zero_plat.
  induction l as [|[k v] l IH]; intros a Z E; cbn [fields] in E; [now injection E as <-|].
  destruct (set_plat a k v) as [b|] eqn:S; [|discriminate]. apply (IH (fun k v I => N k v (or_intror I)) b); auto.
  rewrite <- Z. apply (set_keeps _ _ _ _ S). apply (N k v). now left.
Qed.
Theorem inspected_compiler image look stat dynamic host_look host_dynamic unbase64 interpreter p lookpath cwd :
  inspect image look stat dynamic host_look host_dynamic unbase64 interpreter = Inspected p -> Forall tag_parts (pf_tags p) ->
  exists q name, read_plat (plat_doc p) = Some q /\ pf_compile q = [name; $"-m"; $"compileall"] /\
  match lookpath name with
  | Some _ => exists e, external_compiler lookpath cwd (pf_compile q) = Compiler e [$"-m"; $"compileall"]
  | None => external_compiler lookpath cwd (pf_compile q) = CompilerErr
  end.
Proof.
  intros I T. apply inspect_ok in I. destruct I as (con & gra & dyn & magic & o & full & _ & _ & _ & _ & _ & E).
  exists p, full. split; [now apply plat_roundtrip|]. rewrite E. cbn [pf_compile]. split; auto. cbn [external_compiler].
  destruct (lookpath full); eauto.
Qed.
