(** "ocibuild image build" and its errors *)
From Coq Require Import String Ascii List Bool NArith ZArith.
From Verif.Model Require Import GoStr ImageConfig ImageBuild.
From Verif.Spec Require Import ImageConfigSpec ImageBuildSpec.
From Verif.Proofs Require Import Order ImageConfigFacts.
Import ListNotations.
Local Open Scope nat_scope.

Section build.
  Context {others layer : Type} (w : files others layer).
  Lemma open_layers_ok args : forall l, open_layers w args = inl l <-> Forall2 (fun a x => open_layer w a = Some x) args l.
  Proof.
    induction args as [|a args IH]; intros l; cbn [open_layers].
    - split; [intros E; injection E as <-; constructor|intros F; now inversion F].
    - destruct (open_layer w a) as [x|] eqn:O.
      + destruct (open_layers w args) as [r|e] eqn:R.
        * split; [intros E; injection E as <-; constructor; [auto|now apply IH]|]. intros F. inversion F as [|? y ? r' Y F']; subst. apply IH in F'. congruence.
        * split; [discriminate|]. intros F. inversion F as [|? y ? r' Y F']; subst. apply IH in F'. discriminate.
      + split; [discriminate|]. intros F. inversion F as [|? y ? r' Y F']; subst. congruence.
  Qed.
  Lemma open_layers_err args : forall name, open_layers w args = inr name -> exists l1 l2, args = l1 ++ name :: l2 /\ open_layer w name = None /\ forall a, In a l1 -> open_layer w a <> None.
  Proof.
    induction args as [|a args IH]; intros name; cbn [open_layers]; [discriminate|]. destruct (open_layer w a) as [x|] eqn:O.
    - destruct (open_layers w args) as [r|e] eqn:R; [discriminate|]. intros E. injection E as <-. destruct (IH e eq_refl) as (l1 & l2 & -> & N & F). exists (a :: l1), l2. split; [reflexivity|]. split; [auto|].
      intros b [<-|I]; [congruence|auto].
    - intros E. injection E as <-. exists [], args. split; [reflexivity|]. split; [auto|]. intros b [].
  Qed.
  (** How the command proceeds *)
  Lemma build_steps base tag uses args :
    (base <> [] /\ open_image w base = None /\ build_command w base tag uses args = BuildErr BBase) \/
    (exists b, base_is w base b /\ (tag <> [] /\ new_tag w tag = None /\ build_command w base tag uses args = BuildErr BTag \/
      exists t, tag_is w tag t /\ ((exists name, open_layers w args = inr name /\ build_command w base tag uses args = BuildErr (BLayer name)) \/
        exists layers, open_layers w args = inl layers /\ build_command w base tag uses args = finish_image w uses t b layers))).
  Proof.
    assert (T : forall b f, f = (fun b : base_image others layer => match tag with [] => match open_layers w args with inr name => BuildErr (BLayer name) | inl layers => finish_image w uses None b layers end
        | _ => match new_tag w tag with None => BuildErr BTag | Some t => match open_layers w args with inr name => BuildErr (BLayer name) | inl layers => finish_image w uses (Some t) b layers end end end) ->
      (tag <> [] /\ new_tag w tag = None /\ f b = BuildErr BTag \/
      exists t, tag_is w tag t /\ ((exists name, open_layers w args = inr name /\ f b = BuildErr (BLayer name)) \/ exists layers, open_layers w args = inl layers /\ f b = finish_image w uses t b layers))).
    { intros b f ->. destruct tag as [|c tag].
      - right. exists None. split; [left; auto|]. destruct (open_layers w args) as [l|e]; [right|left]; eauto.
      - destruct (new_tag w (c :: tag)) as [t|] eqn:N; [|left; repeat split; auto; discriminate]. right. exists (Some t). split; [right; repeat split; auto; discriminate|].
        destruct (open_layers w args) as [l|e]; [right|left]; eauto. }
    unfold build_command. destruct base as [|c base].
    - right. eexists. split; [left; split; reflexivity|]. exact (T _ _ eq_refl).
    - destruct (open_image w (c :: base)) as [b|] eqn:O; [|left; repeat split; auto; discriminate]. right. exists b. split; [right; split; auto; discriminate|]. exact (T b _ eq_refl).
  Qed.
  Lemma apply_zero uses (c : config others) : (if negb (is_zero (parse_flags uses)) then apply_to (parse_flags uses) c else c) = apply_to (parse_flags uses) c.
  Proof.
    destruct (is_zero (parse_flags uses)) eqn:Z; [|reflexivity]. cbn [negb]. symmetry. now apply (zero_iff (cfg_others c)).
  Qed.
  Theorem build_written base tag uses args t img : build_command w base tag uses args = Built t img ->
    tag_is w tag t /\ write_ok w = true /\ exists b layers c, base_is w base b /\ Forall2 (fun a x => open_layer w a = Some x) args layers /\ bi_config b = Some c /\
    im_layers img = bi_layers b ++ layers /\ im_config img = apply_to (parse_flags uses) c.
  Proof.
    intros H. destruct (build_steps base tag uses args) as [(_ & _ & E)|(b & B & [(_ & _ & E)|(t' & T & [(n & _ & E)|(l & L & E)])])]; rewrite E in H; try discriminate.
    unfold finish_image in H. destruct (bi_config b) as [c|] eqn:C; [|destruct (negb _); discriminate]. rewrite apply_zero in H. destruct (write_ok w); [|discriminate]. injection H as <- <-.
    split; [auto|]. split; [reflexivity|]. exists b, l, c. repeat split; auto. now apply open_layers_ok.
  Qed.
  Theorem build_succeeds base tag uses args b t layers c : base_is w base b -> tag_is w tag t -> Forall2 (fun a x => open_layer w a = Some x) args layers -> bi_config b = Some c -> write_ok w = true ->
    exists img, build_command w base tag uses args = Built t img.
  Proof.
    intros B T L C W. apply open_layers_ok in L.
    destruct (build_steps base tag uses args) as [(N & O & _)|(b' & B' & [(N & O & _)|(t' & T' & [(n & O & _)|(l & O & E)])])].
    - destruct B as [[X _]|[_ X]]; congruence.
    - destruct T as [[X _]|(_ & X & Y)]; congruence.
    - congruence.
    - assert (b' = b) by (destruct B as [[X ->]|[X Y]], B' as [[X' ->]|[X' Y']]; congruence). assert (t' = t) by (destruct T as [[X ->]|(X & _ & Y)], T' as [[X' ->]|(X' & _ & Y')]; congruence). subst b' t'.
      rewrite E. unfold finish_image. rewrite C, W. eauto.
  Qed.
  Theorem build_errors base tag uses args e : build_command w base tag uses args = BuildErr e ->
    match e with
    | BBase => base <> [] /\ open_image w base = None
    | BTag => tag <> [] /\ new_tag w tag = None
    | BLayer name => exists l1 l2, args = l1 ++ name :: l2 /\ open_layer w name = None /\ forall a, In a l1 -> open_layer w a <> None
    | BWrite => write_ok w = false \/ exists b, base_is w base b /\ bi_config b = None
    end.
  Proof.
    intros H. destruct (build_steps base tag uses args) as [(N & O & E)|(b & B & [(N & O & E)|(t' & T & [(n & O & E)|(l & L & E)])])]; rewrite E in H.
    - injection H as <-. auto.
    - injection H as <-. auto.
    - injection H as <-. now apply open_layers_err.
    - unfold finish_image in H. destruct (bi_config b) as [c|] eqn:C.
      + destruct (write_ok w) eqn:W; [discriminate|]. injection H as <-. auto.
      + destruct (negb _); [discriminate|]. injection H as <-. eauto.
  Qed.
  Lemma zero_asked uses : is_zero (parse_flags uses) = true -> forall (x : others), nothing_asked uses.
  Proof.
    intros Z x. pose proof (proj1 (zero_iff x uses) Z) as K.
    assert (E : env_args uses = []).
    { pose proof (apply_env uses (mkCfg None None None [] x)) as A. rewrite K in A. cbn [cfg_env elems] in A. destruct (last _ _); cbn [app] in A; auto. }
    repeat split; auto.
    - intros [N|N]; [auto|]. pose proof (apply_env uses (mkCfg (Some [$"A=1"]) None None [] x)) as A. rewrite K, E, N in A. discriminate A.
    - pose proof (proj1 (apply_fields uses (mkCfg None None None [] x))) as A. rewrite K in A. cbn [cfg_entrypoint] in A. destruct (entrypoint_args uses); [auto|discriminate].
    - pose proof (proj1 (proj2 (apply_fields uses (mkCfg None None None [] x)))) as A. rewrite K in A. cbn [cfg_cmd] in A. destruct (cmd_args uses); [auto|discriminate].
    - intros N. pose proof (proj1 (proj2 (proj2 (apply_fields uses (mkCfg None None None [] x))))) as A. rewrite K in A. cbn [cfg_workdir] in A. unfold workdir_named in N. destruct (last (workdir_args uses) []); [auto|discriminate].
  Qed.
  Lemma asked_zero uses : nothing_asked uses -> is_zero (parse_flags uses) = true.
  Proof.
    intros (N1 & N2 & N3 & N4 & N5). apply (zero_iff tt). intros c. destruct (apply_unnamed uses c) as (A & B & C & D & E).
    specialize (A N1). specialize (B N3). specialize (C N4). specialize (D N5). destruct (apply_to (parse_flags uses) c), c. cbn in *. congruence.
  Qed.
  Theorem build_fields base tag uses args t img : build_command w base tag uses args = Built t img ->
    tag_is w tag t /\ write_ok w = true /\ exists b layers c,
    base_is w base b /\ Forall2 (fun a x => open_layer w a = Some x) args layers /\ bi_config b = Some c /\
    im_layers img = bi_layers b ++ layers /\
    elems (cfg_env (im_config img)) = (if last (clear_args uses) false then [] else elems (cfg_env c)) ++ env_args uses /\
    cfg_entrypoint (im_config img) = (match entrypoint_args uses with [] => cfg_entrypoint c | l => Some l end) /\
    cfg_cmd (im_config img) = (match cmd_args uses with [] => cfg_cmd c | l => Some l end) /\
    cfg_workdir (im_config img) = (match last (workdir_args uses) [] with [] => cfg_workdir c | d => d end) /\
    cfg_others (im_config img) = cfg_others c /\
    (nothing_asked uses -> im_config img = c).
  Proof.
    intros H. apply build_written in H as (T & W & b & layers & c & B & L & C & E1 & E2). split; [auto|]. split; [auto|]. exists b, layers, c. rewrite E2. destruct (apply_fields uses c) as (F1 & F2 & F3 & F4).
    split; [auto|]. split; [auto|]. split; [auto|]. split; [auto|]. split; [apply apply_env|]. repeat (split; [auto|]). intros N. apply asked_zero in N. now apply (zero_iff (cfg_others c)).
  Qed.
  Theorem build_crash base tag uses args : build_command w base tag uses args = Crash <->
    ~ nothing_asked uses /\ exists b t layers, base_is w base b /\ bi_config b = None /\ tag_is w tag t /\ Forall2 (fun a x => open_layer w a = Some x) args layers.
  Proof.
    assert (NZ : ~ nothing_asked uses <-> is_zero (parse_flags uses) = false).
    { destruct (is_zero (parse_flags uses)) eqn:Z; split; auto; try discriminate.
      - intros N. exfalso. apply N. apply (zero_asked uses Z (cfg_others (empty_config w))).
      - intros _ N. apply asked_zero in N. congruence. }
    split.
    - intros H. destruct (build_steps base tag uses args) as [(N & O & E)|(b & B & [(N & O & E)|(t' & T & [(n & O & E)|(l & L & E)])])]; rewrite E in H; try discriminate.
      unfold finish_image in H. destruct (bi_config b) as [c|] eqn:C; [destruct (write_ok w); discriminate|]. destruct (is_zero (parse_flags uses)) eqn:Z; [discriminate|].
      split; [now apply NZ|]. exists b, t', l. repeat split; auto. now apply open_layers_ok.
    - intros (N & b & t & l & B & C & T & L). apply open_layers_ok in L. apply NZ in N.
      destruct (build_steps base tag uses args) as [(X & O & _)|(b' & B' & [(X & O & _)|(t' & T' & [(n & O & _)|(l' & O & E)])])].
      + destruct B as [[Y _]|[_ Y]]; congruence.
      + destruct T as [[Y _]|(_ & Y & Y')]; congruence.
      + congruence.
      + assert (b' = b) by (destruct B as [[X ->]|[X Y]], B' as [[X' ->]|[X' Y']]; congruence). subst b'. rewrite E. unfold finish_image. rewrite C, N. reflexivity.
  Qed.
End build.
