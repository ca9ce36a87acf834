(** Proofs about the flags of "ocibuild image build" (C61). *)
From Coq Require Import String Ascii List Bool NArith ZArith Lia.
From Verif.Model Require Import GoStr ImageConfig.
From Verif.Spec Require Import ImageConfigSpec.
Import ListNotations.

Definition of_args (l : list str) : slice := match l with [] => None | _ => Some l end.
Lemma of_snoc l x : add_elem (of_args l) x = of_args (l ++ [x]).
Proof. destruct l; reflexivity. Qed.
Lemma parsed uses : parse_flags uses =
  mkFlags (last (clear_args uses) false) (of_args (env_args uses)) (of_args (entrypoint_args uses)) (of_args (cmd_args uses)) (last (workdir_args uses) []).
Proof.
  unfold parse_flags. rewrite <- fold_left_rev_right. rewrite <- (rev_involutive uses) at 2 3 4 5 6. induction (rev uses) as [|u l IH]; [reflexivity|]. cbn [fold_right rev].
  rewrite IH. unfold clear_args, env_args, entrypoint_args, cmd_args, workdir_args. rewrite !flat_map_app. cbn [flat_map]. rewrite ?app_nil_r.
  destruct u; cbn [set_flag f_env_clear f_env_append f_entrypoint f_cmd f_workdir app]; rewrite ?app_nil_r, ?of_snoc, ?last_last; reflexivity.
Qed.
Theorem apply_env {others} uses (c : config others) :
  elems (cfg_env (apply_to (parse_flags uses) c)) = (if last (clear_args uses) false then [] else elems (cfg_env c)) ++ env_args uses.
Proof. rewrite parsed. cbn. destruct (last _ _), (env_args uses); cbn; rewrite ?app_nil_r; reflexivity. Qed.
Theorem apply_fields {others} uses (c : config others) : let c' := apply_to (parse_flags uses) c in
  cfg_entrypoint c' = (match entrypoint_args uses with [] => cfg_entrypoint c | l => Some l end) /\
  cfg_cmd c' = (match cmd_args uses with [] => cfg_cmd c | l => Some l end) /\
  cfg_workdir c' = (match last (workdir_args uses) [] with [] => cfg_workdir c | d => d end) /\
  cfg_others c' = cfg_others c.
Proof.
  cbv zeta. rewrite parsed. cbn. repeat split; [destruct (entrypoint_args uses)|destruct (cmd_args uses)]; reflexivity.
Qed.
Theorem apply_unnamed {others} uses (c : config others) : let c' := apply_to (parse_flags uses) c in
  (~ env_named uses -> cfg_env c' = cfg_env c) /\ (entrypoint_args uses = [] -> cfg_entrypoint c' = cfg_entrypoint c) /\
  (cmd_args uses = [] -> cfg_cmd c' = cfg_cmd c) /\ (~ workdir_named uses -> cfg_workdir c' = cfg_workdir c) /\ cfg_others c' = cfg_others c.
Proof.
  cbv zeta. destruct (apply_fields uses c) as (E1 & E2 & E3 & E4). cbv zeta in *. rewrite E1, E2, E3, E4. unfold env_named, workdir_named. split; [|split; [|split; [|split]]]; auto.
  - intros N. rewrite parsed. cbn. destruct (env_args uses); [|exfalso; apply N; left; discriminate]. destruct (last _ false); [exfalso; tauto|reflexivity].
  - now intros ->.
  - now intros ->.
  - intros N. destruct (last (workdir_args uses) []); auto. exfalso. apply N. discriminate.
Qed.
Theorem zero_iff {others} (x : others) uses : is_zero (parse_flags uses) = true <-> forall c : config others, apply_to (parse_flags uses) c = c.
Proof.
  rewrite parsed. split.
  - unfold is_zero. cbn. destruct (last (clear_args uses) false); [discriminate|]. destruct (env_args uses), (entrypoint_args uses), (cmd_args uses), (last (workdir_args uses) []); try discriminate. intros _ []. reflexivity.
  - intros H. specialize (H (mkCfg (Some ($"A" :: env_args uses)) (Some [])  (Some []) [] x)). unfold apply_to in H. cbn in H. unfold is_zero. cbn.
    assert (HE := f_equal (fun c => length (elems (cfg_env c))) H). assert (H1 := f_equal cfg_entrypoint H). assert (H2 := f_equal cfg_cmd H). assert (H3 := f_equal cfg_workdir H). cbn in HE, H1, H2, H3. clear H.
    destruct (env_args uses) as [|a l].
    + destruct (last (clear_args uses) false); [discriminate|]. destruct (entrypoint_args uses); [|discriminate]. destruct (cmd_args uses); [|discriminate]. now destruct (last (workdir_args uses) []).
    + exfalso. destruct (last (clear_args uses) false); cbn in HE; rewrite ?app_length in HE; cbn in HE; lia.
Qed.
Theorem build_config {others layer} uses (base : image others layer) layers : let img := image_build uses base layers in
  im_layers img = im_layers base ++ layers /\ im_config img = apply_to (parse_flags uses) (im_config base).
Proof.
  cbv zeta. unfold image_build. destruct (is_zero (parse_flags uses)) eqn:Z; cbn; split; auto. symmetry. apply (proj1 (zero_iff (cfg_others (im_config base)) uses) Z).
Qed.
