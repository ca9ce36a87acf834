(** The tree of pkg/squash as a map from positions to nodes. *)
From Coq Require Import String Ascii List Bool ZArith Lia.
From Verif.Model Require Import GoStr GoPath Tar Squash.
From Verif.Spec Require Import PathSpec SquashSpec.
From Verif.Proofs Require Import Order GoStrFacts GoPathFacts.
Import ListNotations.
Local Arguments byte_eqb : simpl never.
Local Arguments str_eqb : simpl never.

(** *** positions *)
Lemma aob_spec p q : at_or_below p q = true <-> exists r, q = p ++ r.
Proof.
  revert q. induction p as [|x p IH]; intros q; cbn [at_or_below].
  - split; auto. intros _. now exists q.
  - destruct q as [|y q].
    + split; [discriminate|]. intros [r H]. discriminate.
    + rewrite andb_true_iff, str_eqb_eq, IH. split.
      * intros [-> [r ->]]. now exists r.
      * intros [r H]. injection H as -> ->. split; auto. now exists r.
Qed.
Lemma aob_app p r : at_or_below p (p ++ r) = true.
Proof. apply aob_spec. eauto. Qed.
Lemma aob_refl p : at_or_below p p = true.
Proof. apply aob_spec. exists []. now rewrite app_nil_r. Qed.
Lemma aob_false p q : at_or_below p q = false <-> forall r, q <> p ++ r.
Proof.
  split.
  - intros H r ->. now rewrite aob_app in H.
  - intros H. destruct (at_or_below p q) eqn:E; auto. apply aob_spec in E as [r ->]. now destruct (H r).
Qed.
Lemma below_spec p q : below p q = true <-> exists k r, q = p ++ k :: r.
Proof.
  unfold below. rewrite andb_true_iff, negb_true_iff, aob_spec, aob_false. split.
  - intros [[[|k r] ->] H]; [|eauto]. rewrite app_nil_r in H. now destruct (H []); rewrite app_nil_r.
  - intros (k & r & ->). split; [eauto|]. intros r' E. apply (f_equal (@length _)) in E.
    rewrite !app_length in E. cbn [length] in E. lia.
Qed.
Lemma below_app p k r : below p (p ++ k :: r) = true.
Proof. apply below_spec. eauto. Qed.
Lemma below_refl p : below p p = false.
Proof. destruct (below p p) eqn:E; auto. apply below_spec in E as (k & r & E). apply (f_equal (@length _)) in E. rewrite app_length in E. cbn [length] in E. lia. Qed.
Lemma aob_cases p q : at_or_below p q = true -> q = p \/ below p q = true.
Proof. intros H. apply aob_spec in H as [[|k r] ->]; [left; apply app_nil_r|right; apply below_app]. Qed.
Lemma below_aob p q : below p q = true -> at_or_below p q = true.
Proof. unfold below. now intros [H _]%andb_true_iff. Qed.
Lemma aob_eq p q : at_or_below p q = orb (below p q) (if path_dec q p then true else false).
Proof.
  destruct (path_dec q p) as [->|N].
  - rewrite aob_refl. now rewrite orb_true_r.
  - rewrite orb_false_r. destruct (at_or_below p q) eqn:E.
    + apply aob_cases in E as [E|E]; congruence.
    + destruct (below p q) eqn:B; auto. apply below_aob in B. congruence.
Qed.
Lemma aob_trans p q r : at_or_below p q = true -> at_or_below q r = true -> at_or_below p r = true.
Proof. rewrite !aob_spec. intros [a ->] [b ->]. exists (a ++ b). now rewrite app_assoc. Qed.
Lemma aob_antisym p q : at_or_below p q = true -> at_or_below q p = true -> p = q.
Proof.
  rewrite !aob_spec. intros [a ->] [b E]. rewrite <- app_assoc in E.
  rewrite <- (app_nil_r p) in E at 1. apply app_inv_head in E. symmetry in E. apply app_eq_nil in E as [-> _].
  now rewrite app_nil_r.
Qed.
(** Two prefixes of a path are comparable. *)
Lemma aob_linear p q r : at_or_below p r = true -> at_or_below q r = true -> at_or_below p q = true \/ at_or_below q p = true.
Proof.
  revert q r. induction p as [|x p IH]; intros q r; [auto|].
  destruct r as [|z r]; [discriminate|]. destruct q as [|y q]; [auto|]. cbn [at_or_below].
  rewrite !andb_true_iff, !str_eqb_eq. intros [-> H] [-> H']. destruct (IH _ _ H H'); auto.
Qed.
(** Children. *)
Lemma child_inj (d d' : path) k k' : d ++ [k] = d' ++ [k'] -> d = d' /\ k = k'.
Proof. apply app_inj_tail. Qed.
Lemma aob_child d k q : at_or_below (d ++ [k]) q = true -> below d q = true.
Proof. rewrite aob_spec. intros [r ->]. rewrite <- app_assoc. apply below_app. Qed.
Lemma below_child d q : below d q = true <-> exists k, at_or_below (d ++ [k]) q = true.
Proof.
  rewrite below_spec. split.
  - intros (k & r & ->). exists k. apply aob_spec. exists r. now rewrite <- app_assoc.
  - intros [k H]. apply aob_spec in H as [r ->]. exists k, r. now rewrite <- app_assoc.
Qed.

(** *** children maps *)
Lemma child_delete k k' l : child k (delete_child k' l) = if str_eqb k k' then None else child k l.
Proof.
  induction l as [|[k0 c] l IH]; [now destruct (str_eqb k k')|]. unfold delete_child. cbn [filter fst].
  destruct (str_eqb k0 k') eqn:E; cbn [negb]; fold (delete_child k' l).
  - rewrite IH. cbn [child]. apply str_eqb_eq in E. subst. now destruct (str_eqb k k').
  - cbn [child]. rewrite IH. destruct (str_eqb k k0) eqn:E'; auto. apply str_eqb_eq in E'. subst. now rewrite E.
Qed.
Lemma child_keep k k' l : child k (keep_child k' l) = if str_eqb k k' then child k l else None.
Proof.
  induction l as [|[k0 c] l IH]; [now destruct (str_eqb k k')|]. unfold keep_child. cbn [filter fst].
  destruct (str_eqb k0 k') eqn:E; fold (keep_child k' l); cbn [child]; rewrite ?IH.
  - apply str_eqb_eq in E. subst. now destruct (str_eqb k k').
  - destruct (str_eqb k k0) eqn:E'; auto. apply str_eqb_eq in E'. subst. now rewrite E.
Qed.
Lemma child_map k k' f l : child k (map_child k' f l) = if str_eqb k k' then option_map f (child k l) else child k l.
Proof.
  induction l as [|[k0 c] l IH]; [now destruct (str_eqb k k')|]. cbn [map_child].
  destruct (str_eqb k' k0) eqn:E; cbn [child].
  - apply str_eqb_eq in E. subst. now destruct (str_eqb k k0).
  - rewrite IH. destruct (str_eqb k k0) eqn:E'; auto. apply str_eqb_eq in E'. subst.
    replace (str_eqb k0 k') with false; auto. symmetry. apply str_eqb_neq. apply str_eqb_neq in E. congruence.
Qed.
Lemma child_add k k' c l : child k (l ++ [(k', c)]) = match child k l with Some x => Some x | None => if str_eqb k k' then Some c else None end.
Proof. induction l as [|[k0 c0] l IH]; cbn [app child]; auto. destruct (str_eqb k k0); auto. Qed.

(** *** nodes by position *)
Definition node : Type := (option header * str)%type.
Notation view := (list str -> option node).
Definition view_of (t : tree) : view := fun p =>
  match subtree t p with Some s => Some (t_hdr s, t_body s) | None => None end.
Lemma subtree_app t p q : subtree t (p ++ q) = match subtree t p with Some s => subtree s q | None => None end.
Proof. revert t. induction p as [|k p IH]; intros t; cbn [app subtree]; auto. destruct (child k (t_children t)); auto. Qed.
Lemma view_app t p q : view_of t (p ++ q) = match subtree t p with Some s => view_of s q | None => None end.
Proof. unfold view_of. rewrite subtree_app. now destruct (subtree t p). Qed.
Lemma view_closed t p q : view_of t (p ++ q) <> None -> view_of t p <> None.
Proof. rewrite view_app. unfold view_of at 2. now destruct (subtree t p). Qed.
Lemma view_header t p : header_at t p = match view_of t p with Some n => fst n | None => None end.
Proof. unfold header_at, view_of. now destruct (subtree t p). Qed.
Lemma view_subtree t p : (exists s, subtree t p = Some s) <-> view_of t p <> None.
Proof. unfold view_of. destruct (subtree t p); split; try congruence; eauto. now intros [s H]. Qed.
Lemma subtree_update_at t p f r : subtree (update t p f) (p ++ r) = match subtree t p with Some s => subtree (f s) r | None => None end.
Proof.
  revert t. induction p as [|k p IH]; intros t; cbn [app subtree update]; auto.
  cbn [t_children]. rewrite child_map, str_eqb_refl. destruct (child k (t_children t)); cbn [option_map]; auto.
Qed.
Lemma subtree_update_other t p f q : at_or_below p q = false -> at_or_below q p = false -> subtree (update t p f) q = subtree t q.
Proof.
  revert t q. induction p as [|k p IH]; intros t q; [discriminate|]. destruct q as [|y q]; [discriminate|].
  cbn [at_or_below]. intros H H'. cbn [subtree update t_children]. rewrite child_map. destruct (str_eqb y k) eqn:E; auto.
  apply str_eqb_eq in E. subst. rewrite str_eqb_refl in *. cbn [andb] in *. destruct (child k (t_children t)); cbn [option_map]; auto.
Qed.
Lemma view_update_at t p f r : view_of (update t p f) (p ++ r) = match subtree t p with Some s => view_of (f s) r | None => None end.
Proof. unfold view_of. rewrite subtree_update_at. now destruct (subtree t p). Qed.
Lemma view_update_other t p f q : at_or_below p q = false -> view_of (update t p f) q = view_of t q.
Proof.
  revert t q. induction p as [|k p IH]; intros t q; [discriminate|]. destruct q as [|y q]; [reflexivity|].
  cbn [at_or_below]. intros H. unfold view_of. cbn [subtree update t_children]. rewrite child_map.
  destruct (str_eqb y k) eqn:E; auto. apply str_eqb_eq in E. subst. rewrite str_eqb_refl in H. cbn [andb] in H.
  destruct (child k (t_children t)) as [c|]; auto. cbn [option_map]. apply (IH c q H).
Qed.
(** A node exists after an update iff the update keeps it. *)
Lemma view_root t : view_of t [] = Some (t_hdr t, t_body t).
Proof. reflexivity. Qed.

(** Operations on views. *)
Definition vput (v : view) (p : path) (n : node) : view := fun q => if path_dec q p then Some n else v q.
Definition vcut (v : view) (p : path) : view := fun q => if at_or_below p q then None else v q.
Definition vclear (v : view) (p : path) : view := fun q => if below p q then None else v q.
Definition veq (v w : view) : Prop := forall q, v q = w q.

Lemma view_put t p h b : view_of t p <> None -> veq (view_of (update t p (put h b))) (vput (view_of t) p (h, b)).
Proof.
  intros H q. unfold vput. apply view_subtree in H as [s Hs].
  destruct (at_or_below p q) eqn:E.
  - apply aob_spec in E as [r ->]. rewrite view_update_at, view_app, Hs. destruct (path_dec (p ++ r) p) as [E|N].
    + assert (r = []) as -> by (apply (app_inv_head p); now rewrite app_nil_r). reflexivity.
    + destruct r as [|k r]; [now rewrite app_nil_r in N|]. unfold view_of. reflexivity.
  - rewrite view_update_other by auto. destruct (path_dec q p) as [->|]; auto. now rewrite aob_refl in E.
Qed.
Lemma view_drop t p : veq (view_of (update t p drop_children)) (vclear (view_of t) p).
Proof.
  intros q. unfold vclear. destruct (at_or_below p q) eqn:E.
  - apply aob_spec in E as [r ->]. rewrite view_update_at, view_app. destruct r as [|k r].
    + rewrite app_nil_r, below_refl. now destruct (subtree t p).
    + rewrite below_app. destruct (subtree t p); auto.
  - rewrite view_update_other by auto. destruct (below p q) eqn:B; auto. apply below_aob in B. congruence.
Qed.
Lemma view_delete t p k : veq (view_of (update t p (with_children (delete_child k)))) (vcut (view_of t) (p ++ [k])).
Proof.
  intros q. unfold vcut. destruct (at_or_below p q) eqn:E.
  - apply aob_spec in E as [r ->]. rewrite view_update_at, view_app. destruct r as [|k' r].
    + rewrite app_nil_r. replace (at_or_below (p ++ [k]) p) with false; [now destruct (subtree t p)|].
      symmetry. apply aob_false. intros r E. apply (f_equal (@length _)) in E. rewrite !app_length in E. cbn [length] in E. lia.
    + replace (at_or_below (p ++ [k]) (p ++ k' :: r)) with (str_eqb k k').
      * destruct (subtree t p) as [s|]; [|now destruct (str_eqb k k')]. unfold view_of. cbn [subtree with_children t_children].
        rewrite child_delete. destruct (str_eqb k k') eqn:E.
        -- apply str_eqb_eq in E. subst. now rewrite str_eqb_refl.
        -- apply str_eqb_neq in E. replace (str_eqb k' k) with false; auto. symmetry. apply str_eqb_neq. congruence.
      * destruct (str_eqb k k') eqn:E; symmetry.
        -- apply str_eqb_eq in E. subst. apply aob_spec. exists r. now rewrite <- app_assoc.
        -- apply aob_false. intros r' E'. rewrite <- app_assoc in E'. apply app_inv_head in E'. injection E' as -> _.
           now rewrite str_eqb_refl in E.
  - rewrite view_update_other by auto. destruct (at_or_below (p ++ [k]) q) eqn:B; auto. apply aob_child, below_aob in B. congruence.
Qed.
Lemma view_keep t p k : veq (view_of (update t p (with_children (keep_child k))))
  (fun q => if below p q then if at_or_below (p ++ [k]) q then view_of t q else None else view_of t q).
Proof.
  intros q. destruct (at_or_below p q) eqn:E.
  - apply aob_spec in E as [r ->]. rewrite view_update_at. destruct r as [|k' r].
    + rewrite app_nil_r, below_refl. unfold view_of. now destruct (subtree t p).
    + rewrite below_app. replace (at_or_below (p ++ [k]) (p ++ k' :: r)) with (str_eqb k k').
      * rewrite view_app. destruct (subtree t p) as [s|]; [|now destruct (str_eqb k k')]. unfold view_of. cbn [subtree with_children t_children].
        rewrite child_keep. destruct (str_eqb k k') eqn:E.
        -- apply str_eqb_eq in E. subst. now rewrite str_eqb_refl.
        -- apply str_eqb_neq in E. replace (str_eqb k' k) with false; auto. symmetry. apply str_eqb_neq. congruence.
      * destruct (str_eqb k k') eqn:E; symmetry.
        -- apply str_eqb_eq in E. subst. apply aob_spec. exists r. now rewrite <- app_assoc.
        -- apply aob_false. intros r' E'. rewrite <- app_assoc in E'. apply app_inv_head in E'. injection E' as -> _.
           now rewrite str_eqb_refl in E.
  - rewrite view_update_other by auto. destruct (below p q) eqn:B; auto. apply below_aob in B. congruence.
Qed.
Lemma view_add t p k : view_of t p <> None -> view_of t (p ++ [k]) = None ->
  veq (view_of (update t p (with_children (fun l => l ++ [(k, empty_tree)])))) (vput (view_of t) (p ++ [k]) (None, [])).
Proof.
  intros H HN q. unfold vput. apply view_subtree in H as [s Hs]. rewrite view_app, Hs in HN.
  assert (CN : child k (t_children s) = None).
  { unfold view_of in HN. cbn [subtree] in HN. now destruct (child k (t_children s)). }
  destruct (at_or_below p q) eqn:E.
  - apply aob_spec in E as [r ->]. rewrite view_update_at, view_app, Hs. destruct r as [|k' r].
    + destruct (path_dec (p ++ []) (p ++ [k])) as [E|N]; [apply app_inv_head in E; discriminate|]. reflexivity.
    + unfold view_of. cbn [subtree with_children t_children]. rewrite child_add.
      destruct (path_dec (p ++ k' :: r) (p ++ [k])) as [E|N].
      * apply app_inv_head in E. injection E as -> ->. now rewrite CN, str_eqb_refl.
      * destruct (child k' (t_children s)) as [c|] eqn:C; auto. destruct (str_eqb k' k) eqn:E; auto.
        apply str_eqb_eq in E. subst. destruct r as [|z r]; [now destruct N|]. reflexivity.
  - rewrite view_update_other by auto. destruct (path_dec q (p ++ [k])) as [->|]; auto. now rewrite aob_app in E.
Qed.
