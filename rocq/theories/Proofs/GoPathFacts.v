(** Facts about path.Clean, path.Join, path.Split, path.Dir and path.Base. *)
From Coq Require Import String Ascii List Bool Arith Lia.
From Verif.Model Require Import GoStr GoPath.
From Verif.Spec Require Import PathSpec.
From Verif.Proofs Require Import Order GoStrFacts.
Import ListNotations.
Local Arguments byte_eqb : simpl never.
Local Arguments str_eqb : simpl never.

Lemma str_eqb_neq a b : str_eqb a b = false <-> a <> b.
Proof. rewrite <- not_true_iff_false. now rewrite str_eqb_eq. Qed.
Lemma plain_neq c : plain_comp c -> str_eqb c [] = false /\ str_eqb c dot = false /\ str_eqb c dotdot = false.
Proof. intros (H1 & H2 & H3 & H4). now rewrite !str_eqb_neq. Qed.
Lemma dotdot_no_slash : ~ In slash dotdot.
Proof. intros [H|[H|[]]]; discriminate. Qed.
Lemma dot_no_slash : ~ In slash dot.
Proof. intros [H|[]]; discriminate. Qed.
Lemma dotdot_eqb : str_eqb dotdot [] = false /\ str_eqb dotdot dot = false /\ str_eqb dotdot dotdot = true.
Proof. now vm_compute. Qed.

Lemma join_ne_nil l c s : join $"/" ((c :: s) :: l) = c :: join $"/" (s :: l).
Proof. destruct l; reflexivity. Qed.
Lemma join_app1 l c : l <> [] -> join $"/" (l ++ [c]) = join $"/" l ++ $"/" ++ c.
Proof.
  induction l as [|x l IH]; [congruence|]. intros _. destruct l as [|y l]; [reflexivity|].
  cbn [app join]. change (match l ++ [c] with [] => y | _ :: _ => y ++ $"/" ++ join $"/" (l ++ [c]) end)
    with (join $"/" ((y :: l) ++ [c])). rewrite IH by discriminate. now rewrite <- !app_assoc.
Qed.
Lemma join_app l1 l2 : l1 <> [] -> l2 <> [] -> join $"/" (l1 ++ l2) = join $"/" l1 ++ $"/" ++ join $"/" l2.
Proof.
  intros H1 H2. induction l1 as [|x l1 IH]; [congruence|]. destruct l1 as [|y l1].
  - destruct l2; [congruence|]. reflexivity.
  - change (join $"/" ((x :: y :: l1) ++ l2)) with (x ++ $"/" ++ join $"/" ((y :: l1) ++ l2)).
    rewrite IH by discriminate. change (join $"/" (x :: y :: l1)) with (x ++ $"/" ++ join $"/" (y :: l1)).
    now rewrite <- !app_assoc.
Qed.

(** ** The cleaning loop *)
Lemma clean_step_plain r st c : plain_comp c -> clean_step r st c = c :: st.
Proof. intros H. unfold clean_step. destruct (plain_neq c H) as (-> & -> & ->). reflexivity. Qed.
Lemma fold_plain r ps st : plain_path ps -> fold_left (clean_step r) ps st = rev ps ++ st.
Proof.
  intros H. revert st. induction H as [|c ps Hc Hp IH]; intros st; auto.
  cbn [fold_left]. rewrite clean_step_plain by auto. rewrite IH. simpl. now rewrite <- app_assoc.
Qed.
Lemma fold_dotdots n st : (forall c st', st = c :: st' -> c = dotdot) ->
  fold_left (clean_step false) (repeat dotdot n) st = repeat dotdot n ++ st.
Proof.
  revert st. induction n as [|n IH]; intros st H; auto. cbn [repeat fold_left].
  assert (E : clean_step false st dotdot = dotdot :: st).
  { unfold clean_step. destruct dotdot_eqb as (-> & -> & E). rewrite E. destruct st as [|c st]; auto.
    rewrite (H _ _ eq_refl), E. reflexivity. }
  rewrite E, IH by (intros ? ? [= <- _]; auto).
  change (repeat dotdot n ++ [dotdot] ++ st = (dotdot :: repeat dotdot n) ++ st).
  rewrite app_assoc. f_equal. clear. induction n; simpl; [auto|]. now rewrite IHn.
Qed.
Lemma rev_repeat {A} (x : A) n : rev (repeat x n) = repeat x n.
Proof. induction n; simpl; auto. rewrite IHn. clear. induction n; simpl; congruence. Qed.
Lemma fold_clean_list r l : clean_list r l -> fold_left (clean_step r) l [] = rev l.
Proof.
  intros (n & ps & -> & Hp & Hr). rewrite fold_left_app. destruct n as [|n].
  - simpl. rewrite fold_plain by auto. now rewrite app_nil_r.
  - destruct r; [discriminate (Hr eq_refl)|]. rewrite fold_dotdots by discriminate.
    rewrite app_nil_r, fold_plain by auto. now rewrite rev_app_distr, rev_repeat.
Qed.
(** The stack is always the reverse of a clean list. *)
Lemma clean_step_inv r st c : ~ In slash c -> clean_list r (rev st) -> clean_list r (rev (clean_step r st c)).
Proof.
  intros Hs (n & ps & E & Hp & Hr). unfold clean_step.
  destruct (str_eqb c []) eqn:E1; [now exists n, ps|]. destruct (str_eqb c dot) eqn:E2; [now exists n, ps|].
  destruct (str_eqb c dotdot) eqn:E3.
  - apply str_eqb_eq in E3 as ->. destruct st as [|top rest].
    + destruct r; [exists 0, []; repeat split; auto; constructor|]. exists 1, []. repeat split; [constructor|discriminate].
    + simpl in E. destruct (str_eqb top dotdot) eqn:E4.
      * apply str_eqb_eq in E4 as ->. destruct ps as [|p ps] using rev_ind.
        -- exists (S n), []. rewrite app_nil_r in *. cbn [rev]. rewrite E.
           split; [|split; [constructor|]].
           ++ clear. induction n; simpl; [auto|]. now rewrite IHn.
           ++ intros Q. specialize (Hr Q). subst n. destruct (rev rest); discriminate.
        -- rewrite app_assoc in E. apply app_inj_tail in E as [_ <-].
           apply Forall_app in Hp as [_ Hp]. inversion Hp as [|? ? (_ & _ & _ & Q) _]. congruence.
      * apply str_eqb_neq in E4. destruct ps as [|p ps _] using rev_ind.
        -- rewrite app_nil_r in E. destruct n as [|n]; [destruct (rev rest); discriminate|].
           exfalso. assert (In top (repeat dotdot (S n))) by (rewrite <- E; apply in_or_app; right; now left).
           apply repeat_spec in H. congruence.
        -- rewrite app_assoc in E. apply app_inj_tail in E as [-> <-]. apply Forall_app in Hp as [Hp _].
           now exists n, ps.
  - apply str_eqb_neq in E1, E2, E3. cbn [rev]. rewrite E. exists n, (ps ++ [c]). rewrite <- app_assoc.
    split; auto. split; auto. apply Forall_app. split; auto. repeat constructor; auto.
Qed.
Lemma fold_clean_inv r l st : Forall (fun c => ~ In slash c) l -> clean_list r (rev st) ->
  clean_list r (rev (fold_left (clean_step r) l st)).
Proof.
  intros H. revert st. induction H as [|c l Hc Hl IH]; intros st Hst; auto. apply IH, clean_step_inv; auto.
Qed.
Lemma clean_list_nil r : clean_list r [].
Proof. exists 0, []. repeat split; auto. constructor. Qed.
Theorem clean_comps_list p : clean_list (is_abs p) (clean_comps p).
Proof. apply fold_clean_inv; [apply split_on_no_sep|apply clean_list_nil]. Qed.

Lemma clean_list_no_slash r l : clean_list r l -> Forall (fun c => ~ In slash c) l.
Proof.
  intros (n & ps & -> & Hp & _). apply Forall_app. split.
  - apply Forall_forall. intros c H. apply repeat_spec in H as ->. apply dotdot_no_slash.
  - eapply Forall_impl; [|exact Hp]. now intros c (_ & H & _).
Qed.
Lemma clean_list_ne r l : clean_list r l -> Forall (fun c => c <> []) l.
Proof.
  intros (n & ps & -> & Hp & _). apply Forall_app. split.
  - apply Forall_forall. intros c H. apply repeat_spec in H as ->. discriminate.
  - eapply Forall_impl; [|exact Hp]. now intros c (H & _).
Qed.
Lemma plain_clean r ps : plain_path ps -> clean_list r ps.
Proof. intros H. exists 0, ps. auto. Qed.
Lemma clean_list_true l : clean_list true l <-> plain_path l.
Proof. split; [|apply plain_clean]. intros (n & ps & -> & Hp & H). rewrite (H eq_refl). exact Hp. Qed.

(** ** Texts *)
Lemma join_head_not_slash r l : clean_list r l -> is_abs (join $"/" l) = false.
Proof.
  intros H. pose proof (clean_list_no_slash _ _ H) as F. pose proof (clean_list_ne _ _ H) as G.
  destruct l as [|c l]; [reflexivity|]. inversion F as [|? ? F1 _]; subst. inversion G as [|? ? G1 _]; subst. destruct c as [|x c]; [congruence|].
  rewrite join_ne_nil. unfold is_abs. change (has_prefix $"/") with (has_prefix ["/"%char]). cbn [has_prefix]. destruct (byte_eqb "/" x) eqn:E; auto.
  apply byte_eqb_eq in E. subst. exfalso. apply F1. now left.
Qed.
Lemma clean_comps_rel l : clean_list false l -> l <> [] -> clean_comps (join $"/" l) = l.
Proof.
  intros H Hn. unfold clean_comps. rewrite (join_head_not_slash false) by auto.
  change $"/" with [slash]. rewrite split_on_join by (auto; eapply clean_list_no_slash; eauto).
  rewrite fold_clean_list by auto. apply rev_involutive.
Qed.
Lemma fold_skip r st : clean_step r st [] = st. Proof. reflexivity. Qed.
Lemma split_slash p : split_on slash ($"/" ++ p) = [] :: split_on slash p.
Proof. reflexivity. Qed.
Lemma split_on_join_nil l : Forall (fun c => ~ In slash c) l ->
  split_on slash (join $"/" l) = match l with [] => [[]] | _ => l end.
Proof. intros H. destruct l; auto. change $"/" with [slash]. apply split_on_join; auto. discriminate. Qed.
Lemma clean_comps_abs l : plain_path l -> clean_comps ($"/" ++ join $"/" l) = l.
Proof.
  intros H. unfold clean_comps. rewrite split_slash. cbn [fold_left]. rewrite fold_skip.
  change (is_abs ($"/" ++ join $"/" l)) with true.
  rewrite split_on_join_nil by (eapply clean_list_no_slash; apply (plain_clean true); auto).
  rewrite <- (rev_involutive l) at 2. f_equal.
  destruct l; auto. apply fold_clean_list, plain_clean. auto.
Qed.
Lemma clean_text p : clean p = path_text (is_abs p) (clean_comps p).
Proof.
  unfold clean, path_text. destruct (is_abs p) eqn:A; auto.
  destruct (clean_comps p) as [|c l] eqn:E; auto.
  pose proof (clean_comps_list p) as H. rewrite E in H. apply clean_list_ne in H. inversion H; subst.
  destruct c as [|x c]; [congruence|]. now rewrite join_ne_nil.
Qed.
Lemma is_abs_text r l : clean_list r l -> is_abs (path_text r l) = r.
Proof. intros H. destruct r; auto. cbn [path_text]. destruct l; auto. now apply (join_head_not_slash false). Qed.
Lemma clean_comps_text r l : clean_list r l -> clean_comps (path_text r l) = l.
Proof.
  intros H. destruct r; [apply clean_comps_abs; now apply clean_list_true|]. cbn [path_text].
  destruct l; [reflexivity|]. now apply clean_comps_rel.
Qed.
Theorem clean_of_text r l : clean_list r l -> clean (path_text r l) = path_text r l.
Proof. intros H. rewrite clean_text, is_abs_text, clean_comps_text by auto. reflexivity. Qed.
Theorem clean_idem p : clean (clean p) = clean p.
Proof. rewrite (clean_text p). apply clean_of_text, clean_comps_list. Qed.
Lemma clean_comps_clean p : clean_comps (clean p) = clean_comps p.
Proof. rewrite clean_text. apply clean_comps_text, clean_comps_list. Qed.
Lemma is_abs_clean p : is_abs (clean p) = is_abs p.
Proof. rewrite clean_text. apply is_abs_text, clean_comps_list. Qed.
Lemma path_text_inj r l l' : clean_list r l -> clean_list r l' -> path_text r l = path_text r l' -> l = l'.
Proof. intros H H' E. rewrite <- (clean_comps_text r l), <- (clean_comps_text r l'), E by auto. reflexivity. Qed.
Lemma clean_ne p : clean p <> [].
Proof. unfold clean. destruct (is_abs p); [discriminate|]. destruct (join _ _); discriminate. Qed.

(** ** Join *)
Lemma split_on_app_gen c a b : split_on c (a ++ c :: b) = split_on c a ++ split_on c b.
Proof.
  induction a as [|x a IH]; cbn [app split_on].
  - now rewrite byte_eqb_refl.
  - rewrite IH. destruct (byte_eqb c x); auto. destruct (split_on c a) eqn:E; [|reflexivity].
    now apply split_on_nonempty in E.
Qed.
Lemma is_abs_app p q : p <> [] -> is_abs (p ++ q) = is_abs p.
Proof. destruct p as [|x p]; [congruence|]. reflexivity. Qed.
Lemma join2 p q : p <> [] -> q <> [] -> path_join [p; q] = clean (p ++ $"/" ++ q).
Proof.
  intros Hp Hq. unfold path_join. cbn [filter]. apply str_eqb_neq in Hp, Hq. rewrite Hp, Hq. reflexivity.
Qed.
Lemma clean_comps_app p q : p <> [] ->
  clean_comps (p ++ $"/" ++ q) = rev (fold_left (clean_step (is_abs p)) (split_on slash q) (rev (clean_comps p))).
Proof.
  intros Hp. unfold clean_comps. rewrite is_abs_app by auto. change ($"/" ++ q) with (slash :: q).
  rewrite split_on_app_gen, fold_left_app, rev_involutive. reflexivity.
Qed.
(** Joining a path with plain components appends them. *)
Theorem join_plain p ps : p <> [] -> plain_path ps -> ps <> [] ->
  path_join [p; join $"/" ps] = path_text (is_abs p) (clean_comps p ++ ps).
Proof.
  intros Hp H Hn. assert (J : join $"/" ps <> []).
  { destruct ps as [|c ps]; [congruence|]. inversion H as [|? ? (Hc & _) _]; subst. destruct c; [congruence|].
    rewrite join_ne_nil. discriminate. }
  rewrite join2, clean_text, is_abs_app, clean_comps_app by auto. f_equal.
  rewrite split_on_join_nil by (eapply clean_list_no_slash, (plain_clean true); auto).
  destruct ps as [|c ps]; [congruence|]. rewrite fold_plain by auto. now rewrite rev_app_distr, !rev_involutive.
Qed.
Theorem join_plain1 p c : p <> [] -> plain_comp c ->
  path_join [p; c] = path_text (is_abs p) (clean_comps p ++ [c]).
Proof. intros Hp Hc. apply (join_plain p [c]); auto; [|discriminate]. now constructor. Qed.
Lemma join_empty_l q : q <> [] -> path_join [[]; q] = clean q.
Proof. intros H. unfold path_join. cbn [filter]. apply str_eqb_neq in H. rewrite H. reflexivity. Qed.
Lemma join_empty_r p : p <> [] -> path_join [p; []] = clean p.
Proof. intros H. unfold path_join. cbn [filter]. apply str_eqb_neq in H. rewrite H. reflexivity. Qed.

(** ** Split, Dir and Base *)
Lemma last_slash_none s : ~ In slash s -> last_slash s = None.
Proof.
  induction s as [|x s IH]; auto. intros H. cbn [last_slash]. rewrite IH by (intros Q; apply H; now right).
  destruct (byte_eqb x slash) eqn:E; auto. apply byte_eqb_eq in E. subst. exfalso. apply H. now left.
Qed.
Lemma last_slash_app a b : ~ In slash b -> last_slash (a ++ slash :: b) = Some (a ++ [slash], b).
Proof.
  intros H. induction a as [|x a IH]; cbn [app last_slash].
  - rewrite last_slash_none by auto. now rewrite byte_eqb_refl.
  - now rewrite IH.
Qed.
Lemma path_split_app a b : ~ In slash b -> path_split (a ++ $"/" ++ b) = (a ++ $"/", b).
Proof. intros H. unfold path_split. change ($"/" ++ b) with (slash :: b). now rewrite last_slash_app. Qed.
Lemma path_split_none a : ~ In slash a -> path_split a = ([], a).
Proof. intros H. unfold path_split. now rewrite last_slash_none. Qed.
