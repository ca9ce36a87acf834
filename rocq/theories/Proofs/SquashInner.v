(** Squashing some of the layers in the middle of a stack first. *)
From Coq Require Import String Ascii List Bool ZArith Permutation Lia.
From Verif.Model Require Import GoStr GoPath Tar Squash.
From Verif.Spec Require Import PathSpec SimpleAPISpec SquashSpec.
From Verif.Proofs Require Import GoStrFacts SquashTree SquashSim SquashMore SquashFinal SquashHard SquashStack SquashSources.
Import ListNotations.
Open Scope nat_scope.

(** What is at a path after unpacking depends only on what was there before. *)
Lemma mkdirs_agree_at f g d q : agree (f q) (g q) -> agree (mkdirs f d q) (mkdirs g d q).
Proof.
  intros H. unfold mkdirs. destruct (at_or_below q d); auto.
  destruct (f q) as [[m|h c]|], (g q) as [[m'|h' c']|]; cbn [agree] in *; tauto || auto.
Qed.
Lemma unpack_entry_agree_at f g e q : agree (f q) (g q) -> agree (unpack_entry f e q) (unpack_entry g e q).
Proof.
  intros H. unfold unpack_entry. pose proof (mkdirs_agree_at f g (removelast (entry_path e)) q H) as M.
  destruct (marker_name _); [destruct (str_eqb _ _)|destruct (is_dir e)].
  - unfold remove_below. destruct (below _ q); cbn [agree]; auto.
  - unfold remove. destruct (at_or_below _ q); cbn [agree]; auto.
  - unfold put_node. destruct (path_dec _ _); [apply agree_refl|auto].
  - unfold put_node, remove_below. destruct (path_dec _ _); [apply agree_refl|]. destruct (below _ q); cbn [agree]; auto.
Qed.
Lemma unpack_layer_agree_at l f g q : agree (f q) (g q) -> agree (unpack_layer f l q) (unpack_layer g l q).
Proof.
  unfold unpack_layer. revert f g. induction (in_order l) as [|e es IH]; cbn [fold_left]; auto.
  intros f g H. apply IH. now apply unpack_entry_agree_at.
Qed.
Lemma unpack_agree_at ls f g q : agree (f q) (g q) -> agree (unpack f ls q) (unpack g ls q).
Proof.
  unfold unpack. revert f g. induction ls as [|l ls IH]; cbn [fold_left]; auto.
  intros f g H. apply IH. now apply unpack_layer_agree_at.
Qed.
Lemma unpack_same_at ls f g q : f q = g q -> unpack f ls q = unpack g ls q.
Proof.
  assert (E : forall f g e, f q = g q -> unpack_entry f e q = unpack_entry g e q).
  { intros f0 g0 e H. unfold unpack_entry. assert (M : mkdirs f0 (removelast (entry_path e)) q = mkdirs g0 (removelast (entry_path e)) q) by (unfold mkdirs; now rewrite H).
    destruct (marker_name _); [destruct (str_eqb _ _)|destruct (is_dir e)]; unfold remove_below, remove, put_node; now rewrite M. }
  assert (L : forall l f g, f q = g q -> unpack_layer f l q = unpack_layer g l q).
  { intros l. unfold unpack_layer. induction (in_order l) as [|e es IH]; cbn [fold_left]; auto. }
  unfold unpack. revert f g. induction ls as [|l ls IH]; cbn [fold_left]; auto.
Qed.
Lemma unpack_app fs l1 l2 : unpack fs (l1 ++ l2) = unpack (unpack fs l1) l2.
Proof. apply fold_left_app. Qed.


(** *** a run of layers squashed first *)
Theorem squash_inner n m sort order B M T out : sorts sort -> permutes order -> plain_stack M -> squash (4 + n) sort order M = Ret out ->
  plain_stack (B ++ out :: T) -> is_dir_at (unpack empty_root B) [] ->
  blank (unpack empty_root B) \/ history not_hidden (all_entries M) ->
  exists o, squash (4 + m) sort order (B ++ out :: T) = Ret o /\
  forall p, real_path p -> agree (unpack empty_root (B ++ M ++ T) p) (unpack empty_root [o] p) /\
    (history no_file_above (all_entries M) -> history no_file_above (all_entries (B ++ out :: T)) ->
     unpack empty_root (B ++ M ++ T) p = unpack empty_root [o] p).
Proof.
  intros HS HO PM EM PL R H. destruct (squash_preserves n sort order M HS HO PM) as (out' & EM' & SM). rewrite EM in EM'. injection EM' as <-.
  destruct (squash_preserves m sort order _ HS HO PL) as (o & EO & SO). exists o. split; auto. intros p RP.
  destruct (SM (unpack empty_root B) R H p RP) as [A1 X1].
  destruct (SO empty_root (ex_intro _ None eq_refl) (or_introl empty_blank) p RP) as [A2 X2].
  rewrite !unpack_app. change (out :: T) with ([out] ++ T) in *. rewrite !unpack_app in A2, X2. split.
  - eapply agree_trans; [|exact A2]. now apply unpack_agree_at.
  - intros F1 F2. rewrite <- X2 by auto. apply unpack_same_at. auto.
Qed.

(** *** stacks whose links are apart *)
Lemma unpacked_link es : forall q, is_symlink_at (unpacked es) q -> exists e, In e es /\ entry_path e = q /\ is_link e = true.
Proof.
  induction es as [|e es IH] using rev_ind; intros q (h & c & H & TY).
  - unfold unpacked in H. cbn [fold_left] in H. destruct q; discriminate.
  - unfold unpacked in H. rewrite fold_left_app in H. cbn [fold_left] in H. fold (unpacked es) in H.
    assert (M : forall fs d x y, mkdirs fs d q = Some (FFile x y) -> fs q = Some (FFile x y)).
    { intros fs d x y. unfold mkdirs. destruct (at_or_below q d); auto. destruct (fs q) as [[?|? ?]|]; discriminate. }
    assert (X : (entry_path e = q /\ is_link e = true) \/ unpacked es q = Some (FFile h c)).
    { unfold unpack_entry in H. set (p := entry_path e) in *.
      destruct (marker_name _); [destruct (str_eqb _ _)|destruct (is_dir e)].
      - unfold remove_below in H. destruct (below _ _); [discriminate|]. apply M in H. auto.
      - unfold remove in H. destruct (at_or_below _ _); [discriminate|]. apply M in H. auto.
      - unfold put_node in H. destruct (path_dec q p); [discriminate|]. apply M in H. auto.
      - unfold put_node in H. destruct (path_dec q p) as [->|].
        + left. split; auto. assert (anon (fst e) = h) as <- by congruence. unfold is_link. cbn [anon th_type with_name] in TY. rewrite TY. reflexivity.
        + unfold remove_below in H. destruct (below _ _); [discriminate|]. apply M in H. auto. }
    destruct X as [[X D]|X]; [exists e; split; auto; apply in_app_iff; right; now left|].
    destruct (IH q) as (e0 & I0 & P0); [exists h, c; auto|]. exists e0. split; auto. apply in_app_iff. now left.
Qed.
Lemma apart_plain layers : Forall (Forall good_entry) layers -> links_apart layers -> plain_stack layers.
Proof.
  intros G A. split; auto. intros es1 e es2 E q B L. apply unpacked_link in L as (f & I & P & K). subst q.
  assert (IA : forall x, In x (all_entries layers) -> In x (concat layers)).
  { intros x Ix. apply in_all in Ix as (l & Il & Ix). apply in_concat. eauto. }
  destruct (A f e) as [X _]; auto.
  - apply IA. rewrite E. apply in_app_iff. now left.
  - apply IA. rewrite E. apply in_app_iff. right. now left.
  - now apply below_aob.
  - rewrite X in B. unfold below in B. rewrite aob_refl in B. discriminate.
Qed.
Lemma apart_less ls ls' : (forall e, In e (concat ls') -> In e (concat ls)) -> links_apart ls -> links_apart ls'.
Proof. intros S A e f I J. apply A; auto. Qed.
Lemma anon_link h h' : anon h = anon h' -> th_type h = th_type h'.
Proof. intros H. exact (f_equal th_type H). Qed.
Theorem apart_out n sort order B M T out : sorts sort -> permutes order -> Forall (Forall good_entry) (B ++ M ++ T) -> links_apart (B ++ M ++ T) ->
  squash (4 + n) sort order M = Ret out -> links_apart (B ++ out :: T).
Proof.
  intros HS HO G A E. set (all := concat (B ++ M ++ T)).
  assert (PM : plain_stack M).
  { apply apart_plain; [apply Forall_app in G as [_ G]; now apply Forall_app in G|]. eapply apart_less; [|exact A].
    intros e I. rewrite !concat_app. apply in_app_iff. right. apply in_app_iff. now left. }
  assert (C : forall e, In e (concat (B ++ out :: T)) ->
    (exists e0, In e0 all /\ entry_path e = entry_path e0 /\ th_type (fst e) = th_type (fst e0)) \/
    (exists a, entry_path e = a ++ [$".wh..wh..opq"] /\ th_type (fst e) = TypeReg /\ turned all a)).
  { intros e I. rewrite concat_app in I. cbn [concat] in I. unfold all. rewrite !concat_app. rewrite !in_app_iff in I. destruct I as [I|[I|I]].
    - left. exists e. rewrite !in_app_iff. auto.
    - destruct (squash_sources n sort order M out e HS HO PM E I) as [(l & e0 & Il & I0 & P & H & _)|(a & P & H & _ & e1 & e2 & I1 & I2 & R)].
      + left. exists e0. split; [rewrite !in_app_iff; right; left; apply in_concat; eauto|]. split; auto. now apply anon_link.
      + right. exists a. split; auto. split; [exact (f_equal th_type H)|]. exists e1, e2.
        apply in_all in I1 as (l1 & L1 & I1). apply in_all in I2 as (l2 & L2 & I2).
        split; [rewrite !in_app_iff; right; left; apply in_concat; eauto|]. split; [rewrite !in_app_iff; right; left; apply in_concat; eauto|]. exact R.
    - left. exists e. rewrite !in_app_iff. auto. }
  intros e f Ie If K AB. apply C in Ie as [(e0 & I0 & P0 & T0)|(a & _ & TY & _)]; [|unfold is_link in K; rewrite TY in K; discriminate].
  assert (K0 : is_link e0 = true) by (unfold is_link in *; now rewrite <- T0). rewrite P0 in *.
  apply C in If as [(f0 & J0 & Q0 & S0)|(a & Q & TY & e1 & e2 & I1 & I2 & Ea & De & R)].
  - rewrite Q0 in *. destruct (A e0 f0 I0 J0 K0 AB) as [X D]. split; auto. unfold is_dir in *. now rewrite S0.
  - exfalso. rewrite Q in AB. assert (AA : at_or_below (entry_path e0) a = true).
    { apply aob_spec in AB as [r Er]. destruct r as [|x r _] using rev_ind.
      - rewrite app_nil_r in Er. assert (Ge : good_entry e0).
        { rewrite Forall_forall in G. unfold all in I0. apply in_concat in I0 as (l & Il & I0). specialize (G l Il). rewrite Forall_forall in G. auto. }
        destruct Ge as [_ [RP|(d & k & Ek & _ & _ & NL & _)]]; [|congruence]. rewrite <- Er in RP. now apply (real_ne_opq _ a) in RP.
      - rewrite app_assoc in Er. apply app_inj_tail in Er as [-> _]. apply aob_spec. eauto. }
    assert (A2 : at_or_below (entry_path e0) (entry_path e2) = true).
    { destruct R as [Bl|[-> _]]; auto. apply below_aob in Bl. apply aob_spec in AA as [r ->]. apply aob_spec in Bl as [r' ->]. apply aob_spec. exists (r ++ r'). now rewrite app_assoc. }
    destruct (A e0 e2 I0 I2 K0 A2) as [X D]. destruct R as [Bl|[_ Dd]]; [|congruence].
    rewrite X in Bl. unfold below in Bl. rewrite AA in Bl. now rewrite andb_false_r in Bl.
Qed.
Theorem squash_inner_apart n sort order B M T : sorts sort -> permutes order -> Forall (Forall good_entry) (B ++ M ++ T) -> links_apart (B ++ M ++ T) ->
  is_dir_at (unpack empty_root B) [] -> blank (unpack empty_root B) \/ history not_hidden (all_entries M) ->
  exists out o o', squash (4 + n) sort order M = Ret out /\ squash (4 + n) sort order (B ++ M ++ T) = Ret o /\ squash (4 + n) sort order (B ++ out :: T) = Ret o' /\
  forall p, real_path p -> agree (unpack empty_root (B ++ M ++ T) p) (unpack empty_root [o] p) /\ agree (unpack empty_root (B ++ M ++ T) p) (unpack empty_root [o'] p).
Proof.
  intros HS HO G A R H.
  assert (PM : plain_stack M).
  { apply apart_plain; [apply Forall_app in G as [_ G]; now apply Forall_app in G|]. eapply apart_less; [|exact A].
    intros e I. rewrite !concat_app. apply in_app_iff. right. apply in_app_iff. now left. }
  destruct (squash_terminates n sort order M PM) as (out & EM).
  destruct (squash_preserves n sort order _ HS HO (apart_plain _ G A)) as (o & EO & SO).
  assert (PO : plain_stack (B ++ out :: T)).
  { apply apart_plain; [|now apply (apart_out n sort order B M T)]. apply Forall_app in G as [G1 G]. apply Forall_app in G as [_ G3].
    apply Forall_app. split; auto. constructor; auto. destruct (squash_plain _ _ _ _ _ EM PM) as (t & _ & WT & WV & LF & ->). now apply out_good. }
  destruct (squash_inner n n sort order B M T out HS HO PM EM PO R H) as (o' & EO' & S').
  exists out, o, o'. repeat (split; [assumption|]). intros p RP. split; [|now apply S'].
  now apply (SO empty_root (ex_intro _ None eq_refl) (or_introl empty_blank)).
Qed.
(** a check *)
Definition links_apartb (layers : list (list entry)) : bool :=
  forallb (fun e => negb (is_link e) || forallb (fun f => negb (at_or_below (entry_path e) (entry_path f)) ||
    ((if path_dec (entry_path f) (entry_path e) then true else false) && negb (is_dir f))) (concat layers)) (concat layers).
Lemma links_apartb_ok layers : links_apartb layers = true -> links_apart layers.
Proof.
  unfold links_apartb. rewrite forallb_forall. intros H e f I J K A. specialize (H e I). rewrite K in H. cbn [negb orb] in H.
  rewrite forallb_forall in H. specialize (H f J). rewrite A in H. cbn [negb orb] in H. destruct (path_dec _ _); [|discriminate]. now destruct (is_dir f).
Qed.
