(** Squashing a layer that was made from a wheel. *)
From Coq Require Import String Ascii List Bool ZArith Sorted Permutation Lia.
From Verif.Model Require Import GoStr GoPath Tar Stat Layer Squash ConfigParser Platform WheelFile Wheel.
From Verif.Spec Require Import PathSpec SimpleAPISpec SquashSpec LayerSpec MadeSpec WheelSpec.
From Verif.Proofs Require Import Order GoStrFacts GoPathFacts SimpleAPIFacts LayerFacts WheelFacts SquashSources SquashMade.
Import ListNotations.
Local Open Scope nat_scope.

Lemma wheel_refs o fuel pl pl' min mx wh l : fair o -> good_names o -> sanitize pl = Some pl' ->
  inner_scheme (pl_scheme pl') -> inner_names wh -> never_nested (pl_scheme pl') wh ->
  install_wheel o fuel pl min mx wh = IOk l ->
  exists refs t, NoDup (map fr_name refs) /\ layer_from_refs (o_encodable o) (o_sort o) refs t = LayerOk l.
Proof.
  intros FO GN S HS HN NN H. apply install_inv in H as (pl2 & fs & ip & fs1 & fs2 & refs & S2 & IC & IV & HK & AP & TE & LR).
  assert (pl2 = pl') by congruence. subst pl2. assert (GM := vfs_good _ _ _ _ _ _ _ FO GN HS HN NN IV).
  assert (GM1 : good_map fs1) by (destruct GN as [_ GH]; destruct (vfs_info _ _ _ _ _ _ _ FO HS HN NN IV); eapply GH; eauto).
  destruct FO as (F1 & F2 & F2' & F3 & F4 & F5 & F6).
  destruct (parents_spec _ _ _ _ _ GM1 (F2 fs1) (F2' fs1) AP) as (GM2 & Q1 & Q2 & Q3).
  exists refs, (max_time o wh mx). split; auto.
  destruct GM2 as [ND G]. assert (G' : Forall (fun kr => fst kr = ref_full (snd kr) /\ clean_path (fst kr) /\ is_abs (fst kr) = false) (o_refs o fs2)) by (eapply Permutation_Forall; [symmetry; apply F5|exact G]).
  assert (X : map fr_name refs = map fst (o_refs o fs2)).
  { clear -TE G'. apply tar_entries_ok in TE. revert refs TE. induction (o_refs o fs2) as [|[k r] m IH]; intros refs TE; cbn [map] in TE; inversion TE as [|? ? ? ? T TE']; subst; auto.
    inversion G' as [|? ? (E & C & A) G'']; subst. cbn [fst snd] in *.
    assert (FN : fr_name y = k).
    { unfold tar_entry in T. destruct (ref_header r); [|discriminate]. injection T as <-. cbn [fr_name]. rewrite <- E. exact C. }
    cbn [map fst]. f_equal; auto. }
  rewrite X. eapply Permutation_NoDup; [apply Permutation_map; symmetry; apply F5|exact ND].
Qed.
Theorem wheel_fine o fuel pl pl' min mx wh l : fair o -> good_names o -> sanitize pl = Some pl' ->
  inner_scheme (pl_scheme pl') -> inner_names wh -> never_nested (pl_scheme pl') wh ->
  install_wheel o fuel pl min mx wh = IOk l ->
  Forall (fun e => exists p, names_path (th_name (fst e)) p) l ->
  (forall e e', In e l -> In e' l -> LayerSpec.below (th_name (fst e)) (th_name (fst e')) -> is_dir e = true) ->
  fine_layer l.
Proof.
  intros FO GN S HS HN NN H NP DA. destruct (wheel_refs _ _ _ _ _ _ _ _ FO GN S HS HN NN H) as (refs & t & ND & LR).
  destruct FO as (_ & _ & _ & _ & _ & _ & F6). destruct (layer_entries _ _ _ _ _ F6 LR) as (m & P & F).
  assert (X : forall r, In r refs -> exists e, In e l /\ th_name (fst e) = fr_name r /\ (is_dir e = true -> is_dir_ref r)).
  { intros r I. apply (Permutation_in _ (Permutation_sym P)) in I. destruct (forall2_in_l _ _ _ _ F I) as (e & Ie & (h & Hh & NM & SB & _) & _).
    exists e. split; auto. split; auto. unfold is_dir. intros D. apply byte_eqb_eq in D. exists h. split; auto. destruct SB as (T & _). congruence. }
  rewrite Forall_forall in NP. apply (refs_fine refs ND) with (encodable := o_encodable o) (sort := o_sort o) (c := t); auto.
  - apply Forall_forall. intros r I. destruct (X r I) as (e & Ie & <- & _). auto.
  - intros r r' I I' B. destruct (X r I) as (e & Ie & E & D), (X r' I') as (e' & Ie' & E' & _). apply D. apply (DA e e'); auto. congruence.
Qed.
Theorem squash_wheel o fuel pl pl' min mx wh l n sort' order : fair o -> good_names o -> sanitize pl = Some pl' ->
  inner_scheme (pl_scheme pl') -> inner_names wh -> never_nested (pl_scheme pl') wh ->
  install_wheel o fuel pl min mx wh = IOk l ->
  Forall (fun e => exists p, names_path (th_name (fst e)) p) l ->
  (forall e e', In e l -> In e' l -> LayerSpec.below (th_name (fst e)) (th_name (fst e')) -> is_dir e = true) ->
  sorts sort' -> permutes order -> squash (4 + n) sort' order [l] = Ret (map respelled l).
Proof. intros FO GN S HS HN NN H NP DA. apply squash_fine. eapply wheel_fine; eauto. Qed.
