(** Writing the tree. *)
From Coq Require Import String Ascii List Bool ZArith Lia Permutation Sorted.
From Verif.Model Require Import GoStr GoPath Tar Squash.
From Verif.Spec Require Import PathSpec SquashSpec SimpleAPISpec.
From Verif.Proofs Require Import Order GoStrFacts GoPathFacts SquashTree SquashLoad SquashSim SquashWf.
Import ListNotations.
Local Arguments byte_eqb : simpl never.
Local Arguments str_eqb : simpl never.
Local Arguments clean : simpl never.

(** *** the order *)
Lemma child_less_spec x y : child_less x y = true <-> name_before x y.
Proof.
  unfold child_less, name_before. change (has_prefix wh_prefix x) with (marker_name x). change (has_prefix wh_prefix y) with (marker_name y).
  destruct (marker_name x), (marker_name y); rewrite ?str_ltb_lt; intuition congruence.
Qed.
Lemma nb_irrefl x : ~ name_before x x.
Proof. intros [[H H']|[_ H]]; [congruence|]. rewrite (ok_refl _ str_compare_ok) in H. discriminate. Qed.
Lemma nb_trans x y z : name_before x y -> name_before y z -> name_before x z.
Proof.
  intros [[H1 H2]|[H1 H2]] [[H3 H4]|[H3 H4]]; unfold name_before; try (left; split; congruence).
  right. split; [congruence|]. eapply (ok_lt _ str_compare_ok); eauto.
Qed.
Lemma nb_total x y : x <> y -> name_before x y \/ name_before y x.
Proof.
  intros N. unfold name_before. destruct (marker_name x), (marker_name y); auto;
    destruct (str_compare x y) eqn:E; auto; try (apply str_compare_eq in E; congruence);
    right; right; split; auto; rewrite (ok_anti _ str_compare_ok x y), E; reflexivity.
Qed.
Lemma before_irrefl p : ~ before p p.
Proof.
  intros [H|(d & x & y & r & r' & H1 & H2 & H3)]; [now rewrite below_refl in H|]. subst p. apply app_inv_head in H2.
  injection H2 as -> _. now apply nb_irrefl in H3.
Qed.
Lemma before_cons k p q : before p q -> before (k :: p) (k :: q).
Proof.
  intros [H|(d & x & y & r & r' & -> & -> & H3)].
  - left. apply below_spec in H as (k' & r & ->). apply below_spec. exists k', r. reflexivity.
  - right. exists (k :: d), x, y, r, r'. auto.
Qed.
Lemma before_uncons k p q : before (k :: p) (k :: q) -> before p q.
Proof.
  intros [H|(d & x & y & r & r' & E1 & E2 & H3)].
  - left. apply below_spec in H as (k' & r & H). injection H as ->. apply below_app.
  - destruct d as [|k' d]; [injection E1 as -> ->; injection E2 as -> ->; now apply nb_irrefl in H3|].
    injection E1 as -> ->. injection E2 as ->. right. exists d, x, y, r, r'. auto.
Qed.
Lemma before_heads k k' p q : k <> k' -> before (k :: p) (k' :: q) -> name_before k k'.
Proof.
  intros N [H|(d & x & y & r & r' & E1 & E2 & H3)].
  - apply below_spec in H as (x & r & H). injection H as -> _. congruence.
  - destruct d as [|z d]; [injection E1 as -> ->; injection E2 as -> ->; auto|]. injection E1 as -> ->. injection E2 as -> _. congruence.
Qed.
Lemma before_nil p : ~ before p [].
Proof.
  intros [H|(d & x & y & r & r' & E1 & E2 & H3)]; [|destruct d; discriminate]. apply below_spec in H as (x & r & H). destruct p; discriminate.
Qed.
Lemma before_asym p : forall q, before p q -> before q p -> False.
Proof.
  induction p as [|k p IH]; intros q H H'; [now apply before_nil in H'|]. destruct q as [|k' q]; [now apply before_nil in H|].
  destruct (list_eq_dec ascii_dec k k') as [->|N].
  - apply before_uncons in H, H'. eauto.
  - apply before_heads in H; auto. apply before_heads in H'; auto. apply (nb_irrefl k). eapply nb_trans; eauto.
Qed.
(** A list in a strict order is determined by its elements. *)
Lemma sorted_unique {A} (R : A -> A -> Prop) : (forall x y, R x y -> R y x -> False) ->
  forall l l', StronglySorted R l -> StronglySorted R l' -> (forall x, In x l <-> In x l') -> l = l'.
Proof.
  intros AS. induction l as [|a l IH]; intros l' S S' H.
  - destruct l' as [|b l']; auto. destruct (proj2 (H b)); now left.
  - destruct l' as [|b l']; [destruct (proj1 (H a)); now left|]. inversion S as [|? ? S1 F1]; inversion S' as [|? ? S2 F2]; subst.
    rewrite Forall_forall in F1, F2. assert (E : a = b).
    { destruct (proj1 (H a) (or_introl eq_refl)) as [E|I]; auto. destruct (proj2 (H b) (or_introl eq_refl)) as [E|I']; auto.
      exfalso. eauto. }
    subst b. f_equal. apply IH; auto. intros x. split; intros I.
    + destruct (proj1 (H x) (or_intror I)) as [E|I']; auto. subst x. exfalso. eauto.
    + destruct (proj2 (H x) (or_intror I)) as [E|I']; auto. subst x. exfalso. eauto.
Qed.
Lemma sorted_nodup {A} (R : A -> A -> Prop) l : (forall x, ~ R x x) -> StronglySorted R l -> NoDup l.
Proof.
  intros IR. induction 1 as [|a l S IH F]; constructor; auto. intros I. rewrite Forall_forall in F. apply F in I. now apply IR in I.
Qed.
Lemma sorted_app {A} (R : A -> A -> Prop) l l' : StronglySorted R l -> StronglySorted R l' ->
  (forall x y, In x l -> In y l' -> R x y) -> StronglySorted R (l ++ l').
Proof.
  intros S S' H. induction S as [|a l S IH F]; auto. cbn [app]. constructor.
  - apply IH. intros x y I. apply H. now right.
  - apply Forall_app. split; auto. apply Forall_forall. intros y I. apply H; auto. now left.
Qed.
Lemma sorted_filter {A} (R : A -> A -> Prop) f l : StronglySorted R l -> StronglySorted R (filter f l).
Proof.
  induction 1 as [|a l S IH F]; [constructor|]. cbn [filter]. destruct (f a); auto. constructor; auto.
  apply Forall_forall. intros x I. apply filter_In in I as [I _]. rewrite Forall_forall in F. auto.
Qed.
Lemma sorted_split {A} (R : A -> A -> Prop) l1 x l2 : StronglySorted R (l1 ++ x :: l2) ->
  (forall y, In y l1 -> R y x) /\ (forall y, In y l2 -> R x y).
Proof.
  induction l1 as [|a l1 IH]; cbn [app]; intros S; inversion S as [|? ? S' F]; subst; rewrite Forall_forall in F.
  - split; [intros y []|auto].
  - apply IH in S' as [H1 H2]. split; auto. intros y [<-|I]; auto. apply F. apply in_app_iff. right. now left.
Qed.

(** *** tree induction *)
Section tree_ind2.
  Context (P : tree -> Prop) (H : forall h b ch, Forall (fun kc => P (snd kc)) ch -> P (Tree h b ch)).
  Fixpoint tree_ind2 (t : tree) : P t :=
    match t with
    | Tree h b ch => H h b ch ((fix go (l : list (str * tree)) : Forall (fun kc => P (snd kc)) l :=
        match l with [] => Forall_nil _ | kc :: l' => Forall_cons kc (tree_ind2 (snd kc)) (go l') end) ch)
    end.
End tree_ind2.
Lemma child_In k ch c : child k ch = Some c -> In (k, c) ch.
Proof.
  induction ch as [|[k' c'] ch IH]; [discriminate|]. cbn [child]. destruct (str_eqb k k') eqn:E.
  - apply str_eqb_eq in E as ->. intros H. injection H as ->. now left.
  - intros H. right. auto.
Qed.

Section write.
  Context (sort : (str -> str -> bool) -> list str -> list str) (order : list str -> list str -> list str).
  Context (HS : sorts sort) (HO : permutes order).
  Definition keys (p : path) (ch : list (str * tree)) : list str := sort child_less (order p (map fst ch)).
  Lemma keys_perm p ch : Permutation (keys p ch) (map fst ch).
  Proof. unfold keys. eapply Permutation_trans; [apply HS|apply HO]. Qed.
  Lemma keys_in p ch k : In k (keys p ch) <-> In k (map fst ch).
  Proof. split; apply Permutation_in; [|apply Permutation_sym]; apply keys_perm. Qed.
  Lemma keys_sorted p ch : NoDup (map fst ch) -> StronglySorted name_before (keys p ch).
  Proof.
    intros N. pose proof (Permutation_NoDup (Permutation_sym (keys_perm p ch)) N) as N'. unfold keys in *.
    destruct (HS child_less (order p (map fst ch))) as [_ S]. assert (SW : strict_weak child_less (order p (map fst ch))).
    { split.
      - intros a b _ _ H. apply child_less_spec in H. destruct (child_less b a) eqn:E; auto. apply child_less_spec in E.
        exfalso. apply (nb_irrefl a). eapply nb_trans; eauto.
      - intros a b c _ _ _ H. rewrite !child_less_spec in *. destruct (list_eq_dec ascii_dec a c) as [->|N0]; auto.
        destruct (nb_total a c N0); auto. right. eapply nb_trans; eauto. }
    specialize (S SW). clear SW. revert N'. induction S as [|a l S IH F]; intros N'; [constructor|]. inversion N'; subst. constructor; auto.
    apply Forall_forall. intros x I. rewrite Forall_forall in F. specialize (F x I).
    destruct (nb_total a x) as [H|H]; auto; [intros ->; auto|]. apply child_less_spec in H. congruence.
  Qed.

  (** The positions of a tree in the order of writing. *)
  Fixpoint find_walk (k : str) (l : list (str * list path)) : list path :=
    match l with [] => [] | (k', x) :: l' => if str_eqb k k' then x else find_walk k l' end.
  Fixpoint walk (p : path) (t : tree) : list path :=
    match t with
    | Tree _ _ ch => p :: flat_map (fun k => find_walk k (map (fun kc => (fst kc, walk (p ++ [fst kc]) (snd kc))) ch)) (keys p ch)
    end.
  Lemma find_walk_child k p ch : find_walk k (map (fun kc => (fst kc, walk (p ++ [fst kc]) (snd kc))) ch) =
    match child k ch with Some c => walk (p ++ [k]) c | None => [] end.
  Proof.
    induction ch as [|[k' c] ch IH]; [reflexivity|]. cbn [map fst snd find_walk child]. destruct (str_eqb k k') eqn:E; auto.
    now apply str_eqb_eq in E as ->.
  Qed.
  Lemma assoc_child k p ch : assoc k (map (fun kc => (fst kc, write_to sort order (p ++ [fst kc]) (snd kc))) ch) =
    match child k ch with Some c => write_to sort order (p ++ [k]) c | None => [] end.
  Proof.
    induction ch as [|[k' c] ch IH]; [reflexivity|]. cbn [map fst snd assoc child]. destruct (str_eqb k k') eqn:E; auto.
    now apply str_eqb_eq in E as ->.
  Qed.
  Lemma walk_eq p h b ch : walk p (Tree h b ch) = p :: flat_map (fun k => match child k ch with Some c => walk (p ++ [k]) c | None => [] end) (keys p ch).
  Proof. cbn [walk]. f_equal. apply flat_map_ext. intros k. apply find_walk_child. Qed.
  Lemma write_eq p h b ch : write_to sort order p (Tree h b ch) = own_entry p h b ++
    flat_map (fun k => match child k ch with Some c => write_to sort order (p ++ [k]) c | None => [] end) (keys p ch).
  Proof. cbn [write_to]. f_equal. apply flat_map_ext. intros k. apply assoc_child. Qed.
  Definition emit (v : view) (q : path) : list entry :=
    match v q with Some (h, b) => own_entry q h b | None => [] end.
  Lemma write_walk t0 t : forall p, subtree t0 p = Some t -> write_to sort order p t = flat_map (emit (view_of t0)) (walk p t).
  Proof.
    induction t as [h b ch IH] using tree_ind2. intros p Hs. rewrite write_eq, walk_eq. cbn [flat_map].
    f_equal.
    - unfold emit, view_of. now rewrite Hs.
    - generalize (keys p ch) as l. induction l as [|k l IHl]; [reflexivity|]. cbn [flat_map]. rewrite flat_map_app, <- IHl. f_equal.
      destruct (child k ch) as [c|] eqn:E; [|reflexivity]. rewrite Forall_forall in IH. apply (IH (k, c)); [now apply child_In|].
      rewrite subtree_app, Hs. cbn [subtree t_children]. now rewrite E.
  Qed.
  Lemma walk_in t : forall p q, In q (walk p t) <-> exists r, q = p ++ r /\ view_of t r <> None.
  Proof.
    induction t as [h b ch IH] using tree_ind2. intros p q. rewrite walk_eq. cbn [In]. rewrite in_flat_map. rewrite Forall_forall in IH. split.
    - intros [<-|(k & Ik & I)]; [exists []; split; [now rewrite app_nil_r|discriminate]|].
      destruct (child k ch) as [c|] eqn:E; [|destruct I]. apply (IH (k, c)) in I; [|now apply child_In].
      destruct I as (r & -> & H). exists (k :: r). rewrite <- app_assoc. split; auto. change (k :: r) with ([k] ++ r). rewrite view_app.
      cbn [subtree t_children]. now rewrite E.
    - intros (r & -> & H). destruct r as [|k r]; [left; now rewrite app_nil_r|right]. change (k :: r) with ([k] ++ r) in H.
      rewrite view_app in H. cbn [subtree t_children] in H. destruct (child k ch) as [c|] eqn:E; [|congruence].
      exists k. split.
      + apply keys_in. destruct (in_dec (list_eq_dec ascii_dec) k (map fst ch)) as [I|N]; auto. apply child_none in N. congruence.
      + rewrite E. apply (IH (k, c)); [now apply child_In|]. exists r. rewrite <- app_assoc. auto.
  Qed.
  Lemma before_app p q r : before q r -> before (p ++ q) (p ++ r).
  Proof. induction p; auto. intros H. cbn [app]. apply before_cons. auto. Qed.
  Lemma walk_sorted Q K t : wf Q K t -> forall p, StronglySorted before (walk p t).
  Proof.
    induction t as [h b ch IH] using tree_ind2. intros W p. rewrite walk_eq. apply wf_parts in W as (N & _ & _ & C). cbn [t_children] in N, C.
    rewrite Forall_forall in IH. constructor.
    - pose proof (keys_sorted p ch N) as S. induction S as [|k l S IHl F]; [constructor|]. cbn [flat_map]. apply sorted_app; auto.
      + destruct (child k ch) as [c|] eqn:E; [|constructor]. apply (IH (k, c)); [now apply child_In|eauto].
      + intros x y Ix Iy. destruct (child k ch) as [c|]; [|destruct Ix]. apply walk_in in Ix as (r & -> & _).
        apply in_flat_map in Iy as (k' & Ik & Iy). destruct (child k' ch) as [c'|]; [|destruct Iy]. apply walk_in in Iy as (r' & -> & _).
        rewrite <- !app_assoc. apply before_app. right. exists [], k, k', r, r'. rewrite Forall_forall in F. auto.
    - apply Forall_forall. intros x I. apply in_flat_map in I as (k & _ & I). destruct (child k ch) as [c|]; [|destruct I].
      apply walk_in in I as (r & -> & _). left. rewrite <- app_assoc. apply below_app.
  Qed.
  (** The output lists the nodes with a header. *)
  Definition headed (v : view) (q : path) : bool := match v q with Some (Some _, _) => true | _ => false end.
  Definition mk (v : view) (q : path) : entry :=
    match v q with
    | Some (Some h, b) => (with_name h (if byte_eqb (th_type h) TypeDir then node_name q ++ $"/" else node_name q), b)
    | _ => (opq_header, [])
    end.
  Definition headed_walk (t : tree) : list path := filter (headed (view_of t)) (walk [] t).
  Lemma write_mk t : write_to sort order [] t = map (mk (view_of t)) (headed_walk t).
  Proof.
    rewrite (write_walk t t []) by reflexivity. unfold headed_walk. induction (walk [] t) as [|q l IH]; [reflexivity|].
    cbn [flat_map filter]. rewrite IH. assert (E : emit (view_of t) q = if headed (view_of t) q then [mk (view_of t) q] else []).
    { unfold emit, headed, mk. destruct (view_of t q) as [[[h|] b]|]; reflexivity. }
    rewrite E. now destruct (headed (view_of t) q).
  Qed.
  Lemma headed_walk_in t q : In q (headed_walk t) <-> exists h b, view_of t q = Some (Some h, b).
  Proof.
    unfold headed_walk. rewrite filter_In, walk_in. unfold headed. split.
    - intros [_ H]. destruct (view_of t q) as [[[h|] b]|]; try discriminate. eauto.
    - intros (h & b & E). rewrite E. split; auto. exists q. split; auto. congruence.
  Qed.
  Lemma headed_walk_sorted Q K t : wf Q K t -> StronglySorted before (headed_walk t).
  Proof. intros W. eapply sorted_filter, walk_sorted, W. Qed.
End write.
(** The order of the maps and the sorting procedure do not matter. *)
Lemma headed_walk_unique Q K Q' K' sort order sort' order' t t' : sorts sort -> permutes order -> sorts sort' -> permutes order' -> wf Q K t -> wf Q' K' t' ->
  (forall q, headed (view_of t) q = headed (view_of t') q) -> headed_walk sort order t = headed_walk sort' order' t'.
Proof.
  intros S O S' O' W W' H. apply (sorted_unique before); [apply before_asym| | |].
  - now apply (headed_walk_sorted sort order S O Q K).
  - now apply (headed_walk_sorted sort' order' S' O' Q' K').
  - intros q. rewrite !headed_walk_in by auto. specialize (H q). unfold headed in H.
    destruct (view_of t q) as [[[h|] b]|], (view_of t' q) as [[[h'|] b']|]; try discriminate;
      split; intros (x & y & E); try discriminate; eauto.
Qed.
Theorem write_unique Q K Q' K' sort order sort' order' t t' : sorts sort -> permutes order -> sorts sort' -> permutes order' -> wf Q K t -> wf Q' K' t' ->
  (forall q, headed (view_of t) q = headed (view_of t') q) -> (forall q, headed (view_of t) q = true -> mk (view_of t) q = mk (view_of t') q) ->
  write_to sort order [] t = write_to sort' order' [] t'.
Proof.
  intros S O S' O' W W' H1 H2. rewrite !write_mk. rewrite (headed_walk_unique Q K Q' K' sort order sort' order' t t'); auto.
  apply map_ext_in. intros q I. apply H2. rewrite H1. unfold headed_walk in I. now apply filter_In in I.
Qed.
