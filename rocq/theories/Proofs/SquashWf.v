(** The primitive changes that loading makes to the tree, and what they preserve. *)
From Coq Require Import String Ascii List Bool ZArith Lia.
From Verif.Model Require Import GoStr GoPath Tar Squash.
From Verif.Spec Require Import PathSpec SquashSpec.
From Verif.Proofs Require Import Order GoStrFacts GoPathFacts SquashTree SquashLoad.
Import ListNotations.
Local Arguments byte_eqb : simpl never.
Local Arguments str_eqb : simpl never.
Local Arguments clean : simpl never.
Local Arguments path_base : simpl never.

Definition ok_key (k : str) : Prop := ~ In slash k /\ k <> $"." /\ k <> $"..".
(** the part of a cleaned path that is split into components *)
Definition rest (p : str) : str := if is_abs p then skipn 1 p else p.

Section loading.
  (** [Q] holds of all headers with the content beside them, [K] of all keys. *)
  Context (Q : entry -> Prop) (K : str -> Prop).
  Definition wf (t : tree) : Prop := forall q s, subtree t q = Some s ->
    NoDup (map fst (t_children s)) /\ Forall (fun kc => K (fst kc)) (t_children s) /\ (forall h, t_hdr s = Some h -> Q (h, t_body s)).
  Definition key_ok (k : str) : Prop := k = $".." \/ k = $"." \/ K k.
  Context (Kopq : K opq) (Qopq : Q (opq_header, []))
    (Klink : forall h b l, Q (h, b) -> link_of (Some h) = Some l -> Forall key_ok (split_on slash (rest (clean l)))).
  Inductive tstep (t : tree) : tree -> Prop :=
  | s_put f h b : (forall h', h = Some h' -> Q (h', b)) -> tstep t (update t f (put h b))
  | s_drop f : tstep t (update t f drop_children)
  | s_delete f k : tstep t (update t f (with_children (delete_child k)))
  | s_keep f k : tstep t (update t f (with_children (keep_child k)))
  | s_add f k : K k -> subtree t (f ++ [k]) = None -> tstep t (update t f (with_children (fun l => l ++ [(k, empty_tree)]))).
  Inductive tsteps : tree -> tree -> Prop :=
  | ts_refl t : tsteps t t
  | ts_cons t t1 t2 : tstep t t1 -> tsteps t1 t2 -> tsteps t t2.
  Lemma ts_trans a b c : tsteps a b -> tsteps b c -> tsteps a c.
  Proof. induction 1; auto. intros H'. eapply ts_cons; eauto. Qed.
  Lemma ts_one a b : tstep a b -> tsteps a b.
  Proof. intros H. eapply ts_cons; [exact H|apply ts_refl]. Qed.

  (** *** wf is preserved *)
  Lemma wf_sub t q s : wf t -> subtree t q = Some s -> wf s.
  Proof. intros W H q' s' H'. apply (W (q ++ q')). now rewrite subtree_app, H. Qed.
  Lemma map_child_keys k f l : map fst (map_child k f l) = map fst l.
  Proof. induction l as [|[k' c] l IH]; [reflexivity|]. cbn [map_child]. destruct (str_eqb k k'); cbn [map fst]; congruence. Qed.
  Lemma Forall_keys (P : str -> Prop) (l : list (str * tree)) : Forall (fun kc => P (fst kc)) l <-> Forall P (map fst l).
  Proof. now rewrite Forall_map. Qed.
  Lemma wf_update t f g : wf t -> (forall s, subtree t f = Some s -> wf (g s)) -> wf (update t f g).
  Proof.
    revert t. induction f as [|k f IH]; intros t W H; [now apply H|]. intros q s. cbn [update].
    destruct q as [|k' q].
    - cbn [subtree]. intros E. injection E as <-. cbn [t_children t_hdr t_body]. rewrite Forall_keys, map_child_keys.
      rewrite <- Forall_keys. now apply (W []).
    - cbn [subtree t_children]. rewrite child_map. destruct (str_eqb k' k) eqn:E.
      + apply str_eqb_eq in E as ->. destruct (child k (t_children t)) as [c|] eqn:EC; [|discriminate]. cbn [option_map].
        apply IH.
        * apply (wf_sub t [k]); auto. cbn [subtree]. now rewrite EC.
        * intros s' Hs. apply H. cbn [subtree]. now rewrite EC.
      + intros Hs. apply (W (k' :: q)). exact Hs.
  Qed.
  Lemma wf_children h b ch : NoDup (map fst ch) -> Forall (fun kc => K (fst kc)) ch -> (forall h', h = Some h' -> Q (h', b)) ->
    (forall k c, child k ch = Some c -> wf c) -> wf (Tree h b ch).
  Proof.
    intros N O HQ C q s. destruct q as [|k q]; [intros E; injection E as <-; auto|]. cbn [subtree t_children].
    destruct (child k ch) as [c|] eqn:E; [|discriminate]. intros Hs. now apply (C k c E q).
  Qed.
  Lemma wf_parts t : wf t -> NoDup (map fst (t_children t)) /\ Forall (fun kc => K (fst kc)) (t_children t) /\
    (forall h', t_hdr t = Some h' -> Q (h', t_body t)) /\ (forall k c, child k (t_children t) = Some c -> wf c).
  Proof.
    intros W. destruct (W [] t eq_refl) as (N & O & H). split; auto. split; auto. split; auto. intros k c E. apply (wf_sub t [k]); auto.
    cbn [subtree]. now rewrite E.
  Qed.
  Lemma NoDup_filter_keys (P : str * tree -> bool) l : NoDup (map fst l) -> NoDup (map fst (filter P l)).
  Proof.
    induction l as [|[k c] l IH]; [auto|]. cbn [map fst filter]. intros H. inversion H; subst. destruct (P (k, c)); auto.
    cbn [map fst]. constructor; auto. intros I. apply in_map_iff in I as (x & E & I). apply filter_In in I as [I _].
    match goal with X : ~ In _ _ |- _ => apply X end. apply in_map_iff. eauto.
  Qed.
  Lemma child_none k l : child k l = None <-> ~ In k (map fst l).
  Proof.
    induction l as [|[k' c'] l IH]; cbn [child map fst In]; [tauto|]. destruct (str_eqb k k') eqn:E.
    - apply str_eqb_eq in E as ->. split; [discriminate|tauto].
    - rewrite IH. split; [|tauto]. intros H [H'|H']; auto. subst. now rewrite str_eqb_refl in E.
  Qed.
  Lemma wf_empty : wf empty_tree.
  Proof. intros [|k q] s; [|discriminate]. intros E. injection E as <-. cbn. split; [constructor|split; [constructor|discriminate]]. Qed.
  Lemma wf_step t t' : tstep t t' -> wf t -> wf t'.
  Proof.
    destruct 1 as [f h b HQ|f|f k|f k|f k OK Hn]; intros W; apply wf_update; auto; intros s Hs; pose proof (wf_sub _ _ _ W Hs) as Ws;
      apply wf_parts in Ws as (N & O & HH & C); apply wf_children; auto.
    - constructor.
    - intros; discriminate.
    - now apply NoDup_filter_keys.
    - apply Forall_forall. intros x I. apply filter_In in I as [I _]. rewrite Forall_forall in O. auto.
    - intros k' c. change (filter _ _) with (delete_child k (t_children s)). rewrite child_delete.
      destruct (str_eqb _ _); [discriminate|]. apply C.
    - now apply NoDup_filter_keys.
    - apply Forall_forall. intros x I. apply filter_In in I as [I _]. rewrite Forall_forall in O. auto.
    - intros k' c. rewrite child_keep. destruct (str_eqb _ _); [|discriminate]. apply C.
    - rewrite map_app. cbn [map fst]. rewrite subtree_app, Hs in Hn. cbn [subtree] in Hn.
      destruct (child k (t_children s)) eqn:E; [discriminate|]. apply child_none in E.
      apply NoDup_rev in N. rewrite <- (rev_involutive (map fst (t_children s) ++ [k])). apply NoDup_rev.
      rewrite rev_app_distr. cbn [rev app]. constructor; auto. now rewrite <- in_rev.
    - apply Forall_app. split; auto.
    - intros k' c. rewrite child_add. destruct (child k' (t_children s)) eqn:E.
      + intros H. injection H as <-. eauto.
      + destruct (str_eqb _ _); [|discriminate]. intros H. injection H as <-. apply wf_empty.
  Qed.
  Lemma wf_steps t t' : tsteps t t' -> wf t -> wf t'.
  Proof. induction 1; auto. intros W. apply IHtsteps. eapply wf_step; eauto. Qed.

  (** *** loading *)
  Lemma settle_steps t f : tsteps t (settle t f).
  Proof.
    unfold settle. destruct (has_prefix _ _); [destruct (str_eqb _ _)|]; apply ts_one; constructor.
  Qed.
  Lemma set_leaf_steps t f h b : Q (h, b) -> tsteps t (set_leaf t f h b).
  Proof.
    intros H. unfold set_leaf. apply (ts_cons _ (update t f (put (Some h) b))); [apply s_put; intros h' E; now injection E as <-|]. eapply ts_cons; [apply s_drop|]. apply settle_steps.
  Qed.
  Lemma wf_hdr t f h : wf t -> header_at t f = Some h -> exists b, Q (h, b).
  Proof. intros W. unfold header_at. destruct (subtree t f) as [s|] eqn:E; [|discriminate]. intros H. exists (t_body s). now apply (W f s E). Qed.
  Lemma wf_link t f l : wf t -> link_of (header_at t f) = Some l -> Forall key_ok (split_on slash (rest (clean l))).
  Proof.
    intros W. destruct (header_at t f) as [h|] eqn:E; [|discriminate]. intros H. destruct (wf_hdr t f h W E) as [b Hb]. now apply (Klink h b).
  Qed.
  Theorem loading_steps n :
    (forall t f key create follow t' p, wf t -> key_ok key -> get n t f key create follow = Ret (t', p) -> tsteps t t') /\
    (forall t ret create st t' p, wf t -> resolve n t ret create st = Ret (t', p) -> tsteps t t') /\
    (forall t dir pathname create follow t' p, wf t -> Forall key_ok (split_on slash (rest (clean pathname))) ->
       fs_get n t dir pathname create follow = Ret (t', p) -> tsteps t t').
  Proof.
    induction n as [|n (IHg & IHr & IHf)]; [split; [|split]; discriminate|]. split; [|split].
    - intros t f key create follow t' p W OK. rewrite get_S.
      assert (FIN : forall t1 f1, wf t1 -> (if follow then resolve n t1 f1 create [] else Ret (t1, f1)) = Ret (t', p) -> tsteps t1 t').
      { intros t1 f1 W1. destruct follow; [now apply IHr|]. intros E. injection E as <- _. apply ts_refl. }
      destruct (str_eqb key $"..") eqn:E1; [now apply FIN|]. destruct (str_eqb key $".") eqn:E2; [now apply FIN|].
      assert (OK' : K key).
      { destruct OK as [->|[->|OK]]; auto; discriminate. }
      set (r0 := match link_of (header_at t f) with Some l => _ | None => _ end).
      assert (S0 : forall a q, r0 = Ret (a, q) -> tsteps t a).
      { subst r0. intros a q. destruct (link_of _) as [l|] eqn:EL; [apply IHf; auto; eapply wf_link; eauto|].
        intros E. injection E as <- _. apply ts_refl. }
      destruct r0 as [[t1 f1]| |]; cbn [bind]; try discriminate. specialize (S0 t1 f1 eq_refl). pose proof (wf_steps _ _ S0 W) as W1.
      set (r1 := if non_dir _ then _ else _).
      assert (S1 : forall a, r1 = Ret a -> tsteps t1 a).
      { subst r1. intros a. destruct (non_dir _); [|intros E; injection E as <-; apply ts_refl]. destruct create; [|discriminate].
        destruct (get n _ f1 opq true true) as [[t2 w]| |] eqn:EG; cbn [bind]; try discriminate. intros E. injection E as <-.
        assert (S0' : tsteps t1 (update t1 f1 (put None []))) by (apply ts_one, s_put; discriminate).
        apply IHg in EG; [|eapply wf_steps; eauto|right; right; exact Kopq].
        eapply ts_trans; [exact S0'|]. eapply ts_trans; [exact EG|]. now apply set_leaf_steps. }
      destruct r1 as [t2| |]; cbn [bind]; try discriminate. specialize (S1 t2 eq_refl). pose proof (wf_steps _ _ S1 W1) as W2.
      intros H. eapply ts_trans; [exact S0|]. eapply ts_trans; [exact S1|].
      destruct (subtree t2 (f1 ++ [key])) eqn:ES; [now apply FIN in H|]. destruct create; [|discriminate].
      assert (S2 : tstep t2 (update t2 f1 (with_children (fun l => l ++ [(key, empty_tree)])))) by now apply s_add.
      eapply ts_cons; [exact S2|]. apply FIN in H; auto. eapply wf_step; eauto.
    - intros t ret create st t' p W. cbn [resolve]. destruct (link_of _) as [l|] eqn:EL.
      + destruct (existsb _ _); [discriminate|]. destruct (fs_get n t (parent ret) l create false) as [[t1 q]| |] eqn:E; cbn [bind]; try discriminate.
        intros H. apply IHf in E; auto; [|eapply wf_link; eauto]. apply IHr in H; [|eapply wf_steps; eauto]. eapply ts_trans; eauto.
      + intros E. injection E as <- _. apply ts_refl.
    - intros t dir pathname create follow t' p W C. rewrite fs_get_S.
      assert (CR : forall cs dir0 t t' p, wf t -> Forall key_ok cs -> crawl n create follow t dir0 cs = Ret (t', p) -> tsteps t t').
      { clear - IHg. induction cs as [|c cs IH]; intros dir0 t t' p W C; [intros E; injection E as <- _; apply ts_refl|]. inversion C; subst.
        destruct cs as [|c' cs]; [now apply IHg|]. cbn [crawl].
        destruct (get n t dir0 c create false) as [[t1 q]| |] eqn:E; cbn [bind]; try discriminate. intros H. apply IHg in E; auto.
        apply IH in H; auto; [|eapply wf_steps; eauto]. eapply ts_trans; eauto. }
      unfold rest in C. destruct (is_abs (clean pathname)); now apply CR.
  Qed.
  Lemma set_steps n t f h b t' : wf t -> Q (h, b) -> set n t f h b = Ret t' -> tsteps t t'.
  Proof.
    intros W HQ. unfold set. destruct (negb _); [intros E; injection E as <-; now apply set_leaf_steps|].
    assert (S0 : tstep t (update t f (put (Some h) b))) by (apply s_put; intros h' E; now injection E as <-).
    destruct (non_dir _).
    - destruct (get n _ f opq true true) as [[t1 w]| |] eqn:E; cbn [bind]; try discriminate. intros H. injection H as <-.
      apply loading_steps in E; [|eapply wf_step; eauto|right; right; exact Kopq]. eapply ts_cons; [exact S0|]. eapply ts_trans; [exact E|].
      eapply ts_trans; [apply set_leaf_steps; exact Qopq|apply settle_steps].
    - cbn [bind]. intros H. injection H as <-. eapply ts_cons; [exact S0|]. apply settle_steps.
  Qed.
  Definition ok_entry (e : entry) : Prop := Q (fst e, snd e) /\ Forall key_ok (split_on slash (rest (clean (th_name (fst e))))).
  Lemma load_entry_steps n t e t' : wf t -> ok_entry e -> load_entry n t e = Ret t' -> tsteps t t'.
  Proof.
    intros W [HQ HK]. unfold load_entry. destruct (fs_get _ _ _ _ _ _) as [[t1 f]| |] eqn:E; cbn [bind]; try discriminate. intros H.
    apply loading_steps in E; auto. apply set_steps in H; auto; [|eapply wf_steps; eauto]. eapply ts_trans; eauto.
  Qed.
  Lemma load_entries_wf n es : forall t t', wf t -> Forall ok_entry es -> load_entries n t es = Ret t' -> wf t'.
  Proof.
    induction es as [|e es IH]; intros t t' W H; cbn [load_entries]; [intros E; now injection E as <-|]. inversion H; subst.
    destruct (load_entry n t e) as [t1| |] eqn:E; cbn [bind]; try discriminate. apply load_entry_steps in E; auto.
    apply IH; auto. eapply wf_steps; eauto.
  Qed.
  Lemma load_layers_wf n om ls : (forall l whs files, In l ls -> parse_layer om l = Ret (whs, files) -> Forall ok_entry whs /\ Forall ok_entry files) ->
    forall t t', wf t -> load_layers_from n om t ls = Ret t' -> wf t'.
  Proof.
    induction ls as [|l ls IH]; intros HL t t' W; cbn [load_layers_from]; [intros E; now injection E as <-|].
    destruct (parse_layer om l) as [[whs files]| |] eqn:EP; cbn [bind]; try discriminate.
    destruct (HL l whs files (or_introl eq_refl) EP) as [H1 H2].
    destruct (load_entries n t whs) as [t1| |] eqn:E1; cbn [bind]; try discriminate.
    destruct (load_entries n t1 files) as [t2| |] eqn:E2; cbn [bind]; try discriminate.
    apply load_entries_wf in E1; auto. apply load_entries_wf in E2; auto. apply IH; auto. intros; eapply HL; eauto; now right.
  Qed.
End loading.
Lemma wf_weaken (Q Q' : entry -> Prop) (K K' : str -> Prop) t : (forall e, Q e -> Q' e) -> (forall k, K k -> K' k) -> wf Q K t -> wf Q' K' t.
Proof.
  intros HQ HK W q s H. apply W in H as (N & F & H). split; auto. split; auto. eapply Forall_impl; [|exact F]. auto.
Qed.
Definition any {A} : A -> Prop := fun _ => True.

(** *** what comes out of parseLayer *)
Lemma parse_in om l : forall whs files, parse_layer om l = Ret (whs, files) -> forall e, In e (whs ++ files) ->
  exists e0, In e0 l /\ fst e = with_name (fst e0) (clean (th_name (fst e0))) /\ outside_root (clean (th_name (fst e0))) = false /\ snd e = if om then [] else snd e0.
Proof.
  induction l as [|[h b] l IH]; intros whs files; cbn [parse_layer].
  - intros E. injection E as <- <-. intros e [].
  - destruct (outside_root (clean (th_name h))) eqn:O; [discriminate|]. destruct (parse_layer om l) as [[w f]| |]; cbn [bind]; try discriminate.
    specialize (IH w f eq_refl). intros E e I.
    assert (X : e = (with_name h (clean (th_name h)), if om then [] else b) \/ In e (w ++ f)).
    { destruct (has_prefix _ _); injection E as <- <-.
      - destruct I as [<-|I]; auto.
      - apply in_app_iff in I as [I|[<-|I]]; auto; right; apply in_app_iff; auto. }
    destruct X as [X|X].
    + exists (h, b). split; [now left|]. subst e. auto.
    + destruct (IH e X) as (e0 & I0 & H). exists e0. split; auto. now right.
Qed.
Lemma split_rest_ok p : Forall (key_ok ok_key) (split_on slash (rest (clean p))).
Proof.
  apply Forall_forall. intros c I. pose proof (split_on_no_sep slash (rest (clean p))) as F. rewrite Forall_forall in F. apply F in I.
  unfold key_ok, ok_key. destruct (list_eq_dec ascii_dec c $"..") as [->|]; auto. destruct (list_eq_dec ascii_dec c $".") as [->|]; auto.
Qed.
Lemma split_rest_plain p : clean p <> $"/" -> Forall (key_ok plain_comp) (split_on slash (rest (clean p))).
Proof.
  intros N. rewrite clean_text in *. pose proof (clean_comps_list p) as CL. unfold rest. rewrite is_abs_text by auto.
  assert (NS : Forall (fun c => ~ In slash c) (clean_comps p)) by (eapply clean_list_no_slash; eauto).
  assert (F : Forall (key_ok plain_comp) (clean_comps p)).
  { destruct CL as (k & ps & -> & HP & _). apply Forall_app. split.
    - apply Forall_forall. intros c I. apply repeat_spec in I. now left.
    - eapply Forall_impl; [|exact HP]. intros c H. right. now right. }
  destruct (is_abs p); cbn [path_text] in *.
  - change (skipn 1 ($"/" ++ join $"/" (clean_comps p))) with (join $"/" (clean_comps p)).
    destruct (clean_comps p) as [|c cs]; [now destruct N|]. rewrite split_on_join; auto; discriminate.
  - destruct (clean_comps p) as [|c cs]; [constructor; [right; now left|constructor]|]. rewrite split_on_join; auto; discriminate.
Qed.
Theorem wf_any n om ls t : load_layers n om ls = Ret t -> wf any ok_key t.
Proof.
  apply load_layers_wf.
  - destruct plain_opq as (H1 & H2 & H3 & H4). split; auto.
  - exact I.
  - intros h b l _ _. apply split_rest_ok.
  - intros l whs files _ _. split; apply Forall_forall; intros e _; (split; [exact I|apply split_rest_ok]).
  - apply wf_empty.
Qed.
(** When no symbolic link points to the root, no key is empty. *)
Definition not_to_root (h : header) : Prop := forall l, link_of (Some h) = Some l -> clean l <> $"/".
Theorem wf_rootless n om ls t : Forall (Forall (fun e => not_to_root (fst e))) ls -> load_layers n om ls = Ret t -> wf (fun e => not_to_root (fst e)) plain_comp t.
Proof.
  intros H. apply load_layers_wf.
  - apply plain_opq.
  - intros l E. discriminate.
  - intros h b l Q E. apply split_rest_plain. now apply Q.
  - intros l whs files I E.
    assert (X : forall e, In e (whs ++ files) -> ok_entry (fun e => not_to_root (fst e)) plain_comp e).
    { intros e Ie. destruct (parse_in om l whs files E e Ie) as (e0 & I0 & Hf & O & _). rewrite Forall_forall in H. specialize (H l I).
      rewrite Forall_forall in H. specialize (H e0 I0). split.
      - intros x Ex. apply H. rewrite Hf in Ex. exact Ex.
      - apply split_rest_plain. rewrite Hf. cbn [th_name with_name]. rewrite clean_idem. intros Er. rewrite Er in O. discriminate. }
    split; apply Forall_forall; intros e Ie; apply X, in_app_iff; auto.
  - apply wf_empty.
Qed.
