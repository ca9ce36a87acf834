(** The names in directories of images whose layers are written through links. *)
From Coq Require Import String Ascii List Bool ZArith Lia Permutation Sorted.
From Verif.Model Require Import GoStr GoPath Tar Squash VfsFS.
From Verif.Spec Require Import PathSpec SquashSpec SimpleAPISpec VfsFSSpec.
From Verif.Proofs Require Import Order GoStrFacts GoPathFacts SimpleAPIFacts SquashTree SquashLoad SquashWf SquashSim SquashStack SquashInv SquashFinal SquashMore SquashLinks SquashHard VfsFSFacts VfsImage VfsThrough.
Import ListNotations.
Local Open Scope nat_scope.
Local Arguments byte_eqb : simpl never.
Local Arguments str_eqb : simpl never.
Local Arguments clean : simpl never.
Local Arguments path_base : simpl never.

(** *** the last name of a header is the key of its node *)
Definition named (h : header) (k : str) : Prop := forall x, fi_name (with_name x (th_name h)) = k.
Definition keyed (t : tree) : Prop := forall d k h, header_at t (d ++ [k]) = Some h ->
  (k = opq -> Squash.link_of (Some h) = None) /\ (k <> opq -> named h k).
Definition fewer (t' t : tree) : Prop := forall q h, header_at t' q = Some h -> header_at t q = Some h.
Lemma keyed_fewer t t' : fewer t' t -> keyed t -> keyed t'.
Proof. intros F K d k h E. apply (K d), F, E. Qed.
Lemma keyed_empty : keyed empty_tree.
Proof. intros [|x d] k h E; discriminate E. Qed.
Lemma header_update t f g q h : header_at (update t f g) q = Some h ->
  (exists r s, q = f ++ r /\ subtree t f = Some s /\ header_at (g s) r = Some h) \/ header_at t q = Some h.
Proof.
  rewrite !view_header. destruct (at_or_below f q) eqn:A.
  - apply aob_spec in A as [r ->]. rewrite view_update_at. destruct (subtree t f) as [s|] eqn:S; [|discriminate]. intros E. left. exists r, s. split; auto. split; auto. now rewrite view_header.
  - rewrite view_update_other by auto. auto.
Qed.
Lemma header_app t f r : header_at t (f ++ r) = match subtree t f with Some s => header_at s r | None => None end.
Proof. unfold header_at. rewrite subtree_app. now destruct (subtree t f). Qed.
Lemma fewer_update t f g : (forall s, fewer (g s) s) -> fewer (update t f g) t.
Proof.
  intros G q h E. apply header_update in E as [(r & s & -> & S & E)|E]; auto. rewrite header_app, S. now apply G.
Qed.
Lemma fewer_children g : (forall l k c, child k (g l) = Some c -> child k l = Some c \/ c = empty_tree) -> forall s, fewer (with_children g s) s.
Proof.
  intros G s [|k q] h E; [exact E|]. unfold header_at in *. cbn [subtree with_children t_children] in *. destruct (child k (g (t_children s))) as [c|] eqn:C; [|discriminate].
  apply G in C as [C| ->]; [now rewrite C|]. destruct q; discriminate.
Qed.
Lemma fewer_delete k s : fewer (with_children (delete_child k) s) s.
Proof. apply fewer_children. intros l k' c. rewrite child_delete. destruct (str_eqb k' k); [discriminate|auto]. Qed.
Lemma fewer_keep k s : fewer (with_children (keep_child k) s) s.
Proof. apply fewer_children. intros l k' c. rewrite child_keep. destruct (str_eqb k' k); [auto|discriminate]. Qed.
Lemma fewer_add k s : fewer (with_children (fun l => l ++ [(k, empty_tree)]) s) s.
Proof. apply fewer_children. intros l k' c. rewrite child_add. destruct (child k' l); [auto|]. destruct (str_eqb k' k); [|discriminate]. intros E. injection E as <-. auto. Qed.
Lemma fewer_drop s : fewer (drop_children s) s.
Proof. intros [|k q] h E; [exact E|discriminate E]. Qed.
Lemma fewer_none b s : fewer (put None b s) s.
Proof. intros [|k q] h E; [discriminate E|exact E]. Qed.
Lemma fewer_settle t f : fewer (settle t f) t.
Proof.
  unfold settle. destruct (has_prefix _ _); [destruct (str_eqb _ _)|]; apply fewer_update; intros s; [apply fewer_keep|apply fewer_delete|apply fewer_delete].
Qed.
Lemma keyed_put t d k h b : keyed t -> (k = opq -> Squash.link_of (Some h) = None) -> (k <> opq -> named h k) -> keyed (update t (d ++ [k]) (put (Some h) b)).
Proof.
  intros K A B d' k' h' E. apply header_update in E as [(r & s & Q & S & E)|E]; [|now apply (K d')]. destruct r as [|x r].
  - rewrite app_nil_r in Q. apply app_inj_tail in Q as [-> ->]. cbn in E. injection E as <-. auto.
  - assert (E' : header_at t (d' ++ [k']) = Some h') by (rewrite Q, header_app, S; exact E). now apply (K d').
Qed.
Lemma keyed_leaf t d k h b : keyed t -> (k = opq -> Squash.link_of (Some h) = None) -> (k <> opq -> named h k) -> keyed (set_leaf t (d ++ [k]) h b).
Proof.
  intros K A B. unfold set_leaf. eapply keyed_fewer; [apply fewer_settle|]. eapply keyed_fewer; [apply fewer_update, fewer_drop|]. now apply keyed_put.
Qed.
Theorem get_keyed n :
  (forall t f key create follow t' p, keyed t -> get n t f key create follow = Ret (t', p) ->
     keyed t' /\ (key <> $".." -> key <> $"." -> follow = false \/ key = opq -> exists d, p = d ++ [key])) /\
  (forall t ret create st t' p, keyed t -> resolve n t ret create st = Ret (t', p) -> keyed t' /\ (Squash.link_of (header_at t ret) = None -> p = ret)) /\
  (forall t dir pathname create follow t' p, keyed t -> fs_get n t dir pathname create follow = Ret (t', p) -> keyed t').
Proof.
  induction n as [|n (IHg & IHr & IHf)]; [split; [|split]; discriminate|]. split; [|split].
  - intros t f key create follow t' p K. rewrite get_S.
    assert (FIN : forall t1 f1, keyed t1 -> (if follow then resolve n t1 f1 create [] else Ret (t1, f1)) = Ret (t', p) ->
       keyed t' /\ (follow = false \/ Squash.link_of (header_at t1 f1) = None -> p = f1)).
    { intros t1 f1 K1. destruct follow.
      - intros E. apply IHr in E as [A B]; auto. split; auto. intros [X|X]; [discriminate|auto].
      - intros E. injection E as <- <-. auto. }
    destruct (str_eqb key $"..") eqn:E1.
    { apply str_eqb_eq in E1 as ->. intros E. apply FIN in E as [A _]; auto. split; auto. congruence. }
    destruct (str_eqb key $".") eqn:E2.
    { apply str_eqb_eq in E2 as ->. intros E. apply FIN in E as [A _]; auto. split; auto. congruence. }
    set (r0 := match Squash.link_of (header_at t f) with Some l => _ | None => _ end).
    assert (S0 : forall a q, r0 = Ret (a, q) -> keyed a).
    { subst r0. intros a q. destruct (Squash.link_of _) as [l|] eqn:EL; [now apply IHf|]. intros E. now injection E as <- _. }
    destruct r0 as [[t1 f1]| |]; cbn [bind]; try discriminate. specialize (S0 t1 f1 eq_refl).
    set (r1 := if non_dir _ then _ else _).
    assert (S1 : forall a, r1 = Ret a -> keyed a).
    { subst r1. intros a. destruct (non_dir _); [|intros E; now injection E as <-]. destruct create; [|discriminate].
      destruct (get n _ f1 opq true true) as [[t2 w]| |] eqn:EG; cbn [bind]; try discriminate. intros E. injection E as <-.
      apply IHg in EG as [A B]; [|eapply keyed_fewer; [apply fewer_update, fewer_none|exact S0]]. destruct B as [d ->]; [discriminate|discriminate|auto|].
      apply keyed_leaf; auto. intros X. now destruct X. }
    destruct r1 as [t2| |]; cbn [bind]; try discriminate. specialize (S1 t2 eq_refl).
    assert (END : forall t3, keyed t3 -> (if follow then resolve n t3 (f1 ++ [key]) create [] else Ret (t3, f1 ++ [key])) = Ret (t', p) ->
       keyed t' /\ (key <> $".." -> key <> $"." -> follow = false \/ key = opq -> exists d, p = d ++ [key])).
    { intros t3 K3 E. apply FIN in E as [A B]; auto. split; auto. intros _ _ [X| ->]; exists f1; apply B; auto. right.
      destruct (header_at t3 (f1 ++ [opq])) as [h|] eqn:H; auto. now apply (K3 f1 opq h). }
    destruct (subtree t2 (f1 ++ [key])) eqn:ES; [apply END; exact S1|]. destruct create; [|discriminate].
    apply END. eapply keyed_fewer; [apply fewer_update, fewer_add|exact S1].
  - intros t ret create st t' p K. cbn [resolve]. destruct (Squash.link_of _) as [l|] eqn:EL.
    + destruct (existsb _ _); [discriminate|]. destruct (fs_get n t (parent ret) l create false) as [[t1 q]| |] eqn:E; cbn [bind]; try discriminate.
      intros H. apply IHf in E; auto. apply IHr in H as [A _]; auto. split; auto. discriminate.
    + intros E. injection E as <- <-. auto.
  - intros t dir pathname create follow t' p K. rewrite fs_get_S.
    assert (CR : forall cs dir0 t t' p, keyed t -> crawl n create follow t dir0 cs = Ret (t', p) -> keyed t').
    { clear - IHg. induction cs as [|c cs IH]; intros dir0 t t' p K; [intros E; now injection E as <- _|].
      destruct cs as [|c' cs]; [intros E; now apply IHg in E|]. cbn [crawl].
      destruct (get n t dir0 c create false) as [[t1 q]| |] eqn:E; cbn [bind]; try discriminate. intros H. apply IHg in E as [A _]; auto. now apply IH in H. }
    now apply CR.
Qed.
Lemma crawl_last n create cs : forall t dir t' p, keyed t -> plain_path cs -> cs <> [] -> crawl n create false t dir cs = Ret (t', p) ->
  keyed t' /\ exists d, p = d ++ [last cs []].
Proof.
  induction cs as [|c cs IH]; intros t dir t' p K P N E; [now destruct N|]. inversion P as [|? ? P1 P2]; subst. destruct (plain_neq c P1) as (_ & X & Y).
  destruct cs as [|c' cs].
  - cbn [crawl] in E. apply (proj1 (get_keyed n)) in E as [A B]; auto. split; auto. cbn [last]. apply B; auto; intros ->; discriminate.
  - cbn [crawl] in E. destruct (get n t dir c create false) as [[t1 q]| |] eqn:G; cbn [bind] in E; try discriminate. apply (proj1 (get_keyed n)) in G as [A _]; auto.
    change (last (c :: c' :: cs) []) with (last (c' :: cs) (@nil ascii)). apply (IH t1 q); auto. discriminate.
Qed.
Lemma fs_get_text n t p create : plain_path p -> p <> [] -> fs_get (S n) t [] (path_text false p) create false = crawl n create false t [] p.
Proof.
  intros P N. rewrite fs_get_S, clean_of_text by now apply plain_clean. rewrite is_abs_text by now apply plain_clean. f_equal.
  destruct p as [|c cs]; [now destruct N|]. cbn [path_text]. apply split_on_join; [discriminate|]. eapply Forall_impl; [|exact P]. intros x (_ & H & _). exact H.
Qed.
Definition keyed_entry (e : entry) : Prop := inside e /\ forall d, entry_path e = d ++ [opq] -> Squash.link_of (Some (fst e)) = None.
Lemma fi_parsed e d k : inside e -> entry_path e = d ++ [k] -> named (fst (parsed e)) k.
Proof.
  intros I E. pose proof (parsed_name e I) as N. destruct I as [_ P]. rewrite E in *. intros x. unfold fi_name. cbn [th_name with_name]. rewrite N, clean_of_text by now apply plain_clean.
  rewrite base_plain by auto. now destruct (byte_eqb _ _).
Qed.
Lemma load_entry_keyed n t e t' : keyed t -> keyed_entry e -> load_entry n t (parsed e) = Ret t' -> keyed t'.
Proof.
  intros K [I L]. pose proof I as [_ P]. unfold load_entry. destruct (fs_get _ _ _ _ _ _) as [[t1 f]| |] eqn:E; cbn [bind]; try discriminate.
  destruct n as [|n]; [discriminate|]. rewrite parsed_name in E by auto. destruct (entry_path e) as [|c cs] eqn:EP.
  - assert (F : f = [] /\ keyed t1).
    { rewrite fs_get_S in E. change (clean (path_text false [])) with $"." in E. change (is_abs $".") with false in E. cbv iota in E. change (split_on slash $".") with [$"."] in E. cbn [crawl] in E.
      pose proof E as E'. apply (proj1 (get_keyed n)) in E' as [A _]; auto. split; auto. destruct n as [|n]; [discriminate|]. rewrite get_S in E. cbv zeta in E. change (str_eqb $"." $"..") with false in E. change (str_eqb $"." $".") with true in E. cbv iota in E. now injection E as _ <-. }
    destruct F as [-> K1]. intros H. unfold set in H. assert (PUT : keyed (update t1 [] (put (Some (fst (parsed e))) (snd (parsed e))))).
    { intros d k h X. apply header_update in X as [(r & s & Q & S & X)|X]; [|now apply (K1 d)]. cbn [app] in Q. subst r. cbn [subtree] in S. injection S as <-. apply (K1 d). destruct d; exact X. }
    destruct (negb _).
    + injection H as <-. unfold set_leaf. eapply keyed_fewer; [apply fewer_settle|]. eapply keyed_fewer; [apply fewer_update, fewer_drop|]. exact PUT.
    + destruct (non_dir _).
      * destruct (get (S n) _ [] opq true true) as [[t2 w]| |] eqn:G; cbn [bind] in H; try discriminate. injection H as <-. apply (proj1 (get_keyed (S n))) in G as [A B]; auto.
        destruct B as [d ->]; [discriminate|discriminate|auto|]. eapply keyed_fewer; [apply fewer_settle|]. apply keyed_leaf; auto. intros X. now destruct X.
      * cbn [bind] in H. injection H as <-. eapply keyed_fewer; [apply fewer_settle|]. exact PUT.
  - assert (N : c :: cs <> []) by discriminate. rewrite fs_get_text in E by auto. apply crawl_last in E as [K1 [d ->]]; auto. rewrite <- EP in *.
    destruct (exists_last N) as (d0 & k & X). rewrite X, last_last in *.
    assert (A : k = opq -> Squash.link_of (Some (fst (parsed e))) = None) by (intros ->; now apply (L d0)).
    assert (B : k <> opq -> named (fst (parsed e)) k) by (intros _; now apply (fi_parsed e d0)).
    intros H. unfold set in H. pose proof (keyed_put t1 d k (fst (parsed e)) (snd (parsed e)) K1 A B) as PUT. destruct (negb _).
    + injection H as <-. now apply keyed_leaf.
    + destruct (non_dir _).
      * destruct (get (S n) _ (d ++ [k]) opq true true) as [[t2 w]| |] eqn:G; cbn [bind] in H; try discriminate. injection H as <-. apply (proj1 (get_keyed (S n))) in G as [A' B']; auto.
        destruct B' as [d' ->]; [discriminate|discriminate|auto|]. eapply keyed_fewer; [apply fewer_settle|]. apply keyed_leaf; auto. intros Y. now destruct Y.
      * cbn [bind] in H. injection H as <-. eapply keyed_fewer; [apply fewer_settle|]. exact PUT.
Qed.
Lemma load_entries_keyed n es : forall t t', keyed t -> Forall keyed_entry es -> load_entries n t (map parsed es) = Ret t' -> keyed t'.
Proof.
  induction es as [|e es IH]; intros t t' K F; cbn [map load_entries]; [intros E; now injection E as <-|]. inversion F; subst.
  destruct (load_entry n t (parsed e)) as [t1| |] eqn:E; cbn [bind]; try discriminate. apply load_entry_keyed in E; auto. now apply IH.
Qed.

(** *** entries at the places where their links lead *)
Lemma target_keyed fs e e' : in_root e -> at_target fs e e' -> good_entry e' -> keyed_entry e.
Proof.
  intros I (A & _ & _ & T) [_ G]. split; [exact I|]. intros d E.
  assert (L : exists d', entry_path e' = d' ++ [opq]).
  { destruct T as [T|(a & q & D & r & E1 & N & _ & _ & E2)]; [exists d; congruence|]. destruct (exists_last N) as (r0 & k & ->). rewrite E1, app_assoc in E. apply app_inj_tail in E as [_ ->].
    exists (D ++ r0). now rewrite E2, app_assoc. }
  destruct L as [d' E']. destruct G as [[_ R]|(d0 & k & _ & _ & _ & NL & _)].
  - exfalso. rewrite E' in R. apply Forall_app in R as [_ R]. inversion R as [|? ? X]; subst. discriminate X.
  - unfold is_link in NL. cbn [Squash.link_of]. change (th_type (fst e)) with (th_type (anon (fst e))). rewrite <- A. change (th_type (anon (fst e'))) with (th_type (fst e')). now rewrite NL.
Qed.
Lemma targets_keyed fs es es' : all_at_target fs es es' -> Forall in_root es -> Forall good_entry es' -> Forall keyed_entry es.
Proof.
  induction 1 as [|fs e e' es es' T _ IH]; intros I G; [constructor|]. inversion I; inversion G; subst. constructor; [|auto]. eapply target_keyed; eauto.
Qed.

(** *** directories *)
Lemma get_same n t u p key create follow : strip t = strip u ->
  match get n t p key create follow, get n u p key create follow with
  | Ret _, Ret _ => True | Fail a, Fail b => a = b | OutOfFuel, OutOfFuel => True | _, _ => False
  end.
Proof.
  intros E. pose proof (proj1 (get_strip n) t p key create follow) as A. pose proof (proj1 (get_strip n) u p key create follow) as B. rewrite E, <- B in A.
  destruct (get n t p key create follow) as [[? ?]| |], (get n u p key create follow) as [[? ?]| |]; cbn [rmap] in A; try discriminate; auto. now injection A.
Qed.
Lemma build_same n t u d keys : strip t = strip u -> forall acc acc' r, build n u d keys acc' = Ret (r, None) ->
  build n t d keys acc = Ret (acc ++ map (shown t d) (filter (fun k => negb (marker_name k)) keys), None) /\
  r = acc' ++ map (shown u d) (filter (fun k => negb (marker_name k)) keys).
Proof.
  intros E. induction keys as [|k keys IH]; intros acc acc' r; cbn [build filter map].
  - intros X. injection X as <-. now rewrite !app_nil_r.
  - change (has_prefix wh_prefix k) with (marker_name k). destruct (marker_name k); cbn [negb]; [apply IH|].
    pose proof (get_same n t u (d ++ [k]) dot false true E) as G. destruct (get n t _ _ _ _), (get n u _ _ _ _); try contradiction; try discriminate.
    intros X. cbn [map]. destruct (IH (acc ++ [shown t d k]) _ _ X) as [X1 X2]. split.
    + etransitivity; [exact X1|]. now rewrite <- app_assoc.
    + rewrite X2, <- app_assoc. reflexivity.
Qed.
Lemma shows_anon n h k : option_map anon h = option_map anon k -> shows n h -> shows n k.
Proof.
  intros E. destruct n, h as [h|], k as [k|]; cbn [option_map] in E; try discriminate; cbn [shows]; auto; assert (A : anon h = anon k) by congruence.
  - rewrite <- A. intros [T S]. split; [|exact S]. change (th_type (anon k) = TypeDir). now rewrite <- A.
  - intros S. congruence.
Qed.
Lemma sorted_once (l : list dirent) : StronglySorted (fun a b => str_compare (fst a) (fst b) = Lt) l -> NoDup (map fst l).
Proof.
  induction 1 as [|a l S IH F]; cbn [map]; constructor; auto. intros I. apply in_map_iff in I as (x & X & I). rewrite Forall_forall in F. apply F in I. rewrite X, (ok_refl _ str_compare_ok) in I. discriminate.
Qed.
Lemma sorted_strict (l : list dirent) : NoDup (map fst l) -> StronglySorted (fun a b => str_ltb (fst b) (fst a) = false) l -> StronglySorted (fun a b => str_compare (fst a) (fst b) = Lt) l.
Proof.
  intros NN ST. induction ST as [|a l S IH F]; [constructor|]. cbn [map] in NN. inversion NN; subst. constructor; auto.
  apply Forall_forall. intros x I. rewrite Forall_forall in F. specialize (F x I). cbv beta in F.
  destruct (str_compare (fst a) (fst x)) eqn:C; auto.
  - exfalso. apply str_compare_eq in C. apply H1. rewrite C. now apply in_map.
  - exfalso. apply not_true_iff_false in F. apply F, str_ltb_lt. now rewrite (ok_anti _ str_compare_ok), C.
Qed.
Lemma listing_same sort fs d t u ks : sorts sort -> strip t = strip u ->
  (forall k, In k ks -> fst (shown t d k) = k) -> (forall k, In k ks -> fst (shown u d k) = k) ->
  listing fs d (sort (fun i j => str_ltb (fst i) (fst j)) (map (shown u d) ks)) -> listing fs d (sort (fun i j => str_ltb (fst i) (fst j)) (map (shown t d) ks)).
Proof.
  intros HS E N N' (S & A & B). set (lt := fun i j : dirent => str_ltb (fst i) (fst j)) in *.
  destruct (HS lt (map (shown u d) ks)) as [PM _]. destruct (HS lt (map (shown t d) ks)) as [PM' ST].
  assert (F : map fst (map (shown t d) ks) = ks) by (rewrite map_map; rewrite <- (map_id ks) at 2; now apply map_ext_in).
  assert (F' : map fst (map (shown u d) ks) = ks) by (rewrite map_map; rewrite <- (map_id ks) at 2; now apply map_ext_in).
  assert (ND : NoDup ks).
  { rewrite <- F'. eapply Permutation_NoDup; [apply Permutation_map; exact PM|]. now apply sorted_once. }
  assert (SAME : forall k, In k ks -> option_map anon (snd (shown t d k)) = option_map anon (snd (shown u d k))).
  { intros k _. pose proof (header_same t u (d ++ [k]) E) as H. unfold shown. destruct (header_at t (d ++ [k])), (header_at u (d ++ [k])); cbn [snd option_map] in *; congruence. }
  split; [|split].
  - assert (SW : strict_weak lt (map (shown t d) ks)).
    { split.
      - intros a b _ _ L. apply str_ltb_lt in L. destruct (str_ltb (fst b) (fst a)) eqn:L'; auto. apply str_ltb_lt in L'.
        rewrite (ok_anti _ str_compare_ok), L in L'. discriminate.
      - intros a b c _ _ _ L. apply str_ltb_lt in L. unfold lt. rewrite !str_ltb_lt. destruct (str_compare (fst a) (fst c)) eqn:C; auto.
        + apply str_compare_eq in C. right. now rewrite <- C.
        + right. eapply (Order.ok_lt _ str_compare_ok); [|exact L]. now rewrite (ok_anti _ str_compare_ok), C. }
    specialize (ST SW). assert (NN : NoDup (map fst (sort lt (map (shown t d) ks)))).
    { eapply Permutation_NoDup; [apply Permutation_map, Permutation_sym, PM'|]. now rewrite F. }
    now apply sorted_strict.
  - intros x h I. apply (Permutation_in _ PM') in I. apply in_map_iff in I as (k & X & I). pose proof (N k I) as Nk. rewrite X in Nk. cbn [fst] in Nk. subst k.
    assert (I' : In (shown u d x) (sort lt (map (shown u d) ks))) by (apply (Permutation_in _ (Permutation_sym PM)); now apply in_map).
    pose proof (N' x I) as N'x. pose proof (SAME x I) as Sx. rewrite X in Sx. destruct (shown u d x) as [x' h'] eqn:Y. cbn [fst snd] in *. subst x'.
    apply A in I' as (n & Fn & Sn). exists n. split; auto. now apply (shows_anon n h' h).
  - intros x n Fn. apply B in Fn as [h I]. apply (Permutation_in _ PM) in I. apply in_map_iff in I as (k & X & I). pose proof (N' k I) as Nk. rewrite X in Nk. cbn [fst] in Nk. subst k.
    exists (snd (shown t d x)). apply (Permutation_in _ (Permutation_sym PM')). apply in_map_iff. exists x. split; auto. rewrite <- (N x I) at 2. now destruct (shown t d x).
Qed.
Section through.
  Context (layers layers' : list (list entry)) (I : Forall (Forall in_root) layers) (P : plain_stack layers')
    (A : all_at_target empty_root (all_entries layers) (all_entries layers')) (NR : Forall (Forall (fun e => ~ links_to_root e)) layers').
  Notation fs := (unpack empty_root layers').
  Lemma loaded_keyed n t : load_layers n false layers = Ret t -> keyed t.
  Proof.
    intros E. unfold load_layers in E. rewrite load_layers_entries in E by exact I. revert E. apply load_entries_keyed; [exact keyed_empty|].
    eapply targets_keyed; [exact A| |apply good_all, P].
    apply Forall_forall. intros e Ie. apply in_all in Ie as (l & Il & Ie). rewrite Forall_forall in I. specialize (I l Il). rewrite Forall_forall in I. now apply I in Ie.
  Qed.
  Lemma through_dir_headers sort order utf8 p q e m : sorts sort -> (forall l, Permutation (order l) l) -> plain_path p -> utf8 (open_name p) = true -> walks fs [] p q -> ends fs q e ->
    fs e = Some (FDir m) -> (forall x, fs (e ++ [x]) <> None -> exists r, ends fs (e ++ [x]) r) ->
    exists N t f l, (forall n, N <= n -> load_layers n false layers = Ret t /\ open_file utf8 n order t (open_name p) = Ret f) /\
      listing fs e l /\ (forall x h, In (x, h) l -> h = header_at t (e ++ [x])) /\ forall programs c', reachable sort f programs c' -> reads_dir l false (c_log c').
  Proof.
    intros HS HO PP U W R E RS. destruct (load_image layers' P) as (t' & L & AG & WT & WV & LF & NK).
    destruct (load_links layers layers' I P A) as (N1 & t & t2 & S & H).
    assert (t2 = t') as ->. { destruct (H (4 + N1) ltac:(lia)) as [_ H2]. rewrite L in H2 by lia. congruence. }
    pose proof (loaded_keyed _ _ (proj1 (H N1 ltac:(lia)))) as K.
    destruct (open_found layers' P NR t' AG utf8 p q e PP U W R) as [N HN].
    destruct (dir_handle layers' P NR t' AG WT WV NK sort order e m HS HO E RS) as (N' & oh & body & acc & HH & ND & LI).
    set (ks := filter (fun k => negb (marker_name k)) (order (keys_at t' e))).
    assert (HB : forall n, N' <= n -> build n t' e (order (keys_at t' e)) [] = Ret (acc, None) /\ oh = header_at t' e).
    { intros n LE. specialize (HH n LE). unfold handle_at in HH. destruct (build n t' e (order (keys_at t' e)) []) as [x| |]; try discriminate. cbn [bind] in HH. now injection HH as <- _ ->. }
    destruct (HB N' ltac:(lia)) as [HB0 OH]. destruct (build_same N' t t' e (order (keys_at t' e)) S [] [] acc HB0) as [_ AC]. cbn [app] in AC. fold ks in AC.
    assert (KT : forall k, In k ks -> k <> opq) by (intros k Ik ->; unfold ks in Ik; apply filter_In in Ik as [_ Ik]; discriminate Ik).
    exists (N1 + N + N'), t, (mkHandle (header_at t e) (match subtree t e with Some s => t_body s | None => [] end) (map (shown t e) ks, None)), (sort (fun i j => str_ltb (fst i) (fst j)) (map (shown t e) ks)).
    assert (NT : forall k, In k ks -> fst (shown t e k) = k).
    { intros k Ik. unfold shown. destruct (header_at t (e ++ [k])) as [h|] eqn:X; [|reflexivity]. cbn [fst]. apply (proj2 (K e k h X) (KT k Ik) h). }
    split; [|split; [|split]].
    - intros n LE. split; [apply H; lia|]. unfold open_file. rewrite (open_strip utf8 n t t' _ S), HN by lia. cbn [bind]. unfold handle_at. rewrite (keys_same t t' e S).
      destruct (build_same n t t' e (order (keys_at t' e)) S [] [] acc (proj1 (HB n ltac:(lia)))) as [-> _]. reflexivity.
    - apply (listing_same sort fs e t t' ks HS S).
      + exact NT.
      + intros k Ik. unfold ks in Ik. apply filter_In in Ik as [Ik M]. apply negb_true_iff in M. apply (Permutation_in _ (HO _)), keys_view in Ik.
        apply (shown_name t' NK). apply (real_key t' WV); auto. apply (image_real layers' P). congruence.
      + now rewrite <- AC.
    - intros x h J. apply (Permutation_in _ (proj1 (HS _ _))) in J. apply in_map_iff in J as (k & X & J). pose proof (NT k J) as Nk. rewrite X in Nk. cbn [fst] in Nk. subst k.
      unfold shown in X. destruct (header_at t (e ++ [x])); congruence.
    - intros programs c' RR. apply (reads_dir_any sort _ programs c' (map (shown t e) ks) RR); [|reflexivity]. cbn [hd_header].
      pose proof (header_same t t' e S) as HS'. rewrite OH in ND. destruct (header_at t e) as [h|], (header_at t' e) as [h'|]; cbn [option_map] in HS'; try discriminate; auto.
      assert (X : anon h = anon h') by congruence. cbn [non_dir] in *. change (th_type h) with (th_type (anon h)). rewrite X. exact ND.
  Qed.
  Theorem through_dir sort order utf8 p q e m : sorts sort -> (forall l, Permutation (order l) l) -> plain_path p -> utf8 (open_name p) = true -> walks fs [] p q -> ends fs q e ->
    fs e = Some (FDir m) -> (forall x, fs (e ++ [x]) <> None -> exists r, ends fs (e ++ [x]) r) ->
    exists N t f l, (forall n, N <= n -> load_layers n false layers = Ret t /\ open_file utf8 n order t (open_name p) = Ret f) /\
      listing fs e l /\ forall programs c', reachable sort f programs c' -> reads_dir l false (c_log c').
  Proof.
    intros HS HO PP U W R E RS. destruct (through_dir_headers sort order utf8 p q e m HS HO PP U W R E RS) as (N & t & f & l & L & LI & _ & RR). exists N, t, f, l. auto.
  Qed.
  Theorem through_stat utf8 p q e : plain_path p -> utf8 (open_name p) = true -> walks fs [] p q -> ends fs q e ->
    exists N t, forall n, N <= n -> load_layers n false layers = Ret t /\ open utf8 n t (open_name p) = Ret (q, e) /\ stat_tells (fs e) q (stat t q e).
  Proof.
    intros PP U W R. destruct (image_open layers' P NR utf8 p q e PP U W R) as (N0 & t' & H').
    destruct (load_links layers layers' I P A) as (N1 & t & t2 & S & H).
    assert (t2 = t') as ->. { destruct (H (N0 + N1) ltac:(lia)) as [_ H2]. destruct (H' (N0 + N1) ltac:(lia)) as [H3 _]. congruence. }
    pose proof (loaded_keyed _ _ (proj1 (H N1 ltac:(lia)))) as K.
    exists (N0 + N1), t. intros n LE. split; [apply H; lia|]. destruct (H' n ltac:(lia)) as (_ & HO & ST). split; [now rewrite (open_strip utf8 n t t' _ S)|].
    pose proof (header_same t t' e S) as HE. pose proof (header_same t t' q S) as HQ. unfold stat in *.
    destruct (header_at t e) as [h|] eqn:X, (header_at t' e) as [h'|] eqn:X'; cbn [option_map] in HE; try discriminate; [|exact ST]. assert (Ah : anon h = anon h') by congruence. clear HE.
    destruct (header_at t q) as [l|] eqn:Y, (header_at t' q) as [l'|]; cbn [option_map] in HQ; try discriminate; [|exact ST]. cbn [stat_tells] in *. destruct ST as [(nd & F & SH) _]. split.
    - exists nd. split; [exact F|]. apply (shows_anon nd (Some (with_name h' (th_name l')))); [|exact SH]. cbn [option_map]. f_equal. exact (eq_sym Ah).
    - intros NQ. destruct (exists_last NQ) as (d & k & ->). rewrite last_last. apply (K d k l Y). intros ->.
      assert (RQ : real_path (d ++ [opq])) by (apply (image_real layers' P); inversion R; congruence). destruct RQ as [_ RQ]. apply Forall_app in RQ as [_ RQ]. inversion RQ as [|? ? Z]; subst. discriminate Z.
  Qed.
End through.

(** *** example *)
Lemma usr_bin_listed : walks (unpack empty_root merged_usr_real) [] [$"sbin"] [$"sbin"] /\ ends (unpack empty_root merged_usr_real) [$"sbin"] [$"usr"; $"bin"] /\
  unpack empty_root merged_usr_real [$"usr"; $"bin"] = Some (FDir (Some (anon (fst (a_dir []))))) /\
  (forall x, unpack empty_root merged_usr_real ([$"usr"; $"bin"] ++ [x]) <> None -> exists r, ends (unpack empty_root merged_usr_real) ([$"usr"; $"bin"] ++ [x]) r).
Proof.
  split; [|split; [|split]].
  - apply (walks_last _ [] None $"sbin"); [vm_compute; reflexivity|apply pc; reflexivity|vm_compute; discriminate].
  - eapply ends_link with (q := [$"bin"]); [vm_compute; reflexivity|reflexivity| |].
    + apply (walks_last _ [] None $"bin"); [vm_compute; reflexivity|apply pc; reflexivity|vm_compute; discriminate].
    + eapply ends_link with (q := [$"usr"; $"bin"]); [vm_compute; reflexivity|reflexivity| |eapply ends_dir; vm_compute; reflexivity].
      change (clean_comps _) with [$"usr"; $"bin"]. cbn [parent removelast]. eapply walks_down with (d' := [$"usr"]); [vm_compute; reflexivity|apply pc; reflexivity|eapply follows_dir; vm_compute; reflexivity|discriminate|].
      eapply (walks_last _ [$"usr"]); [vm_compute; reflexivity|apply pc; reflexivity|vm_compute; discriminate].
  - vm_compute. reflexivity.
  - intros x N. pose proof N as J. apply SquashCheck.in_next_names in J. vm_compute in J. destruct J as [<-|[<-|[]]]; eexists; (eapply ends_file; [vm_compute; reflexivity|vm_compute; discriminate]).
Qed.
