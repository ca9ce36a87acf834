(** Entries written through symbolic links. *)
From Coq Require Import String Ascii List Bool ZArith Lia Permutation Sorted.
From Verif.Model Require Import GoStr GoPath Tar Squash.
From Verif.Spec Require Import PathSpec SquashSpec SimpleAPISpec.
From Verif.Proofs Require Import Order GoStrFacts GoPathFacts SquashTree SquashLoad SquashSim SquashStack SquashWf SquashInv SquashWrite SquashReload SquashMain SquashFinal SquashMore.
Import ListNotations.
Local Arguments byte_eqb : simpl never.
Local Arguments str_eqb : simpl never.
Local Arguments clean : simpl never.

(** *** the tree without the names in the headers *)
Fixpoint strip (t : tree) : tree :=
  let 'Tree h b ch := t in Tree (option_map anon h) b (map (fun kc => (fst kc, strip (snd kc))) ch).
Definition schild (ch : list (str * tree)) : list (str * tree) := map (fun kc => (fst kc, strip (snd kc))) ch.
Lemma strip_hdr t : t_hdr (strip t) = option_map anon (t_hdr t). Proof. now destruct t. Qed.
Lemma strip_body t : t_body (strip t) = t_body t. Proof. now destruct t. Qed.
Lemma strip_children t : t_children (strip t) = schild (t_children t). Proof. now destruct t. Qed.
Lemma strip_eta t : strip t = Tree (option_map anon (t_hdr t)) (t_body t) (schild (t_children t)). Proof. now destruct t. Qed.
Lemma child_schild k ch : child k (schild ch) = option_map strip (child k ch).
Proof. induction ch as [|[k' c] ch IH]; auto. cbn [schild map child fst snd]. destruct (str_eqb k k'); auto. Qed.
Lemma subtree_strip p : forall t, subtree (strip t) p = option_map strip (subtree t p).
Proof.
  induction p as [|k p IH]; intros t; auto. cbn [subtree]. rewrite strip_children, child_schild. destruct (child k (t_children t)); cbn [option_map]; auto.
Qed.
Lemma header_strip t p : header_at (strip t) p = option_map anon (header_at t p).
Proof. unfold header_at. rewrite subtree_strip. destruct (subtree t p) as [s|]; cbn [option_map]; auto. apply strip_hdr. Qed.
Lemma link_anon h : Squash.link_of (option_map anon h) = Squash.link_of h. Proof. now destruct h. Qed.
Lemma non_dir_anon h : non_dir (option_map anon h) = non_dir h. Proof. now destruct h. Qed.
Lemma map_child_schild k f g ch : (forall t, strip (f t) = g (strip t)) -> schild (map_child k f ch) = map_child k g (schild ch).
Proof.
  intros H. induction ch as [|[k' c] ch IH]; auto. cbn [map_child schild map fst snd]. destruct (str_eqb k k'); cbn [schild map fst snd].
  - now rewrite H.
  - f_equal. exact IH.
Qed.
Lemma update_strip p f g : (forall t, strip (f t) = g (strip t)) -> forall t, strip (update t p f) = update (strip t) p g.
Proof.
  intros H. induction p as [|k p IH]; intros t; cbn [update]; auto. rewrite strip_eta. cbn [t_hdr t_body t_children].
  rewrite strip_hdr, strip_body, strip_children. f_equal. now apply map_child_schild.
Qed.
Lemma with_children_strip f t : (forall ch, schild (f ch) = f (schild ch)) -> strip (with_children f t) = with_children f (strip t).
Proof. intros H. unfold with_children. rewrite strip_eta. cbn [t_hdr t_body t_children]. now rewrite strip_hdr, strip_body, strip_children, H. Qed.
Lemma filter_schild f ch : (forall k t t', f (k, t) = f (k, t')) -> schild (filter f ch) = filter f (schild ch).
Proof.
  intros H. induction ch as [|[k c] ch IH]; auto. cbn [filter schild map fst snd]. rewrite (H k (strip c) c). destruct (f (k, c)); cbn [schild map fst snd]; [f_equal|]; exact IH.
Qed.
Lemma settle_strip t f : strip (settle t f) = settle (strip t) f.
Proof.
  unfold settle. apply update_strip. intros s. apply with_children_strip. intros ch.
  destruct (has_prefix _ _); [destruct (str_eqb _ _)|]; now apply filter_schild.
Qed.
Lemma put_strip h b t : strip (put h b t) = put (option_map anon h) b (strip t).
Proof. unfold put. now rewrite strip_eta, strip_children. Qed.
Lemma drop_strip t : strip (drop_children t) = drop_children (strip t).
Proof. unfold drop_children. now rewrite strip_eta, strip_hdr, strip_body. Qed.
Lemma set_leaf_strip t f h b : strip (set_leaf t f h b) = set_leaf (strip t) f (anon h) b.
Proof.
  unfold set_leaf. rewrite settle_strip. f_equal. rewrite (update_strip f drop_children drop_children drop_strip). f_equal.
  apply update_strip. intros s. apply put_strip.
Qed.
Definition rmap {A B} (f : A -> B) (r : run A) : run B := match r with Ret a => Ret (f a) | Fail e => Fail e | OutOfFuel => OutOfFuel end.
Definition smap (r : tree * pos) : tree * pos := (strip (fst r), snd r).
Lemma rmap_bind {A B A' B'} (f : A -> A') (g : B -> B') (r : run A) (r' : run A') k k' : r' = rmap f r -> (forall a, rmap g (k a) = k' (f a)) ->
  rmap g (bind r k) = bind r' k'.
Proof. intros -> H. destruct r; cbn [rmap bind]; auto. Qed.
Lemma get_strip n :
  (forall t f key create follow, rmap smap (get n t f key create follow) = get n (strip t) f key create follow) /\
  (forall t f create stack, rmap smap (resolve n t f create stack) = resolve n (strip t) f create stack) /\
  (forall t f p create follow, rmap smap (fs_get n t f p create follow) = fs_get n (strip t) f p create follow).
Proof.
  induction n as [|n (IG & IR & IF)]; [split; [|split]; reflexivity|]. split; [|split].
  - intros t f key create follow. cbn [get].
    assert (FIN : forall r, rmap smap (if follow then resolve n (fst r) (snd r) create [] else Ret r) = (if follow then resolve n (fst (smap r)) (snd (smap r)) create [] else Ret (smap r))).
    { intros r. destruct follow; [apply IR|reflexivity]. }
    destruct (str_eqb key $".."); [apply (FIN (t, parent f))|]. destruct (str_eqb key $"."); [apply (FIN (t, f))|].
    apply (rmap_bind smap smap).
    + rewrite header_strip, link_anon. destruct (Squash.link_of _); [symmetry; apply IF|reflexivity].
    + intros [t1 f1]. cbn [smap fst snd]. apply (rmap_bind strip smap).
      * rewrite header_strip, non_dir_anon. destruct (non_dir _); [|reflexivity]. destruct create; [|reflexivity]. symmetry. apply (rmap_bind smap strip).
        -- rewrite IG. f_equal. symmetry. apply update_strip. intros s. apply put_strip.
        -- intros [t2 w]. cbn [smap fst snd rmap]. f_equal. apply set_leaf_strip.
      * intros t2. rewrite subtree_strip. destruct (subtree t2 (f1 ++ [key])); cbn [option_map]; [apply (FIN (t2, f1 ++ [key]))|]. destruct create; [|reflexivity].
        assert (U : strip (update t2 f1 (with_children (fun l => l ++ [(key, empty_tree)]))) = update (strip t2) f1 (with_children (fun l => l ++ [(key, empty_tree)]))).
        { apply update_strip. intros s. apply with_children_strip. intros ch. unfold schild. now rewrite map_app. }
        specialize (FIN (update t2 f1 (with_children (fun l => l ++ [(key, empty_tree)])), f1 ++ [key])). unfold smap in FIN at 2 3 4. cbn [fst snd] in FIN.
        rewrite U in FIN. exact FIN.
  - intros t f create stack. cbn [resolve]. rewrite header_strip, link_anon. destruct (Squash.link_of _) as [l|]; [|reflexivity].
    destruct (existsb _ stack); [reflexivity|]. apply (rmap_bind smap smap); [symmetry; apply IF|]. intros [t1 g]. apply IR.
  - intros t f p create follow. rewrite !fs_get_S. generalize (if is_abs (clean p) then [] else f) as d.
    generalize (split_on slash (if is_abs (clean p) then skipn 1 (clean p) else clean p)) as comps. intros comps. revert t.
    induction comps as [|c comps IH]; intros t d; [reflexivity|]. cbn [crawl]. destruct comps as [|c' comps]; [apply IG|].
    apply (rmap_bind smap smap); [symmetry; apply IG|]. intros [t1 d1]. apply IH.
Qed.
Lemma set_strip n t f h b : rmap strip (set n t f h b) = set n (strip t) f (anon h) b.
Proof.
  unfold set. change (th_type (anon h)) with (th_type h). destruct (negb _).
  - cbn [rmap]. f_equal. apply set_leaf_strip.
  - rewrite header_strip, non_dir_anon.
    assert (U : strip (update t f (put (Some h) b)) = update (strip t) f (put (Some (anon h)) b)) by (apply update_strip; intros s; apply put_strip).
    apply (rmap_bind strip strip).
    + destruct (non_dir _).
      * symmetry. apply (rmap_bind smap strip); [rewrite <- U; symmetry; apply get_strip|]. intros [t2 w]. cbn [smap fst snd rmap]. f_equal. apply set_leaf_strip.
      * cbn [rmap]. now rewrite U.
    + intros t2. cbn [rmap]. f_equal. apply settle_strip.
Qed.
(** Loading the same entry at the same place under another name. *)
Lemma load_entry_strip n t u e e' : strip t = strip u -> anon (fst e) = anon (fst e') -> snd e = snd e' ->
  rmap smap (fs_get n u [] (th_name (fst e)) true false) = rmap smap (fs_get n u [] (th_name (fst e')) true false) ->
  rmap strip (load_entry n t e) = rmap strip (load_entry n u e').
Proof.
  intros T A S E. unfold load_entry. destruct (get_strip n) as (_ & _ & F).
  assert (X : forall t e, rmap strip (bind (fs_get n t [] (th_name (fst e)) true false) (fun '(t, f) => set n t f (fst e) (snd e))) =
    bind (fs_get n (strip t) [] (th_name (fst e)) true false) (fun '(t, f) => set n t f (anon (fst e)) (snd e))).
  { intros t0 e0. apply (rmap_bind smap strip); [symmetry; apply F|]. intros [t1 f]. apply set_strip. }
  rewrite !X, T. rewrite <- !F, E, A, S. reflexivity.
Qed.
Lemma load_entries_strip n es : forall t u, strip t = strip u -> rmap strip (load_entries n t es) = rmap strip (load_entries n u es).
Proof.
  induction es as [|e es IH]; intros t u T; cbn [load_entries]; [cbn [rmap]; now rewrite T|].
  assert (X : rmap strip (load_entry n t e) = rmap strip (load_entry n u e)) by now apply load_entry_strip.
  destruct (load_entry n t e), (load_entry n u e); cbn [rmap bind] in *; try congruence. apply IH. congruence.
Qed.
Lemma write_strip sort order t : forall p, write_to sort order p (strip t) = write_to sort order p t.
Proof.
  induction t as [h b ch IH] using tree_ind2. intros p. cbn [strip write_to]. f_equal.
  - unfold own_entry. destruct h as [h|]; reflexivity.
  - rewrite map_map. cbn [fst snd]. rewrite map_map. cbn [fst].
    erewrite (map_ext_in (fun x => (fst x, write_to sort order (p ++ [fst x]) (strip (snd x))))); [reflexivity|].
    intros kc I. cbv beta. f_equal. rewrite Forall_forall in IH. now apply IH.
Qed.

(** *** following links in the tree *)
Definition names (cs : list str) : list str := match cs with [] => [$"."] | _ => cs end.
Lemma resolve_S n t ret create stack : resolve (S n) t ret create stack =
  match Squash.link_of (header_at t ret) with
  | None => Ret (t, ret)
  | Some l =>
      if existsb (fun q => if list_eq_dec (list_eq_dec ascii_dec) ret q then true else false) stack then Fail ELoop
      else bind (fs_get n t (parent ret) l create false) (fun '(t, target) => resolve n t target create (ret :: stack))
  end.
Proof. reflexivity. Qed.
Section links.
  Context (t : tree).
  Definition dirT (d : pos) : Prop := view_of t d <> None /\ non_dir (header_at t d) = false.
  Inductive lands : nat -> pos -> pos -> Prop :=
  | lands_dir p : dirT p -> lands 0 p p
  | lands_link k p l q d : Squash.link_of (header_at t p) = Some l -> clean l <> $"/" ->
      steps (if is_abs l then [] else parent p) (clean_comps l) q -> lands k q d -> lands (S k) p d
  with steps : pos -> list str -> pos -> Prop :=
  | steps_nil d : steps d [] d
  | steps_up d cs q : steps (parent d) cs q -> steps d (dotdot :: cs) q
  | steps_last d c : dirT d -> plain_comp c -> view_of t (d ++ [c]) <> None -> steps d [c] (d ++ [c])
  | steps_down d c cs k d' q : dirT d -> plain_comp c -> lands k (d ++ [c]) d' -> cs <> [] -> plain_path cs ->
      steps d' cs q -> steps d (c :: cs) q.
  Scheme lands_mut := Induction for lands Sort Prop with steps_mut := Induction for steps Sort Prop.
  Combined Scheme lands_steps_ind from lands_mut, steps_mut.
  Lemma dirT_link d : dirT d -> Squash.link_of (header_at t d) = None.
  Proof. intros [_ H]. now apply dir_not_link. Qed.
  Lemma lands_det :
    (forall k p d, lands k p d -> forall k' d', lands k' p d' -> k = k' /\ d = d') /\
    (forall d cs q, steps d cs q -> forall q', steps d cs q' -> q = q').
  Proof.
    apply (lands_steps_ind (fun k p d _ => forall k' d', lands k' p d' -> k = k' /\ d = d') (fun d cs q _ => forall q', steps d cs q' -> q = q')).
    - intros p D k' d' H. inversion H; subst; auto. apply dirT_link in D. congruence.
    - intros k p l q d L N _ IHs _ IHl k' d' H. inversion H as [p0 D|k0 p0 l0 q0 d0 L0 N0 S0 H0]; subst.
      + apply dirT_link in D. congruence.
      + rewrite L in L0. injection L0 as <-. apply IHs in S0 as <-. apply IHl in H0 as [<- <-]. auto.
    - intros d q' H. now inversion H.
    - intros d cs q _ IH q' H. inversion H; subst; auto.
      + exfalso. match goal with H : plain_comp dotdot |- _ => now destruct H as (_ & _ & _ & H) end.
      + exfalso. match goal with H : plain_comp dotdot |- _ => now destruct H as (_ & _ & _ & H) end.
    - intros d c D P V q' H. inversion H; subst; auto.
      + exfalso. now destruct P as (_ & _ & _ & P).
      + congruence.
    - intros d c cs k d' q D P _ IHl N PP _ IHs q' H. inversion H; subst; auto.
      + exfalso. now destruct P as (_ & _ & _ & P).
      + congruence.
      + match goal with H : lands _ (d ++ [c]) _ |- _ => apply IHl in H as [<- <-] end. auto.
  Qed.
  Lemma get_exists n d c create follow : dirT d -> plain_comp c -> view_of t (d ++ [c]) <> None ->
    get (S n) t d c create follow = if follow then resolve n t (d ++ [c]) create [] else Ret (t, d ++ [c]).
  Proof.
    intros D P V. destruct (plain_keys _ P) as [K1 K2]. rewrite get_S. cbv zeta. rewrite K1, K2, (dirT_link d D). cbn [bind]. rewrite (proj2 D). cbn [bind].
    apply view_subtree in V as [s ->]. reflexivity.
  Qed.
  Lemma link_text l : clean l <> $"/" ->
    split_on slash (if is_abs (clean l) then skipn 1 (clean l) else clean l) = names (clean_comps l).
  Proof.
    intros N. rewrite clean_text in *. pose proof (clean_comps_list l) as CL. rewrite is_abs_text by auto.
    assert (NS : Forall (fun c => ~ In slash c) (clean_comps l)) by (eapply clean_list_no_slash; eauto).
    destruct (is_abs l); cbn [path_text] in *.
    - change (skipn 1 ($"/" ++ join $"/" (clean_comps l))) with (join $"/" (clean_comps l)).
      destruct (clean_comps l) as [|c cs]; [now destruct N|]. rewrite split_on_join; auto; discriminate.
    - destruct (clean_comps l) as [|c cs]; [reflexivity|]. rewrite split_on_join; auto; discriminate.
  Qed.
  Definition crawls (d : pos) (cs : list str) (q : pos) : Prop := exists N, forall n, (N <= n)%nat -> forall create follow,
    crawl (S n) create follow t d (names cs) = if follow then resolve n t q create [] else Ret (t, q).
  Definition resolves (k : nat) (p d : pos) : Prop := exists N, forall n, (N <= n)%nat -> forall create stack,
    (forall q, In q stack -> exists k' d', lands k' q d' /\ (k < k')%nat) -> resolve n t p create stack = Ret (t, d).
  Definition same_get (p d : pos) : Prop := exists N, forall n, (N <= n)%nat -> forall c create follow, plain_comp c ->
    get (S n) t p c create follow = get (S n) t d c create follow.
  Lemma crawl_same m create follow p d c cs : (forall follow, get m t p c create follow = get m t d c create follow) ->
    crawl m create follow t p (c :: cs) = crawl m create follow t d (c :: cs).
  Proof. intros H. cbn [crawl]. destruct cs; auto. now rewrite H. Qed.
  Lemma fs_get_link n p l q create follow : clean l <> $"/" ->
    crawl (S n) create follow t (if is_abs l then [] else parent p) (names (clean_comps l)) = (if follow then resolve n t q create [] else Ret (t, q)) ->
    fs_get (S (S n)) t (parent p) l create follow = if follow then resolve n t q create [] else Ret (t, q).
  Proof. intros N H. rewrite fs_get_S, link_text by auto. rewrite clean_text, is_abs_text by apply clean_comps_list. exact H. Qed.
  Theorem lands_ok :
    (forall k p d, lands k p d -> resolves k p d /\ same_get p d /\ dirT d) /\ (forall d cs q, steps d cs q -> crawls d cs q).
  Proof.
    apply (lands_steps_ind (fun k p d _ => resolves k p d /\ same_get p d /\ dirT d) (fun d cs q _ => crawls d cs q)).
    - intros p D. split; [|split]; auto.
      + exists 1%nat. intros [|n] L create stack _; [lia|]. cbn [resolve]. now rewrite (dirT_link p D).
      + exists 0%nat. reflexivity.
    - intros k p l q d L NR S [N1 H1] Hl ([N2 H2] & _ & D). split; [|split]; auto.
      + exists (3 + N1 + N2)%nat. intros n LE create stack ST. destruct n as [|[|[|n]]]; try lia. rewrite resolve_S, L.
        match goal with |- context [existsb ?f stack] => replace (existsb f stack) with false end.
        * rewrite (fs_get_link n p l q create false NR) by (apply H1; lia). cbn [bind]. apply H2; [lia|].
          intros x [<-|I]; [exists (Datatypes.S k), d; split; [eapply lands_link; eauto|lia]|]. destruct (ST x I) as (k' & d' & Hx & Lx). exists k', d'. split; auto. lia.
        * symmetry. apply not_true_is_false. intros Ex. apply existsb_exists in Ex as (x & I & E). destruct (list_eq_dec _ p x) as [->|]; [|discriminate].
          destruct (ST x I) as (k' & d' & Hx & Lx). assert (LL : lands (Datatypes.S k) x d) by (eapply lands_link; eauto).
          destruct (proj1 lands_det _ _ _ LL _ _ Hx) as [X _]. lia.
      + exists (2 + N1 + N2)%nat. intros n LE c create follow P. destruct n as [|[|n]]; try lia. destruct (plain_keys _ P) as [K1 K2].
        rewrite !get_S. cbv zeta. rewrite K1, K2, L, (dirT_link d D). rewrite (fs_get_link n p l q create true NR) by (apply H1; lia).
        rewrite H2; [reflexivity|lia|intros x []].
    - intros d. exists 0%nat. intros n _ create follow. cbn [names crawl]. rewrite get_S. reflexivity.
    - intros d cs q S [N H]. exists N. intros n L create follow. specialize (H n L create follow). cbn [names] in *.
      destruct cs as [|c cs].
      + inversion S; subst. cbn [crawl] in *. rewrite get_S in *. exact H.
      + change (crawl (Datatypes.S n) create follow t d (dotdot :: c :: cs)) with
          (bind (get (Datatypes.S n) t d dotdot create false) (fun '(t, dir) => crawl (Datatypes.S n) create follow t dir (c :: cs))).
        rewrite get_S. cbv zeta. replace (str_eqb dotdot $"..") with true by reflexivity. cbn [bind]. exact H.
    - intros d c D P V. exists 0%nat. intros n _ create follow. cbn [names crawl]. now apply get_exists.
    - intros d c cs k d' q D P Hl (_ & [N1 H1] & D') NE PP S [N2 H2]. exists (N1 + N2)%nat. intros n L create follow.
      destruct cs as [|c' cs]; [congruence|]. specialize (H2 n ltac:(lia) create follow). cbn [names] in *.
      change (crawl (Datatypes.S n) create follow t d (c :: c' :: cs)) with
        (bind (get (Datatypes.S n) t d c create false) (fun '(t, dir) => crawl (Datatypes.S n) create follow t dir (c' :: cs))).
      rewrite get_exists; auto; [|]. 
      + cbn [bind]. rewrite (crawl_same (Datatypes.S n) create follow (d ++ [c]) d'); [exact H2|]. intros follow'. apply H1; [lia|]. now inversion PP.
      + inversion Hl as [p0 D0|k0 p0 l0 q0 d0 L0]; subst; [apply D0|]. intros E. unfold header_at in L0. unfold view_of in E.
        destruct (subtree t (d ++ [c])); discriminate.
  Qed.
  (** Walking the first part of a path, then the rest. *)
  Lemma crawl_rest a r q : r <> [] -> plain_path r -> forall d, steps d a q -> exists N, forall n, (N <= n)%nat -> forall create follow,
    crawl (S n) create follow t d (a ++ r) = crawl (S n) create follow t q r.
  Proof.
    intros NR PR d S. induction S as [d|d cs q S [N IH]|d c D P V|d c cs k d' q D P L NE PP S [N IH]].
    - exists 0%nat. reflexivity.
    - exists N. intros n LE create follow. rewrite <- (IH n LE). cbn [app]. destruct (cs ++ r) as [|x y] eqn:E; [destruct cs; [now destruct NR|discriminate]|].
      change (crawl (Datatypes.S n) create follow t d (dotdot :: x :: y)) with
        (bind (get (Datatypes.S n) t d dotdot create false) (fun '(t, dir) => crawl (Datatypes.S n) create follow t dir (x :: y))).
      rewrite get_S. cbv zeta. replace (str_eqb dotdot $"..") with true by reflexivity. reflexivity.
    - exists 0%nat. intros n LE create follow. destruct r as [|x y]; [now destruct NR|]. cbn [app].
      change (crawl (Datatypes.S n) create follow t d (c :: x :: y)) with
        (bind (get (Datatypes.S n) t d c create false) (fun '(t, dir) => crawl (Datatypes.S n) create follow t dir (x :: y))).
      rewrite get_exists by auto. reflexivity.
    - destruct (proj1 lands_ok _ _ _ L) as (_ & [N1 H1] & _). exists (N + N1)%nat. intros n LE create follow. rewrite <- (IH n ltac:(lia)). cbn [app].
      destruct cs as [|c' cs]; [congruence|]. cbn [app].
      change (crawl (Datatypes.S n) create follow t d (c :: c' :: cs ++ r)) with
        (bind (get (Datatypes.S n) t d c create false) (fun '(t, dir) => crawl (Datatypes.S n) create follow t dir (c' :: cs ++ r))).
      rewrite get_exists; auto.
      + cbn [bind]. apply crawl_same. intros follow'. apply H1; [lia|]. now inversion PP.
      + inversion L as [p0 D0|k0 p0 l0 q0 d0 L0]; subst; [apply D0|]. intros E. unfold header_at in L0. unfold view_of in E.
        destruct (subtree t (d ++ [c])); discriminate.
  Qed.
  Lemma crawl_dirs n create follow D r : leafy (view_of t) -> plain_path D -> r <> [] -> forall d, dirT (d ++ D) -> crawl (S n) create follow t d (D ++ r) = crawl (S n) create follow t (d ++ D) r.
  Proof.
    intros LF. revert r. induction D as [|c D IH]; intros r P NR d HD; [now rewrite app_nil_r|]. inversion P; subst. cbn [app].
    destruct (D ++ r) as [|x y] eqn:E; [destruct D; [now destruct NR|discriminate]|].
    change (crawl (S n) create follow t d (c :: x :: y)) with (bind (get (S n) t d c create false) (fun '(t, dir) => crawl (S n) create follow t dir (x :: y))).
    assert (V1 : view_of t (d ++ [c]) <> None).
    { destruct HD as [HD _]. replace (d ++ c :: D) with ((d ++ [c]) ++ D) in HD by now rewrite <- app_assoc. now apply closed_view in HD. }
    rewrite get_exists; auto.
    - cbn [bind]. rewrite <- E, IH; auto; rewrite <- app_assoc; auto.
    - split; [now apply closed_view in V1|]. rewrite header_view. destruct (non_dir (hdr_of (view_of t) d)) eqn:ND; auto. now apply (LF d c) in ND.
  Qed.
  Theorem fs_get_at_target a r q k D : leafy (view_of t) -> r <> [] -> plain_path a -> plain_path r -> plain_path D -> steps [] a q -> lands k q D ->
    exists N, forall n, (N <= n)%nat -> fs_get n t [] (path_text false (a ++ r)) true false = fs_get n t [] (path_text false (D ++ r)) true false.
  Proof.
    intros LF NR Pa Pr PD S L. destruct (crawl_rest a r q NR Pr [] S) as [N1 H1]. destruct (proj1 lands_ok _ _ _ L) as (_ & [N2 H2] & HD).
    exists (2 + N1 + N2)%nat. intros n LE. destruct n as [|[|n]]; try lia.
    assert (X : forall l, plain_path l -> l <> [] -> fs_get (Datatypes.S (Datatypes.S n)) t [] (path_text false l) true false = crawl (Datatypes.S n) true false t [] l).
    { intros l Pl Nl. rewrite fs_get_S, clean_of_text by now apply plain_clean. rewrite is_abs_text by now apply plain_clean. cbv iota.
      destruct l as [|c l]; [congruence|]. cbn [path_text].
      assert (NS : Forall (fun c => ~ In slash c) (c :: l)) by (eapply clean_list_no_slash, (plain_clean true), Pl).
      rewrite split_on_join; auto; discriminate. }
    rewrite !X; try (apply plain_path_app; auto); try (destruct a, D, r; congruence || discriminate).
    rewrite H1 by lia. rewrite (crawl_dirs n true false D r LF PD NR []) by exact HD. cbn [app].
    destruct r as [|c r]; [congruence|]. apply crawl_same. intros follow. apply H2; [lia|]. now inversion Pr.
  Qed.
End links.

(** *** the file system tells where links lead *)
Scheme follows_mut := Induction for follows Sort Prop with walks_mut := Induction for walks Sort Prop.
Combined Scheme follows_walks_ind from follows_mut, walks_mut.
Lemma real_only_step fs e p : good_entry e -> (forall p, fs p <> None -> real_path p) -> unpack_entry fs e p <> None -> real_path p.
Proof.
  intros G H. unfold unpack_entry. set (p' := entry_path e).
  assert (M : forall q, mkdirs fs (removelast p') q <> None -> real_path q).
  { intros q. unfold mkdirs. destruct (at_or_below q (removelast p')) eqn:A; [|apply H]. intros _.
    destruct (path_dec p' []) as [E|N].
    - rewrite E in A. destruct q; [split; constructor|discriminate].
    - apply (good_real_anc e); auto. fold p'. rewrite <- (path_parts p' N). now apply below_snoc. }
  destruct (marker_name (last p' [])) eqn:Mk.
  - destruct (str_eqb _ _).
    + unfold remove_below. destruct (below _ p); [congruence|apply M].
    + unfold remove. destruct (at_or_below _ p); [congruence|apply M].
  - assert (R : real_path p').
    { destruct G as [_ [R|(d & k & E & _ & _ & _ & K)]]; auto. exfalso. fold p' in E. rewrite E, last_last in Mk.
      destruct K as [->|(x & -> & _)]; [discriminate|]. rewrite wh_marker in Mk. discriminate. }
    destruct (is_dir e); unfold put_node; (destruct (path_dec p p') as [->|]; [auto|]); [apply M|].
    unfold remove_below. destruct (below p' p); [congruence|apply M].
Qed.
Definition no_root_link (fs : fsys) : Prop := forall p h c, fs p = Some (FFile h c) -> th_type h = TypeSymlink -> clean (th_link h) <> $"/".
Lemma no_root_link_step fs e : no_root_link fs -> ~ links_to_root e -> no_root_link (unpack_entry fs e).
Proof.
  intros H N p h c. unfold unpack_entry. set (p' := entry_path e).
  assert (M : forall q, mkdirs fs (removelast p') q = Some (FFile h c) -> th_type h = TypeSymlink -> clean (th_link h) <> $"/").
  { intros q. unfold mkdirs. destruct (at_or_below q (removelast p')); [|apply H]. destruct (fs q) as [[]|]; discriminate. }
  destruct (marker_name (last p' [])).
  - destruct (str_eqb _ _).
    + unfold remove_below. destruct (below _ p); [discriminate|apply M].
    + unfold remove. destruct (at_or_below _ p); [discriminate|apply M].
  - destruct (is_dir e); unfold put_node; (destruct (path_dec p p'); [|]).
    + discriminate.
    + apply M.
    + intros E. injection E as <- <-. intros T C. apply N. split; [|exact C]. unfold is_link. change (th_type (anon (fst e))) with (th_type (fst e)) in T. rewrite T. reflexivity.
    + unfold remove_below. destruct (below p' p); [discriminate|apply M].
Qed.
Section convert.
  Context (fs : fsys) (u : tree) (RO : forall p, fs p <> None -> real_path p) (AG : fagree fs (interp (view_of u) empty_root)) (NR : no_root_link fs).
  Lemma conv_dir p m : fs p = Some (FDir m) -> dirT u p.
  Proof.
    intros E. assert (R : real_path p) by (apply RO; congruence). specialize (AG p R). rewrite E in AG. unfold dirT. rewrite header_view. unfold hdr_of, interp in *.
    destruct (view_of u p) as [[[h|] b]|] eqn:V; cbn [fst].
    - destruct (byte_eqb (th_type h) TypeDir) eqn:D; [|destruct AG]. split; [congruence|]. cbn [non_dir]. now rewrite D.
    - split; [congruence|reflexivity].
    - unfold visible in AG. destruct (shadow _ _ _); [destruct AG|]. destruct p; [rewrite view_root in V; discriminate|destruct AG].
  Qed.
  Lemma conv_file p h c : fs p = Some (FFile h c) -> exists h', view_of u p = Some (Some h', c) /\ anon h' = h.
  Proof.
    intros E. assert (R : real_path p) by (apply RO; congruence). specialize (AG p R). rewrite E in AG. unfold interp in *.
    destruct (view_of u p) as [[[h'|] b]|] eqn:V.
    - destruct (byte_eqb (th_type h') TypeDir) eqn:D; [destruct AG|]. destruct AG as [-> ->]. eauto.
    - destruct AG.
    - unfold visible in AG. destruct (shadow _ _ _); [destruct AG|]. destruct p; destruct AG.
  Qed.
  Lemma conv_present p : fs p <> None -> view_of u p <> None.
  Proof.
    intros H. destruct (fs p) as [[m|h c]|] eqn:E; [|apply conv_file in E as (h' & E & _); congruence|congruence]. apply (conv_dir p m E).
  Qed.
  Lemma clean_list_plain r c cs : plain_comp c -> clean_list r (c :: cs) -> plain_path cs.
  Proof.
    intros P (k & ps & E & Hp & _). destruct k as [|k].
    - cbn [repeat app] in E. subst ps. now inversion Hp.
    - cbn [repeat app] in E. injection E as -> _. now destruct P as (_ & _ & _ & P).
  Qed.
  Lemma clean_list_tail r c cs : clean_list r (c :: cs) -> exists r', clean_list r' cs.
  Proof.
    intros (k & ps & E & Hp & _). exists false. destruct k as [|k].
    - cbn [repeat app] in E. subst ps. inversion Hp; subst. now apply plain_clean.
    - cbn [repeat app] in E. injection E as _ ->. exists k, ps. split; auto. split; auto. discriminate.
  Qed.
  Theorem convert :
    (forall p d, follows fs p d -> exists k, lands u k p d) /\
    (forall d cs q, walks fs d cs q -> (exists r, clean_list r cs) -> steps u d cs q).
  Proof.
    apply (follows_walks_ind fs (fun p d _ => exists k, lands u k p d) (fun d cs q _ => (exists r, clean_list r cs) -> steps u d cs q)).
    - intros p m E. exists 0%nat. apply lands_dir. now apply (conv_dir p m).
    - intros p h c q d E T _ IHs _ [k IHl]. exists (S k). pose proof (NR p h c E T) as N. apply conv_file in E as (h' & V & A).
      eapply lands_link with (l := th_link h) (q := q); auto.
      + rewrite header_view. unfold hdr_of. rewrite V. cbn [fst Squash.link_of]. rewrite <- A in T |- *. change (th_type (anon h')) with (th_type h') in T. rewrite T. reflexivity.
      + apply IHs. exists (is_abs (th_link h)). apply clean_comps_list.
    - intros d _. apply steps_nil.
    - intros d cs q _ IH [r CL]. apply steps_up. apply IH. eapply clean_list_tail, CL.
    - intros d m c E P N _. apply steps_last; auto; [now apply (conv_dir d m)|now apply conv_present].
    - intros d m c cs d' q E P _ [k IHl] NE _ IHs [r CL]. eapply steps_down; eauto.
      + now apply (conv_dir d m).
      + eapply clean_list_plain; eauto.
      + apply IHs. eapply clean_list_tail, CL.
  Qed.
  Lemma follows_end p d : follows fs p d -> exists m, fs d = Some (FDir m).
  Proof. induction 1; eauto. Qed.
End convert.
Lemma more_load_entry n m t e t' : load_entry n t e = Ret t' -> (n <= m)%nat -> load_entry m t e = Ret t'.
Proof.
  intros E L. induction L as [|m L IH]; auto. rewrite <- IH. symmetry. destruct (le_load_entry m t e) as [X|X]; auto. congruence.
Qed.
