(** Entries written through symbolic links, to directories that exist or that
    are made on the way. *)
From Coq Require Import String Ascii List Bool ZArith Lia Permutation Sorted.
From Verif.Model Require Import GoStr GoPath Tar Squash.
From Verif.Spec Require Import PathSpec SquashSpec SimpleAPISpec.
From Verif.Proofs Require Import Order GoStrFacts GoPathFacts SquashTree SquashLoad SquashSim SquashStack SquashWf SquashInv SquashWrite SquashReload SquashMain SquashFinal SquashMore SquashLinks.
Import ListNotations.
Local Open Scope nat_scope.
Local Arguments byte_eqb : simpl never.
Local Arguments str_eqb : simpl never.
Local Arguments clean : simpl never.

(** *** crawling in parts *)
Lemma crawl_cons m create follow t d c x y : crawl m create follow t d (c :: x :: y) =
  bind (get m t d c create false) (fun '(t, dir) => crawl m create follow t dir (x :: y)).
Proof. reflexivity. Qed.
Lemma get_follow n t d c create : get (S n) t d c create true = bind (get (S n) t d c create false) (fun '(t, r) => resolve n t r create []).
Proof.
  rewrite !get_S. cbv zeta. destruct (str_eqb c $".."); [reflexivity|]. destruct (str_eqb c $"."); [reflexivity|].
  destruct (match Squash.link_of (header_at t d) with Some l => _ | None => _ end) as [[t1 f1]| |]; cbn [bind]; auto.
  destruct (if non_dir (header_at t1 f1) then _ else _) as [t2| |]; cbn [bind]; auto.
  destruct (subtree t2 (f1 ++ [c])); [reflexivity|]. destruct create; reflexivity.
Qed.
Lemma crawl_app m follow cs r : forall t d, cs <> [] -> r <> [] ->
  crawl m true follow t d (cs ++ r) = bind (crawl m true false t d cs) (fun '(t', q) => crawl m true follow t' q r).
Proof.
  induction cs as [|c cs IH]; intros t d N Nr; [congruence|]. destruct cs as [|c' cs].
  - destruct r as [|x r]; [congruence|]. reflexivity.
  - cbn [app]. rewrite !crawl_cons. destruct (get m t d c true false) as [[t1 d1]| |]; cbn [bind]; auto. now rewrite <- IH by (auto; discriminate).
Qed.
Lemma crawl_follow n cs : forall t d, cs <> [] ->
  crawl (S n) true true t d cs = bind (crawl (S n) true false t d cs) (fun '(t', q) => resolve n t' q true []).
Proof.
  induction cs as [|c cs IH]; intros t d N; [congruence|]. destruct cs as [|c' cs]; [apply get_follow|]. rewrite !crawl_cons.
  destruct (get (S n) t d c true false) as [[t1 d1]| |]; cbn [bind]; auto. apply IH. discriminate.
Qed.
Lemma vmkdirs_other ds : forall v f q, (forall a b, ds = a ++ b -> q <> f ++ a /\ q <> f ++ a ++ [opq]) -> vmkdirs_from v f ds q = v q.
Proof.
  induction ds as [|k ds IH]; intros v f q H; cbn [vmkdirs_from].
  - destruct (H [] [] eq_refl) as [H1 H2]. rewrite app_nil_r in H1. now apply vmkdir_other.
  - rewrite IH.
    + destruct (H [] (k :: ds) eq_refl) as [H1 H2]. rewrite app_nil_r in H1. now apply vmkdir_other.
    + intros a b E. rewrite <- !app_assoc. cbn [app]. apply (H (k :: a) b). now rewrite E.
Qed.
Lemma le_crawl n create follow cs : forall t d, le_run (crawl n create follow t d cs) (crawl (S n) create follow t d cs).
Proof.
  induction cs as [|c cs IH]; intros t d; [now right|]. destruct cs as [|c' cs]; [apply le_get|]. rewrite !crawl_cons.
  apply le_bind; [apply le_get|]. intros [t1 d1]. apply IH.
Qed.
Section create.
  Context (t : tree) (LF : leafy (view_of t)).
  (** No link at a path or above it. *)
  Definition clear_above (p : pos) : Prop := forall a x b, p = a ++ x :: b -> Squash.link_of (header_at t a) = None.
  Definition clear (p : pos) : Prop := real_path p /\ clear_above p /\ Squash.link_of (header_at t p) = None.
  Lemma above_app p q : clear_above (p ++ q) -> clear_above p.
  Proof. intros H a x b E. apply (H a x (b ++ q)). rewrite E, <- app_assoc. reflexivity. Qed.
  Lemma above_dir p : view_of t p <> None -> clear_above p.
  Proof.
    intros V a x b E. apply dir_not_link. rewrite header_view. destruct (non_dir (hdr_of (view_of t) a)) eqn:ND; auto. exfalso. apply V. rewrite E.
    apply (LF a x) in ND. destruct (view_of t (a ++ x :: b)) eqn:W; auto. exfalso. apply (closed_view t (a ++ [x]) b); [|exact ND]. rewrite <- app_assoc. cbn [app]. congruence.
  Qed.
  (** [t'] is the tree after going to [D]. *)
  Definition arrives (D : pos) (t' : tree) : Prop :=
    Squash.link_of (header_at t' D) = None /\
    ((D = [] /\ t' = t) \/ (D <> [] /\ forall n, crawl (S (S (S n))) true false t [] D = Ret (t', D))).
  Lemma arrive D : clear D -> exists t', arrives D t'.
  Proof.
    intros (R & A & L). destruct D as [|c cs]; [exists t; split; auto|].
    assert (O : forall a x b, c :: cs = a ++ x :: b -> x <> opq).
    { intros a x b E ->. rewrite E in R. apply real_snoc, real_not_marker in R. rewrite opq_marker in R. discriminate. }
    assert (H : forall n, exists t', crawl (S (S (S n))) true false t [] (c :: cs) = Ret (t', c :: cs) /\ Squash.link_of (header_at t' (c :: cs)) = None).
    { intros n. destruct (crawl_view n cs c t []) as (t' & E & L' & V); auto.
      - constructor.
      - apply R.
      - now rewrite view_root.
      - intros a k b E. cbn [app]. rewrite <- header_view. now apply (A a k b).
      - intros I. apply in_split in I as (a & b & I).
        destruct (exists_last (l := c :: cs)) as (l & x & El); [discriminate|]. rewrite El in I. rewrite removelast_last in I.
        apply (O a opq (b ++ [x])); auto. rewrite El, I, <- app_assoc. reflexivity.
      - exists t'. split; auto. rewrite header_view, (hdr_veq _ _ _ V), ensure_hdr. unfold hdr_of. rewrite vmkdirs_other.
        + rewrite header_view in L. exact L.
        + destruct (exists_last (l := c :: cs)) as (l & x & El); [discriminate|]. cbn [app]. rewrite El, removelast_last. intros a b ->. split.
          * intros E'. apply (f_equal (@length _)) in E'. rewrite !app_length in E'. cbn [length] in E'. lia.
          * rewrite El in O. intros E'. apply app_inj_tail in E' as [_ E']. exact (O (a ++ b) x [] eq_refl E'). }
    destruct (H 0) as (t' & E & L'). exists t'. split; auto. right. split; [discriminate|]. induction n as [|n IH]; auto.
    destruct (le_crawl (S (S (S n))) true false (c :: cs) t []) as [X|X]; congruence.
  Qed.
  Lemma arrives_crawl D t' n follow r : arrives D t' -> r <> [] ->
    crawl (S (S (S n))) true follow t [] (D ++ r) = crawl (S (S (S n))) true follow t' D r.
  Proof.
    intros [_ [[-> ->]|[N H]]] Nr; [reflexivity|]. rewrite crawl_app by auto. rewrite H. reflexivity.
  Qed.
  Lemma arrives_unique D t1 t2 : arrives D t1 -> arrives D t2 -> t1 = t2.
  Proof.
    intros [_ [[E1 ->]|[N1 A1]]] [_ [[E2 ->]|[N2 A2]]]; auto; try congruence. specialize (A1 0). specialize (A2 0). congruence.
  Qed.
  Lemma dir_above d c : view_of t (d ++ [c]) <> None -> dirT t d.
  Proof.
    intros V. split; [now apply closed_view in V|]. rewrite header_view. destruct (non_dir (hdr_of (view_of t) d)) eqn:ND; auto. now apply (LF d c) in ND.
  Qed.
  Lemma arrives_existing D t' : plain_path D -> view_of t D <> None -> arrives D t' -> t' = t.
  Proof.
    intros P V [_ [[_ E]|[N H]]]; auto. specialize (H 0). destruct (exists_last N) as (d & c & ->). apply plain_path_app in P as [Pd Pc]. inversion Pc; subst.
    rewrite (crawl_dirs t _ true false d [c] LF Pd) in H by (discriminate || (cbn [app]; eapply dir_above; eauto)). cbn [app crawl] in H.
    rewrite get_exists in H by (auto; eapply dir_above; eauto). congruence.
  Qed.

  Inductive comes : nat -> pos -> pos -> Prop :=
  | comes_end p : clear p -> comes 0 p p
  | comes_link k p l q d : Squash.link_of (header_at t p) = Some l -> clean l <> $"/" ->
      goes (if is_abs l then [] else parent p) (clean_comps l) q -> comes k q d -> comes (S k) p d
  with goes : pos -> list str -> pos -> Prop :=
  | goes_nil d : view_of t d <> None -> goes d [] d
  | goes_up d cs q : goes (parent d) cs q -> goes d (dotdot :: cs) q
  | goes_last d c : dirT t d -> plain_comp c -> view_of t (d ++ [c]) <> None -> goes d [c] (d ++ [c])
  | goes_miss d c cs : dirT t d -> plain_comp c -> view_of t (d ++ [c]) = None -> clear (d ++ c :: cs) -> goes d (c :: cs) (d ++ c :: cs)
  | goes_down d c cs k d' q : dirT t d -> plain_comp c -> view_of t (d ++ [c]) <> None -> comes k (d ++ [c]) d' -> dirT t d' -> cs <> [] -> plain_path cs ->
      goes d' cs q -> goes d (c :: cs) q
  | goes_off d c cs k d' : dirT t d -> plain_comp c -> view_of t (d ++ [c]) <> None -> comes k (d ++ [c]) d' -> cs <> [] -> plain_path cs ->
      clear (d' ++ cs) -> ~ dirT t d' -> goes d (c :: cs) (d' ++ cs).
  Scheme comes_mut := Induction for comes Sort Prop with goes_mut := Induction for goes Sort Prop.
  Combined Scheme comes_goes_ind from comes_mut, goes_mut.
  Lemma clear_link p l : clear p -> Squash.link_of (header_at t p) = Some l -> False.
  Proof. intros (_ & _ & H) E. congruence. Qed.
  Lemma comes_clear k q d : comes k q d -> clear q -> k = 0 /\ d = q.
  Proof. intros C H. inversion C; subst; auto. exfalso. eapply clear_link; eauto. Qed.
  Lemma comes_end_clear k q d : comes k q d -> clear d.
  Proof. induction 1; auto. Qed.
  Lemma comes_det :
    (forall k p d, comes k p d -> forall k' d', comes k' p d' -> k = k' /\ d = d') /\
    (forall d cs q, goes d cs q -> forall q', goes d cs q' -> q = q').
  Proof.
    assert (PD : plain_comp dotdot -> False) by (intros (_ & _ & _ & P); now apply P).
    apply (comes_goes_ind (fun k p d _ => forall k' d', comes k' p d' -> k = k' /\ d = d') (fun d cs q _ => forall q', goes d cs q' -> q = q')).
    - intros p C k' d' H. apply comes_clear in H as [-> ->]; auto.
    - intros k p l q d L N _ IHs _ IHl k' d' H. inversion H as [p0 D|k0 p0 l0 q0 d0 L0 N0 S0 H0]; subst.
      + exfalso. eapply clear_link; eauto.
      + rewrite L in L0. injection L0 as <-. apply IHs in S0 as <-. apply IHl in H0 as [<- <-]. auto.
    - intros d V q' H. now inversion H.
    - intros d cs q _ IH q' H. inversion H; subst; auto; exfalso; auto.
    - intros d c D P V q' H. inversion H; subst; auto; try congruence; exfalso; auto.
    - intros d c cs D P V C q' H. inversion H; subst; auto; try congruence; exfalso; auto.
    - intros d c cs k d' q D P V _ IHl D' N PP _ IHs q' H. inversion H as [| | | |? ? ? ? ? ? ? ? ? X|? ? ? ? ? ? ? ? X]; subst; auto; try congruence; try (exfalso; auto; fail).
      + apply IHl in X as [<- <-]. auto.
      + apply IHl in X as [<- <-]. contradiction.
    - intros d c cs k d' D P V _ IHl N PP C ND q' H. inversion H as [| | | |? ? ? ? ? ? ? ? ? X|? ? ? ? ? ? ? ? X]; subst; auto; try congruence; try (exfalso; auto; fail).
      + apply IHl in X as [<- <-]. contradiction.
      + apply IHl in X as [<- <-]. auto.
  Qed.
  Definition crawls_to (d : pos) (cs : list str) (q : pos) : Prop := exists N t',
    (forall n, (N <= n)%nat -> forall follow, crawl (S n) true follow t d (names cs) = if follow then resolve n t' q true [] else Ret (t', q)) /\
    ((t' = t /\ view_of t q <> None) \/ (arrives q t' /\ clear q)).
  Definition comes_to (k : nat) (p d : pos) : Prop := exists N t', arrives d t' /\ (view_of t p <> None ->
    (forall n, (N <= n)%nat -> forall stack, (forall q, In q stack -> exists k' d', comes k' q d' /\ (k < k')%nat) -> resolve n t p true stack = Ret (t', d)) /\
    (forall n, (N <= n)%nat -> forall c follow, plain_comp c -> get (S n) t p c true follow = get (S n) t' d c true follow)).
  Lemma link_view p l : Squash.link_of (header_at t p) = Some l -> view_of t p <> None.
  Proof. intros L E. unfold header_at in L. unfold view_of in E. destruct (subtree t p); discriminate. Qed.
  Lemma fs_get_to n p l q t' follow : clean l <> $"/" ->
    crawl (S n) true follow t (if is_abs l then [] else parent p) (names (clean_comps l)) = (if follow then resolve n t' q true [] else Ret (t', q)) ->
    fs_get (S (S n)) t (parent p) l true follow = if follow then resolve n t' q true [] else Ret (t', q).
  Proof. intros N H. rewrite fs_get_S, link_text by auto. rewrite clean_text, is_abs_text by apply clean_comps_list. exact H. Qed.
  Lemma crawl_same2 m follow s s' p d c cs : (forall follow, get m s p c true follow = get m s' d c true follow) ->
    crawl m true follow s p (c :: cs) = crawl m true follow s' d (c :: cs).
  Proof. intros H. destruct cs; [apply H|]. rewrite !crawl_cons. now rewrite H. Qed.
  Lemma new_end q : q <> [] -> clear q -> exists t', arrives q t' /\
    forall n, crawl (S (S (S (S n)))) true true t [] q = resolve (S (S (S n))) t' q true [] /\ crawl (S (S (S (S n)))) true false t [] q = Ret (t', q).
  Proof.
    intros N C. destruct (arrive q C) as [t' A]. exists t'. split; auto. destruct A as [_ [[E _]|[_ H]]]; [congruence|]. intros n. split; [|apply (H (S n))].
    rewrite crawl_follow by auto. rewrite (H (S n)). reflexivity.
  Qed.
  Theorem comes_ok : (forall k p d, comes k p d -> comes_to k p d) /\ (forall d cs q, goes d cs q -> crawls_to d cs q).
  Proof.
    apply (comes_goes_ind (fun k p d _ => comes_to k p d) (fun d cs q _ => crawls_to d cs q)).
    - intros p C. destruct (arrive p C) as [t' A]. exists 1, t'. split; auto. intros V. assert (t' = t) as -> by (apply (arrives_existing p); auto; apply C).
      split; [|reflexivity]. intros [|n] L stack _; [lia|]. apply resolve_nolink, A.
    - intros k p l q d L NR S (N1 & t1 & H1 & K) Hl (N2 & t2 & A2 & H2).
      assert (R : forall n, (N1 + N2 + 3 <= n)%nat -> forall stack, (forall x, In x stack -> exists k' d', comes k' x d' /\ (k < k')%nat) -> resolve n t1 q true stack = Ret (t2, d)).
      { intros n LE stack ST. destruct K as [[-> V]|[A C]]; [apply H2; auto; lia|].
        destruct (comes_clear k q d Hl C) as [-> ->]. destruct n as [|n]; [lia|]. rewrite resolve_nolink by apply A. f_equal.
        f_equal. eapply arrives_unique; eauto. }
      exists (N1 + N2 + 6), t2. split; auto. intros _. split.
      + intros n LE stack ST. destruct n as [|[|[|n]]]; try lia. rewrite resolve_S, L.
        match goal with |- context [existsb ?f stack] => replace (existsb f stack) with false end.
        * rewrite (fs_get_to n p l q t1 false NR) by (apply H1; lia). cbn [bind]. apply R; [lia|].
          intros x [<-|I]; [exists (Datatypes.S k), d; split; [eapply comes_link; eauto|lia]|]. destruct (ST x I) as (k' & d' & Hx & Lx). exists k', d'. split; auto. lia.
        * symmetry. apply not_true_is_false. intros Ex. apply existsb_exists in Ex as (x & I & E). destruct (list_eq_dec _ p x) as [->|]; [|discriminate].
          destruct (ST x I) as (k' & d' & Hx & Lx). assert (LL : comes (Datatypes.S k) x d) by (eapply comes_link; eauto).
          destruct (proj1 comes_det _ _ _ LL _ _ Hx) as [X _]. lia.
      + intros n LE c follow P. destruct n as [|[|n]]; try lia. destruct (plain_keys _ P) as [K1 K2].
        rewrite !get_S. cbv zeta. rewrite K1, K2, L, (proj1 A2). rewrite (fs_get_to n p l q t1 true NR) by (apply (H1 n ltac:(lia) true)).
        rewrite R; [reflexivity|lia|intros x []].
    - intros d V. exists 0, t. split; [|now left]. intros n _ follow. cbn [names crawl]. rewrite get_S. reflexivity.
    - intros d cs q S (N & t' & H & K). exists N, t'. split; auto. intros n L follow. specialize (H n L follow). cbn [names] in *.
      destruct cs as [|c cs].
      + inversion S; subst. cbn [names crawl] in *. rewrite get_S in *. exact H.
      + rewrite crawl_cons, get_S. cbv zeta. replace (str_eqb dotdot $"..") with true by reflexivity. cbn [bind]. exact H.
    - intros d c D P V. exists 0, t. split; [|now left]. intros n _ follow. cbn [names crawl]. now apply get_exists.
    - intros d c cs D P V C. destruct (new_end (d ++ c :: cs)) as (t' & A & H); auto; [now destruct d|]. exists 3, t'. split; auto.
      intros n L follow. destruct n as [|[|[|n]]]; try lia. cbn [names]. destruct (H n) as [Ht Hf].
      assert (Pd : plain_path d) by (destruct C as ((PP & _) & _); now apply plain_path_app in PP).
      pose proof (crawl_dirs t (Datatypes.S (Datatypes.S (Datatypes.S n))) true follow d (c :: cs) LF Pd ltac:(discriminate) [] D) as X. cbn [app] in X.
      rewrite <- X. destruct follow; [exact Ht|exact Hf].
    - intros d c cs k d' q D P V Hl (N1 & t1 & A1 & H1) D' NE PP S (N2 & t2 & H2 & K). exists (N1 + N2), t2. split; auto. intros n L follow.
      destruct cs as [|c' cs]; [congruence|]. cbn [names]. rewrite crawl_cons, get_exists by auto. cbn [bind].
      destruct (H1 V) as [_ G]. assert (t1 = t) as -> by (apply (arrives_existing d'); auto; [apply (comes_end_clear _ _ _ Hl)|apply D']).
      rewrite (crawl_same2 _ follow t t (d ++ [c]) d'); [apply H2; lia|]. intros follow'. apply G; [lia|]. now inversion PP.
    - intros d c cs k d' D P V Hl (N1 & t1 & A1 & H1) NE PP C _. destruct (new_end (d' ++ cs)) as (t' & A & H); auto; [now destruct d'|].
      exists (3 + N1), t'. split; auto. intros n L follow. destruct n as [|[|[|n]]]; try lia. destruct (H n) as [Ht Hf].
      destruct cs as [|c' cs]; [congruence|]. cbn [names]. rewrite crawl_cons, get_exists by auto. cbn [bind]. destruct (H1 V) as [_ G].
      rewrite (crawl_same2 _ follow t t1 (d ++ [c]) d') by (intros follow'; apply G; [lia|]; now inversion PP).
      rewrite <- (arrives_crawl d' t1 _ follow (c' :: cs)) by (auto; discriminate). destruct follow; [exact Ht|exact Hf].
  Qed.
  Theorem fs_get_at a r q k D : r <> [] -> plain_path a -> plain_path r -> goes [] a q -> comes k q D ->
    exists N, forall n, (N <= n)%nat -> fs_get n t [] (path_text false (a ++ r)) true false = fs_get n t [] (path_text false (D ++ r)) true false.
  Proof.
    intros NR Pa Pr GO L. destruct (proj1 comes_ok _ _ _ L) as (N2 & t2 & A2 & H2). destruct (proj2 comes_ok _ _ _ GO) as (N1 & t1 & H1 & K).
    assert (PD : plain_path D) by apply (comes_end_clear _ _ _ L).
    exists (5 + N1 + N2)%nat. intros n LE. destruct n as [|[|[|[|n]]]]; try lia.
    assert (X : forall l, plain_path l -> l <> [] -> fs_get (S (S (S (S n)))) t [] (path_text false l) true false = crawl (S (S (S n))) true false t [] l).
    { intros l Pl Nl. rewrite fs_get_S, clean_of_text by now apply plain_clean. rewrite is_abs_text by now apply plain_clean. cbv iota.
      destruct l as [|c l]; [congruence|]. cbn [path_text].
      assert (NS : Forall (fun c => ~ In slash c) (c :: l)) by (eapply clean_list_no_slash, (plain_clean true), Pl).
      rewrite split_on_join; auto; discriminate. }
    rewrite !X; try (apply plain_path_app; auto); try (destruct a, D, r; congruence || discriminate).
    rewrite (arrives_crawl D t2) by auto.
    assert (Y : crawl (S (S (S n))) true false t [] (a ++ r) = crawl (S (S (S n))) true false t1 q r).
    { destruct a as [|c a].
      - inversion GO; subst. cbn [app]. specialize (H1 (2 + n + N1)%nat ltac:(lia) false). cbn [names crawl] in H1. rewrite get_S in H1. cbn in H1. now injection H1 as <-.
      - rewrite crawl_app by (auto; discriminate). pose proof (H1 (S (S n)) ltac:(lia) false) as Z. cbn [names] in Z. rewrite Z. reflexivity. }
    rewrite Y. destruct K as [[-> V]|[A C]].
    - destruct r as [|c r]; [congruence|]. apply crawl_same2. intros follow. apply H2; auto; [lia|]. now inversion Pr.
    - destruct (comes_clear k q D L C) as [_ ->]. f_equal. eapply arrives_unique; eauto.
  Qed.
End create.

(** *** the file system tells where entries are put *)
Scheme leads_mut := Induction for leads Sort Prop with reaches_mut := Induction for reaches Sort Prop.
Combined Scheme leads_reaches_ind from leads_mut, reaches_mut.
Section found.
  Context (fs : fsys) (u : tree) (LF : leafy (view_of u)) (RO : forall p, fs p <> None -> real_path p) (AG : fagree fs (interp (view_of u) empty_root)).
  Lemma leads_real q D : leads fs q D -> real_path D -> real_path q.
  Proof. intros L R. inversion L as [|? h c q' d E]; subst; auto. apply RO. congruence. Qed.
  Lemma none_view p : real_path p -> fs p = None -> view_of u p = None.
  Proof.
    intros R E. specialize (AG p R). rewrite E in AG. unfold interp in AG. destruct (view_of u p) as [[[h|] b]|]; auto; [destruct (byte_eqb _ _)|]; destruct AG.
  Qed.
  Lemma nolink_view p : real_path p -> ~ is_symlink_at fs p -> Squash.link_of (header_at u p) = None.
  Proof.
    intros R N. rewrite header_view. unfold hdr_of. destruct (view_of u p) as [[[h|] b]|] eqn:V; auto. cbn [fst Squash.link_of].
    destruct (byte_eqb (th_type h) TypeSymlink) eqn:T; auto. exfalso. apply N.
    assert (D : byte_eqb (th_type h) TypeDir = false). { apply byte_eqb_eq in T. rewrite T. reflexivity. }
    specialize (AG p R). unfold interp in AG. rewrite V, D in AG. unfold agree in AG. destruct (fs p) as [[m|h' c]|] eqn:E; try contradiction.
    exists h', c. split; auto. destruct AG as [-> _]. apply byte_eqb_eq in T. exact T.
  Qed.
  Lemma dir_view p : is_dir_at fs p -> dirT u p.
  Proof. intros [m E]. now apply (conv_dir fs u RO AG p m). Qed.
  Lemma view_dir p : real_path p -> dirT u p -> is_dir_at fs p.
  Proof.
    intros R [V N]. specialize (AG p R). rewrite header_view in N. unfold interp, hdr_of in *. destruct (view_of u p) as [[h b]|]; [|congruence]. cbn [fst] in N.
    destruct (fs p) as [[m|h' c]|] eqn:E; [now exists m| |]; exfalso; destruct h as [h|]; cbn [non_dir] in N; try (destruct (byte_eqb (th_type h) TypeDir); [|discriminate]); exact AG.
  Qed.
  Lemma dir_real p : is_dir_at fs p -> real_path p.
  Proof. intros [m E]. apply RO. congruence. Qed.
  Lemma above_snoc d c : clear_above u d -> Squash.link_of (header_at u d) = None -> clear_above u (d ++ [c]).
  Proof.
    intros A L a x b E. destruct (exists_last (l := x :: b)) as (b' & y & Eb); [discriminate|]. rewrite Eb, app_assoc in E. apply app_inj_tail in E as [E _].
    destruct b' as [|z b']; [rewrite app_nil_r in E; now subst|]. apply (A a z b'). exact E.
  Qed.
  Lemma above_nothing d cs : clear_above u d -> Squash.link_of (header_at u d) = None -> (forall x r, view_of u (d ++ x :: r) = None) -> clear_above u (d ++ cs).
  Proof.
    intros A L V. induction cs as [|c cs IH] using rev_ind; [now rewrite app_nil_r|]. rewrite app_assoc. apply above_snoc; auto.
    destruct cs as [|x r]; [now rewrite app_nil_r|]. rewrite header_view. unfold hdr_of. now rewrite V.
  Qed.
  Lemma clean_plain d cs r : plain_comp d -> clean_list r (d :: cs) -> plain_path (d :: cs).
  Proof. intros P H. constructor; auto. eapply clean_list_plain; eauto. Qed.
  (** what is not a directory has nothing below it *)
  Lemma nothing_below d : real_path d -> ~ is_dir_at fs d -> forall x r, view_of u (d ++ x :: r) = None.
  Proof.
    intros R N x r. destruct (view_of u (d ++ x :: r)) eqn:V; auto. exfalso. apply N. apply view_dir; auto. apply (dir_above u LF d x).
    intros E. apply (closed_view u (d ++ [x]) r); [|exact E]. rewrite <- app_assoc. cbn [app]. congruence.
  Qed.
  Lemma reaches_start d cs q : reaches fs d cs q -> plain_path cs -> cs <> [] -> real_path q -> real_path d.
  Proof.
    intros H P N R. inversion H as [|? ? ? ? | |? ? ? ? ? ? ? ? ? ?|]; subst; try congruence.
    - inversion P as [|? ? (_ & _ & _ & X)]; subst. now destruct X.
    - now apply dir_real.
    - now apply dir_real.
    - now apply real_app in R.
  Qed.
  Definition start (d : path) (cs : list str) : Prop := (plain_path cs /\ cs <> []) \/ dirT u d \/ (is_symlink_at fs d /\ view_of u d <> None).
  Lemma start_up d cs : start d (dotdot :: cs) -> start (removelast d) cs /\ (dirT u (removelast d) \/ is_symlink_at fs (removelast d)).
  Proof.
    intros [[P _]|H]; [inversion P as [|? ? (_ & _ & _ & X)]; now destruct X|].
    assert (V : view_of u d <> None) by (destruct H as [[V _]|[_ V]]; exact V).
    destruct (path_dec d []) as [->|N]; [cbn [removelast]; unfold start; tauto|]. destruct (exists_last N) as (d' & x & ->). rewrite removelast_last.
    assert (D : dirT u d') by now apply (dir_above u LF d' x). unfold start. tauto.
  Qed.
  Lemma goes_dir d cs q : goes u d cs q -> plain_path cs -> cs <> [] -> dirT u d.
  Proof. intros G P N. inversion G; subst; auto; [congruence|]. inversion P as [|? ? (_ & _ & _ & X)]; subst. now destruct X. Qed.
  Theorem found :
    (forall p D, leads fs p D -> real_path D -> clear_above u p -> exists k, comes u k p D) /\
    (forall d cs q, reaches fs d cs q -> (exists r, clean_list r cs) -> real_path q -> clear_above u d -> start d cs ->
       clear_above u q /\ (goes u d cs q \/ (~ dirT u d /\ ~ is_symlink_at fs d /\ cs <> [] /\ plain_path cs /\ q = d ++ cs /\ clear u q))).
  Proof.
    apply (leads_reaches_ind fs (fun p D _ => real_path D -> clear_above u p -> exists k, comes u k p D)
      (fun d cs q _ => (exists r, clean_list r cs) -> real_path q -> clear_above u d -> start d cs ->
       clear_above u q /\ (goes u d cs q \/ (~ dirT u d /\ ~ is_symlink_at fs d /\ cs <> [] /\ plain_path cs /\ q = d ++ cs /\ clear u q)))).
    - intros p N R A. exists 0. apply comes_end. repeat split; auto; try apply R. now apply nolink_view.
    - intros p h c q d E T N H IHr L IHl R A. pose proof (conv_file fs u RO AG p h c E) as (h' & V & An).
      assert (Vp : view_of u p <> None) by congruence.
      assert (Y : is_symlink_at fs p) by (exists h, c; auto).
      assert (ST : forall cs, let b := (if is_abs (th_link h) then [] else removelast p) in start b cs /\ (dirT u b \/ is_symlink_at fs b) /\ clear_above u b).
      { intros cs b. assert (X : dirT u b \/ (is_symlink_at fs b /\ view_of u b <> None)).
        { unfold b. destruct (path_dec p []) as [->|Np]; [cbn [removelast]; destruct (is_abs (th_link h)); auto|]. left.
          destruct (exists_last Np) as (d' & x & ->). rewrite removelast_last. assert (D : dirT u d') by now apply (dir_above u LF d' x).
          destruct (is_abs _); auto. destruct d' as [|y d']; auto. apply (dir_above u LF [] y). cbn [app]. destruct D as [D _].
          now apply (closed_view u [y] d') in D. }
        split; [|split]; [unfold start; tauto|tauto|]. apply (above_dir u LF). destruct X as [[X _]|[_ X]]; exact X. }
      destruct (ST (clean_comps (th_link h))) as (S1 & S2 & S3).
      destruct IHr as [Aq [G|(B1 & B2 & _)]]; auto.
      + exists (is_abs (th_link h)). apply clean_comps_list.
      + eapply leads_real; eauto.
      + destruct (IHl R Aq) as [k K]. exists (S k). eapply comes_link with (l := th_link h) (q := q); auto.
        rewrite header_view. unfold hdr_of. rewrite V. cbn [fst Squash.link_of]. rewrite <- An in T |- *. change (th_type (anon h')) with (th_type h') in T. rewrite T. reflexivity.
      + exfalso. tauto.
    - intros d _ R A [[_ X]|S1]; [congruence|]. split; auto. left. apply goes_nil. destruct S1 as [[V _]|[_ V]]; exact V.
    - intros d cs q _ IH [r CL] R A S1. destruct (start_up d cs S1) as [S2 S3].
      destruct IH as [Aq [G|(B1 & B2 & _)]]; auto; [eapply clean_list_tail, CL| |split; auto; left; now apply goes_up|exfalso; tauto].
      destruct (path_dec d []) as [->|Np]; auto. destruct (exists_last Np) as (d' & x & ->). rewrite removelast_last. now apply above_app in A.
    - intros d c D P _ R A S1. apply dir_view in D. assert (Aq : clear_above u (d ++ [c])) by (apply above_snoc; auto; now apply dirT_link).
      split; auto. left. destruct (view_of u (d ++ [c])) eqn:V; [apply goes_last; auto; congruence|]. apply goes_miss; auto. repeat split; auto; try apply R.
      rewrite header_view. unfold hdr_of. now rewrite V.
    - intros d c cs d' q D P _ IHl NE H IHr [r CL] R A S1. apply dir_view in D. assert (PP : plain_path cs) by (eapply clean_list_plain; eauto).
      assert (Ac : clear_above u (d ++ [c])) by (apply above_snoc; auto; now apply dirT_link).
      destruct IHl as [k K]; auto; [eapply reaches_start; eauto|]. pose proof (comes_end_clear u k _ d' K) as (Rd & Ad & Ld).
      destruct IHr as [Aq [G|(B1 & B2 & _ & _ & -> & C)]]; auto; [eapply clean_list_tail; eauto|left; auto| |].
      + split; auto. left. assert (D' : dirT u d') by (eapply goes_dir; eauto). eapply goes_down; eauto.
        intros V. inversion K as [|? ? l ? ? L]; subst; [now destruct D'|]. now apply link_view in L.
      + split; auto. left. destruct (view_of u (d ++ [c])) eqn:V; [eapply goes_off; eauto; congruence|].
        assert (d' = d ++ [c]) as ->. { inversion K as [|? ? l ? ? L]; subst; auto. now apply link_view in L. }
        rewrite <- app_assoc in C |- *. cbn [app] in *. now apply goes_miss.
    - intros d cs ND NS NE PP _ R A _. assert (Rd : real_path d) by now apply real_app in R. pose proof (nothing_below d Rd ND) as NB.
      assert (Aq : clear_above u (d ++ cs)) by (apply above_nothing; auto; now apply nolink_view). split; auto. right. split; [intros D; apply ND; now apply view_dir|].
      repeat split; auto; try apply R. destruct cs as [|x r]; [congruence|]. rewrite header_view. unfold hdr_of. now rewrite NB.
  Qed.
  Theorem found_get a r q D : r <> [] -> plain_path a -> plain_path r -> real_path D -> reaches fs [] a q -> leads fs q D ->
    exists N, forall n, (N <= n)%nat -> fs_get n u [] (path_text false (a ++ r)) true false = fs_get n u [] (path_text false (D ++ r)) true false.
  Proof.
    intros NR Pa Pr RD RE LE. assert (A0 : clear_above u []) by (intros [|? ?] x b E; discriminate).
    destruct a as [|x a].
    - inversion RE; subst; try congruence. destruct (proj1 found [] D LE RD A0) as [k K]. apply (fs_get_at u LF [] r [] k D); auto. apply goes_nil. now rewrite view_root.
    - destruct (proj2 found [] (x :: a) q RE) as [Aq [G|(_ & _ & _ & _ & -> & C)]]; auto.
      + exists false. now apply plain_clean.
      + eapply leads_real; eauto.
      + left. split; auto. discriminate.
      + destruct (proj1 found q D LE RD Aq) as [k K]. now apply (fs_get_at u LF (x :: a) r q k D).
      + destruct (proj1 found _ D LE RD Aq) as [k K]. destruct (comes_clear u k _ D K C) as [_ ->]. exists 0. reflexivity.
  Qed.
End found.
Theorem load_at_target es : forall es' es0 u fs, all_at_target fs es es' -> Forall inside es -> Forall good_entry es' ->
  remembers es0 (view_of u) -> leafy (view_of u) -> (forall p, fs p <> None -> real_path p) -> fagree fs (interp (view_of u) empty_root) ->
  (forall es1 e es2, es' = es1 ++ e :: es2 -> no_link_above (es0 ++ es1) e) ->
  exists N, forall n, (N <= n)%nat -> rmap strip (load_entries n u (map parsed es)) = rmap strip (load_entries n u (map parsed es')).
Proof.
  induction es as [|e es IH]; intros es' es0 u fs A I G RM LF RO AG H; inversion A as [|? ? e' ? es1' AT A']; subst; [exists 0%nat; reflexivity|].
  inversion I as [|? ? I1 I2]; subst. inversion G as [|? ? G1 G2]; subst.
  pose proof (H [] e' es1' eq_refl) as NLA. rewrite app_nil_r in NLA.
  destruct (load_entry_sim 0 es0 u e' G1 RM LF NLA) as (u1 & E1 & RM1 & LF1 & V1 & S1 & _).
  assert (B : blank empty_root) by (intros [|k q] N; [congruence|reflexivity]).
  destruct (IH es1' (es0 ++ [e']) u1 (unpack_entry fs e')) as [N2 H2]; auto.
  { intros p. now apply real_only_step. }
  { intros es1 x es2 Ee. specialize (H (e' :: es1) x es2). rewrite <- app_assoc. apply H. now rewrite Ee. }
  destruct AT as (An & Sn & Ab & AT).
  assert (F : exists N, forall n, (N <= n)%nat -> fs_get n u [] (path_text false (entry_path e)) true false = fs_get n u [] (path_text false (entry_path e')) true false).
  { destruct AT as [->|(a & q & d & r & Ep & Nr & W & F & Ep')]; [exists 0%nat; reflexivity|].
    destruct I1 as [_ P]. rewrite Ep in P. apply plain_path_app in P as [Pa Pr]. rewrite Ep, Ep'. apply (found_get fs u LF RO AG a r q d); auto.
    apply (good_real_anc e'); auto. rewrite Ep'. destruct r; [congruence|apply below_app]. }
  destruct F as [N1 F]. exists (4 + N1 + N2)%nat. intros n L. cbn [map load_entries].
  assert (X : rmap strip (load_entry n u (parsed e)) = rmap strip (load_entry n u (parsed e'))).
  { apply load_entry_strip; auto. rewrite !parsed_name by (auto; now apply good_inside). now rewrite F by lia. }
  rewrite (more_load_entry 4 n u (parsed e') u1 E1) in X |- * by lia. cbn [rmap bind] in X |- *.
  destruct (load_entry n u (parsed e)) as [t1| |]; try discriminate. cbn [rmap bind] in X |- *. injection X as X.
  rewrite <- H2 by lia. now apply load_entries_strip.
Qed.
Theorem squash_links sort order layers layers' : Forall (Forall in_root) layers -> plain_stack layers' ->
  all_at_target empty_root (all_entries layers) (all_entries layers') ->
  exists N, forall n, (N <= n)%nat -> squash n sort order layers = squash n sort order layers'.
Proof.
  intros I [G NL] A. destruct (load_at_target (all_entries layers) (all_entries layers') [] empty_tree empty_root) as [N H]; auto.
  - apply Forall_forall. intros e Ie. apply in_all in Ie as (l & Il & Ie). rewrite Forall_forall in I. specialize (I l Il). rewrite Forall_forall in I. now apply I in Ie.
  - now apply good_all.
  - apply remembers_empty.
  - apply leafy_empty.
  - intros [|k p] E; [split; constructor|now destruct E].
  - intros p R. rewrite interp_empty. destruct p; [now left|exact Logic.I].
  - exists N. intros n L. specialize (H n L). unfold squash, load_layers.
    rewrite !load_layers_entries; auto.
    + destruct (load_entries n empty_tree (map parsed (all_entries layers))) as [t| |], (load_entries n empty_tree (map parsed (all_entries layers'))) as [t'| |];
        cbn [rmap bind] in *; try congruence. f_equal. rewrite <- (write_strip sort order t), <- (write_strip sort order t'). congruence.
    + eapply Forall_impl; [|exact G]. intros l. apply Forall_impl, good_inside.
Qed.
