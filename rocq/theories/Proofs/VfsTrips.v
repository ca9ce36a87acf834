(** Opening a path of a loaded image that leads nowhere. *)
From Coq Require Import String Ascii List Bool ZArith Lia.
From Verif.Model Require Import GoStr GoPath Tar Squash VfsFS.
From Verif.Spec Require Import PathSpec SquashSpec VfsFSSpec TripSpec.
From Verif.Proofs Require Import Order GoStrFacts GoPathFacts SquashTree SquashLoad SquashSim SquashStack SquashWf SquashInv SquashWrite SquashReload SquashMain SquashFinal SquashMore SquashLinks VfsFSFacts VfsImage VfsBack.
Import ListNotations.
Local Open Scope nat_scope.
Local Arguments byte_eqb : simpl never.
Local Arguments str_eqb : simpl never.
Local Arguments clean : simpl never.
Local Arguments path_base : simpl never.

Section trips.
  Context (t : tree).
  Definition hop (p q : pos) : Prop := exists l, Squash.link_of (header_at t p) = Some l /\ clean l <> $"/" /\
    steps t (if is_abs l then [] else parent p) (clean_comps l) q.
  Definition ringT (s : list pos) : Prop := forall x, In x s -> exists y, In y s /\ hop x y.
  Inductive trip : pos -> list str -> err -> Prop :=
  | trip_up d cs e : trip (parent d) cs e -> trip d (dotdot :: cs) e
  | trip_missing d c cs : dirT t d -> plain_comp c -> view_of t (d ++ [c]) = None -> trip d (c :: cs) ENotExist
  | trip_file d c cs k q : dirT t d -> plain_comp c -> cs <> [] -> plain_path cs -> rests t k (d ++ [c]) q -> non_dir (header_at t q) = true -> trip d (c :: cs) ENotDir
  | trip_link d c cs k e : dirT t d -> plain_comp c -> cs <> [] -> plain_path cs -> stray k (d ++ [c]) e -> trip d (c :: cs) e
  | trip_ring d c cs s : dirT t d -> plain_comp c -> cs <> [] -> plain_path cs -> In (d ++ [c]) s -> ringT s -> trip d (c :: cs) ELoop
  | trip_down d c cs k d' e : dirT t d -> plain_comp c -> lands t k (d ++ [c]) d' -> cs <> [] -> plain_path cs -> trip d' cs e -> trip d (c :: cs) e
  with stray : nat -> pos -> err -> Prop :=
  | stray_text p l e : Squash.link_of (header_at t p) = Some l -> clean l <> $"/" ->
      trip (if is_abs l then [] else parent p) (clean_comps l) e -> stray 0 p e
  | stray_root p l : Squash.link_of (header_at t p) = Some l -> clean l = $"/" -> stray 0 p ENotExist
  | stray_on k p q e : hop p q -> stray k q e -> stray (S k) p e.
  Scheme trip_mut := Induction for trip Sort Prop with stray_mut := Induction for stray Sort Prop.
  Combined Scheme trip_stray_ind from trip_mut, stray_mut.

  Lemma hop_det p q q' : hop p q -> hop p q' -> q = q'.
  Proof. intros (l & L & _ & S) (l' & L' & _ & S'). rewrite L in L'. injection L' as <-. now apply (proj2 (lands_det t) _ _ _ S). Qed.
  Lemma link_view p l : Squash.link_of (header_at t p) = Some l -> view_of t p <> None.
  Proof. intros L E. unfold header_at in L. unfold view_of in E. destruct (subtree t p); discriminate. Qed.
  Lemma lands_view k p d : lands t k p d -> view_of t p <> None.
  Proof. intros H. inversion H as [p0 D0|k0 p0 l0 q0 d0 L0]; subst; [apply D0|]. now apply link_view in L0. Qed.
  Lemma rests_start k p d : rests t k p d -> view_of t p <> None.
  Proof. intros H. inversion H as [p0 D0|k0 p0 l0 q0 d0 L0]; subst; auto. now apply link_view in L0. Qed.
  Lemma lands_rests k p d : lands t k p d -> rests t k p d /\ dirT t d.
  Proof.
    revert p d. induction k as [|k IH]; intros p d H; inversion H as [p0 D0|k0 p0 l0 q0 d0 L0 N0 S0 H0]; subst.
    - split; auto. apply rests_here; [apply D0|now apply dirT_link].
    - destruct (IH _ _ H0) as [R D]. split; auto. eapply rests_link; eauto.
  Qed.
  Lemma ring_rests s : ringT s -> forall k p d, In p s -> ~ rests t k p d.
  Proof.
    intros R k. induction k as [|k IH]; intros p d I H; destruct (R p I) as (y & Iy & l & L & N & S); inversion H as [p0 D0 L0|k0 p0 l0 q0 d0 L0 N0 S0 H0]; subst; [congruence|].
    rewrite L in L0. injection L0 as <-. apply (proj2 (lands_det t) _ _ _ S) in S0 as <-. now apply (IH y d).
  Qed.
  Ltac notplain := exfalso; match goal with H : plain_comp dotdot |- _ => now destruct H as (_ & _ & _ & H) end.
  Lemma trip_steps :
    (forall d cs e, trip d cs e -> forall q, ~ steps t d cs q) /\ (forall k p e, stray k p e -> forall k' d, ~ rests t k' p d).
  Proof.
    apply (trip_stray_ind (fun d cs e _ => forall q, ~ steps t d cs q) (fun k p e _ => forall k' d, ~ rests t k' p d)).
    - intros d cs e _ IH q H. inversion H; subst; try notplain. eapply IH; eauto.
    - intros d c cs D P V q H. inversion H; subst; try notplain; [congruence|]. match goal with H : lands _ _ (d ++ [c]) _ |- _ => apply lands_view in H end. congruence.
    - intros d c cs k q D P N PP R ND q' H. inversion H; subst; try notplain; [congruence|].
      match goal with H : lands _ _ (d ++ [c]) _ |- _ => apply lands_rests in H as [R' D'] end. destruct (rests_det t _ _ _ R _ _ R') as [_ <-]. destruct D' as [_ D']. congruence.
    - intros d c cs k e D P N PP _ IH q H. inversion H; subst; try notplain; [congruence|].
      match goal with H : lands _ _ (d ++ [c]) _ |- _ => apply lands_rests in H as [R' D'] end. eapply IH; eauto.
    - intros d c cs s D P N PP I R q H. inversion H; subst; try notplain; [congruence|].
      match goal with H : lands _ _ (d ++ [c]) _ |- _ => apply lands_rests in H as [R' D'] end. eapply ring_rests; eauto.
    - intros d c cs k d' e D P L N PP _ IH q H. inversion H; subst; try notplain; [congruence|].
      match goal with H : lands _ ?k1 (d ++ [c]) ?d1 |- _ => lazymatch k1 with k => fail | _ => destruct (proj1 (lands_det t) _ _ _ L _ _ H) as [_ X] end end. subst. eapply IH; eauto.
    - intros p l e L N T IH k' d H. inversion H; subst; [congruence|].
      match goal with H : Squash.link_of (header_at t p) = Some ?x |- _ => lazymatch x with l => fail | _ => rewrite L in H; injection H as <- end end. eapply IH; eauto.
    - intros p l L N k' d H. inversion H; subst; congruence.
    - intros k p q e (l0 & L0 & N0 & S0) T IH k' d H. inversion H as [|? ? ? ? ? L1 N1 S1 R1]; subst; [congruence|]. rewrite L0 in L1. injection L1 as <-.
      apply (proj2 (lands_det t) _ _ _ S0) in S1 as <-. eapply IH; eauto.
  Qed.
  Lemma stray_det k : forall p e k' e', stray k p e -> stray k' p e' -> k = k'.
  Proof.
    assert (X : forall p q l, hop p q -> Squash.link_of (header_at t p) = Some l -> ((exists e, trip (if is_abs l then [] else parent p) (clean_comps l) e) \/ clean l = $"/") -> False).
    { intros p q l (l1 & L1 & N1 & S1) L [[e T]|N]; rewrite L1 in L; injection L as <-; [|congruence]. eapply (proj1 trip_steps); eauto. }
    induction k as [|k IH]; intros p e k' e' H H'; inversion H; subst; inversion H'; subst; auto;
      try solve [exfalso; eapply X; eauto].
    f_equal. match goal with H1 : hop p ?a, H2 : hop p ?b |- _ => lazymatch a with b => fail | _ => pose proof (hop_det _ _ _ H1 H2); subst end end. eapply IH; eauto.
  Qed.

  (** *** what is done with such a path *)
  Lemma text_get n p l follow : clean l <> $"/" ->
    fs_get (S n) t (parent p) l false follow = crawl n false follow t (if is_abs l then [] else parent p) (names (clean_comps l)).
  Proof. intros N. rewrite fs_get_S, link_text by auto. rewrite clean_text, is_abs_text by apply clean_comps_list. reflexivity. Qed.
  Lemma trip_names d cs e : trip d cs e -> names cs = cs.
  Proof. now destruct 1. Qed.
  Context (WV : wfv (view_of t)) (ROOT : dirT t []).
  Lemma root_get n p l follow : clean l = $"/" -> fs_get (S (S n)) t (parent p) l false follow = Fail ENotExist.
  Proof.
    intros N. rewrite fs_get_S, N. change (crawl (S n) false follow t [] [[]] = Fail ENotExist). cbn [crawl]. rewrite get_S. cbv zeta.
    change (str_eqb [] $"..") with false. change (str_eqb [] $".") with false. cbv iota. rewrite (dirT_link t [] ROOT). cbn [bind]. rewrite (proj2 ROOT). cbn [bind].
    pose proof (no_empty_key t WV []) as V. unfold view_of in V. now destruct (subtree t ([] ++ [[]])).
  Qed.
  Definition stuck (d : pos) (cs : list str) (e : err) : Prop := exists N, forall n, N <= n -> forall follow, crawl (S n) false follow t d cs = Fail e.
  Definition lost (p : pos) (e : err) : Prop := exists N, forall n, N <= n -> forall c follow, plain_comp c -> get (S n) t p c false follow = Fail e.
  Lemma lost_crawl p e : lost p e -> forall cs, cs <> [] -> plain_path cs -> stuck p cs e.
  Proof.
    intros [N H] [|c cs] NE P; [congruence|]. inversion P; subst. exists N. intros n LE follow. cbn [crawl]. destruct cs; rewrite H; auto.
  Qed.
  Lemma crawl_into d c cs e : dirT t d -> plain_comp c -> view_of t (d ++ [c]) <> None -> cs <> [] -> stuck (d ++ [c]) cs e -> stuck d (c :: cs) e.
  Proof.
    intros D P V NE [N H]. exists N. intros n LE follow. destruct cs as [|c' cs]; [congruence|].
    change (crawl (S n) false follow t d (c :: c' :: cs)) with (bind (get (S n) t d c false false) (fun '(t, dir) => crawl (S n) false follow t dir (c' :: cs))).
    rewrite get_exists by auto. cbn [bind]. now apply H.
  Qed.
  (** A ring of links *)
  Lemma not_in_stack (p : pos) stack : ~ In p stack -> existsb (fun q => if list_eq_dec (list_eq_dec ascii_dec) p q then true else false) stack = false.
  Proof. intros H. apply not_true_is_false. intros Ex. apply existsb_exists in Ex as (x & I & E). destruct (list_eq_dec _ p x) as [->|]; [auto|discriminate]. Qed.
  Lemma in_stack (p : pos) stack : In p stack -> existsb (fun q => if list_eq_dec (list_eq_dec ascii_dec) p q then true else false) stack = true.
  Proof. intros H. apply existsb_exists. exists p. split; auto. now destruct (list_eq_dec _ p p). Qed.
  Lemma ring_resolve s : ringT s -> exists N, forall k n, N + k <= n -> forall p stack, In p s -> NoDup stack -> incl stack s -> length s <= k + length stack ->
    resolve n t p false stack = Fail ELoop.
  Proof.
    intros R.
    assert (X : exists N, forall p, In p s -> exists q, In q s /\ forall n, N <= n -> forall l, Squash.link_of (header_at t p) = Some l -> fs_get n t (parent p) l false false = Ret (t, q)).
    { assert (Y : forall s', incl s' s -> exists N, forall p, In p s' -> exists q, In q s /\ forall n, N <= n -> forall l, Squash.link_of (header_at t p) = Some l -> fs_get n t (parent p) l false false = Ret (t, q)).
      { induction s' as [|x s' IH]; intros I; [exists 0; intros p []|]. destruct IH as [N H]; [intros y Iy; apply I; now right|].
        destruct (R x (I x (or_introl eq_refl))) as (y & Iy & l & L & NR & S). destruct (proj2 (lands_ok t) _ _ _ S) as [N1 H1]. exists (2 + N + N1). intros p [<-|Ip].
        - exists y. split; auto. intros n LE l' L'. rewrite L in L'. injection L' as <-. destruct n as [|[|n]]; try lia. rewrite (fs_get_link t n x l y false false NR); auto. apply H1. lia.
        - destruct (H p Ip) as (q & Iq & Hq). exists q. split; auto. intros n LE. apply Hq. lia. }
      apply Y. apply incl_refl. }
    destruct X as [N X]. exists (N + 1). induction k as [|k IH]; intros n LE p stack Ip ND IN LEN.
    - destruct n as [|n]; [lia|]. rewrite resolve_S. destruct (R p Ip) as (y & Iy & l & L & _). rewrite L.
      rewrite in_stack; auto. destruct (in_dec (list_eq_dec (list_eq_dec ascii_dec)) p stack) as [I|NI]; auto. exfalso.
      assert (ND' : NoDup (p :: stack)) by now constructor. assert (IN' : incl (p :: stack) s) by (intros z [<-|Iz]; auto).
      pose proof (NoDup_incl_length ND' IN') as C. cbn [length] in C. lia.
    - destruct n as [|n]; [lia|]. rewrite resolve_S. destruct (R p Ip) as (y & Iy & l & L & _). rewrite L.
      destruct (in_dec (list_eq_dec (list_eq_dec ascii_dec)) p stack) as [I|NI]; [now rewrite in_stack|]. rewrite not_in_stack by auto.
      destruct (X p Ip) as (q & Iq & Hq). rewrite (Hq n ltac:(lia) l L). cbn [bind]. apply IH; auto; [lia|now constructor|intros z [<-|Iz]; auto|cbn [length]; lia].
  Qed.
  Lemma ring_ok s p : ringT s -> In p s -> (exists N, forall n, N <= n -> resolve n t p false [] = Fail ELoop) /\ lost p ELoop.
  Proof.
    intros R I. destruct (ring_resolve s R) as [N H].
    assert (Z : forall n q, N + length s <= n -> In q s -> resolve n t q false [] = Fail ELoop).
    { intros n q LE Iq. apply (H (length s)); auto; [constructor|intros z []|cbn [length]; lia]. }
    split; [exists (N + length s); auto|]. destruct (R p I) as (y & Iy & l & L & NR & S). destruct (proj2 (lands_ok t) _ _ _ S) as [N1 H1].
    exists (2 + N + length s + N1). intros n LE c follow P. destruct n as [|[|n]]; try lia. destruct (plain_keys _ P) as [K1 K2]. rewrite get_S. cbv zeta. rewrite K1, K2, L.
    rewrite (fs_get_link t n p l y false true NR) by (apply H1; lia). rewrite Z; auto. lia.
  Qed.
  Theorem trip_ok :
    (forall d cs e, trip d cs e -> stuck d cs e) /\
    (forall k p e, stray k p e -> lost p e /\ exists N, forall n, N <= n -> forall stack,
       (forall q, In q stack -> exists k' e', stray k' q e' /\ k < k') -> resolve n t p false stack = Fail e).
  Proof.
    apply (trip_stray_ind (fun d cs e _ => stuck d cs e) (fun k p e _ => lost p e /\ exists N, forall n, N <= n -> forall stack,
       (forall q, In q stack -> exists k' e', stray k' q e' /\ k < k') -> resolve n t p false stack = Fail e)).
    - intros d cs e T [N H]. exists N. intros n LE follow. specialize (H n LE follow). destruct cs as [|c cs]; [inversion T|].
      change (crawl (S n) false follow t d (dotdot :: c :: cs)) with (bind (get (S n) t d dotdot false false) (fun '(t, dir) => crawl (S n) false follow t dir (c :: cs))).
      rewrite get_S. cbv zeta. replace (str_eqb dotdot $"..") with true by reflexivity. cbn [bind]. exact H.
    - intros d c cs D P V. exists 0. intros n _ follow.
      assert (G : forall fl, get (S n) t d c false fl = Fail ENotExist).
      { intros fl. destruct (plain_keys _ P) as [K1 K2]. rewrite get_S. cbv zeta. rewrite K1, K2, (dirT_link t d D). cbn [bind]. rewrite (proj2 D). cbn [bind].
        unfold view_of in V. now destruct (subtree t (d ++ [c])). }
      cbn [crawl]. destruct cs; now rewrite G.
    - intros d c cs k q D P NE PP R ND. apply crawl_into; auto; [eapply rests_start; eauto|]. apply lost_crawl; auto.
      inversion R as [p V L|k' p l q' e' L N S R']; subst.
      + exists 0. intros n _ x follow Px. destruct (plain_keys _ Px) as [K1 K2]. rewrite get_S. cbv zeta. rewrite K1, K2, L. cbn [bind]. rewrite ND. reflexivity.
      + destruct (proj2 (lands_ok t) _ _ _ S) as [N1 H1]. destruct (rests_ok t k' q' q R') as [N2 H2]. exists (2 + N1 + N2)%nat. intros n LE x follow Px.
        destruct (plain_keys _ Px) as [K1 K2]. destruct n as [|[|n]]; try lia. rewrite get_S. cbv zeta. rewrite K1, K2, L. rewrite (fs_get_link t n (d ++ [c]) l q' false true N) by (apply H1; lia).
        rewrite H2; [|lia|intros y []]. cbn [bind]. rewrite ND. reflexivity.
    - intros d c cs k e D P NE PP T [L _]. apply crawl_into; auto; [|now apply lost_crawl].
      inversion T as [? l ? L0|? l L0|? ? ? ? (l & L0 & _)]; subst; now apply link_view in L0.
    - intros d c cs s D P NE PP I R. apply crawl_into; auto; [|apply lost_crawl; auto; now apply (ring_ok s)].
      destruct (R _ I) as (y & _ & l & L0 & _). now apply link_view in L0.
    - intros d c cs k d' e D P L NE PP T [N H]. apply crawl_into; auto; [now apply lands_view in L|]. destruct (proj1 (lands_ok t) _ _ _ L) as (_ & [N1 H1] & _).
      exists (N + N1). intros n LE follow. rewrite <- (H n ltac:(lia) follow). destruct cs as [|c' cs]; [congruence|]. apply crawl_same. intros follow'. apply H1; [lia|]. now inversion PP.
    - intros p l e L NR T [N H]. assert (NM := trip_names _ _ _ T).
      assert (F : forall n fl, N <= n -> fs_get (S (S n)) t (parent p) l false fl = Fail e) by (intros n fl LE; rewrite text_get by auto; rewrite NM; apply H; auto). split.
      + exists (2 + N). intros n LE c follow P. destruct n as [|[|n]]; try lia. destruct (plain_keys _ P) as [K1 K2]. rewrite get_S. cbv zeta. rewrite K1, K2, L, F by lia. reflexivity.
      + exists (3 + N). intros n LE stack ST. destruct n as [|[|[|n]]]; try lia. rewrite resolve_S, L. rewrite not_in_stack, F by lia + (intros I; destruct (ST p I) as (k' & e' & S' & LT);
          assert (S0 : stray 0 p e) by (eapply stray_text; eauto); pose proof (stray_det _ _ _ _ _ S0 S'); lia). reflexivity.
    - intros p l L NR. split.
      + exists 2. intros n LE c follow P. destruct n as [|[|n]]; try lia. destruct (plain_keys _ P) as [K1 K2]. rewrite get_S. cbv zeta. rewrite K1, K2, L, root_get by auto. reflexivity.
      + exists 3. intros n LE stack ST. destruct n as [|[|[|n]]]; try lia. rewrite resolve_S, L. rewrite not_in_stack, root_get by auto + (intros I; destruct (ST p I) as (k' & e' & S' & LT);
          assert (S0 : stray 0 p ENotExist) by (eapply stray_root; eauto); pose proof (stray_det _ _ _ _ _ S0 S'); lia). reflexivity.
    - intros k p q e HP T [_ [N H]]. pose proof HP as (l & L & NR & S). destruct (proj2 (lands_ok t) _ _ _ S) as [N1 H1]. split.
      + exists (2 + N + N1). intros n LE c follow P. destruct n as [|[|n]]; try lia. destruct (plain_keys _ P) as [K1 K2]. rewrite get_S. cbv zeta. rewrite K1, K2, L.
        rewrite (fs_get_link t n p l q false true NR) by (apply H1; lia). rewrite H; [reflexivity|lia|intros y []].
      + exists (3 + N + N1). intros n LE stack ST. destruct n as [|[|[|n]]]; try lia. rewrite resolve_S, L. rewrite not_in_stack.
        * rewrite (fs_get_link t n p l q false false NR) by (apply H1; lia). cbn [bind]. apply H; [lia|]. intros x [<-|I].
          -- exists (Datatypes.S k), e. split; [eapply stray_on; eauto|lia].
          -- destruct (ST x I) as (k' & e' & S' & LT). exists k', e'. split; auto. lia.
        * intros I. destruct (ST p I) as (k' & e' & S' & LT). assert (S0 : stray (Datatypes.S k) p e) by (eapply stray_on; eauto). pose proof (stray_det _ _ _ _ _ S0 S'). lia.
  Qed.
End trips.

(** *** why opening failed *)
Section why.
  Context (t : tree) (WV : wfv (view_of t)) (LF : leafy (view_of t)) (ROOT : dirT t []).
  Definition astray (p : pos) (e : err) : Prop := (exists k, stray t k p e) \/ e = ELoop /\ exists s, In p s /\ ringT t s.
  Lemma astray_link p e : astray p e -> exists l, Squash.link_of (header_at t p) = Some l.
  Proof. intros [[k H]|(_ & s & I & R)]; [inversion H as [? l ? L|? l L|? ? ? ? (l & L & _)]; subst; eauto|]. destruct (R p I) as (y & _ & l & L & _). eauto. Qed.
  Lemma astray_on p q e : hop t p q -> astray q e -> astray p e.
  Proof.
    intros H [[k S]|(-> & s & I & R)]; [left; exists (Datatypes.S k); eapply stray_on; eauto|]. right. split; auto. exists (p :: s). split; [now left|].
    intros x [<-|Ix]; [exists q; split; [now right|auto]|]. destruct (R x Ix) as (y & Iy & Hy). exists y. split; [now right|auto].
  Qed.
  Fixpoint chain (stack : list pos) (p : pos) : Prop := match stack with [] => True | x :: stack' => hop t x p /\ chain stack' x end.
  Lemma chain_ring stack : forall p, chain stack p -> forall x, In x stack -> exists y, (y = p \/ In y stack) /\ hop t x y.
  Proof.
    induction stack as [|z stack IH]; intros p C x I; [destruct I|]. destruct C as [H C]. destruct I as [<-|I]; [exists p; auto|].
    destruct (IH z C x I) as (y & [->|Iy] & Hy); [exists z|exists y]; split; auto; right; [now left|now right].
  Qed.
  Definition got_fail (n : nat) : Prop := forall f c follow e, view_of t f <> None -> plain_comp c -> get n t f c false follow = Fail e ->
    (e = ENotDir /\ exists k q, rests t k f q /\ non_dir (header_at t q) = true) \/ astray f e \/
    exists k d, lands t k f d /\ (e = ENotExist /\ view_of t (d ++ [c]) = None \/ follow = true /\ view_of t (d ++ [c]) <> None /\ astray (d ++ [c]) e).
  Definition resolve_fail (n : nat) : Prop := forall p stack e, view_of t p <> None -> chain stack p -> resolve n t p false stack = Fail e -> astray p e.
  Definition fetch_fail (n : nat) : Prop := forall d l follow e, dirT t d -> fs_get n t d l false follow = Fail e ->
    (clean l = $"/" /\ e = ENotExist) \/
    clean l <> $"/" /\ (trip t (if is_abs l then [] else d) (clean_comps l) e \/
      follow = true /\ exists q, steps t (if is_abs l then [] else d) (clean_comps l) q /\ astray q e).
  Lemma crawl_why n : got_fail n -> forall cs, plain_path cs -> cs <> [] -> forall f follow e, view_of t f <> None -> crawl n false follow t f cs = Fail e ->
    (e = ENotDir /\ exists k q, rests t k f q /\ non_dir (header_at t q) = true) \/ astray f e \/
    exists k d, lands t k f d /\ (trip t d cs e \/ follow = true /\ exists q, steps t d cs q /\ astray q e).
  Proof.
    intros G cs P NE. induction cs as [|c cs IH]; [congruence|]. intros f follow e V C. inversion P as [|? ? Pc Pcs]; subst.
    destruct cs as [|c' cs].
    - cbn [crawl] in C. apply G in C as [H|[H|(k & d & L & [[-> N]|(FW & V' & A)])]]; auto; right; right; exists k, d; split; auto; destruct (lands_rests t _ _ _ L) as [_ D].
      + left. now apply trip_missing.
      + right. split; auto. exists (d ++ [c]). split; auto. now apply steps_last.
    - cbn [crawl] in C. destruct (get n t f c false false) as [[t1 f1]|e1|] eqn:E; try discriminate; cbn [bind] in C.
      + destruct (back_ok t WV LF ROOT n) as (BG & _). pose proof Pc as (Pc0 & Pc1 & Pc2 & Pc3). apply BG in E as (-> & k & d & L & V' & ->); auto.
        destruct (lands_rests t _ _ _ L) as [_ D]. right. right. exists k, d. split; auto.
        apply IH in C as [(-> & j & q & R & ND)|[A|(k' & d' & L' & [T|(FW & q & S & A)])]]; auto; try discriminate.
        * left. eapply trip_file; eauto. discriminate.
        * left. destruct A as [[j A]|(-> & s & I & R)]; [eapply trip_link|eapply trip_ring]; eauto; discriminate.
        * left. eapply trip_down; eauto. discriminate.
        * right. split; auto. exists q. split; auto. eapply steps_down; eauto. discriminate.
      + injection C as ->. apply G in E as [H|[H|(k & d & L & [[-> N]|(FW & _)])]]; auto; [|discriminate]. right. right. exists k, d. split; auto. left.
        destruct (lands_rests t _ _ _ L) as [_ D]. now apply trip_missing.
  Qed.
  Lemma dir_plain d e : dirT t d -> ~ ((e = ENotDir /\ exists k q, rests t k d q /\ non_dir (header_at t q) = true) \/ astray d e).
  Proof.
    intros D [(_ & k & q & R & ND)|A].
    - pose proof (lands_dir t d D) as L. apply lands_rests in L as [R' _]. destruct (rests_det t _ _ _ R _ _ R') as [_ ->]. destruct D as [_ D]. congruence.
    - destruct (astray_link d e A) as [l L]. rewrite (dirT_link t d D) in L. discriminate.
  Qed.
  Lemma crawl_up_why n : got_fail n -> (forall m, n = S m -> resolve_fail m) -> forall m ps, plain_path ps -> m <> 0 \/ ps <> [] -> forall d follow e, dirT t d ->
    crawl n false follow t d (repeat dotdot m ++ ps) = Fail e ->
    trip t d (repeat dotdot m ++ ps) e \/ follow = true /\ exists q, steps t d (repeat dotdot m ++ ps) q /\ astray q e.
  Proof.
    intros G RS. induction m as [|m IH]; intros ps P NE d follow e D C.
    - cbn [repeat app] in *. pose proof D as [V _]. apply crawl_why in C as [H|[H|(k & d' & L & H)]]; auto; [exfalso; eapply dir_plain; eauto|exfalso; eapply dir_plain; eauto| |destruct NE; congruence].
      pose proof (lands_dir t d D) as L0. destruct (proj1 (lands_det t) _ _ _ L0 _ _ L) as [_ X]. now subst.
    - cbn [repeat app] in *. assert (DP : dirT t (parent d)) by (apply parent_dir; auto; apply D).
      assert (K : forall follow, get n t d dotdot false follow = match n with O => OutOfFuel | S m => if follow then resolve m t (parent d) false [] else Ret (t, parent d) end).
      { intros fl. destruct n; [reflexivity|]. rewrite get_S. reflexivity. }
      destruct (repeat dotdot m ++ ps) as [|c cs] eqn:E.
      + cbn [crawl] in C. rewrite K in C. destruct n as [|n']; [discriminate|]. destruct follow; [|discriminate]. right. split; auto. exists (parent d). split; [apply steps_up, steps_nil|].
        eapply (RS n' eq_refl); [| |exact C]; [apply DP|exact Logic.I].
      + change (crawl n false follow t d (dotdot :: c :: cs)) with (bind (get n t d dotdot false false) (fun '(t, dir) => crawl n false follow t dir (c :: cs))) in C.
        rewrite K in C. destruct n as [|n']; [discriminate|]. cbn [bind] in C. rewrite <- E in C |- *. apply IH in C as [T|(FW & q & S & A)]; auto.
        * left. now apply trip_up.
        * right. split; auto. exists q. split; auto. now apply steps_up.
        * destruct m; [|left; discriminate]. right. intros ->. discriminate.
  Qed.
  Theorem why_ok n : got_fail n /\ resolve_fail n /\ fetch_fail n.
  Proof.
    induction n as [|n (IG & IR & IF)]; [repeat split; discriminate|]. split; [|split].
    - intros f c follow e V P E. destruct (plain_keys _ P) as [K1 K2]. rewrite get_S in E. cbv zeta in E. rewrite K1, K2 in E.
      assert (TAIL : forall k d, lands t k f d -> match subtree t (d ++ [c]) with Some _ => if follow then resolve n t (d ++ [c]) false [] else Ret (t, d ++ [c]) | None => Fail ENotExist end = Fail e ->
                exists k d, lands t k f d /\ (e = ENotExist /\ view_of t (d ++ [c]) = None \/ follow = true /\ view_of t (d ++ [c]) <> None /\ astray (d ++ [c]) e)).
      { intros k d L X. exists k, d. split; auto. unfold view_of. destruct (subtree t (d ++ [c])) eqn:S; [|left; split; congruence].
        assert (Vd : view_of t (d ++ [c]) <> None) by (unfold view_of; rewrite S; discriminate).
        destruct follow; [|discriminate]. right. split; auto. split; [discriminate|]. eapply IR; [| |exact X]; [exact Vd|]. exact Logic.I. }
      destruct (Squash.link_of (header_at t f)) as [l|] eqn:L.
      + pose proof (parent_dir t LF ROOT f V) as DP. destruct (fs_get n t (parent f) l false true) as [[t1 f1]|e1|] eqn:F; try discriminate; cbn [bind] in E.
        * destruct (back_ok t WV LF ROOT n) as (_ & _ & BF). apply BF in F as (-> & NR & q & S & Vq & j & R); [|exact DP].
          destruct (non_dir (header_at t f1)) eqn:ND.
          -- left. cbn [bind] in E. injection E as <-. split; auto. exists (Datatypes.S j), f1. split; auto. eapply rests_link; eauto.
          -- cbn [bind] in E. right. right. eapply TAIL; [|exact E]. eapply lands_link; eauto. eapply rests_lands; [exact R|]. split; auto. eapply rests_view; eauto.
        * injection E as ->. right. left. apply IF in F as [[N ->]|(N & [T|(_ & q & S & A)])]; [| | |exact DP].
          -- left. exists 0. eapply stray_root; eauto.
          -- left. exists 0. eapply stray_text; eauto.
          -- apply (astray_on f q e); auto. exists l. auto.
      + cbn [bind] in E. destruct (non_dir (header_at t f)) eqn:ND.
        * cbn [bind] in E. injection E as <-. left. split; auto. exists 0, f. split; auto. now apply rests_here.
        * cbn [bind] in E. right. right. apply (TAIL 0 f); auto. apply lands_dir. split; auto.
    - intros p stack e V C E. rewrite resolve_S in E. destruct (Squash.link_of (header_at t p)) as [l|] eqn:L; [|discriminate].
      destruct (in_dec (list_eq_dec (list_eq_dec ascii_dec)) p stack) as [I|NI].
      + rewrite in_stack in E by auto. injection E as <-. right. split; auto. exists stack. split; auto. intros x Ix.
        destruct (chain_ring stack p C x Ix) as (y & [->|Iy] & Hy); eauto.
      + rewrite not_in_stack in E by auto. pose proof (parent_dir t LF ROOT p V) as DP. destruct (fs_get n t (parent p) l false false) as [[t1 q]|e1|] eqn:F; try discriminate; cbn [bind] in E.
        * destruct (back_ok t WV LF ROOT n) as (_ & _ & BF). apply BF in F as (-> & NR & q' & S & Vq & ->); [|exact DP].
          assert (H : hop t p q') by (exists l; auto). apply (astray_on p q' e); auto. eapply IR; [| |exact E]; auto. split; auto.
        * injection E as ->. apply IF in F as [[N ->]|(N & [T|(FW & _)])]; [| |discriminate|exact DP].
          -- left. exists 0. eapply stray_root; eauto.
          -- left. exists 0. eapply stray_text; eauto.
    - intros d l follow e D E.
      assert (RS : forall m, n = S m -> resolve_fail m).
      { intros m' X. subst n. intros p stack e' V C Q. apply (IR p stack e' V C). destruct (proj1 (proj2 (le_get m')) t p false stack) as [O|O]; [congruence|now rewrite <- O]. }
      destruct (list_eq_dec ascii_dec (clean l) $"/") as [N|N].
      + left. split; auto. rewrite fs_get_S, N in E. change (crawl n false follow t [] [[]] = Fail e) in E. cbn [crawl] in E. destruct n as [|n]; [discriminate|]. rewrite get_S in E. cbv zeta in E.
        change (str_eqb [] $"..") with false in E. change (str_eqb [] $".") with false in E. cbv iota in E. rewrite (dirT_link t [] ROOT) in E. cbn [bind] in E. rewrite (proj2 ROOT) in E. cbn [bind] in E.
        pose proof (no_empty_key t WV []) as V. unfold view_of in V. destruct (subtree t ([] ++ [[]])); [discriminate|congruence].
      + right. split; auto. rewrite fs_get_S, link_text in E by auto. rewrite clean_text, is_abs_text in E by apply clean_comps_list.
        set (d' := if is_abs l then [] else d) in *. assert (D' : dirT t d') by (unfold d'; now destruct (is_abs l)).
        destruct (clean_comps_list l) as (m & ps & CL & Pp & _). destruct (clean_comps l) as [|c cs] eqn:CC.
        * cbn [names] in E. change (crawl n false follow t d' [dot] = Fail e) in E. cbn [crawl] in E. destruct n as [|n]; [discriminate|]. rewrite get_S in E. cbv zeta in E.
          change (str_eqb dot $"..") with false in E. change (str_eqb dot $".") with true in E. cbv iota in E. destruct follow; [|discriminate]. right. split; auto. exists d'. split; [apply steps_nil|].
          eapply (RS n eq_refl); [| |exact E]; [apply D'|exact Logic.I].
        * cbn [names] in E. change (crawl n false follow t d' (c :: cs) = Fail e) in E. rewrite CL in E |- *. apply crawl_up_why in E; auto. destruct m; [right|left; discriminate]. intros ->. discriminate.
  Qed.
End why.

(** *** the unpacked file system *)
Scheme trips_mut := Induction for trips Sort Prop with strays_mut := Induction for strays Sort Prop.
Combined Scheme trips_strays_ind from trips_mut, strays_mut.
Section unpacked.
  Context (layers : list (list entry)) (PS : plain_stack layers) (NR : Forall (Forall (fun e => ~ links_to_root e)) layers).
  Context (NM : forall p h c, unpack empty_root layers p = Some (FFile h c) -> th_type h = TypeSymlink -> Forall (fun x => marker_name x = false) (clean_comps (th_link h))).
  Context (t : tree).
  Let fs := unpack empty_root layers.
  Context (AG : fagree fs (interp (view_of t) empty_root)) (WV : wfv (view_of t)) (LF : leafy (view_of t)) (ROOT : dirT t []).
  Let RO := image_real layers PS.
  Let NRF := image_no_root layers NR.
  Let unmarked := Forall (fun x => marker_name x = false).
  Lemma link_there p h c : fs p = Some (FFile h c) -> th_type h = TypeSymlink -> Squash.link_of (header_at t p) = Some (th_link h).
  Proof.
    intros E T. destruct (conv_file fs t RO AG p h c E) as (h' & V & A). rewrite header_view. unfold hdr_of. rewrite V. cbn [fst Squash.link_of]. rewrite <- A in T |- *.
    change (th_type (anon h')) with (th_type h') in T. rewrite T. reflexivity.
  Qed.
  Lemma hops_hop p q : hops fs p q -> hop t p q.
  Proof.
    intros (h & c & E & T & W). exists (th_link h). split; [now apply (link_there p h c)|]. split; [eapply NRF; eauto|].
    apply (proj2 (convert fs t RO AG NRF) _ _ _ W). exists (is_abs (th_link h)). apply clean_comps_list.
  Qed.
  Lemma dir_real d m : fs d = Some (FDir m) -> real_path d.
  Proof. intros E. apply RO. unfold fs in E. congruence. Qed.
  Theorem trips_trip :
    (forall d cs e, trips fs d cs e -> unmarked cs -> (exists r, clean_list r cs) -> trip t d cs e) /\
    (forall p e, strays fs p e -> astray t p e).
  Proof.
    apply (trips_strays_ind fs (fun d cs e _ => unmarked cs -> (exists r, clean_list r cs) -> trip t d cs e) (fun p e _ => astray t p e)).
    - intros d cs e _ IH U [r C]. inversion U; subst. apply trip_up, IH; auto. eapply clean_list_tail; eauto.
    - intros d m c cs E P F U C. inversion U; subst. apply trip_missing; auto; [eapply conv_dir; eauto|]. apply (view_gone layers t AG); auto. apply real_add; auto. eapply dir_real; eauto.
    - intros d m c cs q h b E P N EN F U [r C]. destruct (image_ends layers PS NR t AG _ _ EN) as [k R]. eapply trip_file; eauto; [eapply conv_dir; eauto|eapply clean_list_plain; eauto|].
      eapply (ends_file_view layers PS t AG); eauto.
    - intros d m c cs e E P N _ IH U [r C]. pose proof (conv_dir fs t RO AG d m E) as D. pose proof (clean_list_plain r c cs P C) as PP. destruct IH as [[k S]|(-> & s & I & R)]; [eapply trip_link|eapply trip_ring]; eauto.
    - intros d m c cs d' e E P F N _ IH U [r C]. inversion U; subst. pose proof (clean_list_plain r c cs P C) as PP. destruct (proj1 (convert fs t RO AG NRF) _ _ F) as [k L].
      eapply trip_down; eauto; [eapply conv_dir; eauto|]. apply IH; auto. eapply clean_list_tail; eauto.
    - intros p h c e E T _ IH. left. exists 0. eapply stray_text; [eapply link_there; eauto|eapply NRF; eauto|]. apply IH; [eapply NM; eauto|]. exists (is_abs (th_link h)). apply clean_comps_list.
    - intros p q e HO _ IH. apply (astray_on t p q e); auto. now apply hops_hop.
    - intros p links I R. right. split; auto. exists links. split; auto. intros x Ix. destruct (R x Ix) as (y & Iy & Hy). exists y. split; auto. now apply hops_hop.
  Qed.
  Lemma hop_hops p q : real_path p -> hop t p q -> hops fs p q /\ real_path q.
  Proof.
    intros R (l & L & N & S). destruct (back_link fs t AG p l R L) as (h & c & E & T & <-). destruct (proj2 (unconvert fs t AG NM) _ _ _ S) as [W RQ].
    - destruct (is_abs (th_link h)); [apply real_nil|now apply real_parent].
    - eapply NM; eauto.
    - split; auto. exists h, c. auto.
  Qed.
  Lemma link_real p l : real_path p -> Squash.link_of (header_at t p) = Some l -> fs p <> None.
  Proof. intros R L. destruct (back_link fs t AG p l R L) as (h & c & E & _). congruence. Qed.
  Lemma ring_strays s p : real_path p -> In p s -> ringT t s -> strays fs p ELoop.
  Proof.
    intros RP I R. set (there := fun x => match fs x with Some _ => true | None => false end).
    assert (T : forall x, In x s -> real_path x -> In x (filter there s)).
    { intros x Ix Rx. apply filter_In. split; auto. destruct (R x Ix) as (y & _ & l & L & _). pose proof (link_real x l Rx L) as F. unfold there. now destruct (fs x). }
    apply strays_ring with (links := filter there s); auto. intros x Ix. apply filter_In in Ix as [Ix Fx].
    assert (Rx : real_path x) by (apply RO; unfold there, fs in Fx; destruct (unpack empty_root layers x); discriminate).
    destruct (R x Ix) as (y & Iy & Hy). destruct (hop_hops x y Rx Hy) as [HF Ry]. exists y. auto.
  Qed.
  Theorem trip_trips :
    (forall d cs e, trip t d cs e -> real_path d -> unmarked cs -> trips fs d cs e) /\
    (forall k p e, stray t k p e -> real_path p -> strays fs p e).
  Proof.
    apply (trip_stray_ind t (fun d cs e _ => real_path d -> unmarked cs -> trips fs d cs e) (fun k p e _ => real_path p -> strays fs p e)).
    - intros d cs e _ IH R U. inversion U; subst. apply trips_up, IH; auto. now apply real_parent.
    - intros d c cs D P V R U. destruct (back_dir fs t AG d R D) as [m E]. eapply trips_missing; eauto.
      destruct (fs (d ++ [c])) eqn:F; auto. exfalso. eapply (conv_present fs t RO AG); eauto. congruence.
    - intros d c cs k q D P N PP RS ND R U. inversion U; subst. destruct (back_dir fs t AG d R D) as [m E].
      destruct (unrest fs t RO AG NM k (d ++ [c]) q RS (real_add d c R P ltac:(auto))) as [EN RQ].
      pose proof (back_there fs t AG q RQ (rests_view t _ _ _ RS)) as F. destruct (fs q) as [[m'|h b]|] eqn:Fq; [|eapply trips_file; eauto|congruence].
      exfalso. destruct (conv_dir fs t RO AG q m' Fq) as [_ X]. congruence.
    - intros d c cs k e D P N PP _ IH R U. inversion U; subst. destruct (back_dir fs t AG d R D) as [m E]. eapply trips_link; eauto. apply IH. now apply real_add.
    - intros d c cs s D P N PP I RG R U. inversion U as [|? ? Mc Mcs]; subst. destruct (back_dir fs t AG d R D) as [m E]. eapply trips_link; eauto.
      apply (ring_strays s); auto. now apply real_add.
    - intros d c cs k d' e D P L N PP _ IH R U. inversion U; subst. destruct (back_dir fs t AG d R D) as [m E]. destruct (proj1 (unconvert fs t AG NM) _ _ _ L (real_add d c R P ltac:(auto))) as [F RD].
      eapply trips_down; eauto.
    - intros p l e L N _ IH R. destruct (back_link fs t AG p l R L) as (h & c & E & T & <-). eapply strays_text; eauto. apply IH; [|eapply NM; eauto].
      destruct (is_abs (th_link h)); [apply real_nil|now apply real_parent].
    - intros p l L N R. exfalso. destruct (back_link fs t AG p l R L) as (h & c & E & T & <-). now apply (NRF p h c E T).
    - intros k p q e HO _ IH R. destruct (hop_hops p q R HO) as [HF RQ]. eapply strays_on; eauto.
  Qed.
  Lemma name_text p : plain_path p -> clean_comps (open_name p) = p /\ is_abs (open_name p) = false /\ clean (open_name p) <> $"/".
  Proof.
    intros PP. assert (C : clean_comps (open_name p) = p) by (unfold open_name; apply clean_comps_text; now apply plain_clean).
    assert (A : is_abs (open_name p) = false) by (unfold open_name; apply is_abs_text; now apply plain_clean). repeat split; auto.
    intros X. assert (Y : is_abs (clean (open_name p)) = true) by now rewrite X. rewrite clean_text, A, C in Y. rewrite is_abs_text in Y by now apply plain_clean. discriminate.
  Qed.
  Theorem open_nowhere utf8 p e : plain_path p -> utf8 (open_name p) = true -> unmarked p -> leads_nowhere fs p e ->
    exists N, forall n, N <= n -> open utf8 n t (open_name p) = Fail e.
  Proof.
    intros PP U M [T|(q & W & S)].
    - apply (proj1 trips_trip) in T; auto; [|exists false; now apply plain_clean]. pose proof (trip_names t _ _ _ T) as NMS. destruct (proj1 (trip_ok t WV ROOT) _ _ _ T) as [N HN]. exists (2 + N). intros n LE.
      destruct n as [|[|n]]; try lia. unfold open. rewrite valid_open by auto. cbn [negb]. destruct (name_text p PP) as (C & A & NS).
      pose proof (text_get t (S n) [] (open_name p) false NS) as F. change (parent []) with (@nil str) in F. rewrite F, A, C, NMS, HN by lia. reflexivity.
    - pose proof (image_walks layers PS NR t AG p q PP W) as ST. destruct (proj2 (lands_ok t) _ _ _ ST) as [N1 H1]. apply (proj2 trips_trip) in S.
      assert (R : exists N, forall n, N <= n -> resolve n t q false [] = Fail e).
      { destruct S as [[k S]|(-> & s & I & R)]; [|now apply (ring_ok t s)]. destruct (proj2 (trip_ok t WV ROOT) _ _ _ S) as [_ [N HN]]. exists N. intros n LE. apply HN; auto. intros x []. }
      destruct R as [N2 H2]. exists (2 + N1 + N2). intros n LE. destruct n as [|[|n]]; try lia. unfold open. rewrite valid_open by auto. cbn [negb]. destruct (name_text p PP) as (C & A & NS).
      pose proof (fs_get_link t n [] (open_name p) q false false NS) as F. rewrite A, C in F. change (parent []) with (@nil str) in F. rewrite F by (apply H1; lia). cbn [bind].
      rewrite get_dot, H2 by lia. reflexivity.
  Qed.
  Theorem open_why utf8 n p e : plain_path p -> utf8 (open_name p) = true -> unmarked p -> open utf8 n t (open_name p) = Fail e -> leads_nowhere fs p e.
  Proof.
    intros PP U M O. unfold open in O. rewrite valid_open in O by auto. cbn [negb] in O. destruct (name_text p PP) as (C & A & NS).
    destruct (fs_get n t [] (open_name p) false false) as [[t1 q]|e1|] eqn:F; try discriminate; cbn [bind] in O.
    - destruct (back_ok t WV LF ROOT n) as (_ & _ & BF). apply BF in F as (-> & _ & q' & S & V & ->); [|exact ROOT]. rewrite A, C in S.
      destruct (get n t q' dot false true) as [[t2 tgt]|e1|] eqn:G; try discriminate. cbn [bind] in O. injection O as ->. destruct n as [|n]; [discriminate|]. rewrite get_dot in G.
      destruct (why_ok t WV LF ROOT n) as (_ & IR & _). apply IR in G; [|exact V|exact Logic.I]. destruct (proj2 (unconvert fs t AG NM) _ _ _ S (real_nil) M) as [W RQ].
      right. exists q'. split; auto. destruct G as [[k G]|(-> & s & I & R)]; [eapply (proj2 trip_trips); eauto|eapply ring_strays; eauto].
    - injection O as ->. destruct (why_ok t WV LF ROOT n) as (_ & _ & IF). apply IF in F as [[N _]|(_ & [T|(FW & _)])]; [congruence| |discriminate|exact ROOT].
      rewrite A, C in T. left. apply (proj1 trip_trips); auto. apply real_nil.
  Qed.
End unpacked.
