(** Why squashing fails. *)
From Coq Require Import String Ascii List Bool ZArith Lia Wf_nat.
From Verif.Model Require Import GoStr GoPath Tar Squash.
From Verif.Spec Require Import PathSpec SquashSpec SimpleAPISpec EndsSpec LoopSpec.
From Verif.Proofs Require Import Order GoStrFacts GoPathFacts SquashTree SquashLoad SquashSim SquashStack SquashWf SquashInv SquashMain SquashFinal SquashMore SquashLinks SquashCreate SquashBack SquashHard SquashEnds.
Import ListNotations.
Local Open Scope nat_scope.
Local Arguments byte_eqb : simpl never.
Local Arguments str_eqb : simpl never.
Local Arguments clean : simpl never.

Lemma fail_get n m t f c create follow e : get n t f c create follow = Fail e -> n <= m -> get m t f c create follow = Fail e.
Proof. intros E L. induction L as [|m L IH]; auto. destruct (proj1 (le_get m) t f c create follow) as [X|X]; congruence. Qed.
Lemma fail_crawl n m t d cs create follow e : crawl n create follow t d cs = Fail e -> n <= m -> crawl m create follow t d cs = Fail e.
Proof. intros E L. induction L as [|m L IH]; auto. destruct (le_crawl m create follow cs t d) as [X|X]; congruence. Qed.
Lemma fail_resolve n m t p create stack e : resolve n t p create stack = Fail e -> n <= m -> resolve m t p create stack = Fail e.
Proof. intros E L. induction L as [|m L IH]; auto. destruct (proj1 (proj2 (le_get m)) t p create stack) as [X|X]; congruence. Qed.
Lemma not_in_stack (p : pos) stack : ~ In p stack -> existsb (fun q => if list_eq_dec (list_eq_dec ascii_dec) p q then true else false) stack = false.
Proof. intros H. apply not_true_is_false. intros Ex. apply existsb_exists in Ex as (x & I & E). destruct (list_eq_dec _ p x) as [->|]; [auto|discriminate]. Qed.
Lemma in_stack (p : pos) stack : In p stack -> existsb (fun q => if list_eq_dec (list_eq_dec ascii_dec) p q then true else false) stack = true.
Proof. intros H. apply existsb_exists. exists p. split; auto. now destruct (list_eq_dec _ p p). Qed.
Notation in_pos := (in_dec (list_eq_dec (list_eq_dec ascii_dec))).
Lemma resolve_incl n : forall t p create stack stack', resolve n t p create stack = Fail ELoop -> incl stack stack' -> resolve n t p create stack' = Fail ELoop.
Proof.
  induction n as [|n IH]; intros t p create stack stack' E I; [discriminate|]. rewrite resolve_S in E |- *. destruct (Squash.link_of _) as [l|]; [|discriminate].
  destruct (in_pos p stack') as [X|X]; [now rewrite in_stack|]. rewrite not_in_stack by auto. rewrite not_in_stack in E by (intros Y; apply X, I, Y).
  destruct (fs_get n t (parent p) l create false) as [[t1 q]| |]; cbn [bind] in *; try congruence. eapply IH; eauto. intros y [<-|Y]; [now left|right; auto].
Qed.

Section loops.
  Context (t : tree) (LF : leafy (view_of t)).
  Definition hop (p q : pos) : Prop := real_path p /\ exists l, Squash.link_of (header_at t p) = Some l /\ clean l <> $"/" /\
    goes t (if is_abs l then [] else parent p) (clean_comps l) q.
  Definition ringT (s : list pos) : Prop := forall x, In x s -> exists y, In y s /\ hop x y.
  Inductive trip : pos -> list str -> Prop :=
  | trip_up d cs : trip (parent d) cs -> trip d (dotdot :: cs)
  | trip_link d c cs : dirT t d -> plain_comp c -> cs <> [] -> plain_path cs -> stray (d ++ [c]) -> trip d (c :: cs)
  | trip_down d c cs k d' : dirT t d -> plain_comp c -> view_of t (d ++ [c]) <> None -> comes t k (d ++ [c]) d' -> dirT t d' -> cs <> [] -> plain_path cs -> trip d' cs -> trip d (c :: cs)
  with stray : pos -> Prop :=
  | stray_text p l : Squash.link_of (header_at t p) = Some l -> clean l <> $"/" -> trip (if is_abs l then [] else parent p) (clean_comps l) -> stray p
  | stray_on p q : hop p q -> stray q -> stray p
  | stray_ring p s : In p s -> ringT s -> stray p.
  Scheme trip_mut := Induction for trip Sort Prop with stray_mut := Induction for stray Sort Prop.
  Combined Scheme trip_stray_ind from trip_mut, stray_mut.

  Lemma stray_link p : stray p -> exists l, Squash.link_of (header_at t p) = Some l.
  Proof. intros H. inversion H as [? l L|? ? (_ & l & L & _)|? s I R]; subst; eauto. destruct (R p I) as (y & _ & _ & l & L & _). eauto. Qed.
  Lemma stray_view p : stray p -> view_of t p <> None.
  Proof. intros H. apply stray_link in H as [l L]. now apply link_view in L. Qed.
  (** a step to a link does not change the tree *)
  Lemma hop_run p q l : hop p q -> (exists l', Squash.link_of (header_at t q) = Some l') -> Squash.link_of (header_at t p) = Some l ->
    exists N, forall n, N <= n -> forall follow, fs_get (S (S n)) t (parent p) l true follow = if follow then resolve n t q true [] else Ret (t, q).
  Proof.
    intros (_ & l0 & L0 & NR & G) [l' L'] L. rewrite L in L0. injection L0 as <-. destruct (proj2 (comes_ok t LF) _ _ _ G) as (N & t' & H & K).
    assert (t' = t) as ->. { destruct K as [[-> _]|[_ C]]; auto. exfalso. eapply clear_link; eauto. }
    exists N. intros n LE follow. apply fs_get_to; auto.
  Qed.
  Definition stuck (d : pos) (cs : list str) : Prop := exists N, forall n, N <= n -> forall follow, crawl (S n) true follow t d cs = Fail ELoop.
  Definition lost (p : pos) : Prop := exists N, forall n, N <= n ->
    (forall c follow, plain_comp c -> get (S n) t p c true follow = Fail ELoop) /\ resolve n t p true [] = Fail ELoop.
  Lemma lost_crawl p : lost p -> forall cs, cs <> [] -> plain_path cs -> stuck p cs.
  Proof.
    intros [N H] [|c cs] NE P; [congruence|]. inversion P; subst. exists N. intros n LE follow. destruct (H n LE) as [H1 _]. destruct cs; [now apply H1|]. rewrite crawl_cons, H1; auto.
  Qed.
  Lemma crawl_into d c cs : dirT t d -> plain_comp c -> view_of t (d ++ [c]) <> None -> cs <> [] -> stuck (d ++ [c]) cs -> stuck d (c :: cs).
  Proof.
    intros D P V NE [N H]. exists N. intros n LE follow. destruct cs as [|c' cs]; [congruence|]. rewrite crawl_cons, get_exists by auto. cbn [bind]. now apply H.
  Qed.
  Lemma fails_lost p l : Squash.link_of (header_at t p) = Some l ->
    (exists N, forall n, N <= n -> fs_get n t (parent p) l true true = Fail ELoop) -> (exists N, forall n, N <= n -> resolve n t p true [] = Fail ELoop) -> lost p.
  Proof.
    intros L [N1 H1] [N2 H2]. exists (N1 + N2). intros n LE. split; [|apply H2; lia]. intros c follow P. destruct (plain_keys _ P) as [K1 K2].
    rewrite get_S. cbv zeta. rewrite K1, K2, L, H1 by lia. reflexivity.
  Qed.
  Lemma ring_resolve s : ringT s -> exists N, forall k n, N + k <= n -> forall p stack, In p s -> NoDup stack -> incl stack s -> length s <= k + length stack ->
    resolve n t p true stack = Fail ELoop.
  Proof.
    intros R.
    assert (LK : forall p, In p s -> exists l, Squash.link_of (header_at t p) = Some l) by (intros p I; apply stray_link; now apply stray_ring with s).
    assert (X : exists N, forall p, In p s -> exists q, In q s /\ forall n, N <= n -> forall l, Squash.link_of (header_at t p) = Some l -> fs_get n t (parent p) l true false = Ret (t, q)).
    { assert (Y : forall s', incl s' s -> exists N, forall p, In p s' -> exists q, In q s /\ forall n, N <= n -> forall l, Squash.link_of (header_at t p) = Some l -> fs_get n t (parent p) l true false = Ret (t, q)).
      { induction s' as [|x s' IH]; intros I; [exists 0; intros p []|]. destruct IH as [N H]; [intros y Iy; apply I; now right|].
        destruct (R x (I x (or_introl eq_refl))) as (y & Iy & Hy). destruct (LK x (I x (or_introl eq_refl))) as [lx Lx]. destruct (hop_run x y lx Hy (LK y Iy) Lx) as [N1 H1]. exists (2 + N + N1). intros p [<-|Ip].
        - exists y. split; auto. intros n LE l' L'. rewrite Lx in L'. injection L' as <-. destruct n as [|[|n]]; try lia. apply (H1 n ltac:(lia) false).
        - destruct (H p Ip) as (q & Iq & Hq). exists q. split; auto. intros n LE. apply Hq. lia. }
      apply Y. apply incl_refl. }
    destruct X as [N X]. exists (N + 1). induction k as [|k IH]; intros n LE p stack Ip ND IN LEN; (destruct n as [|n]; [lia|]); rewrite resolve_S; destruct (LK p Ip) as [l L]; rewrite L.
    - rewrite in_stack; auto. destruct (in_pos p stack) as [I|NI]; auto. exfalso.
      assert (ND' : NoDup (p :: stack)) by now constructor. assert (IN' : incl (p :: stack) s) by (intros z [<-|Iz]; auto).
      pose proof (NoDup_incl_length ND' IN') as C. cbn [length] in C. lia.
    - destruct (in_pos p stack) as [I|NI]; [now rewrite in_stack|]. rewrite not_in_stack by auto.
      destruct (X p Ip) as (q & Iq & Hq). rewrite (Hq n ltac:(lia) l L). cbn [bind]. apply IH; auto; [lia|now constructor|intros z [<-|Iz]; auto|cbn [length]; lia].
  Qed.
  Lemma on_lost p q : hop p q -> (exists l', Squash.link_of (header_at t q) = Some l') -> (exists N, forall n, N <= n -> resolve n t q true [] = Fail ELoop) -> lost p.
  Proof.
    intros H LQ [N2 H2]. pose proof H as (_ & l & L & _). destruct (hop_run p q l H LQ L) as [N1 H1]. apply (fails_lost p l L).
    - exists (2 + N1 + N2). intros n LE. destruct n as [|[|n]]; try lia. rewrite (H1 n ltac:(lia) true). apply H2. lia.
    - exists (3 + N1 + N2). intros n LE. destruct n as [|[|[|n]]]; try lia. rewrite resolve_S, L. cbn [existsb]. rewrite (H1 n ltac:(lia) false). cbn [bind].
      apply resolve_incl with (stack := []); [apply H2; lia|intros z []].
  Qed.
  Lemma ring_lost s p : ringT s -> In p s -> lost p.
  Proof.
    intros R I. destruct (ring_resolve s R) as [N H]. destruct (R p I) as (y & Iy & Hy). apply (on_lost p y Hy).
    - apply stray_link. now apply stray_ring with s.
    - exists (N + length s). intros n LE. apply (H (length s)); auto; [constructor|intros z []|cbn [length]; lia].
  Qed.
  Lemma trip_names d cs : trip d cs -> names cs = cs.
  Proof. now destruct 1. Qed.
  Theorem trip_ok : (forall d cs, trip d cs -> stuck d cs) /\ (forall p, stray p -> lost p).
  Proof.
    apply (trip_stray_ind (fun d cs _ => stuck d cs) (fun p _ => lost p)).
    - intros d cs T [N H]. exists N. intros n LE follow. specialize (H n LE follow). destruct cs as [|c cs]; [inversion T|].
      rewrite crawl_cons, get_S. cbv zeta. replace (str_eqb dotdot $"..") with true by reflexivity. cbn [bind]. exact H.
    - intros d c cs D P NE PP T L. apply crawl_into; auto; [now apply stray_view|now apply lost_crawl].
    - intros d c cs k d' D P V C D' NE PP T [N H]. apply crawl_into; auto. destruct (proj1 (comes_ok t LF) _ _ _ C) as (N1 & t1 & A1 & H1).
      assert (t1 = t) as -> by (apply (arrives_existing t LF d'); auto; [apply (comes_end_clear _ _ _ _ C)|apply D']). destruct (H1 V) as [_ H2].
      exists (N + N1). intros n LE follow. rewrite <- (H n ltac:(lia) follow). destruct cs as [|c' cs]; [congruence|]. apply crawl_same2. intros follow'. apply H2; [lia|]. now inversion PP.
    - intros p l L NR T [N H]. assert (NM := trip_names _ _ T).
      assert (F : forall n fl, N <= n -> fs_get (S (S n)) t (parent p) l true fl = Fail ELoop).
      { intros n fl LE. rewrite fs_get_S, link_text by auto. rewrite clean_text, is_abs_text by apply clean_comps_list. rewrite NM. now apply H. }
      apply (fails_lost p l L).
      + exists (2 + N). intros n LE. destruct n as [|[|n]]; try lia. apply F. lia.
      + exists (3 + N). intros n LE. destruct n as [|[|[|n]]]; try lia. rewrite resolve_S, L. cbn [existsb]. rewrite F by lia. reflexivity.
    - intros p q HP T [N H]. apply (on_lost p q HP); [now apply stray_link|]. exists N. intros n LE. now apply H.
    - intros p s I R. now apply (ring_lost s).
  Qed.
End loops.

(** *** why it failed *)
Section why.
  Context (t : tree) (LF : leafy (view_of t)) (ROOT : Squash.link_of (header_at t []) = None).
  Context (TL : forall p l, real_path p -> Squash.link_of (header_at t p) = Some l -> clean l <> $"/" /\ unmarked (clean_comps l)).
  Fixpoint chain (stack : list pos) (p : pos) : Prop := match stack with [] => True | x :: stack' => hop t x p /\ chain stack' x end.
  Lemma chain_ring stack : forall p, chain stack p -> forall x, In x stack -> exists y, (y = p \/ In y stack) /\ hop t x y.
  Proof.
    induction stack as [|z stack IH]; intros p C x I; [destruct I|]. destruct C as [H C]. destruct I as [<-|I]; [exists p; auto|].
    destruct (IH z C x I) as (y & [->|Iy] & Hy); [exists z|exists y]; split; auto; right; [now left|now right].
  Qed.
  Definition got_fail (n : nat) : Prop := forall f c e, real_path f -> view_of t f <> None -> plain_comp c -> get n t f c true false = Fail e ->
    stray t f \/ exists k d, comes t k f d.
  Definition resolve_fail (n : nat) : Prop := forall p stack e, real_path p -> view_of t p <> None -> chain stack p -> resolve n t p true stack = Fail e -> stray t p.
  Definition fetch_fail (n : nat) : Prop := forall f l follow e, real_path f -> Squash.link_of (header_at t f) = Some l -> fs_get n t (parent f) l true follow = Fail e ->
    trip t (if is_abs l then [] else parent f) (clean_comps l) \/
    follow = true /\ exists q, goes t (if is_abs l then [] else parent f) (clean_comps l) q /\ stray t q.
  (** names after which everything is new are never a problem *)
  Lemma new_names k f d r : view_of t f <> None -> comes t k f d -> r <> [] -> plain_path r -> clear t (d ++ r) -> exists N x, forall n, N <= n -> crawl n true false t f r = Ret x.
  Proof.
    intros V C NE P CL. destruct (proj1 (comes_ok t LF) _ _ _ C) as (N & t1 & A & H). destruct (H V) as [_ H1].
    destruct (arrive t LF (d ++ r) CL) as (t2 & [_ [[X _]|[_ A2]]]); [destruct d; [cbn in X; congruence|discriminate]|].
    exists (N + 3), (t2, d ++ r). intros n LE. destruct n as [|[|[|n]]]; try lia. rewrite <- (A2 n). rewrite (arrives_crawl t d t1 n false r A NE).
    destruct r as [|c cs]; [congruence|]. inversion P; subst. apply crawl_same2. intros follow. apply H1; auto. lia.
  Qed.
  Lemma new_no_fail k f d r n e : view_of t f <> None -> comes t k f d -> r <> [] -> plain_path r -> clear t (d ++ r) -> crawl n true false t f r <> Fail e.
  Proof.
    intros V C NE P CL E. destruct (new_names k f d r V C NE P CL) as (N & x & H). specialize (H (n + N) ltac:(lia)). rewrite (fail_crawl n (n + N) _ _ _ _ _ _ E) in H by lia. discriminate.
  Qed.
  Lemma there_get k f d c n e : view_of t f <> None -> comes t k f d -> dirT t d -> view_of t (d ++ [c]) <> None -> plain_comp c -> get n t f c true false <> Fail e.
  Proof.
    intros V C D Vc P E. destruct (proj1 (comes_ok t LF) _ _ _ C) as (N2 & t2 & A2 & H2).
    assert (t2 = t) as -> by (apply (arrives_existing t LF d); auto; [apply (comes_end_clear _ _ _ _ C)|apply D]).
    destruct (H2 V) as [_ H3]. specialize (H3 (n + N2) ltac:(lia) c false P). rewrite (fail_get n (S (n + N2)) _ _ _ _ _ _ E) in H3 by lia. rewrite get_exists in H3 by auto. discriminate.
  Qed.
  Lemma crawl_why n : got_fail n -> forall cs, plain_path cs -> unmarked cs -> cs <> [] -> forall f e, real_path f -> view_of t f <> None -> crawl n true false t f cs = Fail e ->
    stray t f \/ exists k d, comes t k f d /\ dirT t d /\ trip t d cs.
  Proof.
    intros G. induction cs as [|c cs IH]; intros P M NE f e R V C; [congruence|]. inversion P as [|? ? Pc Pcs]; inversion M as [|? ? Mc Mcs]; subst.
    assert (B : stray t f \/ exists k d, comes t k f d).
    { destruct (get n t f c true false) as [y|e1|] eqn:E.
      - right. eapply (proj1 (back_ok t LF ROOT TL n)); eauto.
      - eapply G; eauto.
      - destruct cs; [|rewrite crawl_cons in C]; rewrite ?E in C; try discriminate. cbn [crawl] in C. congruence. }
    destruct B as [B|(k & d & K)]; [now left|]. right. exists k, d. pose proof (comes_end_clear t k f d K) as CD. pose proof CD as (Rd & _).
    destruct (dirT_dec t d) as [D|D].
    2: { exfalso. eapply new_no_fail; eauto. now apply clear_below. }
    destruct (view_of t (d ++ [c])) eqn:Vc.
    2: { exfalso. eapply new_no_fail; eauto. now apply clear_miss. }
    assert (Vn : view_of t (d ++ [c]) <> None) by congruence.
    split; auto. split; auto.
    destruct cs as [|c' cs]; [exfalso; eapply (there_get k f d c n e); eauto|]. rewrite crawl_cons in C.
    destruct (get n t f c true false) as [y|e1|] eqn:E; [|exfalso; eapply (there_get k f d c n); eauto|discriminate].
    assert (Y : y = (t, d ++ [c])).
    { destruct (proj1 (comes_ok t LF) _ _ _ K) as (N2 & t2 & A2 & H2). assert (t2 = t) as -> by (apply (arrives_existing t LF d); auto; [apply Rd|apply D]).
      destruct (H2 V) as [_ H3]. specialize (H3 (n + N2) ltac:(lia) c false Pc). rewrite (more_get n (S (n + N2)) _ _ _ _ _ _ E) in H3 by lia.
      rewrite get_exists in H3 by auto. congruence. }
    subst y. cbn [bind] in C. destruct (IH Pcs Mcs ltac:(discriminate) (d ++ [c]) e) as [S|(k' & d' & K' & D' & T)]; auto.
    - apply real_add; auto; constructor; auto.
    - apply trip_link; auto. discriminate.
    - eapply trip_down; eauto. discriminate.
  Qed.
  Lemma dir_comes0 d : real_path d -> dirT t d -> comes t 0 d d.
  Proof. intros R D. apply comes_end. split; auto. split; [apply (above_dir t LF), D|now apply dirT_link]. Qed.
  Lemma crawl_up_why n : got_fail n -> forall m ps, plain_path ps -> unmarked ps -> forall d e, dirT t d -> real_path d ->
    crawl n true false t d (names (repeat dotdot m ++ ps)) = Fail e -> trip t d (repeat dotdot m ++ ps).
  Proof.
    intros G. induction m as [|m IH]; intros ps P M d e D R C.
    - cbn [repeat app] in *. destruct ps as [|c cs].
      + exfalso. cbn [names crawl] in C. destruct n; [discriminate|]. rewrite get_S in C. discriminate.
      + cbn [names] in C. apply crawl_why in C as [S|(k & d' & K & D' & T)]; auto; [|apply dir_comes in K as ->; auto|discriminate|apply D].
        exfalso. apply stray_link in S as [l L]. rewrite (dirT_link t d D) in L. discriminate.
    - cbn [repeat app] in *. cbn [names] in C. apply trip_up. eapply IH; [auto|auto|now apply parent_dir|now apply real_parent|].
      destruct n as [|n]; [destruct (repeat dotdot m ++ ps); discriminate|].
      destruct (repeat dotdot m ++ ps) as [|c cs] eqn:E.
      + cbn [names crawl] in C |- *. rewrite get_S in C |- *. exact C.
      + cbn [names]. rewrite crawl_cons, get_S in C. cbv zeta in C. change (str_eqb dotdot $"..") with true in C. cbn [bind] in C. exact C.
  Qed.
  Theorem why_ok n : got_fail n /\ resolve_fail n /\ fetch_fail n.
  Proof.
    induction n as [n IH] using lt_wf_ind. destruct n as [|n]; [repeat split; discriminate|].
    destruct (IH n ltac:(lia)) as (IG & IR & IF). destruct (back_ok t LF ROOT TL n) as (BG & BR & BF). split; [|split].
    - intros f c e R V P E. destruct (plain_keys _ P) as [K1 K2]. rewrite get_S in E. cbv zeta in E. rewrite K1, K2 in E.
      destruct (Squash.link_of (header_at t f)) as [l|] eqn:L.
      + destruct (TL f l R L) as [NR _]. destruct (fs_get n t (parent f) l true true) as [[t1 f1]|e1|] eqn:F; try discriminate; cbn [bind] in E.
        * right. destruct (BF f l true _ R L F) as (q & GO & Rq & K). destruct (K eq_refl) as (k & d & C). exists (S k), d. eapply comes_link; eauto.
        * left. destruct (IF f l true _ R L F) as [T|(_ & q & GO & S)]; [eapply stray_text; eauto|]. apply stray_on with q; auto. split; auto. exists l. auto.
      + right. exists 0, f. apply comes_end. split; auto. split; auto. now apply (above_dir t LF).
    - intros p stack e R V C E. rewrite resolve_S in E. destruct (Squash.link_of (header_at t p)) as [l|] eqn:L; [|discriminate]. destruct (TL p l R L) as [NR M].
      destruct (in_pos p stack) as [I|NI].
      + apply stray_ring with stack; auto. intros x Ix. destruct (chain_ring stack p C x Ix) as (y & [->|Iy] & Hy); eauto.
      + rewrite not_in_stack in E by auto. destruct (fs_get n t (parent p) l true false) as [[t1 q]|e1|] eqn:F; try discriminate; cbn [bind] in E.
        * destruct (BF p l false _ R L F) as (q' & GO & Rq & _). destruct (proj2 (comes_ok t LF) _ _ _ GO) as (N & t' & H & K).
          assert (Q : (t1, q) = (t', q')).
          { specialize (H (n + N) ltac:(lia) false). cbv iota in H. pose proof (fs_get_to t (n + N) p l q' t' false NR H) as X. cbv iota in X.
            assert (Y : fs_get (S (S (n + N))) t (parent p) l true false = Ret (t1, q)).
            { clear -F. remember (S (S (n + N))) as m eqn:Em. assert (L : n <= m) by lia. clear Em. induction L as [|m L IH]; auto. destruct (proj2 (proj2 (le_get m)) t (parent p) l true false) as [X|X]; congruence. }
            congruence. }
          injection Q as -> ->. assert (HP : hop t p q') by (split; auto; exists l; auto). apply stray_on with q'; auto. destruct K as [[-> V']|[A CL]].
          -- eapply IR; [| | |exact E]; auto. split; auto.
          -- exfalso. destruct A as [A _]. destruct n; [discriminate|]. rewrite resolve_S, A in E. discriminate.
        * injection E as ->. destruct (IF p l false _ R L F) as [T|(X & _)]; [|discriminate]. eapply stray_text; eauto.
    - intros f l follow e R L E. destruct (TL f l R L) as [NR M]. rewrite fs_get_S, link_text in E by auto.
      rewrite clean_text, is_abs_text in E by apply clean_comps_list.
      assert (D : dirT t (if is_abs l then [] else parent f)) by (eapply base_dir; eauto).
      assert (RB : real_path (if is_abs l then [] else parent f)) by (destruct (is_abs l); [apply real_nil|now apply real_parent]).
      destruct (clean_comps_list l) as (m & ps & CL & Pp & _). pose proof M as M0. rewrite CL in M. apply Forall_app in M as [M1 M2].
      assert (FF : forall e', crawl n true false t (if is_abs l then [] else parent f) (names (clean_comps l)) = Fail e' -> trip t (if is_abs l then [] else parent f) (clean_comps l)).
      { intros e' X. rewrite CL in X |- *. eapply crawl_up_why; eauto. }
      destruct follow; [|left; eapply FF; eauto].
      destruct n as [|n']; [destruct (clean_comps l) as [|? [|]]; discriminate|].
      rewrite crawl_follow in E by (destruct (clean_comps l); discriminate).
      destruct (crawl (S n') true false t _ _) as [[t1 q]|e1|] eqn:C0; try discriminate; [|left; eapply FF; eauto]. cbn [bind] in E.
      assert (GO : exists q, goes t (if is_abs l then [] else parent f) (clean_comps l) q) by (rewrite CL in C0 |- *; eapply crawl_up; eauto).
      destruct GO as [q' GO]. right. split; auto. exists q'. split; auto. destruct (proj2 (comes_ok t LF) _ _ _ GO) as (N & t' & H & K).
      assert (Q : (t1, q) = (t', q')).
      { specialize (H (n' + N) ltac:(lia) false). cbv iota in H. rewrite (more_crawl (S n') (S (n' + N)) _ _ _ _ _ _ C0) in H by lia. congruence. }
      injection Q as -> ->. destruct K as [[-> V']|[A CLR]].
      + destruct (IH n' ltac:(lia)) as (_ & IR' & _). eapply IR'; [| | |exact E]; auto; [eapply goes_real; eauto|exact Logic.I].
      + exfalso. destruct A as [A _]. destruct n'; [discriminate|]. rewrite resolve_S, A in E. discriminate.
  Qed.
End why.

(** *** the unpacked file system *)
Scheme snags_mut := Induction for snags Sort Prop with spins_mut := Induction for spins Sort Prop.
Combined Scheme snags_spins_ind from snags_mut, spins_mut.
Section unpacked.
  Context (fs : fsys) (u : tree) (LF : leafy (view_of u)) (RO : forall p, fs p <> None -> real_path p) (AG : fagree fs (interp (view_of u) empty_root)).
  Context (ROOT : Squash.link_of (header_at u []) = None).
  Context (TL : forall p l, real_path p -> Squash.link_of (header_at u p) = Some l -> clean l <> $"/" /\ unmarked (clean_comps l)).
  Lemma link_there p h c : fs p = Some (FFile h c) -> th_type h = TypeSymlink -> Squash.link_of (header_at u p) = Some (th_link h).
  Proof.
    intros E T. destruct (conv_file fs u RO AG p h c E) as (h' & V & A). rewrite header_view. unfold hdr_of. rewrite V. cbn [fst Squash.link_of]. rewrite <- A in T |- *.
    change (th_type (anon h')) with (th_type h') in T. rewrite T. reflexivity.
  Qed.
  Lemma spins_symlink p : spins fs p -> is_symlink_at fs p.
  Proof.
    intros H. inversion H as [? h c E T|? ? (h & c & E & T & _)|? s I R]; subst; [exists h, c; auto|exists h, c; auto|]. destruct (R p I) as (y & _ & h & c & E & T & _). exists h, c. auto.
  Qed.
  Lemma symlink_real p : is_symlink_at fs p -> real_path p.
  Proof. intros (h & c & E & _). apply RO. congruence. Qed.
  Lemma turns_hop p q : turns fs p q -> is_symlink_at fs q -> hop u p q.
  Proof.
    intros (h & c & E & T & N & W) S. assert (R : real_path p) by (apply RO; congruence). pose proof (link_there p h c E T) as L. split; auto. exists (th_link h). split; auto. split; auto.
    pose proof (base_dir u LF ROOT p (th_link h) L (is_abs (th_link h))) as D. unfold parent in *.
    destruct (proj2 (found fs u LF RO AG) _ _ _ W) as [_ [G|(B & _)]]; auto.
    - exists (is_abs (th_link h)). apply clean_comps_list.
    - now apply symlink_real.
    - apply (above_dir u LF), D.
    - right. now left.
    - contradiction.
  Qed.
  Lemma snags_dir d cs : snags fs d cs -> plain_path cs -> is_dir_at fs d.
  Proof. intros H P. inversion H; subst; auto. inversion P as [|? ? (_ & _ & _ & X)]; now destruct X. Qed.
  Theorem snags_trip :
    (forall d cs, snags fs d cs -> (exists r, clean_list r cs) -> trip u d cs) /\ (forall p, spins fs p -> stray u p).
  Proof.
    apply (snags_spins_ind fs (fun d cs _ => (exists r, clean_list r cs) -> trip u d cs) (fun p _ => stray u p)).
    - intros d cs _ IH [r C]. apply trip_up, IH. eapply clean_list_tail; eauto.
    - intros d c cs D P N _ IH [r C]. apply trip_link; auto; [now apply (dir_view fs u RO AG)|eapply clean_list_plain; eauto].
    - intros d c cs d' D P L N S IH [r C]. pose proof (clean_list_plain r c cs P C) as PP. pose proof (snags_dir d' cs S PP) as D'. apply (dir_view fs u RO AG) in D as DT.
      assert (A : clear_above u (d ++ [c])) by (apply above_snoc; [apply (above_dir u LF), DT|now apply dirT_link]).
      destruct (proj1 (found fs u LF RO AG) _ _ L) as [k K]; auto; [now apply (dir_real fs RO)|]. apply (dir_view fs u RO AG) in D' as DT'.
      eapply trip_down; eauto; [|apply IH; eapply clean_list_tail; eauto].
      intros V. inversion K as [|? ? l ? ? L0]; subst; [now destruct DT'|]. now apply link_view in L0.
    - intros p h c E T N _ IH. eapply stray_text; [eapply link_there; eauto|auto|]. apply IH. exists (is_abs (th_link h)). apply clean_comps_list.
    - intros p q H S IH. apply stray_on with q; auto. apply turns_hop; auto. now apply spins_symlink.
    - intros p links I R. apply stray_ring with links; auto. intros x Ix. destruct (R x Ix) as (y & Iy & Hy). exists y. split; auto. apply turns_hop; auto.
      apply spins_symlink. now apply spins_circle with links.
  Qed.
  Lemma hop_turns p q : hop u p q -> turns fs p q /\ real_path q.
  Proof.
    intros (R & l & L & N & G). destruct (link_back fs u AG p l R L) as (h & c & E & T & <-). destruct (TL p (th_link h) R L) as [_ M].
    assert (RB : real_path (if is_abs (th_link h) then [] else parent p)) by (destruct (is_abs (th_link h)); [apply real_nil|now apply real_parent]).
    split; [|eapply goes_real; eauto]. exists h, c. split; auto. split; auto. split; auto. apply (proj2 (SquashBack.lost fs u RO AG TL) _ _ _ G); auto.
  Qed.
  Theorem trip_snags :
    (forall d cs, trip u d cs -> real_path d -> unmarked cs -> snags fs d cs) /\ (forall p, stray u p -> real_path p -> spins fs p).
  Proof.
    apply (trip_stray_ind u (fun d cs _ => real_path d -> unmarked cs -> snags fs d cs) (fun p _ => real_path p -> spins fs p)).
    - intros d cs _ IH R U. inversion U; subst. apply snags_up, IH; auto. now apply real_parent.
    - intros d c cs D P N PP _ IH R U. inversion U; subst. apply snags_link; auto; [now apply (view_dir fs u AG)|]. apply IH. apply real_add; auto; constructor; auto.
    - intros d c cs k d' D P V C D' N PP _ IH R U. inversion U; subst. assert (R1 : real_path (d ++ [c])) by (apply real_add; auto; constructor; auto).
      apply snags_down with d'; auto; [now apply (view_dir fs u AG)|now apply (proj1 (SquashBack.lost fs u RO AG TL) _ _ _ C)|]. apply IH; auto. apply (comes_end_clear u k _ d' C).
    - intros p l L N _ IH R. destruct (link_back fs u AG p l R L) as (h & c & E & T & <-). destruct (TL p (th_link h) R L) as [_ M]. eapply spins_text; eauto. apply IH; auto.
      destruct (is_abs (th_link h)); [apply real_nil|now apply real_parent].
    - intros p q H _ IH R. destruct (hop_turns p q H) as [W Rq]. apply spins_on with q; auto.
    - intros p s I R _. apply spins_circle with s; auto. intros x Ix. destruct (R x Ix) as (y & Iy & Hy). exists y. split; auto. now apply hop_turns.
  Qed.
End unpacked.

(** *** one entry *)
Section entry.
  Context (es0 : list entry) (u : tree) (G0 : Forall good_entry es0) (P0 : Forall proper_link es0) (RM : remembers es0 (view_of u)) (LF : leafy (view_of u)).
  Notation fs := (unpacked es0).
  Notation RO := (unpacked_real es0 G0).
  Notation AG := (rm_sim _ _ RM).
  Notation ROOT := (tree_root es0 u G0 P0 RM).
  Notation TL := (tree_links es0 u G0 P0 RM).
  Lemma entry_crawl n e a k : good_entry e -> entry_path e = a ++ [k] ->
    fs_get (S n) u [] (th_name (fst (parsed e))) true false = crawl n true false u [] (a ++ [k]).
  Proof.
    intros G Ep. pose proof (good_inside e G) as IN. rewrite parsed_name by auto. assert (Pp : plain_path (a ++ [k])) by (rewrite <- Ep; apply IN).
    rewrite Ep, fs_get_S, clean_of_text by now apply plain_clean. rewrite is_abs_text by now apply plain_clean. cbv iota.
    destruct (a ++ [k]) as [|x r] eqn:E; [now destruct a|]. cbn [path_text]. rewrite split_on_join; [reflexivity|discriminate|]. eapply clean_list_no_slash, (plain_clean true), Pp.
  Qed.
  Lemma anc_real e a k : good_entry e -> entry_path e = a ++ [k] -> real_path a /\ plain_comp k.
  Proof.
    intros G Ep. pose proof (good_inside e G) as [_ IN]. split; [apply (good_real_anc e); auto; rewrite Ep; apply below_app|].
    rewrite Ep in IN. apply plain_path_app in IN as [_ IN]. now inversion IN.
  Qed.
  Theorem caught_fails e : good_entry e -> caught fs e -> exists N, forall n, N <= n -> load_entry n u (parsed e) = Fail ELoop.
  Proof.
    intros G (a & k & Ep & H). destruct (anc_real e a k G Ep) as [Ra Pk].
    assert (C : exists N, forall n, N <= n -> crawl (S n) true false u [] (a ++ [k]) = Fail ELoop).
    { destruct H as [S|(q & W & S)].
      - apply (proj1 (snags_trip fs u LF RO AG ROOT)) in S; [|exists false; apply plain_clean, Ra]. assert (Na : a <> []) by (intros ->; inversion S).
        destruct (proj1 (trip_ok u LF) _ _ S) as [N HN]. exists N. intros n LE. rewrite crawl_app by (auto; discriminate). now rewrite HN.
      - pose proof (spins_symlink fs q S) as SY. pose proof (proj2 (snags_trip fs u LF RO AG ROOT) q S) as ST. destruct (proj2 (trip_ok u LF) q ST) as [N HN].
        destruct a as [|x a].
        { inversion W; subst; try congruence. exfalso. apply stray_link in ST as [l L]. rewrite ROOT in L. discriminate. }
        assert (V0 : view_of u [] <> None) by now rewrite view_root.
        destruct (proj2 (found fs u LF RO AG) _ _ _ W) as [_ [GO|(_ & _ & _ & _ & _ & CL)]].
        + exists false. apply plain_clean, Ra.
        + now apply (symlink_real fs RO).
        + apply (above_dir u LF), V0.
        + left. split; [apply Ra|discriminate].
        + destruct (proj2 (comes_ok u LF) _ _ _ GO) as (N1 & t' & H & K). apply stray_link in ST as [l L].
          assert (t' = u) as ->. { destruct K as [[-> _]|[_ CL]]; auto. exfalso. eapply clear_link; eauto. }
          exists (N + N1). intros n LE. rewrite crawl_app by discriminate. specialize (H n ltac:(lia) false). cbn [names] in H. cbv iota in H. rewrite H. cbn [bind crawl]. now apply HN; [lia|].
        + exfalso. apply stray_link in ST as [l L]. eapply clear_link; eauto. }
    destruct C as [N HN]. exists (2 + N). intros n LE. destruct n as [|[|n]]; try lia. unfold load_entry. rewrite (entry_crawl (S n) e a k G Ep), HN by lia. reflexivity.
  Qed.
  Theorem fails_caught n e x : good_entry e -> proper_link e -> load_entry n u (parsed e) = Fail x -> caught fs e.
  Proof.
    intros G P E. destruct (path_dec (entry_path e) []) as [Ep|Np].
    { exfalso. destruct (load_entry_sim 0 es0 u e G RM LF) as (u1 & F1 & _); [intros q B; rewrite Ep in B; now destruct q|].
      assert (X : load_entry (n + 4) u (parsed e) = Ret u1) by (apply (more_load_entry 4); auto; lia).
      assert (Y : load_entry (n + 4) u (parsed e) = Fail x).
      { clear -E. assert (L : n <= n + 4) by lia. revert L. generalize (n + 4). intros m L. induction L as [|m L IH]; auto. destruct (le_load_entry m u (parsed e)) as [X|X]; congruence. }
      congruence. }
    destruct (exists_last Np) as (a & k & Ep). exists a, k. split; auto. destruct (anc_real e a k G Ep) as [Ra Pk].
    assert (NO : (exists e', moved es0 e e') -> False).
    { intros (e' & AT & Ge & Pe & Me & NL). destruct (load_entry_sim 0 es0 u e' Ge RM LF NL) as (u1 & F1 & _).
      destruct (load_at_target [e] [e'] es0 u (unpacked es0)) as [N H]; auto.
      { constructor; [exact AT|constructor]. }
      { constructor; [now apply good_inside|constructor]. }
      { apply (unpacked_real es0 G0). }
      { apply RM. }
      { intros [|y es1] z es2 X; [injection X as <- <-; now rewrite app_nil_r|destruct es1; discriminate]. }
      specialize (H (4 + n + N) ltac:(lia)). cbn [map load_entries] in H. rewrite (more_load_entry 4 (4 + n + N) _ _ _ F1) in H by lia.
      assert (Y : load_entry (4 + n + N) u (parsed e) = Fail x).
      { clear -E. assert (L : n <= 4 + n + N) by lia. revert L. generalize (4 + n + N). intros m L. induction L as [|m L IH]; auto. destruct (le_load_entry m u (parsed e)) as [X|X]; congruence. }
      rewrite Y in H. discriminate. }
    assert (CO : comes u 0 [] []) by (apply comes_end; split; [apply real_nil|split; [intros [|? ?] ? ? X; discriminate|apply ROOT]]).
    assert (V0 : view_of u [] <> None) by now rewrite view_root.
    destruct n as [|n]; [discriminate|]. unfold load_entry in E. rewrite (entry_crawl n e a k G Ep) in E.
    destruct a as [|c0 a0].
    { exfalso. apply NO. apply (moved_at es0 u G0 P0 RM e [] k [] 0 []); auto. now apply goes_nil. }
    set (a := c0 :: a0) in *. assert (Na : a <> []) by discriminate. rewrite crawl_app in E by (auto; discriminate).
    destruct (why_ok u LF ROOT TL n) as (GF & _). destruct (back_ok u LF ROOT TL n) as (G1 & _).
    destruct (crawl n true false u [] a) as [[t2 q2]|e1|] eqn:CA; try discriminate; cbn [bind] in E.
    - right. destruct (crawl_on u LF n G1 a [] (t2, q2)) as (k0 & d & q & K0 & W); auto; try apply Ra; [apply real_nil|]. apply (root_comes es0 u G0 P0 RM) in K0 as ->.
      destruct W as [[_ GO]|(_ & -> & C)].
      2: { exfalso. apply NO. exists e. split; [now apply at_self|]. split; auto. split; auto. split; auto. eapply clear_no_link; eauto. }
      assert (Rq : real_path q) by (eapply goes_real; eauto; [apply real_nil|apply Ra]).
      exists q. split; [apply (proj2 (SquashBack.lost fs u RO AG TL) _ _ _ GO); [apply real_nil|apply Ra]|]. destruct (proj2 (comes_ok u LF) _ _ _ GO) as (N & t' & H & K).
      assert (Q : (t2, q2) = (t', q)).
      { specialize (H (n + N) ltac:(lia) false). cbv iota in H. unfold a in H, CA. cbn [names] in H. rewrite (more_crawl n (S (n + N)) _ _ _ _ _ _ CA) in H by lia. congruence. }
      injection Q as -> ->. cbn [crawl] in E.
      assert (X : stray u q \/ exists j D, comes u j q D).
      { destruct K as [[-> V]|[A C]]; [|right; exists 0, q; now apply comes_end].
        destruct (get n u q k true false) as [y|e1|] eqn:GK; [right; eapply G1; eauto|eapply GF; eauto|discriminate]. }
      destruct X as [X|(j & D & C)]; [now apply (proj2 (trip_snags fs u RO AG TL))|]. exfalso. apply NO. eapply moved_at; eauto.
    - left. destruct (crawl_why u LF ROOT TL n GF a (proj1 Ra) (proj2 Ra) Na [] e1 real_nil V0 CA) as [S|(j & d & K & _ & T)].
      + exfalso. apply stray_link in S as [l L]. rewrite ROOT in L. discriminate.
      + apply (root_comes es0 u G0 P0 RM) in K as ->. apply (proj1 (trip_snags fs u RO AG TL)); auto; [apply real_nil|apply Ra].
  Qed.
End entry.

(** *** a stack *)
Lemma at_proper fs e e' : at_target fs e e' -> proper_link e -> proper_link e'.
Proof.
  intros (A & _ & _ & H) P L. assert (T : th_type (fst e') = th_type (fst e)) by (apply (f_equal th_type) in A; exact A).
  assert (K : th_link (fst e') = th_link (fst e)) by (apply (f_equal th_link) in A; exact A).
  assert (L' : is_link e = true) by (unfold is_link in *; congruence). destruct (P L') as (N & R & M). rewrite K. split; [|auto].
  destruct H as [->|(a & q & d & r & _ & Nr & _ & _ & ->)]; auto. intros X. apply app_eq_nil in X as [_ X]. auto.
Qed.
(** one entry and its place do the same *)
Lemma same_step es0 u e e' : Forall good_entry es0 -> remembers es0 (view_of u) -> leafy (view_of u) -> good_entry e -> good_entry e' ->
  at_target (unpacked es0) e e' -> no_link_above es0 e' ->
  exists u1, remembers (es0 ++ [e']) (view_of u1) /\ leafy (view_of u1) /\ exists N t1, strip t1 = strip u1 /\ forall n, N <= n -> load_entry n u (parsed e) = Ret t1.
Proof.
  intros G0 RM LF G G' AT NL. destruct (load_entry_sim 0 es0 u e' G' RM LF NL) as (u1 & F1 & RM1 & LF1 & _). exists u1. split; auto. split; auto.
  destruct (load_at_target [e] [e'] es0 u (unpacked es0)) as [N H]; auto.
  { constructor; [exact AT|constructor]. }
  { constructor; [now apply good_inside|constructor]. }
  { now apply unpacked_real. }
  { apply RM. }
  { intros [|y es1] z es2 X; [injection X as <- <-; now rewrite app_nil_r|destruct es1; discriminate]. }
  pose proof (H (4 + N) ltac:(lia)) as H0. cbn [map load_entries] in H0. rewrite (more_load_entry 4 (4 + N) _ _ _ F1) in H0 by lia. cbn [bind rmap] in H0.
  destruct (load_entry (4 + N) u (parsed e)) as [t1| |] eqn:E; try discriminate. cbn [bind rmap] in H0. exists (4 + N), t1. split; [congruence|].
  intros n L. eapply more_load_entry; eauto.
Qed.
Theorem load_fails n es : forall es0 u x, Forall good_entry es0 -> Forall proper_link es0 -> remembers es0 (view_of u) -> leafy (view_of u) ->
  Forall good_entry es -> Forall proper_link es -> load_entries n u (map parsed es) = Fail x ->
  exists es1 e es2 es', es = es1 ++ e :: es2 /\ all_at_target (unpacked es0) es1 es' /\ Forall good_entry es' /\
    (forall l1 y l2, es' = l1 ++ y :: l2 -> no_link_above (es0 ++ l1) y) /\ caught (unpacked (es0 ++ es')) e.
Proof.
  induction es as [|e es IH]; intros es0 u x G0 P0 RM LF G P E; [discriminate|].
  inversion G as [|? ? Ge Gs]; inversion P as [|? ? Pe Ps]; subst. cbn [map load_entries] in E. apply fails_bind in E as [E|(t1 & E1 & E)].
  - exists [], e, es, []. split; auto. split; [constructor|]. split; auto. split; [intros [|? ?] ? ? X; discriminate|]. rewrite app_nil_r. eapply fails_caught; eauto.
  - destruct (entry_back es0 u G0 P0 RM LF n e t1 Ge Pe E1) as (e' & AT & Ge' & Pe' & Me & NL).
    destruct (same_step es0 u e e' G0 RM LF Ge Ge' AT NL) as (u1 & RM1 & LF1 & N & t & ST & HN).
    assert (t1 = t) as ->. { specialize (HN (n + N) ltac:(lia)). rewrite (more_load_entry n (n + N) _ _ _ E1) in HN by lia. congruence. }
    pose proof (load_entries_strip n (map parsed es) t u1 ST) as X. rewrite E in X. cbn [rmap] in X.
    destruct (load_entries n u1 (map parsed es)) as [|y|] eqn:E2; try discriminate. injection X as <-.
    destruct (IH (es0 ++ [e']) u1 x) as (es1 & z & es2 & es' & -> & A & Gs' & Hs & C); auto; try (apply Forall_app; auto).
    exists (e :: es1), z, es2, (e' :: es'). split; auto. split; [constructor; auto; now rewrite <- unpacked_snoc|]. split; [now constructor|]. rewrite <- app_assoc in C. split; [|exact C].
    intros [|w l1] y l2 X; cbn [app] in X; injection X as <- X; [subst; now rewrite app_nil_r|]. specialize (Hs l1 y l2 X). rewrite <- app_assoc in Hs. exact Hs.
Qed.
Theorem fails_load es1 : forall es0 u e es2 es', Forall good_entry es0 -> Forall proper_link es0 -> remembers es0 (view_of u) -> leafy (view_of u) ->
  Forall good_entry es1 -> Forall proper_link es1 -> good_entry e ->
  all_at_target (unpacked es0) es1 es' -> Forall good_entry es' -> (forall l1 y l2, es' = l1 ++ y :: l2 -> no_link_above (es0 ++ l1) y) -> caught (unpacked (es0 ++ es')) e ->
  exists N, forall n, N <= n -> load_entries n u (map parsed (es1 ++ e :: es2)) = Fail ELoop.
Proof.
  induction es1 as [|d es1 IH]; intros es0 u e es2 es' G0 P0 RM LF G P Ge A G' H C; inversion A as [|? ? d' ? ds AT A']; subst.
  - rewrite app_nil_r in C. destruct (caught_fails es0 u G0 P0 RM LF e Ge C) as [N HN]. exists N. intros n LE. cbn [app map load_entries]. now rewrite HN.
  - inversion G as [|? ? Gd Gs]; inversion P as [|? ? Pd Ps]; inversion G' as [|? ? Gd' Gs']; subst.
    pose proof (H [] d' ds eq_refl) as NL. rewrite app_nil_r in NL. destruct (same_step es0 u d d' G0 RM LF Gd Gd' AT NL) as (u1 & RM1 & LF1 & N & t & ST & HN).
    destruct (IH (es0 ++ [d']) u1 e es2 ds) as [N2 H2]; auto; try (apply Forall_app; auto).
    + split; auto. constructor; auto. eapply at_proper; eauto.
    + now rewrite unpacked_snoc.
    + intros l1 y l2 X. specialize (H (d' :: l1) y l2). rewrite <- app_assoc. apply H. now rewrite X.
    + rewrite <- app_assoc. exact C.
    + exists (N + N2). intros n LE. cbn [app map load_entries]. rewrite HN by lia. cbn [bind]. pose proof (load_entries_strip n (map parsed (es1 ++ e :: es2)) t u1 ST) as X. rewrite H2 in X by lia.
      destruct (load_entries n t (map parsed (es1 ++ e :: es2))); try discriminate. now injection X as ->.
Qed.
Theorem squash_loops sort order layers : Forall (Forall good_entry) layers -> Forall (Forall proper_link) layers ->
  ((exists n, squash n sort order layers = Fail ELoop) <-> some_caught layers).
Proof.
  intros G P. assert (IN : Forall (Forall inside) layers) by (eapply Forall_impl; [|exact G]; intros l; apply Forall_impl, good_inside).
  pose proof (all_Forall _ _ G) as GA. pose proof (all_Forall _ _ P) as PA. unfold squash, load_layers. split.
  - intros [n E]. rewrite load_layers_entries in E by auto. apply fails_bind in E as [E|(t & _ & E)]; [|discriminate].
    destruct (load_fails n (all_entries layers) [] empty_tree ELoop) as (es1 & e & es2 & es' & EQ & A & Gs & Hs & C); auto; [apply remembers_empty|apply leafy_empty|].
    exists es1, e, es2, es'. split; auto. split; [|exact C]. split; [exact A|]. split; auto.
  - intros (es & e & rest & es' & EQ & (A & Gs & Hs) & C). rewrite EQ in GA, PA. apply Forall_app in GA as [GA1 GA2]. apply Forall_app in PA as [PA1 PA2]. inversion GA2; subst.
    destruct (fails_load es [] empty_tree e rest es') as [N HN]; auto; [apply remembers_empty|apply leafy_empty|].
    exists N. rewrite load_layers_entries, EQ, HN by auto. reflexivity.
Qed.
Theorem squash_settled sort order layers : Forall (Forall good_entry) layers -> Forall (Forall proper_link) layers ->
  ((exists n out, squash n sort order layers = Ret out) <-> all_settled layers).
Proof.
  intros G P. rewrite (squash_ends sort order layers G P). split.
  - intros (ls & [PL H] & A). exists (all_entries ls). split; auto. split; auto. now apply all_Forall.
  - intros (es' & A & Gs & Hs). destruct (relayer layers es' (aat_marks _ _ _ A) Gs) as (ls & <- & GL). exists ls. split; auto. split; auto.
Qed.
(** It ends exactly in these two ways. *)
Theorem squash_never sort order layers : Forall (Forall good_entry) layers -> Forall (Forall proper_link) layers ->
  ((forall n, squash n sort order layers = OutOfFuel) <-> ~ all_settled layers /\ ~ some_caught layers).
Proof.
  intros G P. rewrite <- (squash_settled sort order layers G P), <- (squash_loops sort order layers G P). split.
  - intros H. split; [intros (n & out & E)|intros (n & E)]; rewrite H in E; discriminate.
  - intros [A B] n. destruct (squash n sort order layers) as [out|e|] eqn:E; auto; exfalso; [apply A; eauto|]. apply B. exists n. rewrite E. f_equal.
    eapply squash_fails; [|exact E]. eapply Forall_impl; [|exact G]. intros l. apply Forall_impl, good_inside.
Qed.
