(** The converse of SquashCreate: when squashing ends, every entry was put
    where its links lead. *)
From Coq Require Import String Ascii List Bool ZArith Lia Wf_nat Permutation Sorted.
From Verif.Model Require Import GoStr GoPath Tar Squash.
From Verif.Spec Require Import PathSpec SquashSpec SimpleAPISpec.
From Verif.Proofs Require Import Order GoStrFacts GoPathFacts SquashTree SquashLoad SquashSim SquashStack SquashWf SquashInv SquashWrite SquashReload SquashMain SquashFinal SquashMore SquashLinks SquashCreate.
Import ListNotations.
Local Open Scope nat_scope.
Local Arguments byte_eqb : simpl never.
Local Arguments str_eqb : simpl never.
Local Arguments clean : simpl never.

Lemma more_get n m t f c create follow x : get n t f c create follow = Ret x -> n <= m -> get m t f c create follow = Ret x.
Proof. intros E L. induction L as [|m L IH]; auto. destruct (proj1 (le_get m) t f c create follow) as [X|X]; congruence. Qed.
Lemma more_crawl n m t d cs create follow x : crawl n create follow t d cs = Ret x -> n <= m -> crawl m create follow t d cs = Ret x.
Proof. intros E L. induction L as [|m L IH]; auto. destruct (le_crawl m create follow cs t d) as [X|X]; congruence. Qed.
Lemma real_parent p : real_path p -> real_path (parent p).
Proof. intros R. destruct p as [|k p _] using rev_ind; [exact R|]. unfold parent. rewrite removelast_last. now apply real_app in R. Qed.
Lemma real_nil : real_path [].
Proof. split; constructor. Qed.
Definition unmarked (cs : list str) : Prop := Forall (fun x => marker_name x = false) cs.
Lemma real_add d cs : real_path d -> plain_path cs -> unmarked cs -> real_path (d ++ cs).
Proof. intros R P M. apply real_app. split; auto. split; auto. Qed.

Section back.
  Context (t : tree) (LF : leafy (view_of t)) (ROOT : Squash.link_of (header_at t []) = None).
  Context (TL : forall p l, real_path p -> Squash.link_of (header_at t p) = Some l -> clean l <> $"/" /\ unmarked (clean_comps l)).
  Lemma dirT_dec d : {dirT t d} + {~ dirT t d}.
  Proof.
    unfold dirT. destruct (view_of t d); [|right; intros [H _]; congruence].
    destruct (non_dir (header_at t d)); [right; intros [_ H]; discriminate|left; split; [discriminate|reflexivity]].
  Qed.
  Lemma empty_below d : ~ dirT t d -> forall x r, view_of t (d ++ x :: r) = None.
  Proof.
    intros N x r. destruct (view_of t (d ++ x :: r)) eqn:V; auto. exfalso. apply N. apply (dir_above t LF d x).
    intros E. apply (closed_view t (d ++ [x]) r); [|exact E]. rewrite <- app_assoc. cbn [app]. congruence.
  Qed.
  Lemma clear_below d cs : clear t d -> ~ dirT t d -> plain_path cs -> unmarked cs -> clear t (d ++ cs).
  Proof.
    intros (R & A & L) N P M. pose proof (empty_below d N) as B. split; [now apply real_add|]. split; [now apply above_nothing|].
    destruct cs as [|x r]; [now rewrite app_nil_r|]. rewrite header_view. unfold hdr_of. now rewrite B.
  Qed.
  Lemma clear_miss d c cs : real_path d -> dirT t d -> view_of t (d ++ [c]) = None -> plain_path (c :: cs) -> unmarked (c :: cs) -> clear t (d ++ c :: cs).
  Proof.
    intros R D V P M. inversion P; inversion M; subst. replace (d ++ c :: cs) with ((d ++ [c]) ++ cs) by (rewrite <- app_assoc; reflexivity). apply clear_below; auto.
    - split; [apply real_add; auto; constructor; auto|]. split; [apply above_snoc; [apply (above_dir t LF), D|now apply dirT_link]|].
      rewrite header_view. unfold hdr_of. now rewrite V.
    - intros [H _]. congruence.
  Qed.
  Lemma goes_real d cs q : goes t d cs q -> real_path d -> unmarked cs -> real_path q.
  Proof.
    induction 1 as [d V|d cs q _ IH|d c D P V|d c cs D P V C|d c cs k d' q D P V C D' N PP _ IH|d c cs k d' D P V C N PP C' ND]; intros R M; auto.
    - inversion M; subst. apply IH; auto. now apply real_parent.
    - apply real_add; auto. now constructor.
    - apply C.
    - inversion M; subst. apply IH; auto. apply (comes_end_clear t k _ d' C).
    - apply C'.
  Qed.
  Definition onward (f : pos) (cs : list str) : Prop := exists k d q, comes t k f d /\ ((dirT t d /\ goes t d cs q) \/ (~ dirT t d /\ q = d ++ cs /\ clear t q)).
  Definition got (n : nat) : Prop := forall f c x, real_path f -> view_of t f <> None -> plain_comp c ->
    get n t f c true false = Ret x -> exists k d, comes t k f d.
  Definition resolved (n : nat) : Prop := forall p stack x, real_path p -> view_of t p <> None -> resolve n t p true stack = Ret x -> exists k d, comes t k p d.
  Definition fetched (n : nat) : Prop := forall f l follow x, real_path f -> Squash.link_of (header_at t f) = Some l -> fs_get n t (parent f) l true follow = Ret x ->
    exists q, goes t (if is_abs l then [] else parent f) (clean_comps l) q /\ real_path q /\ (follow = true -> exists k d, comes t k q d).
  Lemma crawl_on n : got n -> forall cs f x, plain_path cs -> unmarked cs -> cs <> [] -> real_path f -> view_of t f <> None -> crawl n true false t f cs = Ret x -> onward f cs.
  Proof.
    intros G. induction cs as [|c cs IH]; intros f x P M N R V C; [congruence|]. inversion P as [|? ? Pc Pcs]; inversion M as [|? ? Mc Mcs]; subst.
    assert (GE : exists y, get n t f c true false = Ret y).
    { destruct cs as [|c' cs]; [eauto|]. rewrite crawl_cons in C. destruct (get n t f c true false); eauto; discriminate. }
    destruct GE as [y GE]. destruct (G f c y R V Pc GE) as (k & d & K). pose proof (comes_end_clear t k f d K) as CD. pose proof CD as (Rd & _).
    destruct (dirT_dec d) as [D|D].
    2: { exists k, d, (d ++ c :: cs). split; auto. right. split; auto. split; auto. now apply clear_below. }
    destruct (view_of t (d ++ [c])) eqn:Vc.
    2: { exists k, d, (d ++ c :: cs). split; auto. left. split; auto. apply goes_miss; auto. now apply clear_miss. }
    assert (Vn : view_of t (d ++ [c]) <> None) by congruence.
    destruct cs as [|c' cs]; [exists k, d, (d ++ [c]); split; auto; left; split; auto; now apply goes_last|].
    assert (Y : y = (t, d ++ [c])).
    { destruct (proj1 (comes_ok t LF) _ _ _ K) as (N2 & t2 & A2 & H2). assert (t2 = t) as -> by (apply (arrives_existing t LF d); auto; [apply Rd|apply D]).
      destruct (H2 V) as [_ H3]. specialize (H3 (n + N2) ltac:(lia) c false Pc). rewrite (more_get n (S (n + N2)) _ _ _ _ _ _ GE) in H3 by lia.
      rewrite get_exists in H3 by auto. congruence. }
    subst y. rewrite crawl_cons, GE in C. cbn [bind] in C.
    destruct (IH (d ++ [c]) x) as (k' & d' & q & K' & W); auto; [discriminate|apply real_add; auto; constructor; auto|].
    exists k, d. destruct W as [[D' W]|(D' & -> & W)].
    - exists q. split; auto. left. split; auto. eapply goes_down; eauto. discriminate.
    - exists (d' ++ c' :: cs). split; auto. left. split; auto. eapply goes_off; eauto. discriminate.
  Qed.
  Lemma dir_comes d k e : dirT t d -> comes t k d e -> e = d.
  Proof. intros D C. inversion C as [|? ? l ? ? L]; subst; auto. apply dirT_link in D. congruence. Qed.
  Lemma parent_dir p : dirT t p -> dirT t (parent p).
  Proof.
    intros D. destruct p as [|k p _] using rev_ind; [exact D|]. unfold parent. rewrite removelast_last. apply (dir_above t LF p k), D.
  Qed.
  Lemma crawl_up n : got n -> forall m ps, plain_path ps -> unmarked ps -> forall d x, dirT t d -> real_path d ->
    crawl n true false t d (names (repeat dotdot m ++ ps)) = Ret x -> exists q, goes t d (repeat dotdot m ++ ps) q.
  Proof.
    intros G. induction m as [|m IH]; intros ps P M d x D R C.
    - cbn [repeat app] in *. destruct ps as [|c cs]; [exists d; apply goes_nil, D|]. cbn [names] in C.
      apply crawl_on in C as (k & d' & q & K & W); auto; [|discriminate|apply D]. apply dir_comes in K as ->; auto. destruct W as [[_ W]|[W _]]; [eauto|contradiction].
    - cbn [repeat app] in *. cbn [names] in C. destruct (IH ps P M (parent d) x) as [q W]; [now apply parent_dir|now apply real_parent| |exists q; now apply goes_up].
      destruct n as [|n]; [destruct (repeat dotdot m ++ ps); discriminate|].
      destruct (repeat dotdot m ++ ps) as [|c cs] eqn:E.
      + cbn [names crawl] in C |- *. rewrite get_S in C |- *. exact C.
      + cbn [names]. rewrite crawl_cons, get_S in C. cbv zeta in C. change (str_eqb dotdot $"..") with true in C. cbn [bind] in C. exact C.
  Qed.
  Lemma base_dir p l : Squash.link_of (header_at t p) = Some l -> forall b : bool, dirT t (if b then [] else parent p).
  Proof.
    intros L b. destruct (path_dec p []) as [->|N]; [congruence|]. destruct (exists_last N) as (d & x & ->). apply link_view in L.
    assert (D : dirT t d) by now apply (dir_above t LF d x). unfold parent. rewrite removelast_last. destruct b; auto. destruct d as [|y d]; auto.
    apply (dir_above t LF [] y). cbn [app]. destruct D as [D _]. now apply (closed_view t [y] d) in D.
  Qed.
  Theorem back_ok n : got n /\ resolved n /\ fetched n.
  Proof.
    induction n as [n IH] using lt_wf_ind. destruct n as [|n]; [repeat split; intros ? *; discriminate|].
    destruct (IH n ltac:(lia)) as (IG & IR & IF). split; [|split].
    - intros f c x R V P E. destruct (plain_keys _ P) as [K1 K2]. rewrite get_S in E. cbv zeta in E. rewrite K1, K2 in E.
      destruct (Squash.link_of (header_at t f)) as [l|] eqn:L.
      + destruct (fs_get n t (parent f) l true true) as [[t1 f1]| |] eqn:F; try discriminate. destruct (TL f l R L) as [NR _].
        destruct (IF f l true _ R L F) as (q & GO & Rq & K). destruct (K eq_refl) as (k & d & C). exists (S k), d. eapply comes_link; eauto.
      + exists 0, f. apply comes_end. split; auto. split; auto. now apply (above_dir t LF).
    - intros p stack x R V E. rewrite resolve_S in E. destruct (Squash.link_of (header_at t p)) as [l|] eqn:L.
      2: { exists 0, p. apply comes_end. split; auto. split; auto. now apply (above_dir t LF). }
      destruct (existsb _ stack); [discriminate|]. destruct (fs_get n t (parent p) l true false) as [[t1 q]| |] eqn:F; try discriminate. cbn [bind] in E.
      destruct (TL p l R L) as [NR _]. destruct (IF p l false _ R L F) as (q' & GO & Rq & _).
      destruct (proj2 (comes_ok t LF) _ _ _ GO) as (N & t' & H & K).
      assert (Q : (t1, q) = (t', q')).
      { specialize (H (n + N) ltac:(lia) false). cbv iota in H. pose proof (fs_get_to t (n + N) p l q' t' false NR H) as X. cbv iota in X.
        assert (Y : fs_get (S (S (n + N))) t (parent p) l true false = Ret (t1, q)).
        { clear -F. remember (S (S (n + N))) as m eqn:Em. assert (L : n <= m) by lia. clear Em. induction L as [|m L IH]; auto. destruct (proj2 (proj2 (le_get m)) t (parent p) l true false) as [X|X]; congruence. }
        congruence. }
      injection Q as -> ->. assert (X : exists k d, comes t k q' d).
      { destruct K as [[-> V']|[A C]]; [eapply IR; eauto|]. exists 0, q'. now apply comes_end. }
      destruct X as (k & d & C). exists (S k), d. eapply comes_link; eauto.
    - intros f l follow x R L E. destruct (TL f l R L) as [NR M]. rewrite fs_get_S, link_text in E by auto.
      rewrite clean_text, is_abs_text in E by apply clean_comps_list.
      assert (D : dirT t (if is_abs l then [] else parent f)) by (eapply base_dir; eauto).
      assert (RB : real_path (if is_abs l then [] else parent f)) by (destruct (is_abs l); [apply real_nil|now apply real_parent]).
      assert (E0 : exists y, crawl n true false t (if is_abs l then [] else parent f) (names (clean_comps l)) = Ret y /\
                (follow = true -> exists m, n = S m /\ resolve m (fst y) (snd y) true [] = Ret x)).
      { destruct follow; [|exists x; split; auto; discriminate]. destruct n as [|m]; [destruct (clean_comps l) as [|? [|]]; discriminate|].
        rewrite crawl_follow in E by (destruct (clean_comps l); discriminate). destruct (crawl (S m) true false t _ _) as [[t1 q]| |]; try discriminate.
        exists (t1, q). split; auto. intros _. exists m. auto. }
      destruct E0 as (y & E0 & E1). destruct (clean_comps_list l) as (m & ps & CL & Pp & _). rewrite CL in M. apply Forall_app in M as [M1 M2].
      assert (GO : exists q, goes t (if is_abs l then [] else parent f) (clean_comps l) q) by (rewrite CL in E0 |- *; eapply crawl_up; eauto).
      destruct GO as [q GO]. exists q. split; auto. split; [eapply goes_real; eauto; rewrite CL; now apply Forall_app|].
      intros ->. destruct (E1 eq_refl) as (m' & -> & RS). destruct (proj2 (comes_ok t LF) _ _ _ GO) as (N & t' & H & K).
      assert (Q : y = (t', q)).
      { specialize (H (m' + N) ltac:(lia) false). cbv iota in H. rewrite (more_crawl (S m') (S (m' + N)) _ _ _ _ _ _ E0) in H by lia. congruence. }
      subst y. cbn [fst snd] in RS. destruct K as [[-> V']|[A C]].
      + destruct (IH m' ltac:(lia)) as (_ & IR' & _). eapply IR'; eauto. eapply goes_real; eauto. rewrite CL. now apply Forall_app.
      + exists 0, q. now apply comes_end.
  Qed.
End back.

(** *** back to the unpacked file system *)
Section unpacked.
  Context (fs : fsys) (u : tree) (LF : leafy (view_of u)) (RO : forall p, fs p <> None -> real_path p) (AG : fagree fs (interp (view_of u) empty_root)).
  Context (TL : forall p l, real_path p -> Squash.link_of (header_at u p) = Some l -> clean l <> $"/" /\ unmarked (clean_comps l)).
  Lemma link_back p l : real_path p -> Squash.link_of (header_at u p) = Some l -> exists h c, fs p = Some (FFile h c) /\ th_type h = TypeSymlink /\ th_link h = l.
  Proof.
    intros R E. rewrite header_view in E. unfold hdr_of in E. specialize (AG p R). unfold interp in AG. destruct (view_of u p) as [[[h|] b]|]; try discriminate. cbn [fst Squash.link_of] in E.
    destruct (byte_eqb (th_type h) TypeSymlink) eqn:B; [|discriminate]. injection E as <-. apply byte_eqb_eq in B. rewrite B in AG. change (byte_eqb TypeSymlink TypeDir) with false in AG. cbv iota in AG.
    destruct (fs p) as [[m|h2 c]|]; try contradiction. destruct AG as [-> ->]. exists (anon h), b. auto.
  Qed.
  Lemma not_link_back p : real_path p -> Squash.link_of (header_at u p) = None -> ~ is_symlink_at fs p.
  Proof.
    intros R L (h & c & E & T). destruct (conv_file fs u RO AG p h c E) as (h' & V & A). rewrite header_view in L. unfold hdr_of in L. rewrite V in L. cbn [fst Squash.link_of] in L.
    rewrite <- A in T. change (th_type (anon h')) with (th_type h') in T. rewrite T in L. discriminate.
  Qed.
  Theorem lost :
    (forall k p D, comes u k p D -> real_path p -> leads fs p D) /\
    (forall d cs q, goes u d cs q -> real_path d -> unmarked cs -> reaches fs d cs q).
  Proof.
    apply (comes_goes_ind u (fun k p D _ => real_path p -> leads fs p D) (fun d cs q _ => real_path d -> unmarked cs -> reaches fs d cs q)).
    - intros p C _. apply leads_end, not_link_back; apply C.
    - intros k p l q d L N G IHg C IHc R. destruct (link_back p l R L) as (h & c & E & T & <-). destruct (TL p (th_link h) R L) as [_ M].
      assert (RB : real_path (if is_abs (th_link h) then [] else removelast p)) by (destruct (is_abs (th_link h)); [apply real_nil|now apply (real_parent p)]).
      eapply leads_link; eauto. apply IHc. eapply goes_real; eauto.
    - intros d V R M. apply reaches_nil.
    - intros d cs q _ IH R M. inversion M; subst. apply reaches_up, IH; auto. now apply (real_parent d).
    - intros d c D P V R M. apply reaches_last; auto. now apply (view_dir fs u AG).
    - intros d c cs D P V C R M. assert (DD : is_dir_at fs d) by now apply (view_dir fs u AG). destruct cs as [|c' cs]; [now apply reaches_last|].
      replace (d ++ c :: c' :: cs) with ((d ++ [c]) ++ c' :: cs) by (rewrite <- app_assoc; reflexivity).
      destruct C as (RC & A & _). assert (R1 : real_path (d ++ [c])).
      { replace (d ++ c :: c' :: cs) with ((d ++ [c]) ++ c' :: cs) in RC by (rewrite <- app_assoc; reflexivity). now apply real_app in RC. }
      assert (E : fs (d ++ [c]) = None).
      { destruct (fs (d ++ [c])) as [n|] eqn:E; auto. exfalso. specialize (AG (d ++ [c]) R1). unfold interp, visible in AG. rewrite V, E in AG.
        destruct (shadow _ _ _); [destruct n; exact AG|]. destruct (d ++ [c]) eqn:X; [now destruct d|]. destruct n; exact AG. }
      assert (NL : ~ is_symlink_at fs (d ++ [c])) by (intros (h & b & X & _); congruence).
      apply reaches_down with (d' := d ++ [c]); auto; [now apply leads_end|discriminate|]. apply reaches_new; auto; [|discriminate|].
      + intros [m X]. congruence.
      + destruct RC as [PC _]. apply plain_path_app in PC as [_ PC]. now inversion PC.
    - intros d c cs k d' q D P V C IHc D' N PP _ IHg R M. inversion M; subst. assert (DD : is_dir_at fs d) by now apply (view_dir fs u AG).
      eapply reaches_down; eauto; [apply IHc; apply real_add; auto; constructor; auto|]. apply IHg; auto. apply (comes_end_clear u k _ d' C).
    - intros d c cs k d' D P V C IHc N PP C' ND R M. inversion M; subst. assert (DD : is_dir_at fs d) by now apply (view_dir fs u AG).
      pose proof (comes_end_clear u k _ d' C) as (Rd & _ & Ld).
      eapply reaches_down; eauto; [apply IHc; apply real_add; auto; constructor; auto|]. apply reaches_new; auto; [|now apply not_link_back].
      intros X. apply ND. now apply (dir_view fs u RO AG).
  Qed.
End unpacked.
Lemma unpacked_real es : Forall good_entry es -> forall p, unpacked es p <> None -> real_path p.
Proof.
  induction es as [|e es IH] using rev_ind; intros G p.
  - destruct p; [intros _; apply real_nil|now intros []].
  - apply Forall_app in G as [G1 G2]. inversion G2; subst. rewrite unpacked_snoc. apply real_only_step; auto.
Qed.

(** *** one entry *)
Section entry.
  Context (es0 : list entry) (u : tree) (G0 : Forall good_entry es0) (P0 : Forall proper_link es0) (RM : remembers es0 (view_of u)) (LF : leafy (view_of u)).
  Notation fs := (unpacked es0).
  Lemma fs_link p : is_symlink_at fs p -> p <> [] /\ exists h c, fs p = Some (FFile h c) /\ clean (th_link h) <> $"/" /\ unmarked (clean_comps (th_link h)).
  Proof.
    intros (h & c & E & T). destruct (file_last es0 p h c E) as (l & (l1 & l2 & -> & PL & _) & _ & _ & ->). apply Forall_app in P0 as [_ Q]. inversion Q as [|? ? Q1 _]; subst.
    destruct Q1 as (Q1 & Q2 & Q3); [unfold is_link; cbn in T; rewrite T; reflexivity|]. split; auto. exists (anon (fst l)), c. auto.
  Qed.
  Lemma tree_links p l : real_path p -> Squash.link_of (header_at u p) = Some l -> clean l <> $"/" /\ unmarked (clean_comps l).
  Proof.
    intros R L. destruct (link_back fs u (rm_sim _ _ RM) p l R L) as (h & c & E & T & <-). destruct (fs_link p) as [_ (h' & c' & E' & X)]; [exists h, c; auto|].
    rewrite E in E'. injection E' as <- <-. exact X.
  Qed.
  Lemma tree_root : Squash.link_of (header_at u []) = None.
  Proof.
    destruct (Squash.link_of (header_at u [])) as [l|] eqn:L; auto. exfalso. destruct (link_back fs u (rm_sim _ _ RM) [] l real_nil L) as (h & c & E & T & _).
    destruct (fs_link []) as [N _]; [exists h, c; auto|]. now apply N.
  Qed.
  Notation RO := (unpacked_real es0 G0).
  Lemma clear_no_link e D k : entry_path e = D ++ [k] -> clear u D -> no_link_above es0 e.
  Proof.
    intros E (R & A & L) q B. rewrite E in B. apply below_snoc in B. assert (X : real_path q /\ Squash.link_of (header_at u q) = None).
    { apply aob_spec in B as [r B]. destruct r as [|x r]; [rewrite app_nil_r in B; subst; auto|]. split; [rewrite B in R; now apply real_app in R|]. now apply (A q x r). }
    apply (not_link_back fs u RO (rm_sim _ _ RM)); apply X.
  Qed.
  Lemma root_comes k d : comes u k [] d -> d = [].
  Proof. intros C. inversion C as [|? ? l ? ? L]; subst; auto. rewrite tree_root in L. discriminate. Qed.
  Definition moved (e e' : entry) : Prop := at_target fs e e' /\ good_entry e' /\ proper_link e' /\ is_marker e' = is_marker e /\ no_link_above es0 e'.
  Lemma at_self e : good_entry e -> at_target fs e e.
  Proof. intros [A _]. split; auto. Qed.
  Lemma moved_at e a k q j D : good_entry e -> proper_link e -> entry_path e = a ++ [k] -> goes u [] a q -> comes u j q D -> exists e', moved e e'.
  Proof.
    intros G P Ep GO C. pose proof (good_inside e G) as IN.
    assert (Pp : plain_path (a ++ [k])) by (rewrite <- Ep; apply IN). pose proof Pp as Pak. apply plain_path_app in Pak as [Pa Pk]. inversion Pk as [|? ? Pk1 _]; subst.
    assert (Ra : real_path a). { apply (good_real_anc e); auto. rewrite Ep. apply below_app. }
    assert (Rq : real_path q) by (eapply goes_real; eauto; [apply real_nil|apply Ra]).
    pose proof (comes_end_clear u j q D C) as CD. pose proof CD as ((PD & MD) & _).
    exists (with_name (fst e) (path_text false (D ++ [k])), snd e).
    assert (Pe : plain_path (D ++ [k])) by (apply plain_path_app; auto).
    assert (EP : entry_path (with_name (fst e) (path_text false (D ++ [k])), snd e) = D ++ [k]).
    { unfold entry_path. cbn [fst th_name with_name]. apply clean_comps_text. now apply plain_clean. }
    assert (AB : is_abs (path_text false (D ++ [k])) = false) by (apply is_abs_text; now apply plain_clean).
    split; [|split; [|split; [|split]]].
    - split; [reflexivity|]. split; [reflexivity|]. split; [exact AB|]. right. exists a, q, D, [k]. split; auto. split; [discriminate|]. rewrite EP.
      split; [|split; auto].
      + apply (proj2 (lost fs u RO (rm_sim _ _ RM) tree_links) _ _ _ GO); [apply real_nil|apply Ra].
      + now apply (proj1 (lost fs u RO (rm_sim _ _ RM) tree_links) _ _ _ C).
    - split; [exact AB|]. rewrite EP. destruct G as [_ [R|(d' & k' & E' & R & I1 & I2 & I3)]].
      + left. rewrite Ep in R. apply real_app in R as [_ R]. apply real_app. split; auto. split; auto.
      + right. rewrite Ep in E'. apply app_inj_tail in E' as [<- <-]. exists D, k. split; auto. split; [split; auto|]. split; auto.
    - intros L. destruct (P L) as (_ & P2 & P3). split; [rewrite EP; now destruct D|]. split; auto.
    - unfold is_marker. rewrite EP, Ep, !last_last. reflexivity.
    - eapply clear_no_link; eauto.
  Qed.
  Theorem entry_back n e x : good_entry e -> proper_link e -> load_entry n u (parsed e) = Ret x -> exists e', moved e e'.
  Proof.
    intros G P E. unfold load_entry in E. destruct (fs_get n u [] (th_name (fst (parsed e))) true false) as [[t1 f1]| |] eqn:F; try discriminate. clear E.
    pose proof (good_inside e G) as IN. rewrite parsed_name in F by auto.
    destruct (path_dec (entry_path e) []) as [Ep|Np].
    { exists e. split; [now apply at_self|]. split; auto. split; auto. split; auto. intros q B. rewrite Ep in B. now destruct q. }
    destruct (exists_last Np) as (a & k & Ep).
    assert (Pp : plain_path (a ++ [k])) by (rewrite <- Ep; apply IN). pose proof Pp as Pak. apply plain_path_app in Pak as [Pa Pk]. inversion Pk as [|? ? Pk1 _]; subst.
    assert (Ra : real_path a). { apply (good_real_anc e); auto. rewrite Ep. apply below_app. }
    assert (KEEP : clear u a -> exists e', moved e e').
    { intros C. exists e. split; [now apply at_self|]. split; auto. split; auto. split; auto. eapply clear_no_link; eauto. }
    destruct a as [|c0 a0].
    { apply KEEP. split; [exact Ra|]. split; [intros [|? ?] ? ? X; discriminate|apply tree_root]. }
    set (a := c0 :: a0) in *. assert (Na : a <> []) by discriminate.
    destruct n as [|n]; [discriminate|].
    rewrite Ep, fs_get_S, clean_of_text in F by now apply plain_clean. rewrite is_abs_text in F by now apply plain_clean. cbv iota in F.
    assert (CR : crawl n true false u [] (a ++ [k]) = Ret (t1, f1)).
    { unfold a in F |- *. cbn [app path_text] in F |- *. rewrite split_on_join in F; [exact F|discriminate|]. eapply clean_list_no_slash, (plain_clean true), Pp. }
    rewrite crawl_app in CR by (auto; discriminate). destruct (crawl n true false u [] a) as [[t2 q2]| |] eqn:CA; try discriminate. cbn [bind crawl] in CR.
    destruct (back_ok u LF tree_root tree_links n) as (G1 & _ & _).
    assert (V0 : view_of u [] <> None) by now rewrite view_root.
    destruct (crawl_on u LF n G1 a [] (t2, q2)) as (k0 & d & q & K0 & W); auto; [apply Ra|apply real_nil|]. apply root_comes in K0 as ->.
    destruct W as [[_ GO]|(_ & -> & C)]; [|now apply KEEP].
    assert (Rq : real_path q) by (eapply goes_real; eauto; [apply real_nil|apply Ra]).
    destruct (proj2 (comes_ok u LF) _ _ _ GO) as (N & t' & H & K).
    assert (Q : (t2, q2) = (t', q)).
    { specialize (H (n + N) ltac:(lia) false). cbv iota in H. unfold a in H, CA. cbn [names] in H. rewrite (more_crawl n (S (n + N)) _ _ _ _ _ _ CA) in H by lia. congruence. }
    injection Q as -> ->.
    assert (X : exists j D, comes u j q D).
    { destruct K as [[-> V]|[A C]]; [eapply G1; eauto|]. exists 0, q. now apply comes_end. }
    destruct X as (j & D & C). exact (moved_at e a k q j D G P Ep GO C).
  Qed.
End entry.

(** *** a stack *)
Lemma more_load_entries n m es t x : load_entries n t es = Ret x -> n <= m -> load_entries m t es = Ret x.
Proof. intros E L. induction L as [|m L IH]; auto. destruct (le_load_entries m es t) as [X|X]; congruence. Qed.
Theorem load_back n es : forall es0 u x, Forall good_entry es0 -> Forall proper_link es0 -> remembers es0 (view_of u) -> leafy (view_of u) ->
  Forall good_entry es -> Forall proper_link es -> load_entries n u (map parsed es) = Ret x ->
  exists es', all_at_target (unpacked es0) es es' /\ Forall good_entry es' /\ map is_marker es' = map is_marker es /\
    (forall es1 e es2, es' = es1 ++ e :: es2 -> no_link_above (es0 ++ es1) e).
Proof.
  revert n. induction es as [|e es IH]; intros n es0 u x G0 P0 RM LF G P E.
  - exists []. split; [constructor|]. split; [constructor|]. split; auto. intros [|? ?] ? ? X; discriminate.
  - inversion G as [|? ? G1 G2]; inversion P as [|? ? P1 P2]; subst. cbn [map load_entries] in E.
    destruct (load_entry n u (parsed e)) as [t1| |] eqn:E1; try discriminate. cbn [bind] in E.
    destruct (entry_back es0 u G0 P0 RM LF n e t1 G1 P1 E1) as (e' & AT & Ge & Pe & Me & NL).
    destruct (load_entry_sim 0 es0 u e' Ge RM LF NL) as (u1 & F1 & RM1 & LF1 & _).
    destruct (load_at_target [e] [e'] es0 u (unpacked es0)) as [N H]; auto.
    { constructor; [exact AT|constructor]. }
    { constructor; [now apply good_inside|constructor]. }
    { now apply unpacked_real. }
    { apply RM. }
    { intros [|y es1] z es2 X; [injection X as <- <-; now rewrite app_nil_r|destruct es1; discriminate]. }
    assert (S1 : strip t1 = strip u1).
    { specialize (H (4 + n + N) ltac:(lia)). cbn [map load_entries] in H. rewrite (more_load_entry n (4 + n + N) _ _ _ E1) in H by lia.
      rewrite (more_load_entry 4 (4 + n + N) _ _ _ F1) in H by lia. cbn [bind rmap] in H. congruence. }
    assert (E2 : exists y, load_entries n u1 (map parsed es) = Ret y).
    { pose proof (load_entries_strip n (map parsed es) t1 u1 S1) as X. rewrite E in X. destruct (load_entries n u1 (map parsed es)); eauto; discriminate. }
    destruct E2 as [y E2]. destruct (IH n (es0 ++ [e']) u1 y) as (es' & A & Gs & Ms & Hs); auto; try (apply Forall_app; auto).
    exists (e' :: es'). split; [constructor; auto; now rewrite <- unpacked_snoc|]. split; [now constructor|]. split; [cbn [map]; now rewrite Me, Ms|].
    intros [|z es1] w es2 X; cbn [app] in X; injection X as <- X; [subst; now rewrite app_nil_r|].
    specialize (Hs es1 w es2 X). rewrite <- app_assoc in Hs. exact Hs.
Qed.
Lemma marked_filter b (l : list entry) f : (forall e, In e l -> is_marker e = b) -> (forall e, is_marker e = b -> f e = true) -> filter f l = l.
Proof. intros H F. apply filter_all. intros e I. auto. Qed.
Lemma marked_none b (l : list entry) f : (forall e, In e l -> is_marker e = b) -> (forall e, is_marker e = b -> f e = false) -> filter f l = [].
Proof. intros H F. induction l as [|e l IH]; auto. cbn [filter]. rewrite F by (apply H; now left). apply IH. intros x I. apply H. now right. Qed.
Lemma marks_in (l l' : list entry) b : map is_marker l' = map is_marker l -> (forall e, In e l -> is_marker e = b) -> forall e, In e l' -> is_marker e = b.
Proof.
  intros E H e I. apply (in_map is_marker) in I. rewrite E in I. apply in_map_iff in I as (x & <- & I). auto.
Qed.
Lemma partitioned l l' : map is_marker l' = map is_marker (in_order l) -> in_order l' = l'.
Proof.
  unfold in_order at 1. rewrite map_app. intros E. apply map_eq_app in E as (l1 & l2 & -> & E1 & E2).
  assert (H1 : forall e, In e l1 -> is_marker e = true) by (eapply marks_in; eauto; intros e I; now apply filter_In in I).
  assert (H2 : forall e, In e l2 -> is_marker e = false).
  { eapply marks_in; eauto. intros e I. apply filter_In in I as [_ I]. now apply negb_true_iff in I. }
  unfold in_order. rewrite !filter_app.
  rewrite (marked_filter true l1 is_marker), (marked_none false l2 is_marker); auto.
  rewrite (marked_none true l1 (fun e => negb (is_marker e))), (marked_filter false l2 (fun e => negb (is_marker e))); auto.
  - cbn [app]. now rewrite app_nil_r.
  - intros e ->. reflexivity.
  - intros e ->. reflexivity.
Qed.
Lemma relayer layers : forall es', map is_marker es' = map is_marker (all_entries layers) -> Forall good_entry es' ->
  exists layers', all_entries layers' = es' /\ Forall (Forall good_entry) layers'.
Proof.
  induction layers as [|l ls IH]; intros es' E G.
  - destruct es'; [|discriminate]. exists []. split; auto.
  - cbn [all_entries flat_map] in E. rewrite map_app in E. apply map_eq_app in E as (l1 & l2 & -> & E1 & E2). apply Forall_app in G as [G1 G2].
    destruct (IH l2 E2 G2) as (ls' & <- & GS). exists (l1 :: ls'). split; [|now constructor]. cbn [all_entries flat_map]. now rewrite (partitioned l l1).
Qed.
Lemma all_Forall (P : entry -> Prop) layers : Forall (Forall P) layers -> Forall P (all_entries layers).
Proof. intros F. apply Forall_forall. intros e I. apply in_all in I as (l & Il & Ie). rewrite Forall_forall in F. specialize (F l Il). rewrite Forall_forall in F. auto. Qed.
Lemma le_squash n sort order layers : le_run (squash n sort order layers) (squash (S n) sort order layers).
Proof. unfold squash, load_layers. apply le_bind; [apply le_load_layers|]. intros. now right. Qed.
Lemma more_squash n m sort order layers x : squash n sort order layers = Ret x -> n <= m -> squash m sort order layers = Ret x.
Proof. intros E L. induction L as [|m L IH]; auto. destruct (le_squash m sort order layers) as [X|X]; congruence. Qed.
Theorem squash_back n sort order layers out : Forall (Forall good_entry) layers -> Forall (Forall proper_link) layers ->
  squash n sort order layers = Ret out ->
  exists layers', plain_stack layers' /\ all_at_target empty_root (all_entries layers) (all_entries layers') /\
    forall m, 4 <= m -> squash m sort order layers' = Ret out.
Proof.
  intros G P E. pose proof E as E0. unfold squash, load_layers in E0.
  assert (IN : Forall (Forall inside) layers) by (eapply Forall_impl; [|exact G]; intros l; apply Forall_impl, good_inside).
  rewrite load_layers_entries in E0 by auto.
  destruct (load_entries n empty_tree (map parsed (all_entries layers))) as [t| |] eqn:L; try discriminate. clear E0.
  destruct (load_back n (all_entries layers) [] empty_tree t) as (es' & A & Gs & Ms & Hs); auto.
  - apply remembers_empty.
  - apply leafy_empty.
  - now apply all_Forall.
  - now apply all_Forall.
  - destruct (relayer layers es' Ms Gs) as (layers' & <- & GL). exists layers'.
    assert (PL : plain_stack layers') by (split; auto; exact Hs). split; auto. split; [exact A|].
    destruct (squash_links sort order layers layers' IN PL A) as [N H]. intros m Lm.
    destruct (load_plain 0 layers' PL) as (t4 & E4 & _). assert (S4 : exists o, squash 4 sort order layers' = Ret o) by (unfold squash; rewrite E4; cbn; eauto).
    destruct S4 as [o S4]. rewrite (more_squash 4 m _ _ _ _ S4 Lm). specialize (H (n + 4 + N) ltac:(lia)).
    rewrite (more_squash n (n + 4 + N) _ _ _ _ E), (more_squash 4 (n + 4 + N) _ _ _ _ S4) in H by lia. congruence.
Qed.

(** *** the only failure *)
Lemma fails_bind {A B} (r : run A) (k : A -> run B) e : bind r k = Fail e -> r = Fail e \/ exists a, r = Ret a /\ k a = Fail e.
Proof. destruct r as [a| |]; cbn [bind]; intros E; [right; eauto|left; congruence|discriminate]. Qed.
Definition only_loops (n : nat) : Prop :=
  (forall t f c follow e, get n t f c true follow = Fail e -> e = ELoop) /\
  (forall t p stack e, resolve n t p true stack = Fail e -> e = ELoop) /\
  (forall t d l follow e, fs_get n t d l true follow = Fail e -> e = ELoop).
Lemma get_fails n : only_loops n.
Proof.
  induction n as [|n (IG & IR & IF)]; [split; [|split]; intros; discriminate|]. split; [|split].
  - intros t f c follow e E. rewrite get_S in E. cbv zeta in E.
    assert (FIN : forall r : tree * pos, (if follow then resolve n (fst r) (snd r) true [] else Ret r) = Fail e -> e = ELoop) by (intros r X; destruct follow; [eapply IR; eauto|discriminate]).
    destruct (str_eqb c $".."); [eapply FIN; eauto|]. destruct (str_eqb c $"."); [eapply FIN; eauto|].
    apply fails_bind in E as [E|([t1 f1] & _ & E)]; [destruct (Squash.link_of _); [eapply IF; eauto|discriminate]|].
    apply fails_bind in E as [E|(t2 & _ & E)].
    + destruct (non_dir _); [|discriminate]. apply fails_bind in E as [E|([t3 w] & _ & E)]; [eapply IG; eauto|discriminate].
    + destruct (subtree t2 (f1 ++ [c])); eapply FIN; eauto.
  - intros t p stack e E. rewrite resolve_S in E. destruct (Squash.link_of _); [|discriminate]. destruct (existsb _ stack); [congruence|].
    apply fails_bind in E as [E|([t1 q] & _ & E)]; [eapply IF; eauto|eapply IR; eauto].
  - intros t d l follow e E. rewrite fs_get_S in E. revert E. generalize (if is_abs (clean l) then [] else d) (split_on slash (if is_abs (clean l) then skipn 1 (clean l) else clean l)).
    intros f cs. revert t f. induction cs as [|c cs IH]; intros t f E; [discriminate|]. destruct cs as [|c' cs]; [eapply IG; eauto|].
    rewrite crawl_cons in E. apply fails_bind in E as [E|([t1 q] & _ & E)]; [eapply IG; eauto|eapply IH; eauto].
Qed.
Lemma load_entry_fails n t x e : load_entry n t x = Fail e -> e = ELoop.
Proof.
  intros E. unfold load_entry in E. destruct (get_fails n) as (G & _ & F). apply fails_bind in E as [E|([t1 f] & _ & E)]; [eapply F; eauto|].
  unfold set in E. destruct (negb _); [discriminate|]. apply fails_bind in E as [E|(t2 & _ & E)]; [|discriminate].
  destruct (non_dir _); [|discriminate]. apply fails_bind in E as [E|([t3 w] & _ & E)]; [eapply G; eauto|discriminate].
Qed.
Lemma load_entries_fails n es : forall t e, load_entries n t es = Fail e -> e = ELoop.
Proof.
  induction es as [|x es IH]; intros t e E; [discriminate|]. cbn [load_entries] in E. apply fails_bind in E as [E|(t1 & _ & E)]; [eapply load_entry_fails; eauto|eapply IH; eauto].
Qed.
Theorem squash_fails n sort order layers e : Forall (Forall in_root) layers -> squash n sort order layers = Fail e -> e = ELoop.
Proof.
  intros IN E. unfold squash, load_layers in E. rewrite load_layers_entries in E by exact IN. apply fails_bind in E as [E|(t & _ & E)]; [|discriminate].
  eapply load_entries_fails; eauto.
Qed.

(** *** squashing in stages through links *)
Lemma at_marker fs e e' : at_target fs e e' -> is_marker e' = is_marker e.
Proof.
  intros (_ & _ & _ & [E|(a & q & d & r & E & N & _ & _ & E')]); unfold is_marker; [now rewrite E|]. rewrite E, E'.
  destruct (exists_last N) as (r' & k & ->). now rewrite !app_assoc, !last_last.
Qed.
Lemma aat_marks fs es es' : all_at_target fs es es' -> map is_marker es' = map is_marker es.
Proof. induction 1 as [|fs e e' es es' A _ IH]; auto. cbn [map]. now rewrite IH, (at_marker _ _ _ A). Qed.
Lemma aat_split es1 : forall fs es2 es', all_at_target fs (es1 ++ es2) es' ->
  exists a b, es' = a ++ b /\ all_at_target fs es1 a /\ all_at_target (fold_left unpack_entry a fs) es2 b.
Proof.
  induction es1 as [|e es1 IH]; intros fs es2 es' A; [exists [], es'; repeat split; auto; constructor|].
  cbn [app] in A. inversion A as [|? ? e' ? es0 AT A']; subst. destruct (IH _ _ _ A') as (a & b & -> & A1 & A2). exists (e' :: a), b. split; auto. split; [now constructor|exact A2].
Qed.
Lemma aat_join es1 a : forall fs es2 b, all_at_target fs es1 a -> all_at_target (fold_left unpack_entry a fs) es2 b -> all_at_target fs (es1 ++ es2) (a ++ b).
Proof.
  revert a. induction es1 as [|e es1 IH]; intros a fs es2 b A B; inversion A as [|? ? e' ? a' AT A']; subst; auto. cbn [app]. constructor; auto.
Qed.
Lemma aat_same es : forall fs, Forall good_entry es -> all_at_target fs es es.
Proof. induction es as [|e es IH]; intros fs G; [constructor|]. inversion G as [|? ? [A B] G2]; subst. constructor; auto. split; auto. Qed.
Definition similar (a b : fsys) : Prop := forall p, agree (a p) (b p).
Lemma similar_link a b p : similar a b -> is_symlink_at a p <-> is_symlink_at b p.
Proof.
  intros S. specialize (S p). split; intros (h & c & E & T); rewrite E in S.
  - destruct (b p) as [[]|] eqn:B; try contradiction. destruct S as [-> ->]. eexists _, _. eauto.
  - destruct (a p) as [[]|] eqn:B; try contradiction. destruct S as [-> ->]. eexists _, _. eauto.
Qed.
Lemma similar_dir a b p : similar a b -> is_dir_at a p <-> is_dir_at b p.
Proof.
  intros S. specialize (S p). split; intros (m & E); rewrite E in S.
  - destruct (b p) as [[]|] eqn:B; try contradiction. eexists. exact B.
  - destruct (a p) as [[]|] eqn:B; try contradiction. eexists. exact B.
Qed.
Lemma similar_leads a b : similar a b -> (forall p D, leads a p D -> leads b p D) /\ (forall d cs q, reaches a d cs q -> reaches b d cs q).
Proof.
  intros S. apply (leads_reaches_ind a (fun p D _ => leads b p D) (fun d cs q _ => reaches b d cs q)).
  - intros p N. apply leads_end. now rewrite <- (similar_link a b).
  - intros p h c q d E T N _ IHr _ IHl. pose proof (S p) as Sp. rewrite E in Sp. destruct (b p) as [[m|h' c']|] eqn:B; try contradiction. destruct Sp as [<- <-].
    eapply leads_link; eauto.
  - intros. apply reaches_nil.
  - intros. now apply reaches_up.
  - intros d c D P. apply reaches_last; auto. now apply (similar_dir a b).
  - intros d c cs d' q D P _ IHl N _ IHr. eapply reaches_down; eauto. now apply (similar_dir a b).
  - intros d cs ND NL N P. apply reaches_new; auto; [now rewrite <- (similar_dir a b)|now rewrite <- (similar_link a b)].
Qed.
Lemma similar_step a b e : similar a b -> similar (unpack_entry a e) (unpack_entry b e).
Proof.
  intros S. unfold unpack_entry. set (p := entry_path e).
  assert (M : similar (mkdirs a (removelast p)) (mkdirs b (removelast p))).
  { intros q. specialize (S q). unfold mkdirs. destruct (at_or_below q (removelast p)); auto. destruct (a q) as [[]|], (b q) as [[]|]; cbn in *; auto; try contradiction; destruct S; auto. }
  revert M. generalize (mkdirs a (removelast p)) (mkdirs b (removelast p)). clear S a b. intros a b S q. destruct (marker_name (last p [])).
  - destruct (str_eqb _ _); unfold remove_below, remove; [destruct (below _ _)|destruct (at_or_below _ _)]; cbn; auto; apply S.
  - destruct (is_dir e); unfold put_node, remove_below; destruct (path_dec q p); cbn; auto; try apply S. destruct (below _ _); cbn; auto.
Qed.
Lemma similar_steps es : forall a b, similar a b -> similar (fold_left unpack_entry es a) (fold_left unpack_entry es b).
Proof. induction es as [|e es IH]; intros a b S; auto. cbn [fold_left]. apply IH, similar_step, S. Qed.
Lemma aat_similar es es' : forall a b, similar a b -> all_at_target a es es' -> all_at_target b es es'.
Proof.
  revert es'. induction es as [|e es IH]; intros es' a b S A; inversion A as [|? ? e' ? es0 AT A']; subst; [constructor|]. constructor.
  - destruct AT as (A1 & A2 & A3 & A4). split; auto. split; auto. split; auto. destruct A4 as [A4|(x & q & d & r & E & N & R & L & E')]; auto. right.
    exists x, q, d, r. destruct (similar_leads a b S) as [SL SR]. repeat split; auto.
  - eapply IH; [|exact A']. now apply similar_step.
Qed.
Lemma unpack_empty layers : unpack empty_root layers = unpacked (all_entries layers).
Proof. apply unpack_all. Qed.
Theorem squash_staged_links n sort order l1 l2 o : sorts sort -> permutes order ->
  Forall (Forall good_entry) (l1 ++ l2) -> Forall (Forall proper_link) (l1 ++ l2) -> squash n sort order (l1 ++ l2) = Ret o ->
  exists o1 o' N, (forall m, N <= m -> squash m sort order l1 = Ret o1 /\ squash m sort order (o1 :: l2) = Ret o') /\ effective o' = effective o.
Proof.
  intros HS HO G P E. destruct (squash_back n sort order (l1 ++ l2) o G P E) as (ls & [GS HL] & A & Q).
  assert (AA : all_entries (l1 ++ l2) = all_entries l1 ++ all_entries l2) by (unfold all_entries; apply flat_map_app).
  rewrite AA in A. apply aat_split in A as (a & b & Ab & A1 & A2).
  pose proof (good_all ls GS) as GA. rewrite Ab in GA. apply Forall_app in GA as [Ga Gb].
  destruct (relayer l1 a (aat_marks _ _ _ A1) Ga) as (l1' & E1 & G1). destruct (relayer l2 b (aat_marks _ _ _ A2) Gb) as (l2' & E2 & G2). subst a b.
  assert (PL : plain_stack (l1' ++ l2')).
  { split; [apply Forall_app; auto|]. unfold all_entries at 1. rewrite flat_map_app. fold (all_entries l1') (all_entries l2'). rewrite <- Ab. exact HL. }
  assert (OO : squash 4 sort order (l1' ++ l2') = Ret o).
  { rewrite <- (Q 4) by lia. unfold squash. assert (X : forall k, load_layers k false (l1' ++ l2') = load_layers k false ls); [|now rewrite X].
    intros k. unfold load_layers. rewrite !load_layers_entries.
    - unfold all_entries at 1. rewrite flat_map_app. fold (all_entries l1') (all_entries l2'). now rewrite <- Ab.
    - eapply Forall_impl; [|exact GS]. intros l. apply Forall_impl, good_inside.
    - destruct PL as [PL _]. eapply Forall_impl; [|exact PL]. intros l. apply Forall_impl, good_inside. }
  destruct (squash_staged sort order HS HO 0 l1' l2' PL) as (o1 & o2 & o' & S1 & S2 & S3 & EF). cbn [plus] in S1, S2, S3. rewrite OO in S2. injection S2 as <-.
  apply Forall_app in G as [Gl1 Gl2].
  assert (IN : forall l, Forall (Forall good_entry) l -> Forall (Forall in_root) l) by (intros l F; eapply Forall_impl; [|exact F]; intros x; apply Forall_impl, good_inside).
  assert (P1 : plain_stack l1').
  { split; auto. destruct PL as [_ NL]. intros es1 e es2 X. apply (NL es1 e (es2 ++ all_entries l2')). unfold all_entries in *. rewrite flat_map_app, X, <- app_assoc. reflexivity. }
  destruct (squash_links sort order l1 l1' (IN l1 Gl1) P1 A1) as [N1 H1].
  (* the squashed first part *)
  destruct (squash_plain 0 sort order l1' o1 S1 P1) as (t1 & _ & WT & WV & LF & Eo).
  assert (PO : plain_stack [o1]) by (rewrite Eo; now apply out_plain).
  assert (SIM : similar (unpacked (all_entries l1')) (unpacked (in_order o1))).
  { destruct (squash_preserves 0 sort order l1' HS HO P1) as (o1' & S1' & SP). cbn [plus] in S1'. rewrite S1 in S1'. injection S1' as <-.
    assert (U1 : unpack empty_root [o1] = unpacked (in_order o1)) by (rewrite unpack_empty; cbn [all_entries flat_map]; now rewrite app_nil_r).
    assert (AG : forall p, real_path p -> agree (unpacked (all_entries l1') p) (unpacked (in_order o1) p)).
    { intros p R. destruct (SP empty_root (ex_intro _ None eq_refl) (or_introl empty_blank) p R) as [AG _]. now rewrite U1, unpack_empty in AG. }
    assert (GO : Forall good_entry (in_order o1)) by (destruct PO as [PO _]; inversion PO; subst; now apply good_in_order).
    intros p. destruct (unpacked (all_entries l1') p) as [x|] eqn:X; [rewrite <- X; apply AG, (unpacked_real (all_entries l1')); [now apply good_all|congruence]|].
    destruct (unpacked (in_order o1) p) as [y|] eqn:Y; [|exact I]. rewrite <- X, <- Y. apply AG, (unpacked_real (in_order o1)); [exact GO|congruence]. }
  assert (PO2 : plain_stack (o1 :: l2')).
  { split; [constructor; auto; destruct PO as [PO _]; now inversion PO|]. cbn [all_entries flat_map]. fold (all_entries l2').
    destruct PL as [_ NL]. intros es1 e es2 X.
    assert (C : (exists r, in_order o1 = es1 ++ e :: r) \/ exists r, es1 = in_order o1 ++ r /\ all_entries l2' = r ++ e :: es2).
    { clear -X. revert es1 X. induction (in_order o1) as [|z l IH]; intros es1 X; [right; exists es1; auto|]. destruct es1 as [|y es1]; cbn [app] in X.
      - injection X as <- _. left. exists l. reflexivity.
      - injection X as <- X. destruct (IH es1 X) as [[r ->]|(r & -> & R)]; [left; now exists r|right; now exists r]. }
    destruct C as [[r C]|(r & -> & C)].
    - destruct PO as [_ NO]. apply (NO es1 e r). cbn [all_entries flat_map]. now rewrite app_nil_r.
    - intros q B L. apply (NL (all_entries l1' ++ r) e es2) in B.
      + apply B. unfold unpacked in *. rewrite fold_left_app in L |- *. eapply similar_link; [|exact L]. now apply similar_steps.
      + unfold all_entries at 1. rewrite flat_map_app. fold (all_entries l1') (all_entries l2'). rewrite C, <- app_assoc. reflexivity. }
  destruct (squash_links sort order (o1 :: l2) (o1 :: l2')) as [N2 H2]; auto.
  { apply IN. constructor; auto. destruct PO as [PO _]. now inversion PO. }
  { cbn [all_entries flat_map]. apply aat_join; [apply aat_same; destruct PO as [PO _]; inversion PO; subst; now apply good_in_order|].
    eapply aat_similar; [|exact A2]. exact SIM. }
  exists o1, o', (4 + N1 + N2). split; auto. intros m L. split.
  - rewrite H1 by lia. apply (more_squash 4); auto. lia.
  - rewrite H2 by lia. apply (more_squash 4); auto. lia.
Qed.
Theorem squash_every n sort order layers out : sorts sort -> permutes order ->
  Forall (Forall good_entry) layers -> Forall (Forall proper_link) layers -> squash n sort order layers = Ret out ->
  exists layers', plain_stack layers' /\ all_at_target empty_root (all_entries layers) (all_entries layers') /\
    (forall base, (exists m, base [] = Some (FDir m)) -> blank base \/ history not_hidden (all_entries layers') ->
     forall p, real_path p -> agree (unpack base layers' p) (unpack base [out] p) /\
       (history no_file_above (all_entries layers') -> unpack base layers' p = unpack base [out] p)).
Proof.
  intros HS HO G P E. destruct (squash_back n sort order layers out G P E) as (ls & PL & A & Q). exists ls. split; auto. split; auto.
  destruct (squash_preserves 0 sort order ls HS HO PL) as (o & Eo & S). cbn [plus] in Eo. rewrite (Q 4) in Eo by lia. injection Eo as <-. exact S.
Qed.
Theorem squash_again_links n m sort order layers out : sorts sort -> permutes order ->
  Forall (Forall good_entry) layers -> Forall (Forall proper_link) layers -> squash n sort order layers = Ret out ->
  squash (4 + m) sort order [out] = Ret (effective out) /\ squash (4 + m) sort order [effective out] = Ret (effective out).
Proof.
  intros HS HO G P E. destruct (squash_back n sort order layers out G P E) as (ls & PL & A & Q). apply (squash_again sort order HS HO m ls); auto. apply Q. lia.
Qed.
(** a check *)
Definition proper_linkb (e : entry) : bool :=
  negb (is_link e) || (negb (match entry_path e with [] => true | _ => false end) && negb (str_eqb (clean (th_link (fst e))) $"/") &&
    forallb (fun k => negb (marker_name k)) (clean_comps (th_link (fst e)))).
Lemma proper_linkb_ok layers : forallb (forallb proper_linkb) layers = true -> Forall (Forall proper_link) layers.
Proof.
  intros H. apply Forall_forall. intros l Il. apply Forall_forall. intros e Ie. rewrite forallb_forall in H. apply H in Il. rewrite forallb_forall in Il. apply Il in Ie. clear H Il.
  unfold proper_linkb in Ie. intros L. rewrite L in Ie. cbn [negb orb] in Ie. rewrite !andb_true_iff in Ie. destruct Ie as [[A B] C]. split; [|split].
  - intros E. rewrite E in A. discriminate.
  - intros E. rewrite E, str_eqb_refl in B. discriminate.
  - apply Forall_forall. intros k I. rewrite forallb_forall in C. apply C in I. now apply negb_true_iff in I.
Qed.
