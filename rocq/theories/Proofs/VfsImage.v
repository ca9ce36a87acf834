(** Opening paths of a loaded image and listing its directories. *)
From Coq Require Import String Ascii List Bool ZArith Lia Permutation Sorted.
From Verif.Model Require Import GoStr GoPath Tar Squash VfsFS.
From Verif.Spec Require Import PathSpec SquashSpec SimpleAPISpec VfsFSSpec.
From Verif.Proofs Require Import Order GoStrFacts GoPathFacts SquashTree SquashLoad SquashSim SquashStack SquashWf SquashInv SquashWrite SquashReload SquashMain SquashFinal SquashMore SquashLinks VfsFSFacts.
Import ListNotations.
Local Arguments byte_eqb : simpl never.
Local Arguments str_eqb : simpl never.
Local Arguments clean : simpl never.
Local Arguments path_base : simpl never.

(** *** links followed to the end *)
Section rests.
  Context (t : tree).
  Inductive rests : nat -> pos -> pos -> Prop :=
  | rests_here p : view_of t p <> None -> Squash.link_of (header_at t p) = None -> rests 0 p p
  | rests_link k p l q e : Squash.link_of (header_at t p) = Some l -> clean l <> $"/" ->
      steps t (if is_abs l then [] else parent p) (clean_comps l) q -> rests k q e -> rests (S k) p e.
  Lemma rests_det k p e : rests k p e -> forall k' e', rests k' p e' -> k = k' /\ e = e'.
  Proof.
    induction 1 as [p V L|k p l q e L N S H IH]; intros k' e' H'; inversion H' as [p0 V0 L0|k0 p0 l0 q0 e0 L0 N0 S0 H0]; subst; auto; try congruence.
    rewrite L in L0. injection L0 as <-. apply (proj2 (lands_det t) _ _ _ S) in S0 as <-. apply IH in H0 as [<- <-]. auto.
  Qed.
  Lemma rests_ok k p e : rests k p e -> exists N, forall n, (N <= n)%nat -> forall create stack,
    (forall q, In q stack -> exists k' e', rests k' q e' /\ (k < k')%nat) -> resolve n t p create stack = Ret (t, e).
  Proof.
    induction 1 as [p V L|k p l q e L NR S H [N2 H2]].
    - exists 1%nat. intros [|n] LE create stack _; [lia|]. rewrite resolve_S, L. reflexivity.
    - destruct (proj2 (lands_ok t) _ _ _ S) as [N1 H1]. exists (3 + N1 + N2)%nat. intros n LE create stack ST. destruct n as [|[|[|n]]]; try lia. rewrite resolve_S, L.
      match goal with |- context [existsb ?f stack] => replace (existsb f stack) with false end.
      + rewrite (fs_get_link t n p l q create false NR) by (apply H1; lia). cbn [bind]. apply H2; [lia|].
        intros x [<-|I]; [exists (Datatypes.S k), e; split; [eapply rests_link; eauto|lia]|]. destruct (ST x I) as (k' & d' & Hx & Lx). exists k', d'. split; auto. lia.
      + symmetry. apply not_true_is_false. intros Ex. apply existsb_exists in Ex as (x & I & E). destruct (list_eq_dec _ p x) as [->|]; [|discriminate].
        destruct (ST x I) as (k' & d' & Hx & Lx). assert (LL : rests (Datatypes.S k) x e) by (eapply rests_link; eauto).
        destruct (rests_det _ _ _ LL _ _ Hx) as [X _]. lia.
  Qed.
  Lemma get_dot n p create : get (S n) t p dot create true = resolve n t p create [].
  Proof. rewrite get_S. reflexivity. Qed.
  Lemma valid_open utf8 p : plain_path p -> utf8 (open_name p) = true -> valid_path utf8 (open_name p) = true.
  Proof.
    intros P U. unfold valid_path. rewrite U. cbn [andb]. unfold open_name in *. destruct p as [|c cs]; [reflexivity|]. apply orb_true_iff. right.
    cbn [path_text]. rewrite split_on_join; [|discriminate|].
    - apply forallb_forall. intros x I. unfold plain_path in P. rewrite Forall_forall in P. apply P in I. destruct (plain_neq x I) as (A & B & C). now rewrite A, B, C.
    - eapply Forall_impl; [|exact P]. intros x (_ & H & _). exact H.
  Qed.
  Theorem open_steps utf8 p q k e : plain_path p -> utf8 (open_name p) = true -> steps t [] p q -> rests k q e ->
    exists N, forall n, (N <= n)%nat -> open utf8 n t (open_name p) = Ret (q, e).
  Proof.
    intros P U S R. destruct (proj2 (lands_ok t) _ _ _ S) as [N1 H1]. destruct (rests_ok k q e R) as [N2 H2]. exists (2 + N1 + N2)%nat. intros n LE.
    destruct n as [|[|n]]; try lia. unfold open. rewrite valid_open by auto. cbn [negb].
    assert (C : clean_comps (open_name p) = p) by (unfold open_name; apply clean_comps_text; now apply plain_clean).
    assert (A : is_abs (open_name p) = false) by (unfold open_name; apply is_abs_text; now apply plain_clean).
    assert (NS : clean (open_name p) <> $"/").
    { intros X. assert (Y : is_abs (clean (open_name p)) = true) by now rewrite X. rewrite clean_text, A, C in Y. rewrite is_abs_text in Y by now apply plain_clean. discriminate. }
    pose proof (fs_get_link t n [] (open_name p) q false false NS) as F. rewrite A, C in F. cbn [parent] in F. change (parent []) with (@nil str) in F. rewrite F by (apply H1; lia). cbn [bind].
    rewrite get_dot, H2; [reflexivity|lia|intros x []].
  Qed.
End rests.

(** *** plain stacks *)
Definition names_known (v : view) : Prop := forall q h, real_path q -> hdr_of v q = Some h -> th_name h = path_text false q.
Lemma names_known_step v e v' : names_known v -> good_entry e -> veq v' (vstep v (entry_path e) (fst (parsed e)) (snd e)) -> names_known v'.
Proof.
  intros J G V q h R HN. rewrite (hdr_veq _ _ _ V) in HN. destruct (path_dec q (entry_path e)) as [->|N].
  - unfold hdr_of in HN. rewrite vstep_self in HN. cbn [fst] in HN. injection HN as <-. apply parsed_name. now apply good_inside.
  - apply J; auto. unfold hdr_of in *. destruct (vstep_cases v (entry_path e) (fst (parsed e)) (snd e) q N) as [H|[H|[[_ H]|(a & E & H)]]];
      rewrite H in HN; auto; try discriminate. exfalso. now apply (real_ne_opq q a).
Qed.
Lemma load_entries_names n es : forall es0 t, Forall good_entry es -> remembers es0 (view_of t) -> leafy (view_of t) -> names_known (view_of t) ->
  (forall es1 e es2, es = es1 ++ e :: es2 -> no_link_above (es0 ++ es1) e) ->
  exists t', load_entries (S (S (S (S n)))) t (map parsed es) = Ret t' /\ names_known (view_of t').
Proof.
  induction es as [|e es IH]; intros es0 t G RM L NK H; [exists t; auto|].
  inversion G as [|? ? G1 G2]; subst. pose proof (H [] e es eq_refl) as NL. rewrite app_nil_r in NL.
  destruct (load_entry_sim n es0 t e G1 RM L NL) as (t1 & E1 & RM1 & L1 & V1 & _ & S1).
  destruct (IH (es0 ++ [e]) t1) as (t' & E' & NK'); auto.
  { eapply names_known_step; eauto. }
  { intros es1 e' es2 Ee. specialize (H (e :: es1) e' es2). rewrite <- app_assoc. apply H. now rewrite Ee. }
  exists t'. split; auto. cbn [map load_entries]. rewrite E1. exact E'.
Qed.
Lemma plain_names n layers t : plain_stack layers -> load_layers (4 + n) false layers = Ret t -> names_known (view_of t).
Proof.
  intros [G NL] E. destruct (load_entries_names n (all_entries layers) [] empty_tree) as (t' & E' & NK); auto.
  - now apply good_all.
  - apply remembers_empty.
  - apply leafy_empty.
  - intros q h _ H. destruct q; discriminate.
  - assert (T : t' = t); [|now subst]. cbn [plus] in E. unfold load_layers in E. rewrite load_layers_entries in E; [congruence|].
    eapply Forall_impl; [|exact G]. intros l. apply Forall_impl, good_inside.
Qed.
Lemma real_only_unpack es : forall fs, Forall good_entry es -> (forall p, fs p <> None -> real_path p) -> forall p, fold_left unpack_entry es fs p <> None -> real_path p.
Proof.
  induction es as [|e es IH]; intros fs G H; auto. inversion G; subst. cbn [fold_left]. apply IH; auto. intros p. now apply real_only_step.
Qed.
Lemma no_root_unpack es : forall fs, Forall (fun e => ~ links_to_root e) es -> no_root_link fs -> no_root_link (fold_left unpack_entry es fs).
Proof. induction es as [|e es IH]; intros fs G H; auto. inversion G; subst. cbn [fold_left]. apply IH; auto. now apply no_root_link_step. Qed.

Section image.
  Context (layers : list (list entry)) (P : plain_stack layers) (NR : Forall (Forall (fun e => ~ links_to_root e)) layers).
  Let fs := unpack empty_root layers.
  Lemma image_real p : fs p <> None -> real_path p.
  Proof.
    unfold fs. rewrite unpack_all. apply real_only_unpack; [apply good_all, P|]. intros [|k q] H; [split; constructor|now destruct H].
  Qed.
  Lemma image_no_root : no_root_link fs.
  Proof.
    unfold fs. intros p h c. rewrite unpack_all. revert p h c. apply (no_root_unpack (all_entries layers) empty_root).
    - apply Forall_forall. intros e Ie. apply in_all in Ie as (l & Il & Ie). rewrite Forall_forall in NR. specialize (NR l Il). rewrite Forall_forall in NR. auto.
    - intros [|k p] h c E; discriminate.
  Qed.
  Context (t : tree) (AG : fagree fs (interp (view_of t) empty_root)).
  Lemma image_walks p q : plain_path p -> walks fs [] p q -> steps t [] p q.
  Proof. intros PP W. apply (proj2 (convert fs t image_real AG image_no_root) _ _ _ W). exists false. now apply plain_clean. Qed.
  Lemma image_ends p e : ends fs p e -> exists k, rests t k p e.
  Proof.
    induction 1 as [p m E|p h c E T|p h c q r E T W _ [k IH]].
    - exists 0%nat. destruct (conv_dir fs t image_real AG p m E) as [V D]. apply rests_here; auto. now apply dir_not_link.
    - exists 0%nat. destruct (conv_file fs t image_real AG p h c E) as (h' & V & A). apply rests_here; [congruence|]. rewrite header_view. unfold hdr_of. rewrite V. cbn [fst Squash.link_of].
      rewrite <- A in T. change (th_type (anon h')) with (th_type h') in T. destruct (byte_eqb (th_type h') TypeSymlink) eqn:B; auto. now apply byte_eqb_eq in B.
    - exists (S k). pose proof (image_no_root p h c E T) as NRl. destruct (conv_file fs t image_real AG p h c E) as (h' & V & A).
      eapply rests_link with (l := th_link h) (q := q); auto.
      + rewrite header_view. unfold hdr_of. rewrite V. cbn [fst Squash.link_of]. rewrite <- A in T |- *. change (th_type (anon h')) with (th_type h') in T. rewrite T. reflexivity.
      + apply (proj2 (convert fs t image_real AG image_no_root) _ _ _ W). exists (is_abs (th_link h)). apply clean_comps_list.
  Qed.

  (** *** missing files *)
  Lemma view_gone q : real_path q -> fs q = None -> view_of t q = None.
  Proof. intros R E. specialize (AG q R). rewrite E in AG. unfold interp in AG. destruct (view_of t q) as [[[h|] b]|]; auto; [destruct (byte_eqb _ _)|]; destruct AG. Qed.
  Lemma view_there q : real_path q -> view_of t q <> None -> fs q <> None.
  Proof. intros R V E. apply V. now apply view_gone. Qed.
  Lemma fs_get_names n create l : plain_path l -> l <> [] -> fs_get (S (S n)) t [] (open_name l) create false = crawl (S n) create false t [] l.
  Proof.
    intros Pl Nl. unfold open_name. rewrite fs_get_S, clean_of_text by now apply plain_clean. rewrite is_abs_text by now apply plain_clean. cbv iota.
    destruct l as [|c l]; [congruence|]. cbn [path_text].
    assert (NS : Forall (fun c => ~ In slash c) (c :: l)) by (eapply clean_list_no_slash, (plain_clean true), Pl).
    rewrite split_on_join; auto; discriminate.
  Qed.
  Lemma crawl_fails n x r q e : (forall follow, get (S n) t q x false follow = Fail e) -> crawl (S n) false false t q (x :: r) = Fail e.
  Proof. intros H. cbn [crawl]. destruct r; rewrite H; reflexivity. Qed.
  Lemma open_fails utf8 a x r q e : plain_path (a ++ x :: r) -> utf8 (open_name (a ++ x :: r)) = true -> walks fs [] a q ->
    (exists N, forall n, (N <= n)%nat -> forall follow, get (S n) t q x false follow = Fail e) ->
    exists N, forall n, (N <= n)%nat -> open utf8 n t (open_name (a ++ x :: r)) = Fail e.
  Proof.
    intros PP U W [N2 H2]. pose proof PP as PP'. apply plain_path_app in PP' as [Pa Pr]. pose proof (image_walks a q Pa W) as S.
    destruct (crawl_rest t a (x :: r) q ltac:(discriminate) Pr [] S) as [N1 H1]. exists (2 + N1 + N2)%nat. intros n LE.
    destruct n as [|[|n]]; try lia. unfold open. rewrite valid_open by auto. cbn [negb]. rewrite fs_get_names by (auto; destruct a; discriminate).
    rewrite H1 by lia. rewrite (crawl_fails n x r q e); [reflexivity|]. intros follow. apply H2. lia.
  Qed.
  Theorem open_missing utf8 a x r q D : plain_path (a ++ x :: r) -> utf8 (open_name (a ++ x :: r)) = true -> walks fs [] a q -> follows fs q D ->
    marker_name x = false -> fs (D ++ [x]) = None ->
    exists N, forall n, (N <= n)%nat -> open utf8 n t (open_name (a ++ x :: r)) = Fail ENotExist.
  Proof.
    intros PP U W F0 M E. pose proof F0 as F. eapply open_fails; eauto. apply plain_path_app in PP as [Pa Pr]. inversion Pr as [|? ? Px _]; subst.
    apply (proj1 (convert fs t image_real AG image_no_root)) in F as [k L]. destruct (proj1 (lands_ok t) _ _ _ L) as (_ & [N H] & D0).
    assert (RD : real_path D) by (apply image_real; destruct (follows_end fs q D F0) as [m Em]; congruence).
    assert (V : view_of t (D ++ [x]) = None).
    { apply view_gone; auto. apply real_app. split; auto. split; constructor; auto. }
    exists N. intros n LE follow. rewrite H by auto. destruct (plain_keys _ Px) as [K1 K2]. rewrite get_S. cbv zeta. rewrite K1, K2, (dirT_link t D D0). cbn [bind]. rewrite (proj2 D0). cbn [bind].
    unfold view_of in V. destruct (subtree t (D ++ [x])); [discriminate|reflexivity].
  Qed.
  Lemma ends_file_view q e h c : ends fs q e -> fs e = Some (FFile h c) -> non_dir (header_at t e) = true.
  Proof.
    intros R E. destruct (conv_file fs t image_real AG e h c E) as (h' & V & A). rewrite header_view. unfold hdr_of. rewrite V. cbn [fst non_dir].
    pose proof (image_real e ltac:(congruence)) as RR. specialize (AG e RR). unfold interp in AG. rewrite E, V in AG. destruct (byte_eqb (th_type h') TypeDir); [destruct AG|reflexivity].
  Qed.
  Theorem open_through_file utf8 a x r q e h c : plain_path (a ++ x :: r) -> utf8 (open_name (a ++ x :: r)) = true -> walks fs [] a q -> ends fs q e ->
    fs e = Some (FFile h c) ->
    exists N, forall n, (N <= n)%nat -> open utf8 n t (open_name (a ++ x :: r)) = Fail ENotDir.
  Proof.
    intros PP U W F E. eapply open_fails; eauto. apply plain_path_app in PP as [Pa Pr]. inversion Pr as [|? ? Px _]; subst.
    destruct (plain_keys _ Px) as [K1 K2]. pose proof (ends_file_view q e h c F E) as ND. destruct (image_ends q e F) as [k R].
    inversion R as [p V L|k' p l q' e' L N S R']; subst.
    - exists 0%nat. intros n _ follow. rewrite get_S. cbv zeta. rewrite K1, K2, L. cbn [bind]. rewrite ND. reflexivity.
    - destruct (proj2 (lands_ok t) _ _ _ S) as [N1 H1]. destruct (rests_ok t k' q' e R') as [N2 H2]. exists (2 + N1 + N2)%nat. intros n LE follow.
      destruct n as [|[|n]]; try lia. rewrite get_S. cbv zeta. rewrite K1, K2, L. rewrite (fs_get_link t n q l q' false true N) by (apply H1; lia).
      rewrite H2; [|lia|intros y []]. cbn [bind]. rewrite ND. reflexivity.
  Qed.
  Theorem open_found utf8 p q e : plain_path p -> utf8 (open_name p) = true -> walks fs [] p q -> ends fs q e ->
    exists N, forall n, (N <= n)%nat -> open utf8 n t (open_name p) = Ret (q, e).
  Proof. intros PP U W F. destruct (image_ends q e F) as [k R]. eapply open_steps; eauto. now apply image_walks. Qed.

  (** *** the handle *)
  Lemma keys_view d k : In k (keys_at t d) <-> view_of t (d ++ [k]) <> None.
  Proof.
    unfold keys_at. rewrite view_app. destruct (subtree t d) as [s|]; [|cbn [In]; tauto]. unfold view_of. cbn [subtree].
    destruct (child k (t_children s)) as [c|] eqn:E.
    - split; [discriminate|intros _]. apply child_In in E. now apply (in_map fst) in E.
    - apply child_none in E. split; tauto.
  Qed.
  Definition shown (d : pos) (k : str) : dirent := match header_at t (d ++ [k]) with Some h => (fi_name h, Some h) | None => (k, None) end.
  Lemma build_ok d keys : (forall k, In k keys -> marker_name k = false -> exists e j, rests t j (d ++ [k]) e) ->
    exists N, forall n, (N <= n)%nat -> forall acc, build n t d keys acc = Ret (acc ++ map (shown d) (filter (fun k => negb (marker_name k)) keys), None).
  Proof.
    induction keys as [|k keys IH]; intros H.
    - exists 0%nat. intros n _ acc. cbn [build filter map]. now rewrite app_nil_r.
    - destruct IH as [N1 H1]; [intros k' I; apply H; now right|]. destruct (marker_name k) eqn:M.
      + exists N1. intros n LE acc. cbn [build filter]. change (has_prefix wh_prefix k) with (marker_name k). rewrite M. cbn [negb]. now apply H1.
      + destruct (H k (or_introl eq_refl) M) as (e & j & R). destruct (rests_ok t j _ e R) as [N2 H2]. exists (1 + N1 + N2)%nat. intros [|n] LE acc; [lia|].
        cbn [build filter]. change (has_prefix wh_prefix k) with (marker_name k). rewrite M. cbn [negb map]. rewrite get_dot, H2; [|lia|intros x []].
        rewrite H1 by lia. now rewrite <- app_assoc.
  Qed.
  Context (WT : wf any ok_key t) (WV : wfv (view_of t)) (LF : leafy (view_of t)) (NK : names_known (view_of t)).
  Theorem file_handle order e h c : fs e = Some (FFile h c) -> (forall l, Permutation (order l) l) ->
    exists h', anon h' = h /\ th_type h' <> TypeDir /\ forall n, handle_at n order t e = Ret (mkHandle (Some h') c ([], None)).
  Proof.
    intros E O. destruct (conv_file fs t image_real AG e h c E) as (h' & V & A). exists h'. split; auto.
    assert (ND : non_dir (hdr_of (view_of t) e) = true).
    { pose proof (image_real e ltac:(congruence)) as RR. specialize (AG e RR). unfold interp in AG. unfold hdr_of. rewrite E, V in *. cbn [fst non_dir]. destruct (byte_eqb (th_type h') TypeDir); [destruct AG|reflexivity]. }
    split; [intros X; unfold hdr_of in ND; rewrite V in ND; cbn [fst non_dir] in ND; rewrite X in ND; discriminate|]. intros n. unfold handle_at.
    assert (K : order (keys_at t e) = []).
    { assert (K0 : keys_at t e = []); [|rewrite K0; apply Permutation_nil, Permutation_sym, O].
      destruct (keys_at t e) as [|k ks] eqn:K; auto. assert (I : In k (keys_at t e)) by (rewrite K; now left). apply keys_view in I. now rewrite (LF e k ND) in I. }
    rewrite K. cbn [build bind]. rewrite header_view. unfold hdr_of. rewrite V. cbn [fst]. unfold view_of in V. destruct (subtree t e) as [s|]; [|discriminate]. now injection V as _ ->.
  Qed.
  Lemma shown_name d k : real_path (d ++ [k]) -> fst (shown d k) = k.
  Proof.
    intros R. unfold shown. destruct (header_at t (d ++ [k])) as [h|] eqn:E; auto. cbn [fst]. rewrite header_view in E. apply NK in E; auto.
    unfold fi_name. rewrite E. destruct R as [PP _]. rewrite clean_of_text by now apply plain_clean. rewrite base_plain by auto. now destruct (byte_eqb _ _).
  Qed.
  Lemma shown_node d k n : fs (d ++ [k]) = Some n -> shows n (snd (shown d k)).
  Proof.
    intros E. pose proof (image_real (d ++ [k]) ltac:(congruence)) as R. pose proof (AG _ R) as A. rewrite E in A. unfold shown. rewrite header_view. unfold hdr_of, interp in *.
    destruct (view_of t (d ++ [k])) as [[[h|] b]|]; cbn [fst snd].
    - destruct (byte_eqb (th_type h) TypeDir) eqn:D; destruct n as [m|m c]; cbn [agree shows] in *; try tauto.
      + apply byte_eqb_eq in D. tauto.
      + symmetry. tauto.
    - destruct n as [m|m c]; cbn [agree shows] in *; auto. destruct A as [A|A]; auto. rewrite A. unfold visible.
      destruct (shadow _ _ _); auto. unfold empty_root. destruct (d ++ [k]) eqn:X; auto.
    - exfalso. unfold visible in A. destruct (shadow _ _ _); [destruct n; destruct A|]. unfold empty_root in A. destruct (d ++ [k]) eqn:X; [destruct d; discriminate|destruct n; destruct A].
  Qed.
  Lemma real_key d k : real_path d -> marker_name k = false -> view_of t (d ++ [k]) <> None -> real_path (d ++ [k]).
  Proof.
    intros R M V. destruct (view_of t (d ++ [k])) as [n|] eqn:E; [|congruence]. destruct (w_shape _ WV _ _ E) as [H|[(d' & k' & X & _ & K) _]]; auto.
    exfalso. apply app_inj_tail in X as [-> ->]. destruct K as [->|(x & -> & _)]; [discriminate|]. rewrite wh_marker in M. discriminate.
  Qed.
  Theorem dir_handle (sort : (dirent -> dirent -> bool) -> list dirent -> list dirent) order e m : sorts sort -> (forall l, Permutation (order l) l) -> fs e = Some (FDir m) ->
    (forall x, fs (e ++ [x]) <> None -> exists r, ends fs (e ++ [x]) r) ->
    exists N oh body acc, (forall n, (N <= n)%nat -> handle_at n order t e = Ret (mkHandle oh body (acc, None))) /\ non_dir oh = false /\
      listing fs e (sort (fun i j => str_ltb (fst i) (fst j)) acc).
  Proof.
    intros HS HO E RS. pose proof (image_real e ltac:(congruence)) as RE. destruct (conv_dir fs t image_real AG e m E) as [_ D].
    assert (RK : forall k, In k (order (keys_at t e)) -> marker_name k = false -> real_path (e ++ [k]) /\ fs (e ++ [k]) <> None).
    { intros k I M. apply (Permutation_in _ (HO _)), keys_view in I. assert (R : real_path (e ++ [k])) by now apply real_key. split; auto. now apply view_there. }
    destruct (build_ok e (order (keys_at t e))) as [N H].
    { intros k I M. destruct (RK k I M) as [R F]. destruct (RS k F) as [r EN]. destruct (image_ends _ _ EN) as [j RR]. eauto. }
    set (ks := filter (fun k => negb (marker_name k)) (order (keys_at t e))) in *. set (acc := map (shown e) ks) in *.
    exists N, (header_at t e), (match subtree t e with Some s => t_body s | None => [] end), acc. split; [|split; auto].
    { intros n LE. unfold handle_at. rewrite H by auto. reflexivity. }
    assert (KS : forall k, In k ks <-> fs (e ++ [k]) <> None).
    { intros k. unfold ks. rewrite filter_In, negb_true_iff. split.
      - intros [I M]. now apply RK.
      - intros F. pose proof (image_real _ F) as R. split.
        + apply (Permutation_in _ (Permutation_sym (HO _))), keys_view. now apply (conv_present fs t image_real AG).
        + destruct R as [_ R]. apply Forall_app in R as [_ R]. now inversion R. }
    assert (NM : map fst acc = ks).
    { unfold acc. rewrite map_map. rewrite <- (map_id ks) at 2. apply map_ext_in. intros k I. apply shown_name, image_real. now apply KS. }
    assert (ND : NoDup ks).
    { apply NoDup_filter. eapply Permutation_NoDup; [apply Permutation_sym, HO|]. unfold keys_at. destruct (subtree t e) as [s|] eqn:S; [|constructor].
      apply (wf_sub _ _ t e s WT) in S. now apply wf_parts in S. }
    destruct (HS (fun i j => str_ltb (fst i) (fst j)) acc) as [PM ST]. split; [|split].
    - assert (SW : strict_weak (fun i j : dirent => str_ltb (fst i) (fst j)) acc).
      { split.
        - intros a b _ _ L. apply str_ltb_lt in L. destruct (str_ltb (fst b) (fst a)) eqn:L'; auto. apply str_ltb_lt in L'.
          rewrite (ok_anti _ str_compare_ok), L in L'. discriminate.
        - intros a b c _ _ _ L. apply str_ltb_lt in L. rewrite !str_ltb_lt. destruct (str_compare (fst a) (fst c)) eqn:C; auto.
          + apply str_compare_eq in C. right. now rewrite <- C.
          + right. eapply (Order.ok_lt _ str_compare_ok); [|exact L]. now rewrite (ok_anti _ str_compare_ok), C. }
      specialize (ST SW). assert (NN : NoDup (map fst (sort (fun i j => str_ltb (fst i) (fst j)) acc))).
      { eapply Permutation_NoDup; [apply Permutation_map, Permutation_sym, PM|]. now rewrite NM. }
      clear - ST NN. induction ST as [|a l S IH F]; [constructor|]. cbn [map] in NN. inversion NN; subst. constructor; auto.
      apply Forall_forall. intros x I. rewrite Forall_forall in F. specialize (F x I). cbv beta in F.
      destruct (str_compare (fst a) (fst x)) eqn:C; auto.
      + exfalso. apply str_compare_eq in C. apply H1. rewrite C. now apply in_map.
      + exfalso. apply not_true_iff_false in F. apply F, str_ltb_lt. now rewrite (ok_anti _ str_compare_ok), C.
    - intros x h I. apply (Permutation_in _ PM) in I. unfold acc in I. apply in_map_iff in I as (k & X & I). apply KS in I.
      assert (k = x) as -> by (apply (f_equal fst) in X; cbn [fst] in X; rewrite shown_name in X; auto; now apply image_real).
      destruct (fs (e ++ [x])) as [nd|] eqn:F; [|congruence]. exists nd. split; auto. apply shown_node in F. now rewrite X in F.
    - intros x nd F. assert (I : In x ks) by (apply KS; congruence). exists (snd (shown e x)). apply (Permutation_in _ (Permutation_sym PM)).
      unfold acc. apply in_map_iff. exists x. split; auto. rewrite <- (shown_name e x) at 2; [now destruct (shown e x)|]. apply image_real. congruence.
  Qed.
End image.

(** *** the whole *)
Theorem load_image layers : plain_stack layers ->
  exists t, (forall n, (4 <= n)%nat -> load_layers n false layers = Ret t) /\ fagree (unpack empty_root layers) (interp (view_of t) empty_root) /\
    wf any ok_key t /\ wfv (view_of t) /\ leafy (view_of t) /\ names_known (view_of t).
Proof.
  intros P. destruct (load_plain 0 layers P) as (t & E & WT & WV & LF & _ & S & _). exists t. split.
  { intros n L. eapply more_fuel_load; [exact E|discriminate|auto]. }
  split; [|split; [|split; [|split]]]; auto.
  - apply S; [exists None; reflexivity|left; intros [|k q] N; [congruence|reflexivity]].
  - now apply (plain_names 0 layers).
Qed.
Section whole.
  Context (layers : list (list entry)) (P : plain_stack layers) (NR : Forall (Forall (fun e => ~ links_to_root e)) layers).
  Context (sort : (dirent -> dirent -> bool) -> list dirent -> list dirent) (HS : sorts sort).
  Context (order : list str -> list str) (HO : forall l, Permutation (order l) l) (utf8 : str -> bool).
  Notation fs := (unpack empty_root layers).
  Theorem image_file p q e h c : plain_path p -> utf8 (open_name p) = true -> walks fs [] p q -> ends fs q e -> fs e = Some (FFile h c) ->
    (th_size h <= Z.of_nat (length c))%Z ->
    exists N t f, (forall n, (N <= n)%nat -> load_layers n false layers = Ret t /\ open_file utf8 n order t (open_name p) = Ret f) /\
      forall programs c', reachable sort f programs c' -> reads_file c false (c_log c').
  Proof.
    intros PP U W R E SZ. destruct (load_image layers P) as (t & L & AG & WT & WV & LF & NK).
    destruct (open_found layers P NR t AG utf8 p q e PP U W R) as [N HN]. destruct (file_handle layers P t AG LF order e h c E HO) as (h' & A & T & HH).
    exists (4 + N)%nat, t, (mkHandle (Some h') c ([], None)). split.
    - intros n LE. split; [apply L; lia|]. unfold open_file. rewrite HN by lia. apply HH.
    - intros programs c' RR. apply (reads_file_any sort _ programs c' h' RR); auto; cbn [hd_header hd_body]; rewrite <- A in SZ; auto.
  Qed.
  Theorem image_dir p q e m : plain_path p -> utf8 (open_name p) = true -> walks fs [] p q -> ends fs q e -> fs e = Some (FDir m) ->
    (forall x, fs (e ++ [x]) <> None -> exists r, ends fs (e ++ [x]) r) ->
    exists N t f l, (forall n, (N <= n)%nat -> load_layers n false layers = Ret t /\ open_file utf8 n order t (open_name p) = Ret f) /\
      listing fs e l /\ forall programs c', reachable sort f programs c' -> reads_dir l false (c_log c').
  Proof.
    intros PP U W R E RS. destruct (load_image layers P) as (t & L & AG & WT & WV & LF & NK).
    destruct (open_found layers P NR t AG utf8 p q e PP U W R) as [N HN].
    destruct (dir_handle layers P NR t AG WT WV NK sort order e m HS HO E RS) as (N' & oh & body & acc & HH & ND & LI).
    exists (4 + N + N')%nat, t, (mkHandle oh body (acc, None)), (sort (fun i j => str_ltb (fst i) (fst j)) acc). split; [|split; auto].
    - intros n LE. split; [apply L; lia|]. unfold open_file. rewrite HN by lia. apply HH. lia.
    - intros programs c' RR. now apply (reads_dir_any sort _ programs c' acc RR).
  Qed.
  Theorem image_open p q e : plain_path p -> utf8 (open_name p) = true -> walks fs [] p q -> ends fs q e ->
    exists N t, forall n, (N <= n)%nat -> load_layers n false layers = Ret t /\ open utf8 n t (open_name p) = Ret (q, e) /\
      stat_tells (fs e) q (stat t q e).
  Proof.
    intros PP U W R. destruct (load_image layers P) as (t & L & AG & WT & WV & LF & NK).
    destruct (open_found layers P NR t AG utf8 p q e PP U W R) as [N HN]. exists (4 + N)%nat, t. intros n LE. split; [apply L; lia|]. split; [apply HN; lia|].
    assert (Q : fs q <> None) by (inversion R; congruence).
    assert (E : fs e <> None) by (clear - R; induction R; congruence). pose proof (image_real layers P q Q) as RQ. pose proof (image_real layers P e E) as RE.
    assert (HQ : q = e \/ exists h, header_at t q = Some h).
    { inversion R as [p0 m E0|p0 h c E0 T|p0 h c q0 r E0 T]; subst; auto. right. destruct (conv_file fs t (image_real layers P) AG q h c E0) as (h' & V & _).
      exists h'. rewrite header_view. unfold hdr_of. now rewrite V. }
    destruct (fs e) as [nd|] eqn:F; [|congruence]. unfold stat. destruct (header_at t e) as [h|] eqn:H.
    - assert (HQ' : exists l, header_at t q = Some l) by (destruct HQ as [->|]; eauto). destruct HQ' as [l Hl]. rewrite Hl. cbn [stat_tells]. split.
      + exists nd. split; auto. pose proof (AG e RE) as A. rewrite F in A. rewrite header_view in H. unfold hdr_of, interp in *. destruct (view_of t e) as [[oh b]|]; [|discriminate]. cbn [fst] in H. subst oh.
        destruct (byte_eqb (th_type h) TypeDir) eqn:D; destruct nd as [m|m c]; cbn [agree shows] in *; try tauto.
        * apply byte_eqb_eq in D. tauto.
        * destruct A as [-> _]. reflexivity.
      + intros NQ. destruct (exists_last NQ) as (d & k & ->). rewrite last_last. rewrite header_view in Hl. apply NK in Hl; auto.
        unfold fi_name. cbn [th_name with_name]. rewrite Hl. destruct RQ as [PQ _]. rewrite clean_of_text by now apply plain_clean. rewrite base_plain by auto. now destruct (byte_eqb _ _).
    - pose proof (AG e RE) as A. rewrite F in A. rewrite header_view in H. unfold hdr_of, interp in *. destruct (view_of t e) as [[[h|] b]|]; try discriminate.
      + destruct nd as [m|m c]; [|destruct A]. split; auto. unfold visible, empty_root in A. cbn [agree] in A. destruct (shadow _ _ _), e; destruct A as [->| ->]; auto.
      + unfold visible, empty_root in A. destruct nd as [m|m c]; destruct (shadow _ _ _), e; cbn [agree] in A; try tauto. destruct A as [->| ->]; split; auto.
  Qed.
  Theorem image_missing a x r q D : plain_path (a ++ x :: r) -> utf8 (open_name (a ++ x :: r)) = true -> walks fs [] a q -> follows fs q D ->
    marker_name x = false -> fs (D ++ [x]) = None ->
    exists N t, forall n, (N <= n)%nat -> load_layers n false layers = Ret t /\ open utf8 n t (open_name (a ++ x :: r)) = Fail ENotExist.
  Proof.
    intros PP U W F M E. destruct (load_image layers P) as (t & L & AG & _). destruct (open_missing layers P NR t AG utf8 a x r q D PP U W F M E) as [N HN].
    exists (4 + N)%nat, t. intros n LE. split; [apply L|apply HN]; lia.
  Qed.
  Theorem image_not_dir a x r q e h c : plain_path (a ++ x :: r) -> utf8 (open_name (a ++ x :: r)) = true -> walks fs [] a q -> ends fs q e ->
    fs e = Some (FFile h c) ->
    exists N t, forall n, (N <= n)%nat -> load_layers n false layers = Ret t /\ open utf8 n t (open_name (a ++ x :: r)) = Fail ENotDir.
  Proof.
    intros PP U W R E. destruct (load_image layers P) as (t & L & AG & _). destruct (open_through_file layers P NR t AG utf8 a x r q e h c PP U W R E) as [N HN].
    exists (4 + N)%nat, t. intros n LE. split; [apply L|apply HN]; lia.
  Qed.
End whole.
Lemma open_invalid utf8 n t name c : In c (split_on slash name) -> c = [] \/ c = $"." \/ c = $".." -> name <> $"." -> open utf8 n t name = Fail EInvalid.
Proof.
  intros I C N. unfold open. replace (valid_path utf8 name) with false; [reflexivity|]. symmetry. unfold valid_path. apply andb_false_iff. right.
  apply orb_false_iff. split; [apply not_true_iff_false; intros X; now apply str_eqb_eq in X|]. apply not_true_iff_false. intros F. rewrite forallb_forall in F. apply F in I.
  destruct C as [->|[->| ->]]; discriminate I.
Qed.
