(** Looking for programs in an image (C60). *)
From Coq Require Import String Ascii List Bool ZArith Lia.
From Verif.Model Require Import GoStr GoPath Tar Squash VfsFS LookPath.
From Verif.Spec Require Import PathSpec SquashSpec VfsFSSpec TripSpec LookPathSpec.
From Verif.Proofs Require Import Order GoStrFacts GoPathFacts SquashTree SquashLoad SquashSim SquashStack SquashWf SquashInv SquashWrite SquashReload SquashMain SquashFinal SquashMore SquashLinks SquashHard SquashCheck VfsFSFacts VfsImage VfsBack VfsTrips.
Import ListNotations.
Local Open Scope nat_scope.
Local Arguments byte_eqb : simpl never.
Local Arguments str_eqb : simpl never.
Local Arguments clean : simpl never.
Local Arguments path_base : simpl never.

(** *** without contents *)
Definition bare1 (e : entry) : entry := (fst e, []).
Definition bare (layers : list (list entry)) : list (list entry) := map (map bare1) layers.
Lemma parse_bare l : parse_layer true l = parse_layer false (map bare1 l).
Proof. induction l as [|[h b] l IH]; cbn [parse_layer map bare1 fst]; auto. now rewrite IH. Qed.
Lemma load_bare_from n layers : forall t, load_layers_from n true t layers = load_layers_from n false t (bare layers).
Proof.
  induction layers as [|l ls IH]; intros t; cbn [load_layers_from bare map]; auto. rewrite parse_bare.
  destruct (parse_layer false (map bare1 l)) as [[w f]| |]; cbn [bind]; auto.
  destruct (load_entries n t w) as [t1| |]; cbn [bind]; auto. destruct (load_entries n t1 f) as [t2| |]; cbn [bind]; auto.
Qed.
Lemma load_bare n layers : load_layers n true layers = load_layers n false (bare layers).
Proof. apply load_bare_from. Qed.

Definition skel (n : option fnode) : option fnode := match n with Some (FFile h _) => Some (FFile h []) | n => n end.
Definition alike (a b : fsys) : Prop := forall p, skel (a p) = skel (b p).
Lemma skel_dir n m : skel n = Some (FDir m) <-> n = Some (FDir m).
Proof. destruct n as [[]|]; cbn; split; congruence. Qed.
Lemma skel_none n : skel n = None <-> n = None.
Proof. destruct n as [[]|]; cbn; split; congruence. Qed.
Lemma skel_file n h c : n = Some (FFile h c) -> skel n = Some (FFile h []).
Proof. now intros ->. Qed.
Lemma file_skel n h c : skel n = Some (FFile h c) -> exists c', n = Some (FFile h c').
Proof. destruct n as [[]|]; cbn; try congruence. intros E. injection E as -> _. eauto. Qed.
Lemma alike_sym a b : alike a b -> alike b a. Proof. intros H p. now rewrite H. Qed.
Lemma alike_dir a b p m : alike a b -> a p = Some (FDir m) -> b p = Some (FDir m).
Proof. intros H E. apply skel_dir. rewrite <- H, E. reflexivity. Qed.
Lemma alike_file a b p h c : alike a b -> a p = Some (FFile h c) -> exists c', b p = Some (FFile h c').
Proof. intros H E. eapply file_skel. rewrite <- H, E. reflexivity. Qed.
Lemma alike_some a b p : alike a b -> a p <> None -> b p <> None.
Proof. intros H N E. apply N. apply skel_none. rewrite H, E. reflexivity. Qed.
Lemma alike_entry a b e : alike a b -> alike (unpack_entry a e) (unpack_entry b (bare1 e)).
Proof.
  intros H p. unfold unpack_entry, entry_path, bare1, is_dir. cbn [fst snd]. set (q := clean_comps _).
  assert (M : alike (mkdirs a (removelast q)) (mkdirs b (removelast q))).
  { intros r. unfold mkdirs. destruct (at_or_below r (removelast q)); [|apply H]. specialize (H r). destruct (a r) as [[]|], (b r) as [[]|]; cbn in *; congruence. }
  revert M. generalize (mkdirs a (removelast q)) (mkdirs b (removelast q)). clear H a b. intros a b H.
  destruct (marker_name _).
  - destruct (str_eqb _ _); unfold remove_below, remove; destruct (below _ _) || destruct (at_or_below _ _); auto.
  - destruct (byte_eqb _ _); unfold put_node, remove_below; destruct (path_dec _ _); cbn; auto. destruct (below _ _); auto.
Qed.
Lemma alike_entries es : forall a b, alike a b -> alike (fold_left unpack_entry es a) (fold_left unpack_entry (map bare1 es) b).
Proof. induction es as [|e es IH]; intros a b H; cbn [fold_left map]; auto. apply IH, alike_entry, H. Qed.
Lemma in_order_bare l : in_order (map bare1 l) = map bare1 (in_order l).
Proof.
  unfold in_order. rewrite map_app. f_equal; induction l as [|e l IH]; cbn [filter map]; auto; change (is_marker (bare1 e)) with (is_marker e); destruct (is_marker e); cbn [negb map]; now rewrite IH.
Qed.
Lemma alike_unpack layers : forall a b, alike a b -> alike (unpack a layers) (unpack b (bare layers)).
Proof.
  induction layers as [|l ls IH]; intros a b H; auto. cbn [bare map]. apply (IH (unpack_layer a l) (unpack_layer b (map bare1 l))).
  unfold unpack_layer. rewrite in_order_bare. now apply alike_entries.
Qed.
Scheme follows_mut := Minimality for follows Sort Prop with walks_mut := Minimality for walks Sort Prop.
Combined Scheme follows_walks from follows_mut, walks_mut.
Lemma alike_paths a b : alike a b -> (forall p d, follows a p d -> follows b p d) /\ (forall d cs q, walks a d cs q -> walks b d cs q).
Proof.
  intros H. apply follows_walks.
  - intros p m E. eapply follows_dir, alike_dir; eauto.
  - intros p h c q d E T _ W _ F. destruct (alike_file a b p h c H E) as [c' E']. eapply follows_link; eauto.
  - intros. apply walks_nil.
  - intros. now apply walks_up.
  - intros d m c E P N. eapply walks_last; eauto using alike_dir, alike_some.
  - intros. eapply walks_down; eauto using alike_dir.
Qed.
Lemma alike_ends a b p e : alike a b -> ends a p e -> ends b p e.
Proof.
  intros H. induction 1 as [p m E|p h c E T|p h c q r E T W _ IH].
  - eapply ends_dir, alike_dir; eauto.
  - destruct (alike_file a b p h c H E) as [c' E']. eapply ends_file; eauto.
  - destruct (alike_file a b p h c H E) as [c' E']. eapply ends_link; eauto. now apply (alike_paths a b H).
Qed.
Lemma alike_trips a b : alike a b -> (forall d cs e, trips a d cs e -> trips b d cs e) /\ (forall p e, strays a p e -> strays b p e).
Proof.
  intros H. pose proof (alike_paths a b H) as [AF AW].
  assert (AH : forall p q, hops a p q -> hops b p q).
  { intros p q (h & c & E & T & W). destruct (alike_file a b p h c H E) as [c' E']. exists h, c'. auto. }
  apply (trips_strays_ind a (fun d cs e _ => trips b d cs e) (fun p e _ => strays b p e)).
  - intros. now apply trips_up.
  - intros d m c cs E P F. eapply trips_missing; eauto using alike_dir. apply skel_none. rewrite <- H, F. reflexivity.
  - intros d m c cs q h x E P N EN F. destruct (alike_file a b q h x H F) as [x' F']. eapply trips_file; eauto using alike_dir, alike_ends.
  - intros. eapply trips_link; eauto using alike_dir.
  - intros. eapply trips_down; eauto using alike_dir.
  - intros p h c e E T _ IH. destruct (alike_file a b p h c H E) as [c' E']. eapply strays_text; eauto.
  - intros. eapply strays_on; eauto.
  - intros p links I R. apply strays_ring with (links := links); auto. intros x Ix. destruct (R x Ix) as (y & Iy & Hy). exists y. auto.
Qed.
Lemma alike_nowhere a b p e : alike a b -> leads_nowhere a p e -> leads_nowhere b p e.
Proof.
  intros H [T|(q & W & S)]; [left; now apply (alike_trips a b H)|]. right. exists q. split; [now apply (alike_paths a b H)|now apply (alike_trips a b H)].
Qed.
Lemma alike_runs a b p : alike a b -> runs a p -> runs b p.
Proof.
  intros H (q & e & h & c & W & N & E & X). destruct (alike_file a b e h c H E) as [c' E']. exists q, e, h, c'.
  split; [now apply (alike_paths a b H)|]. split; [now apply (alike_ends a b)|auto].
Qed.
Lemma all_bare layers : all_entries (bare layers) = map bare1 (all_entries layers).
Proof. unfold all_entries, bare. induction layers as [|l ls IH]; cbn [flat_map map]; auto. now rewrite IH, in_order_bare, map_app. Qed.
Lemma bare_Forall {P : entry -> Prop} layers : (forall e, P e -> P (bare1 e)) -> Forall (Forall P) layers -> Forall (Forall P) (bare layers).
Proof.
  intros H F. unfold bare. apply Forall_map. eapply Forall_impl; [|exact F]. intros l G. apply Forall_map. eapply Forall_impl; [|exact G]. exact H.
Qed.
Lemma empty_alike : alike empty_root empty_root. Proof. intros p. reflexivity. Qed.
Lemma bare_plain layers : plain_stack layers -> plain_stack (bare layers).
Proof.
  intros [G H]. split; [apply bare_Forall; auto|]. rewrite all_bare. intros es1 e es2 E.
  apply map_eq_app in E as (l1 & l2 & E & <- & E2). symmetry in E2. apply eq_sym, map_eq_cons in E2 as (x & l3 & -> & <- & <-).
  intros q B (h & c & Q & T). destruct (alike_file _ _ q h c (alike_sym _ _ (alike_entries l1 _ _ empty_alike)) Q) as [c' Q']. apply (H l1 x l3 E q B). exists h, c'. auto.
Qed.
Lemma handled_bare layers : handled layers -> handled (bare layers).
Proof.
  intros (P & R & [m D] & K). pose proof (alike_unpack layers _ _ empty_alike) as A. split; [now apply bare_plain|]. split; [now apply bare_Forall|]. split.
  - exists m. eapply alike_dir; eauto.
  - intros p h c E T. destruct (alike_file _ _ p h c (alike_sym _ _ A) E) as [c' E']. eapply K; eauto.
Qed.

(** *** one candidate *)
Lemma le_open utf8 n t name : le_run (open utf8 n t name) (open utf8 (S n) t name).
Proof.
  unfold open. destruct (negb _); [now right|]. apply le_bind; [apply le_get|]. intros [t1 l]. apply le_bind; [apply le_get|]. intros [t2 g]. now right.
Qed.
Lemma open_more utf8 t name n m : n <= m -> le_run (open utf8 n t name) (open utf8 m t name).
Proof.
  induction 1 as [|m L IH]; [now right|]. destruct IH as [E|E]; [now left|]. destruct (le_open utf8 m t name) as [F|F]; [left; congruence|right; congruence].
Qed.
Lemma perm_bits m : (Z.land (Z.land m 511) 73 =? 0)%Z = false <-> Z.testbit m 0 = true \/ Z.testbit m 3 = true \/ Z.testbit m 6 = true.
Proof.
  rewrite <- Z.land_assoc. change (Z.land 511 73) with 73%Z. rewrite Z.eqb_neq. split.
  - intros N. destruct (Z.testbit m 0) eqn:A; auto. destruct (Z.testbit m 3) eqn:B; auto. destruct (Z.testbit m 6) eqn:C; auto. exfalso. apply N.
    apply Z.bits_inj'. intros i Hi. rewrite Z.land_spec, Z.bits_0. destruct (Z.testbit 73 i) eqn:T; [|apply andb_false_r]. rewrite andb_true_r.
    assert (i = 0 \/ i = 3 \/ i = 6)%Z as [-> | [-> | ->]]; auto.
    assert (L : (i < 7)%Z). { destruct (Z.lt_ge_cases i 7); auto. rewrite Z.bits_above_log2 in T; [discriminate|lia|]. change (Z.log2 73) with 6%Z. lia. }
    assert (i = 0 \/ i = 1 \/ i = 2 \/ i = 3 \/ i = 4 \/ i = 5 \/ i = 6)%Z as D by lia.
    destruct D as [-> | [-> | [-> | [-> | [-> | [-> | ->]]]]]]; auto; discriminate T.
  - intros H E. destruct H as [H|[H|H]]; apply (f_equal (fun z => Z.testbit z 0 || Z.testbit z 3 || Z.testbit z 6)) in E; rewrite !Z.land_spec, H, !Z.bits_0 in E;
      change (Z.testbit 73 0) with true in E; change (Z.testbit 73 3) with true in E; change (Z.testbit 73 6) with true in E; cbn [andb orb] in E; rewrite ?orb_true_r in E; discriminate.
Qed.
Lemma root_stays fs q m : fs [] = Some (FDir m) -> walks fs [] [] q -> q = [].
Proof. intros _ W. now inversion W. Qed.
Lemma root_not_run fs m : fs [] = Some (FDir m) -> ~ runs fs [].
Proof.
  intros D (q & e & h & c & W & E & F & _). apply (root_stays fs q m D) in W. subst q. inversion E; subst; congruence.
Qed.
Lemma check_good utf8 n layers t p : handled layers -> load_layers n true layers = Ret t -> plain_path p -> askable utf8 p ->
  match check_executable utf8 n t (as_text p) with
  | ChkOk => runs (unpack empty_root layers) p
  | ChkErr => ~ runs (unpack empty_root layers) p
  | ChkCrash => True
  end.
Proof.
  intros H L PP [U M]. pose proof (alike_unpack layers _ _ empty_alike) as A. rewrite load_bare in L. apply handled_bare in H.
  cut (match check_executable utf8 n t (as_text p) with ChkOk => runs (unpack empty_root (bare layers)) p | ChkErr => ~ runs (unpack empty_root (bare layers)) p | ChkCrash => True end).
  { destruct (check_executable _ _ _ _); auto; intros X; [apply (alike_runs _ _ p (alike_sym _ _ A) X)|]. intros R. apply X, (alike_runs _ _ p A R). }
  clear A. revert H L. generalize (bare layers). clear layers. intros layers (P & R & [m D] & K) L. set (fs := unpack empty_root layers) in *.
  destruct (load_image layers P) as (t' & L' & AG & WT & WV & LF & NK).
  assert (t' = t) as ->. { pose proof (more_fuel_load n (n + 4) false layers (Ret t) L ltac:(discriminate) ltac:(lia)) as Q. rewrite (L' (n + 4) ltac:(lia)) in Q. congruence. }
  destruct p as [|c p].
  - replace (check_executable utf8 n t (as_text [])) with ChkErr; [now apply (root_not_run fs m)|].
    unfold check_executable. change (negb (is_abs (as_text []))) with false. cbn [skipn as_text path_text]. unfold open. replace (valid_path utf8 _) with false; auto.
    unfold valid_path. change (str_eqb _ dot || forallb _ _) with false. now rewrite andb_false_r.
  - assert (X : check_executable utf8 n t (as_text (c :: p)) = match open utf8 n t (open_name (c :: p)) with
       | OutOfFuel => ChkCrash | Fail _ => ChkErr | Ret (lnk, tgt) => match stat t lnk tgt with StatPanic => ChkCrash | StatErr _ => ChkErr
         | StatOk h => if mode_is_dir h || (Z.land (mode_perm h) 73 =? 0)%Z then ChkErr else ChkOk end end) by reflexivity.
    rewrite X. clear X. set (q := c :: p) in *.
    assert (ROOT : dirT t []). { split; [discriminate|]. pose proof (AG [] (conj (Forall_nil _) (Forall_nil _))) as G. rewrite header_view. unfold hdr_of. unfold fs in D. rewrite D in G. unfold interp in G.
      destruct (view_of t []) as [[[h|] b]|]; try reflexivity. cbn [fst non_dir]. destruct (byte_eqb (th_type h) TypeDir); [reflexivity|destruct G]. }
    assert (ST : forall lnk tgt, walks fs [] q lnk -> ends fs lnk tgt -> (exists N, forall k, N <= k -> open utf8 k t (open_name q) = Ret (lnk, tgt)) /\ stat_tells (fs tgt) lnk (stat t lnk tgt)).
    { intros lnk tgt W E. destruct (image_open layers P R utf8 q lnk tgt PP U W E) as (N & t2 & HN).
      assert (t2 = t) as ->. { destruct (HN (N + 4) ltac:(lia)) as (Q & _). rewrite (L' (N + 4) ltac:(lia)) in Q. congruence. }
      split; [exists N; intros k LE; apply (HN k LE)|]. destruct (HN N ltac:(lia)) as (_ & _ & Q). exact Q. }
    destruct (open utf8 n t (open_name q)) as [[lnk tgt]| |] eqn:O; auto.
    + destruct (open_back fs t (image_real layers P) AG K utf8 n q lnk tgt WV LF ROOT PP M O) as [W E].
      destruct (ST lnk tgt W E) as [[N HN] S]. 
      assert (ONLY : forall q' e', walks fs [] q q' -> ends fs q' e' -> q' = lnk /\ e' = tgt).
      { intros q' e' W' E'. destruct (ST q' e' W' E') as [[N' HN'] _]. specialize (HN (N + N') ltac:(lia)). specialize (HN' (N + N') ltac:(lia)). rewrite HN in HN'. injection HN' as -> ->. auto. }
      destruct (stat t lnk tgt) as [x|h|]; cbn [stat_tells] in S; [| |destruct S].
      * intros (q' & e' & h & c' & W' & E' & F & _). destruct (ONLY q' e' W' E') as [-> ->]. destruct S as [S _]. congruence.
      * destruct S as [(nd & F & SH) _]. assert (B : mode_is_dir h || (Z.land (mode_perm h) 73 =? 0)%Z = false <-> exists h0 c0, nd = FFile h0 c0 /\ executable h0).
        { rewrite orb_false_iff. unfold mode_is_dir, mode_perm. rewrite perm_bits, orb_false_iff, Z.eqb_neq. change (4294967295 - 4095)%Z with (2 ^ 32 - 2 ^ 12)%Z. split.
          - intros [[T NB] X]. destruct nd as [m0|m0 c0]; cbn [shows] in SH; [destruct SH as [SH _]; rewrite SH in T; discriminate|]. exists m0, c0. split; auto.
            subst m0. split; [exact NB|exact X].
          - intros (h0 & c0 & -> & NB & X). cbn [shows] in SH. subst h0. split; [split|]; auto.
            destruct (conv_file fs t (image_real layers P) AG tgt _ _ F) as (h1 & V & Q). assert (T : th_type h1 = th_type h) by (apply (f_equal th_type) in Q; exact Q).
            rewrite <- T. assert (RP : real_path tgt) by (apply (image_real layers P); unfold fs in F; congruence). pose proof (AG tgt RP) as G. fold fs in G. rewrite F in G. unfold interp in G. rewrite V in G.
            destruct (byte_eqb (th_type h1) TypeDir); auto. destruct G. }
        destruct (mode_is_dir h || _) eqn:Y.
        -- intros (q' & e' & h0 & c' & W' & E' & F' & X). destruct (ONLY q' e' W' E') as [-> ->]. assert (true = false); [|discriminate]. apply B. exists h0, c'. split; auto. congruence.
        -- destruct (proj1 B eq_refl) as (h0 & c0 & -> & X). exists lnk, tgt, h0, c0. auto.
    + intros (q' & e' & h & c' & W' & E' & F & _). destruct (ST q' e' W' E') as [[N HN] _].
      destruct (open_more utf8 t (open_name q) n (n + N) ltac:(lia)) as [Z0|Z0]; rewrite O in Z0; [discriminate|]. rewrite HN in Z0 by lia. discriminate.
Qed.

(** *** names of candidates *)
Notation acc := (fold_left (clean_step true)).
Lemma kept_comps cs : forall l, Forall (fun x => x <> [] /\ x <> dot) l -> Forall (fun x => x <> [] /\ x <> dot) (fold_left (clean_step false) cs l).
Proof.
  induction cs as [|d cs IH]; intros l F; auto. cbn [fold_left]. apply IH. unfold clean_step. destruct (str_eqb d []) eqn:A; auto. destruct (str_eqb d dot) eqn:B; auto.
  destruct (str_eqb d dotdot) eqn:C.
  - destruct l as [|x l]; [repeat constructor; discriminate|]. destruct (str_eqb x dotdot); [constructor; auto; split; discriminate|]. now inversion F.
  - constructor; auto. apply str_eqb_neq in A, B. auto.
Qed.
Lemma step_other r st c : c <> [] -> c <> dot -> c <> dotdot -> clean_step r st c = c :: st.
Proof. intros A B C. apply str_eqb_neq in A, B, C. unfold clean_step. now rewrite A, B, C. Qed.
Lemma relative_fold cs : forall st, acc cs st = acc (rev (fold_left (clean_step false) cs [])) st.
Proof.
  induction cs as [|c cs IH] using rev_ind; intros st; auto. rewrite !fold_left_app. cbn [fold_left]. rewrite IH. pose proof (kept_comps cs [] (Forall_nil _)) as K.
  destruct (list_eq_dec ascii_dec c []) as [->|N1]; [reflexivity|]. destruct (list_eq_dec ascii_dec c dot) as [->|N2]; [reflexivity|].
  destruct (list_eq_dec ascii_dec c dotdot) as [->|N3].
  - destruct (fold_left (clean_step false) cs []) as [|top rest]; [reflexivity|]. change (clean_step false (top :: rest) dotdot) with (if str_eqb top dotdot then dotdot :: top :: rest else rest).
    destruct (str_eqb top dotdot) eqn:T.
    + change (rev (dotdot :: top :: rest)) with (rev (top :: rest) ++ [dotdot]). now rewrite (fold_left_app _ (rev (top :: rest))).
    + apply str_eqb_neq in T. inversion K as [|? ? [K1 K2] _]; subst. cbn [rev]. rewrite fold_left_app. cbn [fold_left]. rewrite (step_other true _ top) by auto.
      apply str_eqb_neq in T. unfold clean_step at 1. change (str_eqb dotdot []) with false. change (str_eqb dotdot dot) with false. change (str_eqb dotdot dotdot) with true. cbv iota. now rewrite T.
  - rewrite (step_other false) by auto. cbn [rev]. now rewrite fold_left_app.
Qed.
Lemma acc_text l st : clean_list false l -> acc (split_on slash (path_text false l)) st = acc l st.
Proof.
  intros H. cbn [path_text]. destruct l as [|c l]; [reflexivity|]. now rewrite split_on_join_nil by (eapply clean_list_no_slash; eauto).
Qed.
Lemma comps_split p : clean_comps p = rev (fold_left (clean_step (is_abs p)) (split_on slash p) []). Proof. reflexivity. Qed.
Lemma join_of a b : a <> [] \/ b <> [] -> let r := is_abs (match a with [] => b | _ => a end) in
  path_join [a; b] = path_text r (rev (fold_left (clean_step r) (split_on slash a ++ split_on slash b) [])).
Proof.
  intros N. destruct a as [|x a]; cbv zeta.
  - destruct N as [N|N]; [congruence|]. rewrite join_empty_l, clean_text by auto. now rewrite comps_split.
  - destruct b as [|y b].
    + rewrite join_empty_r, clean_text, comps_split by discriminate. now rewrite fold_left_app.
    + rewrite join2, clean_text, is_abs_app, comps_split, is_abs_app by discriminate. change ($"/" ++ y :: b) with (slash :: y :: b). now rewrite split_on_app_gen.
Qed.
Lemma candidate_acc wd dir name : candidate wd dir name = rev (acc ((if is_abs dir then [] else split_on slash wd) ++ split_on slash dir ++ split_on slash name) []).
Proof.
  unfold candidate. rewrite comps_split. change (is_abs ($"/" ++ _)) with true. rewrite split_slash. cbn [fold_left]. rewrite fold_skip. do 2 f_equal.
  destruct (is_abs dir).
  - cbn [app]. change ($"/" ++ name) with (slash :: name). apply split_on_app_gen.
  - rewrite <- app_assoc. change ($"/" ++ dir ++ $"/" ++ name) with (slash :: dir ++ slash :: name). now rewrite !split_on_app_gen.
Qed.
Lemma named_acc wd name : named wd name = rev (acc ((if is_abs name then [] else split_on slash wd) ++ split_on slash name) []).
Proof.
  unfold named. rewrite comps_split. change (is_abs ($"/" ++ _)) with true. rewrite split_slash. cbn [fold_left]. rewrite fold_skip. do 2 f_equal.
  destruct (is_abs name); auto. rewrite <- app_assoc. change ($"/" ++ name) with (slash :: name). now rewrite !split_on_app_gen.
Qed.
Lemma candidate_plain wd dir name : plain_path (candidate wd dir name).
Proof. unfold candidate. apply clean_list_true. apply (clean_comps_list ($"/" ++ _)). Qed.
Lemma named_plain wd name : plain_path (named wd name).
Proof. unfold named. apply clean_list_true. apply (clean_comps_list ($"/" ++ _)). Qed.
Lemma abs_ne p : is_abs p = true -> p <> []. Proof. now intros H ->. Qed.
Lemma no_slash_rel name : ~ In slash name -> is_abs name = false.
Proof. intros H. destruct (is_abs name) eqn:E; auto. apply has_prefix_spec in E as [t ->]. exfalso. apply H. now left. Qed.
Lemma full_name wd dir name : is_abs wd = true -> ~ In slash name ->
  (let full := path_join [dir; name] in if negb (is_abs full) then path_join [wd; full] else full) = as_text (candidate wd dir name).
Proof.
  intros AW NS. cbv zeta. rewrite candidate_acc. unfold as_text. pose proof (abs_ne wd AW) as NW. apply no_slash_rel in NS. destruct (is_abs dir) eqn:AD.
  - pose proof (abs_ne dir AD) as ND. rewrite join_of by auto. destruct dir as [|x dir]; [congruence|]. rewrite AD.
    rewrite is_abs_text; [reflexivity|]. apply fold_clean_inv; [|apply clean_list_nil]. apply Forall_app. split; apply split_on_no_sep.
  - destruct (list_eq_dec ascii_dec dir []) as [->|ND], (list_eq_dec ascii_dec name []) as [->|NN].
    + change (path_join [[]; []]) with (@nil ascii). change (negb (is_abs [])) with true. cbv iota. rewrite join_empty_r, clean_text, AW, comps_split, AW by auto. now rewrite fold_left_app.
    + rewrite join_of by auto. cbv zeta. rewrite NS. set (l := rev _). assert (CL : clean_list false l).
      { apply fold_clean_inv; [|apply clean_list_nil]. apply Forall_app. split; apply split_on_no_sep. }
      rewrite is_abs_text by auto. cbn [negb]. rewrite join_of by auto. destruct wd as [|w wd]; [congruence|]. cbv zeta. rewrite AW. f_equal. f_equal.
      rewrite !fold_left_app. rewrite acc_text by auto. unfold l. rewrite <- relative_fold. now rewrite fold_left_app.
    + rewrite join_of by auto. cbv zeta. destruct dir as [|x dir]; [congruence|]. rewrite AD. set (l := rev _). assert (CL : clean_list false l).
      { apply fold_clean_inv; [|apply clean_list_nil]. apply Forall_app. split; apply split_on_no_sep. }
      rewrite is_abs_text by auto. cbn [negb]. rewrite join_of by auto. destruct wd as [|w wd]; [congruence|]. cbv zeta. rewrite AW. f_equal. f_equal.
      rewrite !fold_left_app. rewrite acc_text by auto. unfold l. rewrite <- relative_fold. now rewrite fold_left_app.
    + rewrite join_of by auto. cbv zeta. destruct dir as [|x dir]; [congruence|]. rewrite AD. set (l := rev _). assert (CL : clean_list false l).
      { apply fold_clean_inv; [|apply clean_list_nil]. apply Forall_app. split; apply split_on_no_sep. }
      rewrite is_abs_text by auto. cbn [negb]. rewrite join_of by auto. destruct wd as [|w wd]; [congruence|]. cbv zeta. rewrite AW. f_equal. f_equal.
      rewrite !fold_left_app. rewrite acc_text by auto. unfold l. rewrite <- relative_fold. now rewrite fold_left_app.
Qed.
Lemma full_named wd name : is_abs wd = true -> is_abs name = false -> path_join [wd; name] = as_text (named wd name).
Proof.
  intros AW AN. rewrite named_acc, AN. unfold as_text. pose proof (abs_ne wd AW) as NW. rewrite join_of by auto. destruct wd as [|w wd]; [congruence|]. cbv zeta. now rewrite AW.
Qed.
(** The working directory *)
Lemma wd_abs wd env : is_abs (img_wd (Some (mkImageConfig wd env))) = true.
Proof. unfold img_wd. cbn [ic_workdir]. destruct wd as [|x wd]; [reflexivity|]. destruct (has_prefix $"/" (x :: wd)) eqn:E; [exact E|reflexivity]. Qed.
Lemma wd_acc wd env st : acc (split_on slash (img_wd (Some (mkImageConfig wd env)))) st = acc (split_on slash wd) st.
Proof.
  unfold img_wd. cbn [ic_workdir]. destruct wd as [|x wd]; [reflexivity|]. destruct (has_prefix $"/" (x :: wd)) eqn:E; [reflexivity|]. now rewrite split_slash.
Qed.
Lemma candidate_wd wd env dir name : candidate (img_wd (Some (mkImageConfig wd env))) dir name = candidate wd dir name.
Proof. rewrite !candidate_acc. f_equal. rewrite !fold_left_app. destruct (is_abs dir); [reflexivity|]. now rewrite wd_acc. Qed.
Lemma named_wd wd env name : named (img_wd (Some (mkImageConfig wd env))) name = named wd name.
Proof. rewrite !named_acc. f_equal. rewrite !fold_left_app. destruct (is_abs name); [reflexivity|]. now rewrite wd_acc. Qed.
(** PATH *)
Lemma lookup_none env key : (forall x y, In x env -> x <> key ++ $"=" ++ y) -> lookup_env env key = None.
Proof.
  induction env as [|kv env IH]; intros H; cbn [lookup_env]; auto. destruct (has_prefix (key ++ $"=") kv) eqn:E.
  - apply has_prefix_spec in E as [t ->]. exfalso. apply (H ((key ++ $"=") ++ t) t); [now left|now rewrite <- app_assoc].
  - apply IH. intros x y I. apply H. now right.
Qed.
Lemma lookup_first before key value after : (forall x y, In x before -> x <> key ++ $"=" ++ y) -> lookup_env (before ++ (key ++ $"=" ++ value) :: after) key = Some value.
Proof.
  induction before as [|kv env IH]; intros H; cbn [lookup_env app].
  - rewrite app_assoc, has_prefix_app, trim_prefix_app. reflexivity.
  - destruct (has_prefix (key ++ $"=") kv) eqn:E.
    + apply has_prefix_spec in E as [t ->]. exfalso. apply (H ((key ++ $"=") ++ t) t); [now left|now rewrite <- app_assoc].
    + apply IH. intros x y I. apply H. now right.
Qed.
Lemma path_is wd env dirs : path_dirs env dirs -> img_path (Some (mkImageConfig wd env)) = dirs.
Proof.
  intros [(before & value & after & -> & N & H)|[N ->]]; unfold img_path; cbn [ic_env].
  - change ($"PATH=" ++ value) with ($"PATH" ++ $"=" ++ value). rewrite (lookup_first before $"PATH" value after N). destruct H as [[-> ->]|(V & E & D & F)]; [reflexivity|]. unfold split_list. destruct value as [|x v]; [congruence|].
    rewrite E. change $":" with [":"%char]. now apply split_on_join.
  - now rewrite (lookup_none env $"PATH" N).
Qed.

(** *** the search *)
Lemma load_known n layers : plain_stack layers -> exists t, load_layers n true layers = Ret t \/ load_layers n true layers = OutOfFuel.
Proof.
  intros P. apply bare_plain in P. destruct (load_image _ P) as (t & L & _). exists t. rewrite load_bare. destruct (load_layers n false (bare layers)) as [t'|e|] eqn:E; auto.
  - left. pose proof (more_fuel_load n (n + 4) false _ _ E ltac:(discriminate) ltac:(lia)) as Q. rewrite (L (n + 4) ltac:(lia)) in Q. congruence.
  - exfalso. pose proof (more_fuel_load n (n + 4) false _ _ E ltac:(discriminate) ltac:(lia)) as Q. rewrite (L (n + 4) ltac:(lia)) in Q. discriminate.
Qed.
Lemma look_in_good (R : path -> Prop) check wd name : is_abs wd = true -> ~ In slash name -> forall dirs,
  (forall d, In d dirs -> match check (as_text (candidate wd d name)) with ChkOk => R (candidate wd d name) | ChkErr => ~ R (candidate wd d name) | ChkCrash => True end) ->
  match look_in check wd name dirs with
  | Found s => exists pre dir post, dirs = pre ++ dir :: post /\ s = as_text (candidate wd dir name) /\ R (candidate wd dir name) /\ forall d, In d pre -> ~ R (candidate wd d name)
  | NotFound => forall d, In d dirs -> ~ R (candidate wd d name)
  | Crashed => True
  end.
Proof.
  intros AW NS. induction dirs as [|dir dirs IH]; intros H; [intros d []|]. pose proof (full_name wd dir name AW NS) as F. cbv zeta in F. cbn [look_in]. rewrite F.
  pose proof (H dir (or_introl eq_refl)) as C. destruct (check _); auto.
  - exists [], dir, dirs. repeat split; auto.
  - specialize (IH (fun d I => H d (or_intror I))). destruct (look_in check wd name dirs); auto.
    + destruct IH as (pre & d & post & -> & E & X & N). exists (dir :: pre), d, post. repeat split; auto. intros d' [<-|I]; auto.
    + intros d [<-|I]; auto.
Qed.
Theorem look_path_searches utf8 n layers wd env dirs name : handled layers -> path_dirs env dirs -> ~ In slash name ->
  (forall d, In d dirs -> askable utf8 (candidate wd d name)) ->
  match look_path utf8 n layers (Some (mkImageConfig wd env)) name with
  | Found s => exists pre dir post, dirs = pre ++ dir :: post /\ s = as_text (candidate wd dir name) /\ runs (unpack empty_root layers) (candidate wd dir name) /\
                 forall d, In d pre -> ~ runs (unpack empty_root layers) (candidate wd d name)
  | NotFound => forall d, In d dirs -> ~ runs (unpack empty_root layers) (candidate wd d name)
  | Crashed => True
  end.
Proof.
  intros H PD NS AK. unfold look_path. destruct (load_known n layers (proj1 H)) as [t [L|L]]; rewrite L; auto.
  unfold look. assert (C : contains_byte slash name = false). { apply not_true_iff_false. intros X. apply NS. unfold contains_byte in X. apply existsb_exists in X as (x & I & E). apply byte_eqb_eq in E. now subst. }
  rewrite C, (path_is wd env dirs PD).
  pose proof (look_in_good (runs (unpack empty_root layers)) (check_executable utf8 n t) (img_wd (Some (mkImageConfig wd env))) name (wd_abs wd env) NS dirs) as G.
  assert (K : forall d, In d dirs -> match check_executable utf8 n t (as_text (candidate (img_wd (Some (mkImageConfig wd env))) d name)) with
     | ChkOk => runs (unpack empty_root layers) (candidate (img_wd (Some (mkImageConfig wd env))) d name)
     | ChkErr => ~ runs (unpack empty_root layers) (candidate (img_wd (Some (mkImageConfig wd env))) d name) | ChkCrash => True end).
  { intros d I. apply check_good; auto; [apply candidate_plain|]. rewrite candidate_wd. auto. }
  specialize (G K). destruct (look_in _ _ _ _); auto.
  - destruct G as (pre & dir & post & E & S & X & N). exists pre, dir, post. rewrite candidate_wd in *. repeat split; auto. intros d I. specialize (N d I). now rewrite candidate_wd in N.
  - intros d I. specialize (G d I). now rewrite candidate_wd in G.
Qed.
Lemma has_slash name : In slash name -> contains_byte slash name = true.
Proof. intros H. unfold contains_byte. apply existsb_exists. exists slash. split; auto. Qed.
Lemma abs_slash name : is_abs name = true -> In slash name.
Proof. intros H. apply has_prefix_spec in H as [t ->]. now left. Qed.
(** A name with a slash: relative to the working directory, or absolute and cleaned *)
Theorem look_path_named utf8 n layers wd env name : handled layers -> In slash name -> askable utf8 (named wd name) ->
  is_abs name = false \/ clean name = name ->
  match look_path utf8 n layers (Some (mkImageConfig wd env)) name with
  | Found s => s = as_text (named wd name) /\ runs (unpack empty_root layers) (named wd name)
  | NotFound => ~ runs (unpack empty_root layers) (named wd name)
  | Crashed => True
  end.
Proof.
  intros H S AK C. unfold look_path. destruct (load_known n layers (proj1 H)) as [t [L|L]]; rewrite L; auto. unfold look. rewrite has_slash by auto.
  assert (F : (if negb (is_abs name) then path_join [img_wd (Some (mkImageConfig wd env)); name] else name) = as_text (named wd name)).
  { destruct (is_abs name) eqn:A; cbn [negb].
    - destruct C as [C|C]; [discriminate|]. rewrite <- C at 1. rewrite clean_text, A. unfold as_text. f_equal. rewrite named_acc, A, comps_split, A. reflexivity.
    - rewrite full_named by auto using wd_abs. now rewrite named_wd. }
  rewrite F. pose proof (check_good utf8 n layers t (named wd name) H L (named_plain wd name) AK) as G. destruct (check_executable _ _ _ _); auto.
Qed.
(** Whatever is found is given by its cleaned absolute name *)
Theorem look_path_no_config utf8 n layers name : look_path utf8 n layers None name = look_path utf8 n layers (Some (mkImageConfig [] [])) name.
Proof. reflexivity. Qed.
Lemma root_dirT layers t : handled layers -> fagree (unpack empty_root layers) (interp (view_of t) empty_root) -> dirT t [].
Proof.
  intros (_ & _ & [m D] & _) AG. split; [discriminate|]. pose proof (AG [] (conj (Forall_nil _) (Forall_nil _))) as G. rewrite header_view. unfold hdr_of. rewrite D in G. unfold interp in G.
  destruct (view_of t []) as [[[h|] b]|]; try reflexivity. cbn [fst non_dir]. destruct (byte_eqb (th_type h) TypeDir); [reflexivity|destruct G].
Qed.
Lemma as_text_clean p : plain_path p -> clean (as_text p) = as_text p.
Proof. intros H. unfold as_text. apply clean_of_text. now apply plain_clean. Qed.
Lemma check_clean utf8 n layers t name : handled layers -> load_layers n true layers = Ret t -> check_executable utf8 n t name = ChkOk -> clean name = name.
Proof.
  intros H L C. unfold check_executable in C. destruct (is_abs name) eqn:A; [|discriminate]. cbn [negb] in C. apply has_prefix_spec in A as [r ->]. change (skipn 1 ($"/" ++ r)) with r in C.
  destruct (list_eq_dec ascii_dec r $".") as [->|ND].
  - exfalso. rewrite load_bare in L. apply handled_bare in H. revert H L. generalize (bare layers). clear layers. intros layers H L. destruct H as (P & R & D & K).
    destruct (load_image layers P) as (t' & L' & AG & WT & WV & LF & NK).
    assert (t' = t) as ->. { pose proof (more_fuel_load n (n + 4) false layers (Ret t) L ltac:(discriminate) ltac:(lia)) as Q. rewrite (L' (n + 4) ltac:(lia)) in Q. congruence. }
    assert (ROOT : dirT t []) by (apply (root_dirT layers); auto; split; [|split; [|split]]; auto).
    change $"." with (open_name []) in C. destruct (open utf8 n t (open_name [])) as [[q e]| |] eqn:O; try discriminate.
    destruct (open_back (unpack empty_root layers) t (image_real layers P) AG K utf8 n [] q e WV LF ROOT ltac:(constructor) ltac:(constructor) O) as [W E].
    inversion W; subst. destruct D as [m D]. assert (e = []) as -> by (inversion E; congruence).
    unfold stat in C. destruct ROOT as [_ ND]. destruct (header_at t []) as [h|]; [|discriminate]. cbn [non_dir] in ND. unfold mode_is_dir in C. change (th_type (with_name h _)) with (th_type h) in C.
    destruct (byte_eqb (th_type h) TypeDir); [discriminate C|discriminate ND].
  - assert (V : plain_path (split_on slash r)).
    { apply Forall_forall. intros c I. unfold plain_comp. pose proof (split_on_no_sep slash r) as NS. rewrite Forall_forall in NS. specialize (NS c I).
      assert (X : forall c, In c (split_on slash r) -> c = [] \/ c = $"." \/ c = $".." -> False).
      { intros c' I' B. rewrite (open_invalid utf8 n t r c' I' B ND) in C. discriminate. }
      repeat split; auto; intros ->; apply (X _ I); auto. }
    rewrite clean_text. change (is_abs ($"/" ++ r)) with true. rewrite <- (join_split_on slash r). change [slash] with $"/". rewrite clean_comps_abs by auto. reflexivity.
Qed.
Theorem look_path_clean utf8 n layers cfg name s : handled layers -> look_path utf8 n layers cfg name = Found s -> clean s = s /\ is_abs s = true.
Proof.
  intros H E. unfold look_path in E. destruct (load_layers n true layers) as [t| |] eqn:L; try discriminate.
  assert (G : exists x, check_executable utf8 n t x = ChkOk /\ s = x).
  { unfold look in E. destruct (contains_byte slash name).
    - set (full := if negb (is_abs name) then _ else _) in E. exists full. destruct (check_executable utf8 n t full); try discriminate. injection E as <-. auto.
    - revert E. induction (img_path cfg) as [|d dirs IH]; cbn [look_in]; [discriminate|]. set (full := if negb _ then _ else _). destruct (check_executable utf8 n t full) eqn:C; try discriminate; auto.
      intros E. injection E as <-. eauto. }
  destruct G as (x & C & ->). split; [eapply check_clean; eauto|]. unfold check_executable in C. now destruct (is_abs x).
Qed.

(** *** paths that lead nowhere (C65) *)
Theorem image_nowhere layers utf8 p e : handled layers -> plain_path p -> askable utf8 p -> leads_nowhere (unpack empty_root layers) p e ->
  exists N t, forall n, N <= n -> load_layers n false layers = Ret t /\ open utf8 n t (open_name p) = Fail e.
Proof.
  intros H PP [U M] S. pose proof H as (P & R & D & K). destruct (load_image layers P) as (t & L & AG & WT & WV & LF & NK). pose proof (root_dirT layers t H AG) as ROOT.
  destruct (open_nowhere layers P R K t AG WV ROOT utf8 p e PP U M S) as [N HN]. exists (4 + N), t. intros n LE. split; [apply L; lia|apply HN; lia].
Qed.
Theorem image_why layers utf8 n m t p e : handled layers -> load_layers m false layers = Ret t -> plain_path p -> askable utf8 p ->
  open utf8 n t (open_name p) = Fail e -> leads_nowhere (unpack empty_root layers) p e.
Proof.
  intros H L PP [U M] O. pose proof H as (P & R & D & K). destruct (load_image layers P) as (t' & L' & AG & WT & WV & LF & NK).
  assert (t' = t) as ->. { pose proof (more_fuel_load m (m + 4) false layers (Ret t) L ltac:(discriminate) ltac:(lia)) as Q. rewrite (L' (m + 4) ltac:(lia)) in Q. congruence. }
  pose proof (root_dirT layers t H AG) as ROOT. eapply (open_why layers P R K t AG WV LF ROOT); eauto.
Qed.

(** *** no crash *)
Lemma check_settles utf8 layers p : handled layers -> plain_path p -> askable utf8 p -> settles (unpack empty_root layers) p ->
  exists N, forall n, N <= n -> forall t, load_layers n true layers = Ret t -> check_executable utf8 n t (as_text p) <> ChkCrash.
Proof.
  intros H PP AK S. destruct (path_dec p []) as [->|NE].
  - exists 0. intros n _ t _. unfold check_executable. change (negb (is_abs (as_text []))) with false. cbn [skipn as_text path_text]. unfold open. replace (valid_path utf8 _) with false; [discriminate|].
    unfold valid_path. change (str_eqb _ dot || forallb _ _) with false. now rewrite andb_false_r.
  - assert (SK : as_text p = slash :: open_name p) by (destruct p; [congruence|reflexivity]). rewrite SK. pose proof (alike_unpack layers _ _ empty_alike) as A. pose proof (handled_bare layers H) as (P & R & _). destruct AK as [U M]. pose proof (alike_paths _ _ A) as [AF AW].
    assert (G : exists N, forall n, N <= n -> forall t, load_layers n false (bare layers) = Ret t ->
      match open utf8 n t (open_name p) with OutOfFuel => False | Fail _ => True | Ret (q, e) => stat t q e <> StatPanic end).
    { destruct S as [(q & e & W & E)|(e & S)].
      - destruct (image_open (bare layers) P R utf8 p q e PP U (AW _ _ _ W) (alike_ends _ _ _ _ A E)) as (N & t' & HN). exists N. intros n LE t L. destruct (HN n LE) as (L' & O & T).
        assert (t' = t) as -> by congruence. rewrite O. intros Q. rewrite Q in T. exact T.
      - apply (alike_nowhere _ _ p e A) in S. destruct (image_nowhere (bare layers) utf8 p e (handled_bare layers H) PP (conj U M) S) as (N & t' & HN).
        exists N. intros n LE t L. destruct (HN n LE) as (L' & O). assert (t' = t) as -> by congruence. now rewrite O. }
    destruct G as [N G]. exists N. intros n LE t L. rewrite load_bare in L. specialize (G n LE t L).
    unfold check_executable. change (negb (is_abs (slash :: open_name p))) with false. cbv iota. cbn [skipn].
    destruct (open utf8 n t (open_name p)) as [[q e]| |]; [|discriminate|destruct G]. destruct (stat t q e); [discriminate| |now exfalso; apply G]. destruct (_ || _); discriminate.
Qed.
Lemma look_in_crash check wd name : is_abs wd = true -> ~ In slash name -> forall dirs, (forall d, In d dirs -> check (as_text (candidate wd d name)) <> ChkCrash) -> look_in check wd name dirs <> Crashed.
Proof.
  intros AW NS. induction dirs as [|dir dirs IH]; intros H; [discriminate|]. pose proof (full_name wd dir name AW NS) as F. cbv zeta in F. cbn [look_in]. rewrite F.
  specialize (H dir (or_introl eq_refl)) as C. destruct (check _); try discriminate; [|congruence]. apply IH. intros d I. apply H. now right.
Qed.
Lemma no_slash name : ~ In slash name -> contains_byte slash name = false.
Proof. intros NS. apply not_true_iff_false. intros X. apply NS. unfold contains_byte in X. apply existsb_exists in X as (x & I & E). apply byte_eqb_eq in E. now subst. Qed.
Theorem look_path_returns utf8 layers wd env dirs name : handled layers -> path_dirs env dirs -> ~ In slash name ->
  (forall d, In d dirs -> askable utf8 (candidate wd d name) /\ settles (unpack empty_root layers) (candidate wd d name)) ->
  exists N, forall n, N <= n -> look_path utf8 n layers (Some (mkImageConfig wd env)) name <> Crashed.
Proof.
  intros H PD NS G. assert (K : exists N, forall n, N <= n -> forall t, load_layers n true layers = Ret t -> forall d, In d dirs -> check_executable utf8 n t (as_text (candidate wd d name)) <> ChkCrash).
  { clear PD. induction dirs as [|d dirs IH]; [exists 0; intros n _ t _ d []|]. destruct IH as [N IH]; [intros d' I; apply G; now right|].
    destruct (G d (or_introl eq_refl)) as [AK S]. destruct (check_settles utf8 layers _ H (candidate_plain wd d name) AK S) as [N' C].
    exists (N + N'). intros n LE t L d' [<-|I]; [apply C; auto; lia|apply IH; auto; lia]. }
  destruct K as [N K]. exists (4 + N). intros n LE. unfold look_path. pose proof (bare_plain layers (proj1 H)) as P. destruct (load_image _ P) as (t & L & _).
  assert (E : load_layers n true layers = Ret t) by (rewrite load_bare; apply L; lia). rewrite E. unfold look. rewrite no_slash by auto. rewrite (path_is wd env dirs PD).
  apply look_in_crash; auto using wd_abs. intros d I. rewrite candidate_wd. apply (K n); auto. lia.
Qed.
Theorem look_path_named_returns utf8 layers wd env name : handled layers -> In slash name -> askable utf8 (named wd name) -> is_abs name = false \/ clean name = name ->
  settles (unpack empty_root layers) (named wd name) -> exists N, forall n, N <= n -> look_path utf8 n layers (Some (mkImageConfig wd env)) name <> Crashed.
Proof.
  intros H S AK C G. destruct (check_settles utf8 layers _ H (named_plain wd name) AK G) as [N K]. exists (4 + N). intros n LE. unfold look_path.
  pose proof (bare_plain layers (proj1 H)) as P. destruct (load_image _ P) as (t & L & _).
  assert (E : load_layers n true layers = Ret t) by (rewrite load_bare; apply L; lia). rewrite E. unfold look. rewrite has_slash by auto.
  assert (F : (if negb (is_abs name) then path_join [img_wd (Some (mkImageConfig wd env)); name] else name) = as_text (named wd name)).
  { destruct (is_abs name) eqn:A; cbn [negb].
    - destruct C as [C|C]; [discriminate|]. rewrite <- C at 1. rewrite clean_text, A. unfold as_text. f_equal. rewrite named_acc, A, comps_split, A. reflexivity.
    - rewrite full_named by auto using wd_abs. now rewrite named_wd. }
  rewrite F. specialize (K n ltac:(lia) t E). destruct (check_executable _ _ _ _); try discriminate. congruence.
Qed.
(** Without symbolic links every path settles. *)
Lemma direct_walk fs r : forall d, plain_path r -> (forall r1 x r2, r = r1 ++ x :: r2 -> exists m, fs (d ++ r1) = Some (FDir m)) -> fs (d ++ r) <> None -> walks fs d r (d ++ r).
Proof.
  induction r as [|c r IH]; intros d PP DS E; [rewrite app_nil_r; apply walks_nil|]. inversion PP as [|? ? PC PR]; subst.
  destruct (DS [] c r eq_refl) as [m D]. rewrite app_nil_r in D. destruct r as [|c' r]; [eapply walks_last; eauto|].
  destruct (DS [c] c' r eq_refl) as [m' D']. eapply walks_down; eauto; [eapply follows_dir; eauto|discriminate|]. replace (d ++ c :: c' :: r) with ((d ++ [c]) ++ c' :: r) in * by now rewrite <- app_assoc.
  apply IH; auto. intros r1 x r2 Q. rewrite <- app_assoc. apply (DS (c :: r1) x r2). now rewrite Q.
Qed.
Theorem linkless_settles fs p : (forall q h c, fs q = Some (FFile h c) -> th_type h <> TypeSymlink) -> (exists m, fs [] = Some (FDir m)) -> plain_path p -> settles fs p.
Proof.
  intros NL D PP.
  assert (G : forall r d, plain_path r -> (exists m, fs d = Some (FDir m)) -> (exists q e, walks fs d r q /\ ends fs q e) \/ (exists e, trips fs d r e)).
  { induction r as [|x r IH]; intros d P [m E].
    - left. exists d, d. split; [apply walks_nil|eapply ends_dir; eauto].
    - inversion P as [|? ? Px Pr]; subst. destruct (fs (d ++ [x])) as [[k|h c]|] eqn:F.
      + destruct r as [|y r]; [left; exists (d ++ [x]), (d ++ [x]); split; [eapply walks_last; eauto; congruence|eapply ends_dir; eauto]|].
        destruct (IH (d ++ [x]) Pr ltac:(eauto)) as [(q & e & W & EN)|(e & T)]; [left; exists q, e; split; auto|right; exists e].
        * eapply walks_down; eauto; [eapply follows_dir; eauto|discriminate].
        * eapply trips_down; eauto; [eapply follows_dir; eauto|discriminate].
      + assert (EX : ends fs (d ++ [x]) (d ++ [x])) by (eapply ends_file; eauto). destruct r as [|y r].
        * left. exists (d ++ [x]), (d ++ [x]). split; auto. eapply walks_last; eauto. congruence.
        * right. exists ENotDir. eapply trips_file; eauto. discriminate.
      + right. exists ENotExist. eapply trips_missing; eauto. }
  destruct (G p [] PP D) as [S|(e & T)]; [now left|right; exists e; now left].
Qed.

(** *** what is handled *)
Definition fine_links (fs : fsys) : Prop := forall p h c, fs p = Some (FFile h c) -> th_type h = TypeSymlink -> Forall (fun x => marker_name x = false) (clean_comps (th_link h)).
Definition fine_link (e : entry) : Prop := is_link e = true -> Forall (fun x => marker_name x = false) (clean_comps (th_link (fst e))).
Lemma fine_entry fs e : fine_links fs -> fine_link e -> fine_links (unpack_entry fs e).
Proof.
  intros F L. unfold unpack_entry. assert (M : fine_links (mkdirs fs (removelast (entry_path e)))).
  { intros p h c. unfold mkdirs. destruct (at_or_below p _); [|apply F]. destruct (fs p) as [[]|]; discriminate. }
  revert M. generalize (mkdirs fs (removelast (entry_path e))). intros g M. destruct (marker_name _).
  - destruct (str_eqb _ _); intros p h c; unfold remove_below, remove; [destruct (below _ p)|destruct (at_or_below _ p)]; try discriminate; apply M.
  - destruct (is_dir e); intros p h c; unfold put_node, remove_below; destruct (path_dec p _); [discriminate|apply M| |destruct (below _ p); [discriminate|apply M]].
    intros X T. injection X as <- _. change (th_link (anon (fst e))) with (th_link (fst e)). apply L. unfold is_link. change (th_type (anon (fst e))) with (th_type (fst e)) in T. rewrite T. reflexivity.
Qed.
Lemma fine_layers layers : Forall (Forall fine_link) layers -> forall fs, fine_links fs -> fine_links (unpack fs layers).
Proof.
  induction 1 as [|l ls F _ IH]; intros fs G; auto. apply (IH (unpack_layer fs l)). unfold unpack_layer.
  assert (K : Forall fine_link (in_order l)). { rewrite Forall_forall in F |- *. intros e I. apply F. unfold in_order in I. rewrite in_app_iff, !filter_In in I. tauto. }
  revert fs G. induction K as [|e es E _ IHe]; intros fs G; auto. cbn [fold_left]. apply IHe. now apply fine_entry.
Qed.
Definition handledb (layers : list (list entry)) : bool :=
  plain_stackb layers && forallb (forallb (fun e => negb (is_link e && str_eqb (clean (th_link (fst e))) $"/"))) layers && (match unpack empty_root layers [] with Some (FDir _) => true | _ => false end) &&
  forallb (forallb (fun e => negb (is_link e) || forallb (fun x => negb (marker_name x)) (clean_comps (th_link (fst e))))) layers.
Lemma handledb_ok layers : handledb layers = true -> handled layers.
Proof.
  unfold handledb. rewrite !andb_true_iff. intros (((P & R) & D) & L). split; [now apply plain_stackb_ok|]. split; [now apply no_rootb_ok|]. split.
  - destruct (unpack empty_root layers []) as [[m|]|]; try discriminate. eauto.
  - apply fine_layers.
    + apply Forall_forall. intros l I. rewrite forallb_forall in L. specialize (L l I). rewrite forallb_forall in L. apply Forall_forall. intros e J K. specialize (L e J). rewrite K in L. cbn [negb orb] in L.
      rewrite forallb_forall in L. apply Forall_forall. intros x X. specialize (L x X). now apply negb_true_iff in L.
    + intros p h c E. unfold empty_root in E. destruct p; discriminate.
Qed.

(** *** what goes wrong *)
Theorem look_path_unclean utf8 n layers cfg name s : handled layers -> is_abs name = true -> clean name <> name -> look_path utf8 n layers cfg name <> Found s.
Proof.
  intros H A C E. pose proof (look_path_clean utf8 n layers cfg name s H E) as [X _]. unfold look_path in E. destruct (load_layers n true layers); try discriminate.
  unfold look in E. rewrite has_slash, A in E by now apply abs_slash. cbn [negb] in E. destruct (check_executable _ _ _ _); try discriminate. injection E as <-. contradiction.
Qed.
Lemma self_get_false n : forall key follow, str_eqb key $".." = false -> str_eqb key $"." = false -> get n self_tree [$"a"] key false follow = OutOfFuel.
Proof.
  induction n as [n IH] using (well_founded_induction lt_wf). intros key follow K1 K2. destruct n as [|n]; [reflexivity|]. cbn [get]. rewrite K1, K2.
  change (Squash.link_of (header_at self_tree [$"a"])) with (Some $"a/b"). cbv match.
  assert (F : fs_get n self_tree (parent [$"a"]) $"a/b" false true = OutOfFuel); [|now rewrite F].
  destruct n as [|n]; [reflexivity|]. cbn [fs_get]. change (is_abs (clean $"a/b")) with false. cbv match. change (split_on slash (clean $"a/b")) with [$"a"; $"b"]. cbv match beta.
  change (parent [$"a"]) with (@nil str). destruct n as [|n]; [reflexivity|].
  change (get (S n) self_tree [] $"a" false false) with (@Ret (tree * pos) (self_tree, [$"a"])). cbn [bind]. apply IH; auto.
Qed.
Theorem open_endless utf8 : utf8 $"a/x" = true -> exists t, (forall n, load_layers (4 + n) false [[a_symlink $"a" $"a/b"]] = Ret t) /\ forall n, open utf8 n t $"a/x" = OutOfFuel.
Proof.
  intros U. exists self_tree. split; [intros n; vm_compute; reflexivity|]. intros n. unfold open, valid_path. rewrite U. change (negb (true && _)) with false. cbv iota.
  assert (G : fs_get n self_tree [] $"a/x" false false = OutOfFuel); [|now rewrite G].
  destruct n as [|n]; [reflexivity|]. cbn [fs_get]. change (is_abs (clean $"a/x")) with false. cbv match. change (split_on slash (clean $"a/x")) with [$"a"; $"x"]. cbv match beta. destruct n as [|n]; [reflexivity|].
  change (get (S n) self_tree [] $"a" false false) with (@Ret (tree * pos) (self_tree, [$"a"])). cbn [bind]. apply self_get_false; reflexivity.
Qed.
Theorem look_path_crashes utf8 n : utf8 $"a/x" = true -> look_path utf8 n [[a_symlink $"a" $"a/b"]] (Some (mkImageConfig [] [$"PATH=/a"])) $"x" = Crashed.
Proof.
  intros U. unfold look_path.
  assert (L : load_layers n true [[a_symlink $"a" $"a/b"]] = OutOfFuel \/ load_layers n true [[a_symlink $"a" $"a/b"]] = Ret self_tree).
  { destruct n as [|[|n]]; [left; reflexivity|left; reflexivity|right; vm_compute; reflexivity]. }
  destruct L as [-> | ->]; [reflexivity|]. change (look (check_executable utf8 n self_tree) (img_wd (Some (mkImageConfig [] [$"PATH=/a"]))) $"x" (img_path (Some (mkImageConfig [] [$"PATH=/a"]))))
    with (match check_executable utf8 n self_tree $"/a/x" with ChkOk => Found $"/a/x" | ChkErr => NotFound | ChkCrash => Crashed end).
  unfold check_executable. change (negb (is_abs $"/a/x")) with false. cbv iota. change (skipn 1 $"/a/x") with $"a/x". unfold open, valid_path. rewrite U.
  change (negb (true && _)) with false. cbv iota.
  assert (G : fs_get n self_tree [] $"a/x" false false = OutOfFuel); [|now rewrite G].
  destruct n as [|n]; [reflexivity|]. cbn [fs_get]. change (is_abs (clean $"a/x")) with false. cbv match. change (split_on slash (clean $"a/x")) with [$"a"; $"x"]. cbv match beta. destruct n as [|n]; [reflexivity|].
  change (get (S n) self_tree [] $"a" false false) with (@Ret (tree * pos) (self_tree, [$"a"])). cbn [bind]. now apply self_get_false.
Qed.

(** *** Open succeeds exactly for what is there (C65) *)
Theorem open_only layers utf8 n m t p q e : handled layers -> load_layers m false layers = Ret t -> plain_path p -> Forall (fun x => marker_name x = false) p ->
  open utf8 n t (open_name p) = Ret (q, e) -> walks (unpack empty_root layers) [] p q /\ ends (unpack empty_root layers) q e.
Proof.
  intros H L PP M O. destruct H as (P & R & D & K). destruct (load_image layers P) as (t' & L' & AG & WT & WV & LF & NK).
  assert (t' = t) as ->. { pose proof (more_fuel_load m (m + 4) false layers (Ret t) L ltac:(discriminate) ltac:(lia)) as Q. rewrite (L' (m + 4) ltac:(lia)) in Q. congruence. }
  assert (ROOT : dirT t []) by (apply (root_dirT layers); auto; split; [|split; [|split]]; auto).
  apply (open_back (unpack empty_root layers) t (image_real layers P) AG K utf8 n p q e); auto.
Qed.
Theorem open_settles layers utf8 p : handled layers -> plain_path p -> askable utf8 p -> 
  (settles (unpack empty_root layers) p <-> exists N, forall n, N <= n -> exists t, load_layers n false layers = Ret t /\ open utf8 n t (open_name p) <> OutOfFuel).
Proof.
  intros H PP AK. split.
  - intros S. pose proof H as (P & R & _). pose proof AK as [U M]. destruct S as [(q & e & W & E)|(e & S)].
    + destruct (image_open layers P R utf8 p q e PP U W E) as (N & t' & HN). exists N. intros n LE. exists t'. destruct (HN n LE) as (L' & O & _). rewrite O. split; [auto|discriminate].
    + destruct (image_nowhere layers utf8 p e H PP AK S) as (N & t' & HN). exists N. intros n LE. exists t'. destruct (HN n LE) as (L' & O). rewrite O. split; [auto|discriminate].
  - intros [N HN]. destruct (HN N ltac:(lia)) as (t & L & O). destruct (open utf8 N t (open_name p)) as [[q e]|e|] eqn:E; [| |congruence].
    + left. exists q, e. eapply open_only; eauto. apply AK.
    + right. exists e. eapply image_why; eauto.
Qed.
