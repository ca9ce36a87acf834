(** Loading a whole stack of layers. *)
From Coq Require Import String Ascii List Bool ZArith Lia.
From Verif.Model Require Import GoStr GoPath Tar Squash.
From Verif.Spec Require Import PathSpec SquashSpec.
From Verif.Proofs Require Import Order GoStrFacts GoPathFacts SquashTree SquashLoad SquashSim.
Import ListNotations.
Local Arguments byte_eqb : simpl never.
Local Arguments str_eqb : simpl never.
Local Arguments clean : simpl never.
Local Arguments path_base : simpl never.

(** *** parseLayer *)
Lemma outside_text r l : clean_list r l -> outside_root (path_text r l) = true <-> r = true \/ exists l', l = dotdot :: l'.
Proof.
  intros H. unfold outside_root. rewrite !orb_true_iff. change (has_prefix $"/" (path_text r l)) with (is_abs (path_text r l)).
  rewrite is_abs_text by auto. destruct r; [split; [auto|]; intros _; auto|]. cbn [path_text]. destruct l as [|c l].
  { split; [|intros [E|[l' E]]; discriminate]. intros [[E|E]|E]; discriminate. }
  assert (NS : ~ In slash c) by (apply clean_list_no_slash in H; now inversion H).
  destruct l as [|c' l].
  - cbn [join]. split.
    + intros [[E|E]|E]; [discriminate| |].
      * exfalso. apply has_prefix_spec in E as [t ->]. apply NS. right. right. now left.
      * apply str_eqb_eq in E. subst. right. eauto.
    + intros [E|[l' E]]; [discriminate|]. injection E as -> _. right. reflexivity.
  - change (join $"/" (c :: c' :: l)) with (c ++ slash :: join $"/" (c' :: l)). split.
    + intros [[E|E]|E]; [discriminate| |].
      * apply has_prefix_spec in E as [t E]. right. exists (c' :: l). f_equal.
        change ($"../" ++ t) with (dotdot ++ slash :: t) in E. apply (f_equal (cut slash)) in E.
        rewrite !cut_app in E by (auto; apply dotdot_no_slash). now injection E.
      * exfalso. apply str_eqb_eq in E. assert (In slash $"..") as H'; [rewrite <- E; apply in_app_iff; right; now left|].
        now apply dotdot_no_slash in H'.
    + intros [E|[l' E]]; [discriminate|]. injection E as -> _. left. right. reflexivity.
Qed.
Lemma outside_clean n : outside_root (clean n) = true <-> is_abs n = true \/ exists l, clean_comps n = dotdot :: l.
Proof. rewrite clean_text. apply outside_text, clean_comps_list. Qed.
Lemma inside_plain n : outside_root (clean n) = false <-> is_abs n = false /\ plain_path (clean_comps n).
Proof.
  pose proof (clean_comps_list n) as (k & ps & E & Hp & Hr). split.
  - intros H. assert (A : is_abs n = false) by (destruct (is_abs n) eqn:A; auto; rewrite <- H; symmetry; apply outside_clean; auto).
    split; auto. destruct k as [|k]; [now rewrite E|]. exfalso. assert (T : outside_root (clean n) = true); [|congruence].
    apply outside_clean. right. rewrite E. cbn [repeat app]. eauto.
  - intros [A P]. destruct (outside_root (clean n)) eqn:O; auto. apply outside_clean in O as [O|[l O]]; [congruence|].
    rewrite O in P. inversion P as [|? ? (_ & _ & _ & H) _]. now destruct H.
Qed.
Definition parsed (e : entry) : entry := (with_name (fst e) (clean (th_name (fst e))), snd e).
Definition inside (e : entry) : Prop := is_abs (th_name (fst e)) = false /\ plain_path (entry_path e).
Lemma good_inside e : good_entry e -> inside e.
Proof.
  intros [A [[P _]|(d & k & E & [P _] & _ & _ & K)]]; split; auto. rewrite E. apply plain_path_app. split; auto.
  constructor; [|constructor]. destruct K as [->|(x & -> & [X _])]; [apply plain_opq|apply plain_wh; now inversion X].
Qed.
Lemma marker_base e : inside e -> has_prefix wh_prefix (path_base (clean (th_name (fst e)))) = is_marker e.
Proof.
  intros [A P]. unfold is_marker, entry_path in *. rewrite clean_text, A.
  destruct (clean_comps (th_name (fst e))) as [|c l] using rev_ind; [reflexivity|]. rewrite base_plain by auto. now rewrite last_last.
Qed.
Lemma parse_good l : Forall inside l -> parse_layer false l =
  Ret (map parsed (filter is_marker l), map parsed (filter (fun e => negb (is_marker e)) l)).
Proof.
  induction 1 as [|[h b] l H _ IH]; [reflexivity|]. cbn [parse_layer].
  replace (outside_root (clean (th_name h))) with false by (symmetry; now apply inside_plain in H).
  rewrite IH. cbn [bind]. pose proof (marker_base _ H) as M. cbn [fst] in M. rewrite M. cbn [filter].
  destruct (is_marker (h, b)); reflexivity.
Qed.
Lemma parsed_path e : entry_path (parsed e) = entry_path e.
Proof. unfold entry_path. cbn. apply clean_comps_clean. Qed.
Lemma parsed_name e : inside e -> th_name (fst (parsed e)) = path_text false (entry_path e).
Proof. intros [A _]. cbn. rewrite clean_text, A. reflexivity. Qed.
Lemma anon_with_name h n : anon (with_name h n) = anon h.
Proof. reflexivity. Qed.
Lemma fin_anon fs p h h' b : anon h = anon h' -> fin fs p h b = fin fs p h' b.
Proof. intros E. assert (T : th_type h = th_type h') by exact (f_equal th_type E). unfold fin. now rewrite E, T. Qed.

(** *** what one entry changes *)
Lemma vmkdir_cases v f z : vmkdir v f z = v z \/ (z = f /\ vmkdir v f z = Some (None, [])) \/
  (z = f ++ [opq] /\ vmkdir v f z = Some (Some opq_header, [])).
Proof.
  unfold vmkdir. destruct (v f) as [[h b]|] eqn:E; [destruct (non_dir h)|]; auto.
  - destruct (path_dec z (f ++ [opq])) as [->|N]; [rewrite vput_eq; auto|]. rewrite vput_ne by auto.
    destruct (path_dec z f) as [->|N2]; [rewrite vput_eq; auto|]. rewrite vput_ne by auto. auto.
  - destruct (path_dec z f) as [->|N2]; [rewrite vput_eq; auto|]. rewrite vput_ne by auto. auto.
Qed.
Lemma vmkdirs_cases ds : forall v f z, vmkdirs_from v f ds z = v z \/
  (at_or_below z (f ++ ds) = true /\ vmkdirs_from v f ds z = Some (None, [])) \/
  (exists a, z = a ++ [opq] /\ vmkdirs_from v f ds z = Some (Some opq_header, [])).
Proof.
  induction ds as [|k ds IH]; intros v f z; cbn [vmkdirs_from].
  - rewrite app_nil_r. destruct (vmkdir_cases v f z) as [H|[[-> H]|[-> H]]]; auto.
    + right. left. now rewrite aob_refl.
    + right. right. eauto.
  - destruct (IH (vmkdir v f) (f ++ [k]) z) as [H|[[A H]|(a & -> & H)]].
    + rewrite H. destruct (vmkdir_cases v f z) as [H'|[[-> H']|[-> H']]]; auto.
      * right. left. now rewrite aob_app.
      * right. right. eauto.
    + right. left. rewrite <- app_assoc in A. auto.
    + right. right. eauto.
Qed.
Lemma vwrite_at v p h b : vwrite v p h b p = Some (Some h, b).
Proof.
  unfold vwrite. destruct (byte_eqb _ _); [destruct (non_dir _)|].
  - now rewrite vput_ne, vput_eq.
  - apply vput_eq.
  - rewrite vclear_ne by apply below_refl. apply vput_eq.
Qed.
Lemma vwrite_cases v p h b z : z <> p -> vwrite v p h b z = None \/ vwrite v p h b z = v z \/
  (z = p ++ [opq] /\ vwrite v p h b z = Some (Some opq_header, [])).
Proof.
  intros N. unfold vwrite. destruct (byte_eqb _ _); [destruct (non_dir _)|].
  - destruct (path_dec z (p ++ [opq])) as [->|N2]; [rewrite vput_eq; auto|]. rewrite !vput_ne by auto. auto.
  - rewrite vput_ne by auto. auto.
  - unfold vclear. destruct (below p z); auto. rewrite vput_ne by auto. auto.
Qed.
Lemma vstep_shape v p h b : p <> [] -> vstep v p h b = vsettle (vwrite (vmkdirs_from v [] (removelast p)) p h b) (removelast p) (last p []).
Proof. destruct p; [congruence|reflexivity]. Qed.
Lemma vstep_cases v p h b z : z <> p -> vstep v p h b z = None \/ vstep v p h b z = v z \/
  (below z p = true /\ vstep v p h b z = Some (None, [])) \/ (exists a, z = a ++ [opq] /\ vstep v p h b z = Some (Some opq_header, [])).
Proof.
  intros N. destruct p as [|c cs].
  - cbn [vstep]. unfold vcut. destruct (at_or_below _ z); auto.
    destruct (vwrite_cases v [] h b z N) as [H|[H|[-> H]]]; auto. right. right. right. exists []. auto.
  - set (p := c :: cs) in *. rewrite vstep_shape by discriminate. assert (Np : p <> []) by discriminate.
    destruct (exists_last Np) as (d & k & Ep). rewrite Ep in *. clear Ep Np p c cs. rewrite removelast_last, last_last.
    destruct (vsettle_shrink (vwrite (vmkdirs_from v [] d) (d ++ [k]) h b) d k z) as [H|H]; auto. rewrite H.
    destruct (vwrite_cases (vmkdirs_from v [] d) (d ++ [k]) h b z N) as [H1|[H1|[-> H1]]]; auto; [|right; right; right; eauto].
    rewrite H1. destruct (vmkdirs_cases d v [] z) as [H2|[[A H2]|(a & -> & H2)]]; auto.
    + right. right. left. split; auto. now apply below_snoc.
    + right. right. right. eauto.
Qed.
Lemma vstep_at v p h b : vstep v p h b p = None \/ vstep v p h b p = Some (Some h, b).
Proof.
  destruct p as [|c cs].
  - cbn [vstep]. rewrite vcut_ne by reflexivity. right. apply vwrite_at.
  - rewrite vstep_shape by discriminate. destruct (vsettle_shrink (vwrite (vmkdirs_from v [] (removelast (c :: cs))) (c :: cs) h b)
      (removelast (c :: cs)) (last (c :: cs) []) (c :: cs)) as [H|H]; auto. rewrite H. right. apply vwrite_at.
Qed.
Lemma vstep_unhides v d x h b : marker_name x = false -> vstep v (d ++ [x]) h b (d ++ [wh_prefix ++ x]) = None.
Proof.
  intros M. rewrite vstep_shape by (destruct d; discriminate). rewrite removelast_last, last_last. unfold vsettle.
  change (has_prefix wh_prefix x) with (marker_name x). rewrite M. unfold vcut. now rewrite aob_refl.
Qed.

(** *** what the tree remembers of the history *)
Record remembers (es : list entry) (v : view) : Prop := {
  rm_sim : fagree (unpacked es) (interp v empty_root);
  rm_hide : forall d x, real_path [x] -> v (d ++ [wh_prefix ++ x]) <> None ->
    exists w, last_entry es (fun q => q = d ++ [x] \/ q = d ++ [wh_prefix ++ x]) w /\ entry_path w = d ++ [wh_prefix ++ x]
}.
Lemma last_entry_snoc es e (P : path -> Prop) : P (entry_path e) -> last_entry (es ++ [e]) P e.
Proof. intros H. exists es, []. split; [|split]; auto. Qed.
Lemma last_entry_keep es e (P : path -> Prop) l : ~ P (entry_path e) -> last_entry es P l -> last_entry (es ++ [e]) P l.
Proof.
  intros N (es1 & es2 & -> & HP & H). exists es1, (es2 ++ [e]). split; [now rewrite <- app_assoc|]. split; auto.
  intros e' I. apply in_app_iff in I as [I|[<-|[]]]; auto.
Qed.
Lemma link_type h : link_of (Some h) <> None -> byte_eqb (th_type h) TypeSymlink = true.
Proof. cbn [link_of]. destruct (byte_eqb _ _); congruence. Qed.
Lemma opq_not_link : link_of (Some opq_header) = None.
Proof. reflexivity. Qed.
Lemma good_real_anc e q : good_entry e -> below q (entry_path e) = true -> real_path q.
Proof.
  intros [_ [R|(d & k & E & R & _)]] B.
  - apply below_spec in B as (x & r & B). rewrite B in R. now apply real_app in R.
  - rewrite E in B. apply below_snoc, aob_spec in B as [r ->]. now apply real_app in R.
Qed.
Lemma hdr_some v q h : hdr_of v q = Some h -> exists b, v q = Some (Some h, b).
Proof. unfold hdr_of. destruct (v q) as [[h' b]|]; [|discriminate]. cbn [fst]. intros ->. eauto. Qed.
Lemma remembers_empty : remembers [] (view_of empty_tree).
Proof.
  split.
  - intros q R. destruct q as [|k q]; [left; reflexivity|]. unfold interp, visible. cbn. destruct (shadow _ _ _); exact I.
  - intros d x _ H. destruct d as [|k d]; now destruct H.
Qed.
Lemma leafy_empty : leafy (view_of empty_tree).
Proof. intros p k _. destruct p; reflexivity. Qed.

(** *** one entry *)
Definition dirs_above (v : view) (p : path) : Prop := forall a, below a p = true -> non_dir (hdr_of v a) = false.
Lemma vstep_sim es v e base : good_entry e -> remembers es v -> solid v ->
  (entry_path e <> [] -> let v1 := vmkdirs_from v [] (removelast (entry_path e)) in
     non_dir (hdr_of v1 (entry_path e)) = true -> forall q, below (entry_path e) q = true -> v1 q = None) ->
  not_hidden es e \/ blank base ->
  let v' := vstep v (entry_path e) (fst (parsed e)) (snd e) in
  (forall fs, fagree fs (interp v base) -> fagree (unpack_entry fs e) (interp v' base)) /\
  (dirs_above v (entry_path e) -> forall fs, feq fs (interp v base) -> feq (unpack_entry fs e) (interp v' base)).
Proof.
  intros G RM S HB NH. cbv zeta. set (p := entry_path e) in *. set (h := fst (parsed e)).
  assert (FE : forall fs, unpack_entry fs e = fin (mkdirs fs (removelast p)) p h (snd e)).
  { intros fs. rewrite unpack_fin. apply fin_anon. reflexivity. }
  destruct (path_dec p []) as [Ep|Np].
  - assert (R : feq (fin (mkdirs (interp v base) []) p h (snd e)) (interp (vstep v p h (snd e)) base)).
    { rewrite Ep. cbn [vstep]. apply sim_fin_root. intros N q B. now apply (S []). }
    rewrite Ep in *. cbn [removelast] in FE.
    split; [intros fs H|intros _ fs H]; rewrite FE.
    + eapply fagree_trans; [apply fin_agree|apply feq_agree, R]. intros q Rq. rewrite !mkdirs_eq. apply (mkdir1_agree fs _ []); auto.
    + eapply feq_trans; [apply fin_feq|apply R]. intros q Rq. rewrite !mkdirs_eq. apply (mkdir1_feq fs _ []); auto.
  - specialize (HB Np). cbv zeta in HB. destruct (exists_last Np) as (d & k & E). rewrite E in *. rewrite removelast_last in *.
    assert (Rd : real_path d).
    { destruct G as [_ [R|(d' & k' & E' & R & _)]].
      - change (entry_path e) with p in R. rewrite E in R. now apply real_app in R.
      - change (entry_path e) with p in E'. rewrite E in E'. apply child_inj in E' as [-> _]. auto. }
    set (w := vmkdirs_from v [] d) in *.
    assert (R : feq (fin (interp w base) (d ++ [k]) h (snd e)) (interp (vstep v (d ++ [k]) h (snd e)) base)).
    { rewrite vstep_shape, removelast_last, last_last by (destruct d; discriminate). fold w.
      destruct G as [_ [R|(d' & k' & E' & R & D & L & K)]].
      - change (entry_path e) with p in R. rewrite E in R. destruct (byte_eqb (th_type h) TypeDir) eqn:F.
        + apply sim_fin_dir; auto. intros ND. destruct NH as [NH|NH]; [left|now right]. destruct (v (d ++ [wh_prefix ++ k])) as [n|] eqn:EV.
          * exfalso. assert (Rk : real_path [k]) by (apply real_app in R; tauto).
            destruct (rm_hide _ _ RM d k Rk) as (u & HL & HU); [congruence|].
            assert (U : entry_path u = d ++ [k]) by (apply (NH F d k); auto; apply HL).
            rewrite U in HU. apply child_inj in HU as [_ HU]. apply (f_equal (@length _)) in HU. cbn in HU. lia.
          * subst w. destruct (vmkdirs_cases d v [] (d ++ [wh_prefix ++ k])) as [H|[[A H]|(a & EA & H)]].
            -- congruence.
            -- exfalso. cbn [app] in A. apply aob_spec in A as [r A]. apply (f_equal (@length _)) in A. rewrite !app_length in A.
               cbn [length] in A. lia.
            -- exfalso. apply child_inj in EA as [_ EA]. symmetry in EA. apply opq_wh in EA. apply real_not_marker in R. congruence.
        + apply sim_fin_file; auto.
      - change (entry_path e) with p in E'. rewrite E in E'. apply child_inj in E' as [<- <-].
        assert (F : byte_eqb (th_type h) TypeDir = false) by exact D.
        destruct K as [->|(x & -> & Rx)]; [now apply sim_fin_opq|]. apply sim_fin_wh; auto. apply real_app. auto. }
    split; [intros fs H|intros NA fs H]; rewrite FE.
    + eapply fagree_trans; [apply fin_agree|apply feq_agree, R]. intros q Rq. rewrite mkdirs_eq. subst w.
      apply (sim_mkdirs base d v fs []); auto. intros a B. destruct a; discriminate.
    + eapply feq_trans; [apply fin_feq|apply R]. intros q Rq. rewrite mkdirs_eq. subst w.
      apply (sim_mkdirs_exact base d v fs []); auto. intros a B. apply NA. now apply below_snoc.
Qed.
Lemma no_opq_above e : good_entry e -> ~ In opq (removelast (entry_path e)).
Proof.
  intros [_ G] H. assert (R : real_path (removelast (entry_path e))).
  { destruct G as [R|(d & k & E & R & _)].
    - destruct (entry_path e) as [|c l] using rev_ind; auto. rewrite removelast_last. now apply real_app in R.
    - rewrite E, removelast_last. auto. }
  destruct R as [_ R]. rewrite Forall_forall in R. apply R in H. discriminate.
Qed.
Lemma unpacked_snoc es e : unpacked (es ++ [e]) = unpack_entry (unpacked es) e.
Proof. unfold unpacked. now rewrite fold_left_app. Qed.
Lemma empty_blank : blank empty_root.
Proof. intros [|k q] N; [congruence|reflexivity]. Qed.
Lemma remembers_step es v e : remembers es v -> good_entry e -> solid v ->
  (entry_path e <> [] -> let v1 := vmkdirs_from v [] (removelast (entry_path e)) in
     non_dir (hdr_of v1 (entry_path e)) = true -> forall q, below (entry_path e) q = true -> v1 q = None) -> forall v',
  veq v' (vstep v (entry_path e) (fst (parsed e)) (snd e)) -> remembers (es ++ [e]) v'.
Proof.
  intros RM G SO HB v' V. pose proof RM as [J1 J2]. split.
  - rewrite unpacked_snoc. destruct (vstep_sim es v e empty_root G RM SO HB (or_intror empty_blank)) as [S _]. specialize (S _ J1). intros q R. specialize (S q R).
    rewrite (interp_blank v' (vstep v (entry_path e) (fst (parsed e)) (snd e)) empty_root q); auto. apply empty_blank.
  - intros d x Rx HV. rewrite V in HV. destruct (path_dec (entry_path e) (d ++ [wh_prefix ++ x])) as [E|N].
    + exists e. split; auto. apply last_entry_snoc. auto.
    + assert (HV' : v (d ++ [wh_prefix ++ x]) <> None).
      { destruct (vstep_cases v (entry_path e) (fst (parsed e)) (snd e) (d ++ [wh_prefix ++ x])) as [H|[H|[[B H]|(a & E & H)]]];
          try (rewrite H in HV; congruence); auto.
        - exfalso. apply good_real_anc in B; auto. now apply (real_ne_wh _ d x) in B.
        - exfalso. apply child_inj in E as [_ E]. symmetry in E. apply opq_wh in E. apply (real_not_marker [] x) in Rx. congruence. }
      destruct (J2 d x Rx HV') as (w & HE & Hw). exists w. split; auto. apply last_entry_keep; auto.
      intros [E|E]; [|congruence]. rewrite E in HV. rewrite vstep_unhides in HV; [congruence|now apply (real_not_marker [] x)].
Qed.
(** The unpacked file system has the links and files of the tree. *)
Lemma link_known es v q : remembers es v -> real_path q -> link_of (hdr_of v q) <> None -> is_symlink_at (unpacked es) q.
Proof.
  intros RM R L. pose proof (rm_sim _ _ RM q R) as A. unfold hdr_of in L. unfold interp in A. destruct (v q) as [[[h|] b]|]; try (now destruct L). cbn [fst] in L.
  apply link_type in L. apply byte_eqb_eq in L. rewrite L in A. change (byte_eqb TypeSymlink TypeDir) with false in A. cbv iota in A.
  unfold agree in A. destruct (unpacked es q) as [[m|h' c]|] eqn:E; try contradiction. exists h', c. split; auto. destruct A as [-> _]. exact L.
Qed.
Lemma file_known es v q : remembers es v -> real_path q -> non_dir (hdr_of v q) = true -> is_file_at (unpacked es) q.
Proof.
  intros RM R L. pose proof (rm_sim _ _ RM q R) as A. unfold hdr_of in L. unfold interp in A. destruct (v q) as [[[h|] b]|]; try discriminate. cbn [fst non_dir] in L.
  apply negb_true_iff in L. rewrite L in A. unfold agree in A. destruct (unpacked es q) as [[m|h' c]|] eqn:E; try contradiction. exists h', c. auto.
Qed.
(** A link or file comes from the last entry for its path. *)
Lemma file_last es q h c : unpacked es q = Some (FFile h c) ->
  exists l, last_entry es (eq q) l /\ is_marker l = false /\ is_dir l = false /\ h = anon (fst l).
Proof.
  induction es as [|e es IH] using rev_ind; [destruct q; discriminate|]. rewrite unpacked_snoc. unfold unpack_entry. intros E.
  assert (MK : mkdirs (unpacked es) (removelast (entry_path e)) q = Some (FFile h c) -> unpacked es q = Some (FFile h c)).
  { unfold mkdirs. destruct (at_or_below q (removelast (entry_path e))); auto. destruct (unpacked es q) as [[]|]; discriminate. }
  assert (KEEP : unpacked es q = Some (FFile h c) -> q <> entry_path e \/ is_marker e = true ->
            exists l, last_entry (es ++ [e]) (eq q) l /\ is_marker l = false /\ is_dir l = false /\ h = anon (fst l)).
  { intros X N. destruct (IH X) as (l & H1 & H2 & H3). exists l. split; auto. apply last_entry_keep; auto. intros EQ. destruct N as [N|N]; [congruence|].
    destruct H1 as (? & ? & _ & PL & _). unfold is_marker in N, H2. rewrite <- EQ, PL in N. congruence. }
  destruct (marker_name (last (entry_path e) [])) eqn:M.
  - apply KEEP; auto. apply MK. destruct (str_eqb (last (entry_path e) []) $".wh..wh..opq"); unfold remove_below, remove in E.
    + destruct (below _ q); [discriminate|exact E].
    + destruct (at_or_below _ q); [discriminate|exact E].
  - destruct (path_dec q (entry_path e)) as [EQ|N].
    + exists e. split; [apply last_entry_snoc; auto|]. split; [exact M|]. subst q. destruct (is_dir e); unfold put_node in E; destruct (path_dec (entry_path e) (entry_path e)); try congruence.
      split; auto. congruence.
    + apply KEEP; auto. apply MK. destruct (is_dir e); unfold put_node in E; destruct (path_dec q (entry_path e)); try congruence.
      unfold remove_below in E. destruct (below _ q); [discriminate|exact E].
Qed.
Lemma link_last es q : is_symlink_at (unpacked es) q -> exists l, last_entry es (eq q) l /\ is_link l = true.
Proof. intros (h & c & E & T). destruct (file_last es q h c E) as (l & H1 & _ & _ & ->). exists l. split; auto. unfold is_link. cbn in T. rewrite T. reflexivity. Qed.
Lemma no_link_last es e : (forall q l, below q (entry_path e) = true -> last_entry es (eq q) l -> is_link l = false) -> no_link_above es e.
Proof. intros H q B L. apply link_last in L as (l & L & I). rewrite (H q l B L) in I. discriminate. Qed.
Lemma no_file_last es e : (forall q l, below q (entry_path e) = true -> last_entry es (eq q) l -> is_dir l = true) -> no_file_above es e.
Proof. intros H q B (h & c & L). apply file_last in L as (l & L & _ & I & _). rewrite (H q l B L) in I. discriminate. Qed.
Theorem load_entry_sim n es t e : good_entry e -> remembers es (view_of t) -> leafy (view_of t) ->
  no_link_above es e ->
  exists t', load_entry (S (S (S (S n)))) t (parsed e) = Ret t' /\ remembers (es ++ [e]) (view_of t') /\ leafy (view_of t') /\
    veq (view_of t') (vstep (view_of t) (entry_path e) (fst (parsed e)) (snd e)) /\
    (forall base fs, not_hidden es e \/ blank base -> fagree fs (interp (view_of t) base) -> fagree (unpack_entry fs e) (interp (view_of t') base)) /\
    (dirs_above (view_of t) (entry_path e) ->
     forall base fs, not_hidden es e \/ blank base -> feq fs (interp (view_of t) base) -> feq (unpack_entry fs e) (interp (view_of t') base)).
Proof.
  intros G RM L NL. pose proof (good_inside e G) as I.
  destruct (load_entry_view n t (entry_path e) (fst (parsed e)) (snd e)) as (t' & E & V & L' & HB).
  - apply I.
  - now apply parsed_name.
  - auto.
  - intros a k b Ep. cbn [app]. destruct (link_of (hdr_of (view_of t) a)) as [lt|] eqn:HL; auto. exfalso.
    assert (B : below a (entry_path e) = true) by (rewrite Ep; apply below_app).
    apply (NL a B). apply (link_known es (view_of t)); auto; [now apply (good_real_anc e)|congruence].
  - now apply no_opq_above.
  - exists t'. split; [exact E|]. split; [apply (remembers_step es (view_of t)); auto; apply leafy_solid; auto; apply closed_view|]. split; auto. split; auto.
    assert (IV : forall base q, interp (view_of t') base q = interp (vstep (view_of t) (entry_path e) (fst (parsed e)) (snd e)) base q).
    { intros base q. apply interp_same; [apply V|]. apply shadow_uses. intros z _. apply V. }
    split; [intros base fs NH H q Rq|intros NF base fs NH H q Rq]; rewrite IV.
    + apply (vstep_sim es (view_of t) e base); auto. apply leafy_solid; auto. apply closed_view.
    + apply (vstep_sim es (view_of t) e base); auto. apply leafy_solid; auto. apply closed_view.
Qed.
Lemma history_app P es1 e es2 : history P (es1 ++ e :: es2) -> P es1 e.
Proof. intros H. now apply (H es1 e es2). Qed.
Theorem load_entries_sim n es : forall es0 t, Forall good_entry es -> remembers es0 (view_of t) -> leafy (view_of t) ->
  (forall es1 e es2, es = es1 ++ e :: es2 -> no_link_above (es0 ++ es1) e) ->
  exists t', load_entries (S (S (S (S n)))) t (map parsed es) = Ret t' /\ remembers (es0 ++ es) (view_of t') /\ leafy (view_of t') /\
    (forall base fs, blank base \/ (forall es1 e es2, es = es1 ++ e :: es2 -> not_hidden (es0 ++ es1) e) ->
       fagree fs (interp (view_of t) base) -> fagree (fold_left unpack_entry es fs) (interp (view_of t') base)).
Proof.
  induction es as [|e es IH]; intros es0 t G RM L H.
  - exists t. rewrite app_nil_r. split; [reflexivity|]. split; auto.
  - inversion G as [|? ? G1 G2]; subst. pose proof (H [] e es eq_refl) as NL. rewrite app_nil_r in NL.
    destruct (load_entry_sim n es0 t e G1 RM L NL) as (t1 & E1 & RM1 & L1 & _ & S1 & _).
    destruct (IH (es0 ++ [e]) t1) as (t' & E' & RM' & L' & S'); auto.
    { intros es1 e' es2 Ee. specialize (H (e :: es1) e' es2). rewrite <- app_assoc. apply H. now rewrite Ee. }
    exists t'. split; [|split; [|split]]; auto.
    + cbn [map load_entries]. rewrite E1. exact E'.
    + now rewrite <- app_assoc in RM'.
    + intros base fs HB HF. cbn [fold_left]. apply S'.
      * destruct HB as [HB|HB]; [now left|right]. intros es1 e' es2 Ee. specialize (HB (e :: es1) e' es2). rewrite <- app_assoc. apply HB. now rewrite Ee.
      * apply S1; auto. destruct HB as [HB|HB]; [now right|left]. specialize (HB [] e es eq_refl). now rewrite app_nil_r in HB.
Qed.
Lemma load_entries_app n a b t : load_entries n t (a ++ b) = bind (load_entries n t a) (fun t => load_entries n t b).
Proof.
  revert t. induction a as [|e a IH]; intros t; [reflexivity|]. cbn [app load_entries]. destruct (load_entry n t e); cbn [bind]; auto.
Qed.
Lemma load_layers_entries n layers : forall t, Forall (Forall inside) layers ->
  load_layers_from n false t layers = load_entries n t (map parsed (all_entries layers)).
Proof.
  induction layers as [|l layers IH]; intros t H; [reflexivity|]. inversion H; subst. cbn [load_layers_from all_entries flat_map].
  rewrite parse_good by auto. cbn [bind]. unfold in_order at 1. rewrite !map_app, !load_entries_app.
  destruct (load_entries n t _); cbn [bind]; auto. destruct (load_entries n a _); cbn [bind]; auto.
Qed.
Lemma unpack_all fs layers : unpack fs layers = fold_left unpack_entry (all_entries layers) fs.
Proof.
  unfold unpack. revert fs. induction layers as [|l layers IH]; intros fs; [reflexivity|]. cbn [fold_left all_entries flat_map].
  rewrite IH, fold_left_app. reflexivity.
Qed.
Lemma interp_empty base q : interp (view_of empty_tree) base q = match q with [] => Some (FDir (match base [] with Some (FDir m) => m | _ => None end)) | _ => base q end.
Proof.
  destruct q as [|k q]; [reflexivity|]. unfold interp. change (view_of empty_tree (k :: q)) with (@None node). cbv iota.
  unfold visible. replace (shadow (view_of empty_tree) [] (k :: q)) with false; auto. symmetry.
  destruct (shadow (view_of empty_tree) [] (k :: q)) eqn:E; auto. apply shadow_spec in E as (a & x & r & _ & [H|[H|H]]); exfalso.
  - destruct a; discriminate.
  - destruct a; discriminate.
  - destruct a; discriminate.
Qed.
Lemma good_in_order l : Forall good_entry l -> Forall good_entry (in_order l).
Proof. intros H. rewrite Forall_forall in *. intros e I. apply H. unfold in_order in I. apply in_app_iff in I as [I|I]; now apply filter_In in I. Qed.
Lemma good_all layers : Forall (Forall good_entry) layers -> Forall good_entry (all_entries layers).
Proof. induction 1; [constructor|]. cbn [all_entries flat_map]. apply Forall_app. split; auto. now apply good_in_order. Qed.
Theorem load_sim n layers : plain_stack layers ->
  exists t, load_layers (S (S (S (S n)))) false layers = Ret t /\ remembers (all_entries layers) (view_of t) /\ leafy (view_of t) /\
    forall base, (exists m, base [] = Some (FDir m)) -> blank base \/ history not_hidden (all_entries layers) ->
    fagree (unpack base layers) (interp (view_of t) base).
Proof.
  intros [G NL]. destruct (load_entries_sim n (all_entries layers) [] empty_tree) as (t & E & RM & L & S); auto.
  - now apply good_all.
  - apply remembers_empty.
  - apply leafy_empty.
  - exists t. split; [|split; [|split]]; auto.
    + unfold load_layers. rewrite load_layers_entries; auto. eapply Forall_impl; [|exact G]. intros l. apply Forall_impl, good_inside.
    + intros base [m Hm] HB. rewrite unpack_all. apply S; auto. intros q Rq. rewrite interp_empty. destruct q; [rewrite Hm|]; apply agree_refl.
Qed.
