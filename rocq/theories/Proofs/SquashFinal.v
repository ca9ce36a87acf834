(** The properties of squash. *)
From Coq Require Import String Ascii List Bool ZArith Lia Permutation Sorted.
From Verif.Model Require Import GoStr GoPath Tar Squash.
From Verif.Spec Require Import PathSpec SquashSpec SimpleAPISpec.
From Verif.Proofs Require Import Order GoStrFacts GoPathFacts SquashTree SquashLoad SquashSim SquashStack SquashWf SquashInv SquashWrite SquashReload SquashMain.
Import ListNotations.
Local Arguments byte_eqb : simpl never.
Local Arguments str_eqb : simpl never.
Local Arguments clean : simpl never.

(** *** invariants of a loaded stack *)
Lemma load_entries_inv n es : forall es0 t, Forall good_entry es -> remembers es0 (view_of t) -> leafy (view_of t) -> wfv (view_of t) ->
  (forall es1 e es2, es = es1 ++ e :: es2 -> no_link_above (es0 ++ es1) e) ->
  exists t', load_entries (S (S (S (S n)))) t (map parsed es) = Ret t' /\ wfv (view_of t') /\
    ((forall es1 e es2, es = es1 ++ e :: es2 -> no_file_above (es0 ++ es1) e) ->
     forall base fs, blank base \/ (forall es1 e es2, es = es1 ++ e :: es2 -> not_hidden (es0 ++ es1) e) ->
       feq fs (interp (view_of t) base) -> feq (fold_left unpack_entry es fs) (interp (view_of t') base)).
Proof.
  induction es as [|e es IH]; intros es0 t G RM L W H.
  - exists t. split; [reflexivity|]. split; auto.
  - inversion G as [|? ? G1 G2]; subst. pose proof (H [] e es eq_refl) as NL. rewrite app_nil_r in NL.
    destruct (load_entry_sim n es0 t e G1 RM L NL) as (t1 & E1 & RM1 & L1 & V1 & _ & S1).
    destruct (IH (es0 ++ [e]) t1) as (t' & E' & W' & S'); auto.
    { eapply wfv_step; eauto. }
    { intros es1 e' es2 Ee. specialize (H (e :: es1) e' es2). rewrite <- app_assoc. apply H. now rewrite Ee. }
    exists t'. split; [|split; auto].
    + cbn [map load_entries]. rewrite E1. exact E'.
    + intros NF base fs HB HF. cbn [fold_left]. apply S'.
      * intros es1 e' es2 Ee. specialize (NF (e :: es1) e' es2). rewrite <- app_assoc. apply NF. now rewrite Ee.
      * destruct HB as [HB|HB]; [now left|right]. intros es1 e' es2 Ee. specialize (HB (e :: es1) e' es2). rewrite <- app_assoc. apply HB. now rewrite Ee.
      * specialize (NF [] e es eq_refl). rewrite app_nil_r in NF. apply S1; auto.
        -- intros a B. destruct (non_dir (hdr_of (view_of t) a)) eqn:ND; auto. exfalso.
           apply (NF a B). apply (file_known es0 (view_of t)); auto. now apply (good_real_anc e).
        -- destruct HB as [HB|HB]; [now right|left]. specialize (HB [] e es eq_refl). now rewrite app_nil_r in HB.
Qed.
Theorem load_plain n layers : plain_stack layers ->
  exists t, load_layers (S (S (S (S n)))) false layers = Ret t /\ wf any ok_key t /\ wfv (view_of t) /\ leafy (view_of t) /\
    remembers (all_entries layers) (view_of t) /\
    (forall base, (exists m, base [] = Some (FDir m)) -> blank base \/ history not_hidden (all_entries layers) ->
       fagree (unpack base layers) (interp (view_of t) base)) /\
    (history no_file_above (all_entries layers) ->
     forall base, (exists m, base [] = Some (FDir m)) -> blank base \/ history not_hidden (all_entries layers) ->
       feq (unpack base layers) (interp (view_of t) base)).
Proof.
  intros P. destruct (load_sim n layers P) as (t & E & RM & L & S). destruct P as [G NL].
  exists t. split; auto. split; [eapply wf_any; eauto|].
  destruct (load_entries_inv n (all_entries layers) [] empty_tree) as (t' & E' & W & S'); auto.
  - now apply good_all.
  - apply remembers_empty.
  - apply leafy_empty.
  - apply wfv_empty.
  - assert (T : t' = t).
    { unfold load_layers in E. rewrite load_layers_entries in E; [congruence|]. eapply Forall_impl; [|exact G]. intros l. apply Forall_impl, good_inside. }
    subst t'. split; auto. split; auto. split; auto. split; auto.
    intros NF base [m Hm] HB. rewrite unpack_all. apply S'; auto. intros q Rq. rewrite interp_empty. destruct q; [now rewrite Hm|reflexivity].
Qed.

(** *** C26 *)
Theorem squash_preserves n sort order layers : sorts sort -> permutes order -> plain_stack layers ->
  exists out, squash (4 + n) sort order layers = Ret out /\
    forall base, (exists m, base [] = Some (FDir m)) -> blank base \/ history not_hidden (all_entries layers) ->
    forall p, real_path p -> agree (unpack base layers p) (unpack base [out] p) /\
      (history no_file_above (all_entries layers) -> unpack base layers p = unpack base [out] p).
Proof.
  intros HS HO P. destruct (load_plain n layers P) as (t & E & WT & WV & LF & _ & S & SE).
  exists (write_to sort order [] t). split.
  - unfold squash. cbn [plus]. rewrite E. reflexivity.
  - intros base HB HH p R. pose proof (write_exact _ _ t WT WV LF sort order HS HO base HB p R) as X. unfold out in X. rewrite <- X. split.
    + now apply S.
    + intros NF. now apply SE.
Qed.

(** *** C27 *)
Lemma squash_plain n sort order layers out : squash (4 + n) sort order layers = Ret out -> plain_stack layers ->
  exists t, load_layers (4 + n) false layers = Ret t /\ wf any ok_key t /\ wfv (view_of t) /\ leafy (view_of t) /\ out = write_to sort order [] t.
Proof.
  intros E P. destruct (load_plain n layers P) as (t & EL & WT & WV & LF & _). exists t. unfold squash in E. cbn [plus] in *.
  rewrite EL in E. cbn [bind] in E. injection E as <-. auto 6.
Qed.

Definition redv (v : view) (q : path) : bool := marker_name (last q []) && str_ltb (last q []) opq && present v (removelast q ++ [opq]).
Definition na (n : option node) : option node := option_map (fun n => (option_map anon (fst n), snd n)) n.
Definition sub (v v' : view) : Prop := forall q, na (v' q) = na (v q) \/ (v' q = None /\ redv v q = true).
Lemma redv_mark v q : redv v q = true -> exists d k, q = d ++ [k] /\ marker_name k = true /\ str_ltb k opq = true /\ present v (d ++ [opq]) = true.
Proof.
  unfold redv. rewrite !andb_true_iff. intros [[M L] P]. destruct q as [|k d _] using rev_ind; [discriminate|].
  rewrite last_last, removelast_last in *. eauto 6.
Qed.
Lemma redv_intro v d k : marker_name k = true -> str_ltb k opq = true -> present v (d ++ [opq]) = true -> redv v (d ++ [k]) = true.
Proof. intros M L P. unfold redv. rewrite last_last, removelast_last, M, L, P. reflexivity. Qed.
Lemma opq_ltb : str_ltb opq opq = false.
Proof. reflexivity. Qed.
Lemma redv_opq v d : redv v (d ++ [opq]) = false.
Proof. unfold redv. rewrite last_last, opq_ltb, andb_false_r. reflexivity. Qed.
Lemma redv_real v q : real_path q -> redv v q = false.
Proof.
  intros R. destruct (redv v q) eqn:E; auto. apply redv_mark in E as (d & k & -> & M & _). apply real_not_marker in R. congruence.
Qed.
Lemma na_present v v' q : na (v' q) = na (v q) -> present v' q = present v q.
Proof. unfold present. destruct (v' q), (v q); cbn; congruence. Qed.
Lemma sub_opq v v' d : sub v v' -> present v' (d ++ [opq]) = present v (d ++ [opq]).
Proof. intros S. destruct (S (d ++ [opq])) as [H|[_ H]]; [now apply na_present|]. rewrite redv_opq in H. discriminate. Qed.
Lemma sub_redv v v' q : sub v v' -> redv v' q = redv v q.
Proof. intros S. unfold redv. now rewrite (sub_opq v v'). Qed.
Lemma sub_real v v' q : sub v v' -> real_path q -> na (v' q) = na (v q).
Proof. intros S R. destruct (S q) as [H|[_ H]]; auto. rewrite redv_real in H by auto. discriminate. Qed.
Lemma na_hdr v v' q : na (v' q) = na (v q) -> option_map anon (hdr_of v' q) = option_map anon (hdr_of v q).
Proof.
  unfold hdr_of. destruct (v' q) as [[h b]|], (v q) as [[h' b']|]; cbn; try congruence; intros H; now injection H.
Qed.
Lemma na_non_dir h h' : option_map anon h = option_map anon h' -> non_dir h = non_dir h'.
Proof.
  destruct h as [h|], h' as [h'|]; cbn [option_map]; try congruence. intros H. assert (T : anon h = anon h') by congruence.
  apply (f_equal th_type) in T. cbn [anon th_type with_name] in T. cbn [non_dir]. now rewrite T.
Qed.
Lemma na_link h h' : option_map anon h = option_map anon h' -> Squash.link_of h = Squash.link_of h'.
Proof.
  destruct h as [h|], h' as [h'|]; cbn [option_map]; try congruence. intros H. assert (T : anon h = anon h') by congruence.
  pose proof (f_equal th_type T) as T1. pose proof (f_equal th_link T) as T2. cbn [anon th_type th_link with_name] in T1, T2.
  cbn [Squash.link_of]. now rewrite T1, T2.
Qed.
Lemma sub_hdr v v' q : sub v v' -> real_path q -> non_dir (hdr_of v' q) = non_dir (hdr_of v q).
Proof. intros S R. apply na_non_dir, na_hdr, sub_real; auto. Qed.
Lemma sub_vput v v' p n : sub v v' -> sub (vput v p n) (vput v' p n).
Proof.
  intros S q. unfold vput at 1 2 3. destruct (path_dec q p) as [->|N]; auto. destruct (S q) as [H|[H R]]; auto. right. split; auto.
  apply redv_mark in R as (d & k & -> & M & L & P). apply redv_intro; auto. unfold present, vput in *. now destruct (path_dec _ _).
Qed.
Lemma sub_keep v v' (keep : path -> bool) : (forall d k, str_ltb k opq = true -> keep (d ++ [k]) = true -> keep (d ++ [opq]) = true) -> sub v v' ->
  sub (fun q => if keep q then v q else None) (fun q => if keep q then v' q else None).
Proof.
  intros HK S q. destruct (keep q) eqn:E; auto. destruct (S q) as [H|[H R]]; auto. right. split; auto.
  apply redv_mark in R as (d & k & -> & M & L & P). apply redv_intro; auto. unfold present in *. rewrite (HK d k); auto.
Qed.
Lemma sub_ext v v' w w' : veq v w -> veq v' w' -> sub v v' -> sub w w'.
Proof.
  intros E E' S q. rewrite <- E, <- E'. destruct (S q) as [H|[H R]]; auto. right. split; auto. rewrite <- R. unfold redv, present. now rewrite E.
Qed.
Lemma vclear_keep v p : veq (fun q => if negb (below p q) then v q else None) (vclear v p).
Proof. intros q. unfold vclear. now destruct (below p q). Qed.
Lemma vcut_keep v p : veq (fun q => if negb (at_or_below p q) then v q else None) (vcut v p).
Proof. intros q. unfold vcut. now destruct (at_or_below p q). Qed.
Lemma sub_vclear v v' p : sub v v' -> sub (vclear v p) (vclear v' p).
Proof.
  intros S. eapply sub_ext; [apply vclear_keep|apply vclear_keep|]. apply sub_keep; auto. intros d k _ K. apply negb_true_iff in K. apply negb_true_iff.
  destruct (below p (d ++ [opq])) eqn:B; auto. apply below_snoc in B. rewrite <- K. symmetry.
  apply aob_spec in B as [r ->]. rewrite <- app_assoc. destruct r; apply below_app.
Qed.
Lemma sub_vcut v v' d0 k0 : k0 <> opq -> sub v v' -> sub (vcut v (d0 ++ [k0])) (vcut v' (d0 ++ [k0])).
Proof.
  intros N S. eapply sub_ext; [apply vcut_keep|apply vcut_keep|]. apply sub_keep; auto. intros d k _ K. apply negb_true_iff in K. apply negb_true_iff.
  destruct (at_or_below (d0 ++ [k0]) (d ++ [opq])) eqn:B; auto. apply aob_cases in B as [B|B].
  - apply child_inj in B as [_ B]. congruence.
  - apply below_snoc in B. rewrite <- K. symmetry. eapply aob_trans; [exact B|apply aob_app].
Qed.
Lemma sub_vmkdir v v' f : sub v v' -> real_path f -> sub (vmkdir v f) (vmkdir v' f).
Proof.
  intros S R. pose proof (sub_hdr v v' f S R) as H. pose proof (na_present v v' f (sub_real v v' f S R)) as P. unfold vmkdir, hdr_of, present in *.
  destruct (v f) as [[h b]|], (v' f) as [[h' b']|]; try discriminate; cbn [fst] in H; [rewrite H; destruct (non_dir h)|]; auto; repeat apply sub_vput; auto.
Qed.
Lemma sub_vmkdirs ds : forall v v' f, sub v v' -> real_path (f ++ ds) -> sub (vmkdirs_from v f ds) (vmkdirs_from v' f ds).
Proof.
  induction ds as [|k ds IH]; intros v v' f S R; cbn [vmkdirs_from].
  - rewrite app_nil_r in R. now apply sub_vmkdir.
  - apply IH; [|now rewrite <- app_assoc]. apply sub_vmkdir; auto. now apply real_app in R.
Qed.
Lemma sub_vwrite v v' p h b : sub v v' -> real_path p \/ byte_eqb (th_type h) TypeDir = false -> sub (vwrite v p h b) (vwrite v' p h b).
Proof.
  intros S R. unfold vwrite. destruct (byte_eqb (th_type h) TypeDir) eqn:D.
  - destruct R as [R|R]; [|discriminate]. rewrite (sub_hdr v v' p S R). destruct (non_dir _); repeat apply sub_vput; auto.
  - apply sub_vclear, sub_vput, S.
Qed.
Lemma sub_vsettle v v' d k : sub v v' -> (marker_name k = true -> k <> opq -> exists x, k = wh_prefix ++ x /\ real_path [x]) -> sub (vsettle v d k) (vsettle v' d k).
Proof.
  intros S G. unfold vsettle. change (has_prefix wh_prefix k) with (marker_name k). destruct (marker_name k) eqn:M; [destruct (str_eqb k opq) eqn:E|].
  - apply str_eqb_eq in E as ->.
    set (keep q := negb (below d q) || at_or_below (d ++ [opq]) q).
    assert (X : forall w, veq (fun q => if keep q then w q else None) (fun q => if below d q then if at_or_below (d ++ [opq]) q then w q else None else w q)).
    { intros w q. unfold keep. destruct (below d q); auto. }
    eapply sub_ext; [apply X|apply X|]. apply sub_keep; auto. unfold keep. intros d1 k1 L K. apply orb_true_iff in K. apply orb_true_iff. destruct K as [K|K].
    + apply negb_true_iff in K. left. apply negb_true_iff.
      destruct (below d (d1 ++ [opq])) eqn:B; auto. rewrite <- K. symmetry. apply below_snoc in B. now apply below_snoc.
    + right. apply aob_cases in K as [K|K].
      * apply child_inj in K as [_ ->]. rewrite opq_ltb in L. discriminate.
      * apply below_snoc in K. eapply aob_trans; [exact K|apply aob_app].
  - destruct G as (x & -> & R); auto; [intros ->; rewrite str_eqb_refl in E; discriminate|]. rewrite trim_prefix_app. apply sub_vcut; auto.
    intros ->. apply (real_not_marker [] opq) in R. discriminate.
  - apply sub_vcut; auto. intros E. symmetry in E. apply opq_wh in E. congruence.
Qed.
Lemma sub_vstep v v' e : sub v v' -> good_entry e ->
  sub (vstep v (entry_path e) (fst (parsed e)) (snd e)) (vstep v' (entry_path e) (fst (parsed e)) (snd e)).
Proof.
  intros S G. destruct (path_dec (entry_path e) []) as [E|N].
  - rewrite E. cbn [vstep]. apply (sub_vcut _ _ [] $".wh.."); [discriminate|]. apply sub_vwrite; auto. left. split; constructor.
  - rewrite !vstep_shape by auto. destruct (exists_last N) as (d & k & E). rewrite E, removelast_last, last_last.
    assert (X : real_path d /\ (real_path (d ++ [k]) \/ is_dir e = false) /\ (marker_name k = true -> k <> opq -> exists x, k = wh_prefix ++ x /\ real_path [x])).
    { destruct G as [_ [R|(d' & k' & E' & R & D & L & K)]].
      - rewrite E in R. split; [now apply real_app in R|]. split; auto. intros M. apply real_not_marker in R. congruence.
      - rewrite E in E'. apply child_inj in E' as [<- <-]. split; auto. split; auto. intros _ NK. destruct K as [K|K]; auto. now destruct NK. }
    destruct X as (R & D & K). apply sub_vsettle; auto. apply sub_vwrite; auto. apply sub_vmkdirs; auto.
Qed.

(** Loading the same entries on top of both. *)
Lemma remembers_sub es v v' : sub v v' -> wfv v -> remembers es v -> remembers es v'.
Proof.
  intros S W [J1 J2]. split.
  - intros q R. specialize (J1 q R). replace (interp v' empty_root q) with (interp v empty_root q); auto. destruct (S q) as [H|[_ H]]; [|now rewrite redv_real in H].
    assert (VE : visible v empty_root q = visible v' empty_root q) by (destruct q; [reflexivity|]; unfold visible; cbn [empty_root]; now destruct (shadow v _ _), (shadow v' _ _)).
    unfold interp. rewrite VE. destruct (v q) as [[[h|] b]|], (v' q) as [[[h'|] b']|]; cbn in H; try congruence; auto.
    + assert (A : anon h = anon h') by congruence. pose proof (f_equal th_type A) as T. cbn in T. rewrite A, T. replace b' with b by congruence. reflexivity.
  - intros d x R HV. apply J2; auto. destruct (S (d ++ [wh_prefix ++ x])) as [H|[H _]]; [|congruence]. intros X. rewrite X in H.
    destruct (v' (d ++ [wh_prefix ++ x])); [discriminate|congruence].
Qed.
Lemma load_entries_par n es : forall es0 t t', Forall good_entry es -> remembers es0 (view_of t) -> remembers es0 (view_of t') ->
  leafy (view_of t) -> leafy (view_of t') -> wfv (view_of t) -> wfv (view_of t') -> sub (view_of t) (view_of t') ->
  (forall es1 e es2, es = es1 ++ e :: es2 -> no_link_above (es0 ++ es1) e) ->
  exists u u', load_entries (S (S (S (S n)))) t (map parsed es) = Ret u /\ load_entries (S (S (S (S n)))) t' (map parsed es) = Ret u' /\
    sub (view_of u) (view_of u') /\ wfv (view_of u) /\ wfv (view_of u') /\ leafy (view_of u) /\ leafy (view_of u').
Proof.
  induction es as [|e es IH]; intros es0 t t' G RM RM' L L' W W' S H.
  - exists t, t'. split; [reflexivity|]. split; [reflexivity|]. auto.
  - inversion G as [|? ? G1 G2]; subst. pose proof (H [] e es eq_refl) as NL. rewrite app_nil_r in NL.
    destruct (load_entry_sim n es0 t e G1 RM L NL) as (t1 & E1 & RM1 & L1 & V1 & _).
    destruct (load_entry_sim n es0 t' e G1 RM' L' NL) as (t1' & E1' & RM1' & L1' & V1' & _).
    destruct (IH (es0 ++ [e]) t1 t1') as (u & u' & E & E' & S' & R'); auto.
    { now apply (wfv_step (view_of t) e). }
    { now apply (wfv_step (view_of t') e). }
    { eapply sub_ext; [intros q; symmetry; apply V1|intros q; symmetry; apply V1'|]. now apply sub_vstep. }
    { intros es1 e' es2 Ee. specialize (H (e :: es1) e' es2). rewrite <- app_assoc. apply H. now rewrite Ee. }
    exists u, u'. cbn [map load_entries]. rewrite E1, E1'. auto.
Qed.

Lemma filter_all {A} (f : A -> bool) l : (forall x, In x l -> f x = true) -> filter f l = l.
Proof. intros H. induction l as [|a l IH]; auto. cbn [filter]. rewrite H by now left. f_equal. apply IH. intros x I. apply H. now right. Qed.
(** *** written layers without redundant markers *)
Section written.
  Context (sort : (str -> str -> bool) -> list str -> list str) (order : list str -> list str -> list str).
  Context (HS : sorts sort) (HO : permutes order).
  Lemma superseded_mk t q : wfv (view_of t) -> wf any ok_key t -> headed (view_of t) q = true ->
    superseded (write_to sort order [] t) (mk (view_of t) q) = redv (view_of t) q.
  Proof.
    intros W WT H. unfold superseded, redv. rewrite mk_path by auto. f_equal.
    apply eq_true_iff_eq. rewrite existsb_exists. rewrite write_mk. split.
    - intros (e & I & E). apply in_map_iff in I as (z & <- & I). apply headed_walk_in in I as (h & b & I); auto. destruct (path_dec _ _) as [Ez|]; [|discriminate].
      rewrite mk_path in Ez; auto; [|unfold headed; now rewrite I]. unfold present. change opq with $".wh..wh..opq". rewrite <- Ez, I. reflexivity.
    - intros P. unfold present in P. destruct (view_of t (removelast q ++ [opq])) as [n|] eqn:E; [|discriminate].
      assert (HH : headed (view_of t) (removelast q ++ [opq]) = true).
      { unfold headed. rewrite E. destruct (w_shape _ W _ _ E) as [R|[_ (h & b & -> & _)]]; auto. now apply (real_ne_opq _ (removelast q)) in R. }
      exists (mk (view_of t) (removelast q ++ [opq])). split.
      + apply in_map. apply headed_walk_in; auto. unfold headed in HH. destruct (view_of t (removelast q ++ [opq])) as [[[h|] b]|]; try discriminate. eauto.
      + rewrite mk_path by auto. change opq with $".wh..wh..opq". now destruct (path_dec _ _).
  Qed.
  Lemma effective_mk t : wfv (view_of t) -> wf any ok_key t ->
    effective (write_to sort order [] t) = map (mk (view_of t)) (filter (fun q => negb (redv (view_of t) q)) (headed_walk sort order t)).
  Proof.
    intros W WT. unfold effective. 
    transitivity (filter (fun e => negb (superseded (write_to sort order [] t) e)) (map (mk (view_of t)) (headed_walk sort order t))); [now rewrite <- write_mk|].
    apply filter_map_mk. intros q I.
    rewrite superseded_mk; auto. unfold headed_walk in I. now apply filter_In in I.
  Qed.
  Lemma mk_na v v' q : na (v' q) = na (v q) -> mk v' q = mk v q.
  Proof.
    unfold mk. destruct (v' q) as [[[h|] b]|], (v q) as [[[h'|] b']|]; cbn [na option_map fst snd]; try congruence; intros H.
    - assert (T : anon h = anon h') by congruence. assert (b = b') as -> by congruence. pose proof (f_equal th_type T) as T1. cbn [anon th_type with_name] in T1. rewrite T1.
      f_equal. now apply (f_equal (fun h => with_name h (if byte_eqb (th_type h') TypeDir then node_name q ++ $"/" else node_name q))) in T.
  Qed.
  Lemma headed_na v v' q : na (v' q) = na (v q) -> headed v' q = headed v q.
  Proof. unfold headed. destruct (v' q) as [[[h|] b]|], (v q) as [[[h'|] b']|]; cbn; congruence. Qed.
  Lemma effective_sub t t' : wfv (view_of t) -> wf any ok_key t -> wfv (view_of t') -> wf any ok_key t' -> sub (view_of t) (view_of t') ->
    effective (write_to sort order [] t') = effective (write_to sort order [] t).
  Proof.
    intros W WT W' WT' S. rewrite !effective_mk by auto.
    assert (X : forall q, redv (view_of t) q = false -> na (view_of t' q) = na (view_of t q)).
    { intros q R. destruct (S q) as [H|[_ H]]; auto. congruence. }
    assert (EQ : filter (fun q => negb (redv (view_of t') q)) (headed_walk sort order t') = filter (fun q => negb (redv (view_of t) q)) (headed_walk sort order t)).
    { apply (sorted_unique before); [apply before_asym| | |].
      - apply sorted_filter. now apply (headed_walk_sorted sort order HS HO any ok_key).
      - apply sorted_filter. now apply (headed_walk_sorted sort order HS HO any ok_key).
      - intros q. rewrite !filter_In, (sub_redv _ _ q S).
        assert (HI : forall u, In q (headed_walk sort order u) <-> headed (view_of u) q = true).
        { intros u. rewrite headed_walk_in by auto. unfold headed. destruct (view_of u q) as [[[h|] b]|]; split; try discriminate; eauto.
          - intros (h & c & H). congruence.
          - intros (h & c & H). congruence. }
        rewrite !HI. destruct (redv (view_of t) q) eqn:R; cbn [negb]; [intuition congruence|]. rewrite (headed_na _ _ q (X q R)). reflexivity. }
    rewrite EQ. apply map_ext_in. intros q I. apply filter_In in I as [_ I]. apply negb_true_iff in I. apply mk_na. auto.
  Qed.
  (** Without redundant markers nothing is left out. *)
  Lemma effective_id t : wfv (view_of t) -> wf any ok_key t -> (forall q, headed (view_of t) q = true -> redv (view_of t) q = false) ->
    effective (write_to sort order [] t) = write_to sort order [] t.
  Proof.
    intros W WT H. rewrite effective_mk, write_mk by auto. f_equal. apply filter_all. intros q I. rewrite H; auto.
    unfold headed_walk in I. now apply filter_In in I.
  Qed.
  (** The layer that was written is itself a plain stack. *)
  Context (t : tree) (WT : wf any ok_key t) (WV : wfv (view_of t)) (LF : leafy (view_of t)).
  Notation v := (view_of t).
  Notation o := (write_to sort order [] t).
  Lemma out_split es1 e es2 : all_entries [o] = es1 ++ e :: es2 ->
    exists L1 p L2, es1 = map (mk v) L1 /\ e = mk v p /\ okstep v L1 p /\ reordered (headed_walk sort order t) = L1 ++ p :: L2.
  Proof.
    cbn [all_entries flat_map]. rewrite app_nil_r, write_mk, in_order_mk by (auto; apply (HW_all t sort order)).
    intros E. apply map_eq_app in E as (L1 & L2 & E & E1 & E2). destruct L2 as [|p L2]; [discriminate|]. injection E2 as E2 _.
    exists L1, p, L2. split; auto. split; auto. split; auto. now apply (reordered_ok any ok_key t WT WV LF sort order HS HO L1 p L2).
  Qed.
  Lemma out_good : Forall good_entry o.
  Proof.
    rewrite write_mk. apply Forall_forall. intros e I. apply in_map_iff in I as (q & <- & I). apply mk_good; auto. now apply (HW_all t sort order).
  Qed.
  Lemma out_above (P : entry -> Prop) : (forall q, headed v q = true -> non_dir (hdr_of v q) = false -> P (mk v q)) ->
    forall es1 e es2, all_entries [o] = es1 ++ e :: es2 -> forall q l, below q (entry_path e) = true -> last_entry es1 (eq q) l -> P l.
  Proof.
    intros HP es1 e es2 E q l B (a & b & El & Hq & _). apply out_split in E as (L1 & p & L2 & -> & -> & OK & _).
    assert (I : In l (map (mk v) L1)) by (rewrite El; apply in_app_iff; right; now left). apply in_map_iff in I as (z & <- & I).
    pose proof (ok_all _ _ _ OK z I) as Hz. rewrite (mk_path v WV z Hz) in Hq. subst q.
    pose proof (ok_head _ _ _ OK) as HH. rewrite (mk_path v WV p HH) in B. apply HP; auto.
    assert (Hv : v p <> None) by (apply headed_some in HH as (h & c & HH); congruence).
    now destruct (above_dir v WV LF (closed_view t) z p Hv B).
  Qed.
  Lemma out_plain : plain_stack [o].
  Proof.
    split; [constructor; [apply out_good|constructor]|]. intros es1 e es2 E. apply no_link_last. intros q l. apply (out_above (fun l => is_link l = false)) with (es2 := es2); auto.
    intros z Hz ND. pose proof (headed_some v z Hz) as (hz & bz & Ez). unfold is_link. rewrite (mk_some v z _ _ Ez). cbn [fst th_type with_name].
    unfold hdr_of in ND. rewrite Ez in ND. cbn [fst] in ND. apply dir_not_link in ND. cbn [Squash.link_of] in ND.
    destruct (byte_eqb (th_type hz) TypeSymlink); congruence.
  Qed.
  Lemma out_no_file : history no_file_above (all_entries [o]).
  Proof.
    intros es1 e es2 E. apply no_file_last. intros q l. apply (out_above (fun l => is_dir l = true)) with (es2 := es2); auto.
    intros z Hz ND. pose proof (headed_some v z Hz) as (hz & bz & Ez). unfold is_dir. rewrite (mk_some v z _ _ Ez). cbn [fst th_type with_name].
    unfold hdr_of in ND. rewrite Ez in ND. cbn [fst non_dir] in ND. now apply negb_false_iff in ND.
  Qed.
  Lemma out_not_hidden : history not_hidden (all_entries [o]).
  Proof.
    intros es1 e es2 E D d x w Ee (a & b & El & Hw & _). destruct Hw as [Hw|Hw]; auto. exfalso.
    apply out_split in E as (L1 & p & L2 & -> & -> & OK & _).
    assert (I : In w (map (mk v) L1)) by (rewrite El; apply in_app_iff; right; now left). apply in_map_iff in I as (z & <- & I).
    pose proof (ok_all _ _ _ OK z I) as Hz. rewrite (mk_path v WV z Hz) in Hw. pose proof (ok_head _ _ _ OK) as HH. rewrite (mk_path v WV p HH) in Ee. subst p.
    pose proof (headed_some v z Hz) as (hz & bz & Ez). rewrite Hw in Ez. pose proof (headed_some v _ HH) as (h & c & Ep).
    assert (X : v (d ++ [wh_prefix ++ x]) = None); [|change $".wh." with wh_prefix in Ez; congruence]. apply (w_hide v WV d x h c); auto.
    destruct (w_shape v WV _ _ Ep) as [R|[_ (h' & b' & Eh & D' & _)]]; [now apply real_app in R|].
    injection Eh as <- <-. unfold is_dir in D. rewrite (mk_some v _ _ _ Ep) in D. cbn [fst th_type with_name] in D. congruence.
  Qed.
  (** Loading it again. *)
  Lemma reload_sub n : exists t2, load_layers (4 + n) false [o] = Ret t2 /\ wf any ok_key t2 /\ wfv (view_of t2) /\ leafy (view_of t2) /\
    sub v (view_of t2) /\ (forall q, headed (view_of t2) q = true -> redv (view_of t2) q = false).
  Proof.
    destruct (reload any ok_key t WT WV LF sort order HS HO n) as (t2 & E & V2 & L2 & _).
    destruct (load_plain n [o] out_plain) as (t2' & E' & WT2 & WV2 & _). cbn [plus].
    assert (t2' = t2) as -> by (unfold out in E; congruence). exists t2. split; auto. split; auto. split; auto. split; auto.
    assert (S : sub v (view_of t2)).
    { intros q. rewrite V2. destruct (redundant t q) eqn:R; auto. left. unfold ren. destruct (v q) as [[[h|] b]|]; reflexivity. }
    split; auto. intros q Hq. rewrite (sub_redv _ _ q S). unfold headed in Hq. rewrite V2 in Hq. change (redv v q) with (redundant t q).
    now destruct (redundant t q).
  Qed.
  Lemma resquash n : squash (4 + n) sort order [o] = Ret (effective o).
  Proof.
    destruct (reload_sub n) as (t2 & E & WT2 & WV2 & _ & S & NR). unfold squash. rewrite E. cbn [bind]. f_equal.
    rewrite <- (effective_id t2) by auto. now apply effective_sub.
  Qed.
End written.

Lemma effective_twice l : effective (effective l) = effective l.
Proof.
  assert (X : forall e, superseded (effective l) e = superseded l e).
  { intros e. unfold superseded. f_equal. apply eq_true_iff_eq. rewrite !existsb_exists. split; intros (e' & I & E); exists e'; split; auto.
    - now apply filter_In in I.
    - apply filter_In. split; auto. unfold superseded. destruct (path_dec _ _) as [Ep|]; [|discriminate]. rewrite Ep, last_last.
      change $".wh..wh..opq" with opq. rewrite opq_ltb, andb_false_r. reflexivity. }
  unfold effective at 1. rewrite (filter_ext _ (fun e => negb (superseded l e))) by (intros e; now rewrite X).
  unfold effective. apply filter_all. intros e I. now apply filter_In in I.
Qed.
Section again.
  Context (sort : (str -> str -> bool) -> list str -> list str) (order : list str -> list str -> list str).
  Context (HS : sorts sort) (HO : permutes order).
  Theorem squash_again n layers out : plain_stack layers -> squash (4 + n) sort order layers = Ret out ->
    squash (4 + n) sort order [out] = Ret (effective out) /\ squash (4 + n) sort order [effective out] = Ret (effective out).
  Proof.
    intros P E. destruct (squash_plain n sort order layers out E P) as (t & EL & WT & WV & LF & ->).
    pose proof (resquash sort order HS HO t WT WV LF n) as R. split; auto.
    destruct (squash_plain n sort order _ _ R (out_plain sort order HS HO t WT WV LF)) as (t2 & _ & WT2 & WV2 & LF2 & E2).
    pose proof (resquash sort order HS HO t2 WT2 WV2 LF2 n) as R2. rewrite <- E2, effective_twice in R2. exact R2.
  Qed.
  Theorem squash_again_meaning n layers out base p : plain_stack layers -> squash (4 + n) sort order layers = Ret out ->
    (exists m, base [] = Some (FDir m)) -> real_path p -> unpack base [effective out] p = unpack base [out] p.
  Proof.
    intros P E B R. destruct (squash_plain n sort order layers out E P) as (t & EL & WT & WV & LF & ->).
    destruct (squash_preserves n sort order [write_to sort order [] t] HS HO (out_plain sort order HS HO t WT WV LF)) as (o & Eo & S).
    rewrite (resquash sort order HS HO t WT WV LF n) in Eo. injection Eo as <-. symmetry. apply S; auto.
    - right. now apply out_not_hidden.
    - now apply out_no_file.
  Qed.
  Lemma load_layers_app n l1 : forall t l2, load_layers_from n false t (l1 ++ l2) = bind (load_layers_from n false t l1) (fun t => load_layers_from n false t l2).
  Proof.
    induction l1 as [|l l1 IH]; intros t l2; [reflexivity|]. cbn [app load_layers_from]. destruct (parse_layer false l) as [[w f]| |]; cbn [bind]; auto.
    destruct (load_entries n t w); cbn [bind]; auto. destruct (load_entries n a f); cbn [bind]; auto.
  Qed.
  Theorem squash_staged n l1 l2 : plain_stack (l1 ++ l2) ->
    exists o1 o o', squash (4 + n) sort order l1 = Ret o1 /\ squash (4 + n) sort order (l1 ++ l2) = Ret o /\
      squash (4 + n) sort order (o1 :: l2) = Ret o' /\ effective o' = effective o.
  Proof.
    intros [G NL]. assert (P1 : plain_stack l1).
    { apply Forall_app in G as [G _]. split; auto. intros es1 e es2 E. apply (NL es1 e (es2 ++ all_entries l2)).
      unfold all_entries in *. rewrite flat_map_app, E, <- app_assoc. reflexivity. }
    apply Forall_app in G as [_ G2].
    destruct (load_plain n l1 P1) as (t1 & E1 & WT1 & WV1 & LF1 & RM1 & _).
    destruct (reload_sub sort order HS HO t1 WT1 WV1 LF1 n) as (t2 & E2 & WT2 & WV2 & LF2 & S & _).
    destruct (load_entries_par n (all_entries l2) (all_entries l1) t1 t2) as (u & u' & Eu & Eu' & Su & Wu & Wu' & _); auto.
    - now apply good_all.
    - now apply (remembers_sub _ (view_of t1)).
    - intros es1 e es2 E. apply (NL (all_entries l1 ++ es1) e es2). unfold all_entries in *. rewrite flat_map_app, E, <- app_assoc. reflexivity.
    - assert (I2 : Forall (Forall inside) l2) by (eapply Forall_impl; [|exact G2]; intros l; apply Forall_impl, good_inside).
      assert (LU : load_layers (4 + n) false (l1 ++ l2) = Ret u).
      { unfold load_layers. rewrite load_layers_app. change (load_layers_from (4 + n) false empty_tree l1) with (load_layers (4 + n) false l1).
        cbn [plus]. rewrite E1. cbn [bind]. now rewrite load_layers_entries. }
      assert (LU' : load_layers (4 + n) false (write_to sort order [] t1 :: l2) = Ret u').
      { change (write_to sort order [] t1 :: l2) with ([write_to sort order [] t1] ++ l2). unfold load_layers. rewrite load_layers_app.
        change (load_layers_from (4 + n) false empty_tree [write_to sort order [] t1]) with (load_layers (4 + n) false [write_to sort order [] t1]).
        rewrite E2. cbn [bind]. now rewrite load_layers_entries. }
      exists (write_to sort order [] t1), (write_to sort order [] u), (write_to sort order [] u'). unfold squash. cbn [plus] in *.
      rewrite E1, LU, LU'. cbn [bind]. split; auto. split; auto. split; auto. apply effective_sub; auto; eapply wf_any; eauto.
  Qed.
End again.
