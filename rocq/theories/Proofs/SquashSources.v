(** Where the entries of a squashed layer come from. *)
From Coq Require Import String Ascii List Bool ZArith Sorted Permutation Lia.
From Verif.Model Require Import GoStr GoPath Tar Squash.
From Verif.Spec Require Import PathSpec SimpleAPISpec SquashSpec.
From Verif.Proofs Require Import Order GoStrFacts GoPathFacts SimpleAPIFacts SquashTree SquashLoad SquashWf SquashWrite SquashSim SquashStack SquashInv SquashReload SquashMain SquashFinal SquashMore SquashHard.
Import ListNotations.
Local Open Scope nat_scope.
Local Arguments byte_eqb : simpl never.
Local Arguments str_eqb : simpl never.
Local Arguments clean : simpl never.

(** *** any stack *)
Theorem squash_from n sort order layers out e : sorts sort -> permutes order -> squash n sort order layers = Ret out -> In e out ->
  (exists l e0, In l layers /\ In e0 l /\ anon (fst e) = anon (fst e0) /\ snd e = snd e0) \/
  (anon (fst e) = plain_header TypeReg 420 /\ snd e = []).
Proof.
  intros HS HO E I. apply squash_ret in E as (t & E & ->). apply out_cases in I as (q & h & b & V & _ & Ee); auto.
  set (Q := fun x : entry => (exists l e0, In l layers /\ In e0 l /\ anon (fst x) = anon (fst e0) /\ snd x = snd e0) \/
    (anon (fst x) = plain_header TypeReg 420 /\ snd x = [])).
  assert (W : wf Q ok_key t).
  { revert E. apply load_layers_wf.
    - destruct plain_opq as (H1 & H2 & H3 & H4). split; auto.
    - right. split; reflexivity.
    - intros x y l _ _. apply split_rest_ok.
    - intros l whs files Il EP.
      assert (X : forall x, In x (whs ++ files) -> ok_entry Q ok_key x).
      { intros x Ix. destruct (parse_in false l whs files EP x Ix) as (e0 & I0 & Hf & _ & Hb). split; [|apply split_rest_ok].
        left. exists l, e0. split; auto. split; auto. cbn [fst snd]. split; auto. rewrite Hf. reflexivity. }
      split; apply Forall_forall; intros x Ix; apply X, in_app_iff; auto.
    - apply wf_empty. }
  unfold view_of in V. destruct (subtree t q) as [s|] eqn:ES; [|discriminate]. injection V as Vh Vb.
  destruct (W q s ES) as (_ & _ & HQ). specialize (HQ h Vh). rewrite Vb in HQ. rewrite Ee. exact HQ.
Qed.

(** *** stacks that are not written through links *)
Definition src (es : list entry) (v : view) : Prop := forall q h b, v q = Some (Some h, b) ->
  (exists e, In e es /\ entry_path e = q /\ h = fst (parsed e) /\ b = snd e) \/
  (exists a, q = a ++ [opq] /\ h = opq_header /\ b = [] /\ turned es a).
Lemma src_shrink es v w : (forall z, w z = None \/ w z = v z) -> src es v -> src es w.
Proof. intros H S q h b E. destruct (H q) as [X|X]; [congruence|]. apply S. congruence. Qed.
Lemma src_more es es' v : (forall e, In e es -> In e es') -> src es v -> src es' v.
Proof.
  intros H S q h b E. destruct (S q h b E) as [(e & I & R)|(a & E1 & E2 & E3 & e1 & e2 & I1 & I2 & R)]; [left; eauto|].
  right. exists a. repeat split; auto. exists e1, e2. auto.
Qed.
Lemma src_file es v f h b : src es v -> real_path f -> v f = Some (Some h, b) -> non_dir (Some h) = true ->
  exists e, In e es /\ entry_path e = f /\ is_dir e = false.
Proof.
  intros S R E N. destruct (S f h b E) as [(e & I & P & Hh & _)|(a & -> & _)].
  - exists e. split; auto. split; auto. unfold is_dir. rewrite Hh in N. cbn [non_dir] in N. now apply negb_true_iff in N.
  - apply real_not_marker in R. discriminate.
Qed.
Lemma src_vmkdir es v f e2 : src es v -> real_path f -> In e2 es -> below f (entry_path e2) = true -> src es (vmkdir v f).
Proof.
  intros S R I2 B. unfold vmkdir. destruct (v f) as [[h b]|] eqn:E.
  - destruct (non_dir h) eqn:N; auto. destruct h as [h|]; [|discriminate]. destruct (src_file es v f h b S R E N) as (e1 & I1 & P1 & D1).
    intros q h' b'. unfold vput. destruct (path_dec q (f ++ [opq])) as [->|].
    + intros X. injection X as <- <-. right. exists f. repeat split; auto. exists e1, e2. auto 6.
    + destruct (path_dec q f); [discriminate|]. apply S.
  - intros q h' b'. unfold vput. destruct (path_dec q f); [discriminate|]. apply S.
Qed.
Lemma src_vmkdirs es e2 ds : forall v f, src es v -> real_path (f ++ ds) -> In e2 es -> below (f ++ ds) (entry_path e2) = true ->
  src es (vmkdirs_from v f ds).
Proof.
  induction ds as [|k ds IH]; intros v f S R I B; cbn [vmkdirs_from].
  - rewrite app_nil_r in *. now apply (src_vmkdir es v f e2).
  - apply IH; auto; rewrite <- ?app_assoc; auto. apply (src_vmkdir es v f e2); auto; [now apply real_app in R|].
    apply below_spec in B as (x & r & ->). rewrite <- app_assoc. cbn [app]. apply below_app.
Qed.
Lemma src_vwrite es v e : src es v -> In e es -> real_path (entry_path e) \/ is_dir e = false ->
  src es (vwrite v (entry_path e) (fst (parsed e)) (snd e)).
Proof.
  intros S I R. unfold vwrite. change (byte_eqb (th_type (fst (parsed e))) TypeDir) with (is_dir e).
  assert (P : src es (vput v (entry_path e) (Some (fst (parsed e)), snd e))).
  { intros q h b. unfold vput. destruct (path_dec q (entry_path e)) as [->|]; [|apply S]. intros X. injection X as <- <-. left. exists e. auto. }
  destruct (is_dir e) eqn:D; [destruct (non_dir _) eqn:N; auto|].
  - destruct R as [R|]; [|discriminate]. intros q h b. unfold vput at 1. destruct (path_dec q (entry_path e ++ [opq])) as [->|]; [|apply P].
    intros X. injection X as <- <-. right. exists (entry_path e). repeat split; auto.
    unfold hdr_of in N. destruct (v (entry_path e)) as [[[h|] b]|] eqn:E; try discriminate. cbn [fst] in N.
    destruct (src_file es v _ h b S R E N) as (e1 & I1 & P1 & D1). exists e1, e. repeat split; auto.
  - eapply src_shrink; [|exact P]. intros z. unfold vclear. destruct (below _ z); auto.
Qed.
Lemma src_step es v e : src es v -> In e es -> good_entry e -> src es (vstep v (entry_path e) (fst (parsed e)) (snd e)).
Proof.
  intros S I G. destruct (path_dec (entry_path e) []) as [E|N].
  - rewrite E. cbn [vstep]. eapply src_shrink; [intros z; unfold vcut; destruct (at_or_below _ z); auto|]. rewrite <- E. apply src_vwrite; auto.
    left. rewrite E. split; constructor.
  - rewrite vstep_shape by auto. eapply src_shrink; [apply vsettle_shrink|]. apply src_vwrite; auto.
    + apply (src_vmkdirs es e); auto; cbn [app].
      * apply (good_real_anc e); auto. destruct (exists_last N) as (d & k & E). rewrite E, removelast_last. apply below_snoc, aob_refl.
      * destruct (exists_last N) as (d & k & E). rewrite E, removelast_last. apply below_snoc, aob_refl.
    + destruct (good_shape e G) as [R|(_ & D & _)]; auto.
Qed.
Lemma load_entries_src n es : forall es0 t, Forall good_entry es -> remembers es0 (view_of t) -> leafy (view_of t) -> src es0 (view_of t) ->
  (forall es1 e es2, es = es1 ++ e :: es2 -> no_link_above (es0 ++ es1) e) ->
  forall t', load_entries (S (S (S (S n)))) t (map parsed es) = Ret t' -> src (es0 ++ es) (view_of t').
Proof.
  induction es as [|e es IH]; intros es0 t G RM L W H t' E.
  - injection E as <-. now rewrite app_nil_r.
  - inversion G as [|? ? G1 G2]; subst. pose proof (H [] e es eq_refl) as NL. rewrite app_nil_r in NL.
    destruct (load_entry_sim n es0 t e G1 RM L NL) as (t1 & E1 & RM1 & L1 & V1 & _ & S1).
    replace (es0 ++ e :: es) with ((es0 ++ [e]) ++ es) by now rewrite <- app_assoc.
    apply (IH (es0 ++ [e]) t1); auto.
    + eapply src_shrink; [intros z; right; apply V1|]. apply src_step; auto; [|apply in_app_iff; right; now left].
      eapply src_more; [|exact W]. intros x I. apply in_app_iff. now left.
    + intros es1 e' es2 Ee. specialize (H (e :: es1) e' es2). rewrite <- app_assoc. apply H. now rewrite Ee.
    + cbn [map load_entries] in E. rewrite E1 in E. exact E.
Qed.
Theorem load_src n layers t : plain_stack layers -> load_layers (S (S (S (S n)))) false layers = Ret t -> src (all_entries layers) (view_of t).
Proof.
  intros [G NL] E. change (all_entries layers) with ([] ++ all_entries layers). apply (load_entries_src n (all_entries layers) [] empty_tree).
  - now apply good_all.
  - apply remembers_empty.
  - apply leafy_empty.
  - intros [|k q] h b; discriminate.
  - exact NL.
  - unfold load_layers in E. rewrite load_layers_entries in E; auto. eapply Forall_impl; [|exact G]. intros l. apply Forall_impl, good_inside.
Qed.
Theorem squash_sources n sort order layers out e : sorts sort -> permutes order -> plain_stack layers ->
  squash (4 + n) sort order layers = Ret out -> In e out ->
  (exists l e0, In l layers /\ In e0 l /\ entry_path e = entry_path e0 /\ anon (fst e) = anon (fst e0) /\ snd e = snd e0) \/
  (exists a, entry_path e = a ++ [$".wh..wh..opq"] /\ anon (fst e) = plain_header TypeReg 420 /\ snd e = [] /\ turned (all_entries layers) a).
Proof.
  intros HS HO P E I. destruct (squash_plain _ _ _ _ _ E P) as (t & EL & WT & WV & LF & ->). pose proof (load_src n layers t P EL) as S.
  apply out_cases in I as (q & h & b & V & Em & Ee); auto.
  assert (EP : entry_path e = q).
  { assert (F : Forall ok_key q) by (eapply wf_keys; [exact WT|congruence]). destruct (named_in_root q h b e F Ee) as (_ & -> & _).
    assert (PQ : plain_path q) by (apply (headed_plain (view_of t) WV); unfold headed; now rewrite V).
    apply filter_all. intros k Ik. unfold plain_path in PQ. rewrite Forall_forall in PQ. apply PQ in Ik as (NE & _). now destruct k. }
  destruct (S q h b V) as [(e0 & I0 & P0 & -> & ->)|(a & -> & -> & -> & T)].
  - left. apply in_all in I0 as (l & Il & Ie). exists l, e0. rewrite Ee at 2 3. repeat split; auto; congruence.
  - right. exists a. rewrite Ee at 2 3. repeat split; auto.
Qed.

(** *** a layer that is in order already *)
Lemma unpacked_file es : forall q h c, unpacked es q = Some (FFile h c) -> exists e, In e es /\ entry_path e = q /\ is_dir e = false.
Proof.
  induction es as [|e es IH] using rev_ind; intros q h c.
  - unfold unpacked. cbn [fold_left]. destruct q; discriminate.
  - unfold unpacked. rewrite fold_left_app. cbn [fold_left]. fold (unpacked es). intros H.
    assert (M : forall fs d x y, mkdirs fs d q = Some (FFile x y) -> fs q = Some (FFile x y)).
    { intros fs d x y. unfold mkdirs. destruct (at_or_below q d); auto. destruct (fs q) as [[?|? ?]|]; discriminate. }
    assert (X : (entry_path e = q /\ is_dir e = false) \/ exists h c, unpacked es q = Some (FFile h c)).
    { unfold unpack_entry in H. set (p := entry_path e) in *.
      destruct (marker_name _); [destruct (str_eqb _ _)|destruct (is_dir e)].
      - unfold remove_below in H. destruct (below _ _); [discriminate|]. apply M in H. eauto.
      - unfold remove in H. destruct (at_or_below _ _); [discriminate|]. apply M in H. eauto.
      - unfold put_node in H. destruct (path_dec q p); [discriminate|]. apply M in H. eauto.
      - unfold put_node in H. destruct (path_dec q p); [auto|]. unfold remove_below in H. destruct (below _ _); [discriminate|]. apply M in H. eauto. }
    destruct X as [[X D]|(h' & c' & X)]; [exists e; split; auto; apply in_app_iff; right; now left|].
    destruct (IH q h' c' X) as (e0 & I0 & R). exists e0. split; auto. apply in_app_iff. now left.
Qed.
Lemma same_by_key {A B C} (f : A -> C) (f' : B -> C) (g : B -> A) l : forall out, map f out = map f' l -> NoDup (map f' l) ->
  (forall x, In x out -> exists y, In y l /\ f x = f' y /\ x = g y) -> out = map g l.
Proof.
  induction l as [|y l IH]; intros out E N H; [now apply map_eq_nil in E|]. destruct out as [|x out]; [discriminate|]. cbn [map] in *.
  injection E as E1 E2. inversion N as [|? ? N1 N2]; subst. f_equal.
  - destruct (H x (or_introl eq_refl)) as (y' & [->|I] & Ey & ->); auto. exfalso. apply N1. apply in_map_iff. exists y'. split; auto. congruence.
  - apply IH; auto. intros x' I. destruct (H x' (or_intror I)) as (y' & [->|I'] & Ey & ->); [|eauto]. exfalso. apply N1. rewrite <- Ey.
    rewrite <- E2. now apply in_map.
Qed.
Lemma in_order_none l : Forall (fun e => is_marker e = false) l -> in_order l = l.
Proof.
  intros H. unfold in_order. rewrite (filter_all (fun e => negb (is_marker e))).
  - replace (filter is_marker l) with (@nil entry); auto. symmetry. induction H as [|e l He H IH]; auto. cbn [filter]. now rewrite He.
  - intros x I. rewrite Forall_forall in H. now rewrite H.
Qed.
Lemma before_irrefl p : ~ before p p.
Proof. intros H. apply (before_asym p p); auto. Qed.
Section one.
  Context (l : list entry) (G : Forall good_entry l) (NM : Forall (fun e => is_marker e = false) l)
    (SS : StronglySorted before (map entry_path l))
    (DA : forall e e', In e l -> In e' l -> below (entry_path e) (entry_path e') = true -> is_dir e = true).
  Lemma one_nodup : NoDup (map entry_path l).
  Proof.
    induction SS as [|p ps S IH F]; constructor; auto. intros I. rewrite Forall_forall in F. now apply before_irrefl in F.
  Qed.
  Lemma one_same e e' : In e l -> In e' l -> entry_path e = entry_path e' -> e = e'.
  Proof.
    pose proof one_nodup as N. clear - N. induction l as [|x xs IH]; intros I I' E; [destruct I|]. cbn [map] in N. inversion N as [|? ? N1 N2]; subst.
    destruct I as [->|I], I' as [->|I']; auto; exfalso; apply N1; [rewrite E|rewrite <- E]; now apply in_map.
  Qed.
  Lemma one_plain : plain_stack [l].
  Proof.
    split; [now constructor|]. unfold all_entries. cbn [flat_map]. rewrite app_nil_r, in_order_none by auto.
    intros es1 e es2 E q B (h & c & H & _). destruct (unpacked_file es1 q h c H) as (e1 & I1 & <- & D).
    rewrite (DA e1 e) in D; auto; [discriminate| |]; rewrite E; apply in_app_iff; auto. right. now left.
  Qed.
  Theorem squash_one n sort order : sorts sort -> permutes order -> squash (4 + n) sort order [l] = Ret (map respelled l).
  Proof.
    intros HS HO. destruct (squash_preserves n sort order [l] HS HO one_plain) as (out & E & _). rewrite E. f_equal.
    assert (SO : StronglySorted before (map entry_path out)).
    { destruct (squash_sorted_plain n sort order [l] HS HO one_plain) as (out' & E' & S'). congruence. }
    assert (FR : forall x, In x out -> exists y, In y l /\ entry_path x = entry_path y /\ x = respelled y).
    { intros x I. destruct (squash_in_root _ _ _ _ _ HS HO E x I) as [_ NW].
      destruct (squash_sources n sort order [l] out x HS HO one_plain E I) as [(l0 & y & [<-|[]] & Iy & EP & EA & EB)|(a & _ & _ & _ & e1 & e2 & I1 & I2 & P1 & D1 & X)].
      - exists y. split; auto. split; auto. unfold respelled. destruct x as [hx bx]. cbn [fst snd] in *. subst bx. f_equal.
        assert (DD : is_dir (hx, snd y) = is_dir y).
        { unfold is_dir. cbn [fst]. apply (f_equal th_type) in EA. cbn [anon th_type with_name] in EA. now rewrite EA. }
        assert (W : written_name (hx, snd y) = written_name y) by (unfold written_name; now rewrite EP, DD). rewrite W in NW. rewrite <- NW.
        transitivity (with_name (anon hx) (th_name hx)); [now destruct hx|]. now rewrite EA.
      - exfalso. assert (I1' : In e1 l) by (apply in_all in I1 as (? & [<-|[]] & ?); auto). assert (I2' : In e2 l) by (apply in_all in I2 as (? & [<-|[]] & ?); auto).
        destruct X as [X|[X D2]].
        + rewrite <- P1 in X. apply DA in X; auto. congruence.
        + rewrite <- P1 in X. apply one_same in X; auto. congruence. }
    apply (same_by_key entry_path entry_path); auto using one_nodup. apply (sorted_unique before); [apply before_asym|exact SO|exact SS|]. intros p. split; intros I.
    - apply in_map_iff in I as (x & <- & I). destruct (FR x I) as (y & Iy & -> & _). now apply in_map.
    - apply in_map_iff in I as (y & <- & I). apply in_split in I as (f1 & f2 & El).
      assert (NMy : is_marker y = false) by (rewrite Forall_forall in NM; apply NM; rewrite El; apply in_app_iff; right; now left).
      destruct (squash_last_wins n sort order [] f1 y f2 [] HS HO) as (out' & E' & (e' & I' & P' & _) & _); auto.
      + cbn [app]. rewrite <- El. apply one_plain.
      + intros z Iz Mz O. assert (Iz' : In z l) by (rewrite El; apply in_app_iff; right; now right).
        assert (Iy' : In y l) by (rewrite El; apply in_app_iff; right; now left).
        destruct O as [O|[(_ & D & O)|[(d & x & O & _)|[(d & O & _)|[D O]]]]].
        * pose proof one_nodup as N. rewrite El, map_app in N. cbn [map] in N. apply NoDup_remove_2 in N. apply N, in_app_iff. right. rewrite <- O. now apply in_map.
        * apply DA in O; auto. congruence.
        * unfold hides in O. unfold is_marker in Mz. rewrite O, last_last in Mz. change (marker_name (wh_prefix ++ x) = false) in Mz. now rewrite wh_marker in Mz.
        * unfold is_marker in Mz. rewrite O, last_last in Mz. discriminate.
        * apply DA in O; auto. congruence.
      + cbn [app] in E'. rewrite <- El in E'. rewrite E in E'. injection E' as <-. rewrite <- P'. now apply in_map.
  Qed.
End one.

(** ** The same files under respelled names *)
Lemma respelled_dir e : is_dir (respelled e) = is_dir e.
Proof. reflexivity. Qed.
Lemma respelled_path e : in_root e -> entry_path (respelled e) = entry_path e.
Proof.
  intros [_ P]. change (clean_comps (written_name e) = entry_path e). unfold written_name. destruct (is_dir e).
  - now apply text_slash_comps.
  - rewrite app_nil_r. apply clean_comps_text. now apply plain_clean.
Qed.
Lemma respelled_unpack fs e : in_root e -> unpack_entry fs (respelled e) = unpack_entry fs e.
Proof. intros R. unfold unpack_entry. now rewrite (respelled_path e R). Qed.
Lemma respelled_order l : Forall in_root l -> in_order (map respelled l) = map respelled (in_order l).
Proof.
  intros F. unfold in_order. rewrite map_app. f_equal; (induction F as [|e l R F IH]; [reflexivity|]); cbn [map filter]; rewrite IH;
    unfold is_marker; rewrite (respelled_path e R); now destruct (marker_name _).
Qed.
Lemma respelled_layer fs l : Forall in_root l -> unpack_layer fs (map respelled l) = unpack_layer fs l.
Proof.
  intros F. unfold unpack_layer. rewrite respelled_order by auto.
  assert (F' : Forall in_root (in_order l)) by (unfold in_order; apply Forall_app; split; apply Forall_forall; intros x I; apply filter_In in I as [I _]; rewrite Forall_forall in F; auto).
  revert fs. induction F' as [|e l' R F' IH]; intros fs; [reflexivity|]. cbn [map fold_left]. rewrite respelled_unpack by auto. apply IH.
Qed.
Theorem respelled_stack base layers1 l layers2 : Forall in_root l -> unpack base (layers1 ++ map respelled l :: layers2) = unpack base (layers1 ++ l :: layers2).
Proof. intros F. unfold unpack. rewrite !fold_left_app. cbn [fold_left]. now rewrite respelled_layer. Qed.
