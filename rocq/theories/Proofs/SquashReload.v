(** Loading what was written gives the same tree again, up to markers that an
    opaque marker makes redundant. *)
From Coq Require Import String Ascii List Bool ZArith Lia Permutation Sorted.
From Verif.Model Require Import GoStr GoPath Tar Squash.
From Verif.Spec Require Import PathSpec SquashSpec SimpleAPISpec.
From Verif.Proofs Require Import Order GoStrFacts GoPathFacts SquashTree SquashLoad SquashSim SquashStack SquashWf SquashInv SquashWrite.
Import ListNotations.
Local Arguments byte_eqb : simpl never.
Local Arguments str_eqb : simpl never.
Local Arguments clean : simpl never.

Lemma vmkdir_fill w f q : non_dir (hdr_of w f) = false ->
  vmkdir w f q = if path_dec q f then match w q with Some n => Some n | None => Some (None, []) end else w q.
Proof.
  unfold vmkdir, hdr_of. intros H. destruct (path_dec q f) as [->|N].
  - destruct (w f) as [[h b]|] eqn:E; [cbn [fst] in H; now rewrite H, E|apply vput_eq].
  - destruct (w f) as [[h b]|] eqn:E; [cbn [fst] in H; now rewrite H|]. now rewrite vput_ne.
Qed.
Lemma vmkdir_fill_hdr w f q : non_dir (hdr_of w f) = false -> hdr_of (vmkdir w f) q = hdr_of w q.
Proof.
  intros H. unfold hdr_of at 1. rewrite vmkdir_fill by auto. unfold hdr_of. destruct (path_dec q f); auto. destruct (w q); auto.
Qed.
Lemma vmkdirs_fill ds : forall w f q, (forall a b, ds = a ++ b -> non_dir (hdr_of w (f ++ a)) = false) ->
  vmkdirs_from w f ds q = if at_or_below f q && at_or_below q (f ++ ds) then match w q with Some n => Some n | None => Some (None, []) end else w q.
Proof.
  induction ds as [|k ds IH]; intros w f q H; cbn [vmkdirs_from].
  - specialize (H [] [] eq_refl). rewrite app_nil_r in H |- *. rewrite vmkdir_fill by auto. destruct (path_dec q f) as [->|N].
    + now rewrite aob_refl.
    + destruct (at_or_below f q) eqn:E1; auto. destruct (at_or_below q f) eqn:E2; auto. now destruct N; apply aob_antisym.
  - pose proof (H [] (k :: ds) eq_refl) as H0. rewrite app_nil_r in H0. rewrite IH.
    + rewrite vmkdir_fill by auto. rewrite <- app_assoc. cbn [app]. destruct (path_dec q f) as [->|N].
      * rewrite aob_refl, aob_app. cbn [andb]. destruct (w f) as [n|]; now destruct (_ && _).
      * replace (at_or_below f q && at_or_below q (f ++ k :: ds)) with (at_or_below (f ++ [k]) q && at_or_below q (f ++ k :: ds)); auto.
        destruct (at_or_below q (f ++ k :: ds)) eqn:E; rewrite ?andb_false_r, ?andb_true_r; auto.
        apply eq_true_iff_eq. split; intros X.
        -- now apply aob_child, below_aob in X.
        -- apply aob_spec in X as [[|z r] ->]; [now rewrite app_nil_r in N|]. apply aob_spec in E as [r' E].
           rewrite <- app_assoc in E. apply app_inv_head in E. injection E as -> _. apply aob_spec. exists r. now rewrite <- app_assoc.
    + intros a b E. rewrite vmkdir_fill_hdr by auto. rewrite <- app_assoc. apply (H (k :: a) b). now rewrite E.
Qed.

Section reload.
  Context (v : view) (WV : wfv v) (LF : leafy v) (CL : closed v) (RT : v [] <> None).
  Definition ren (q : path) : option node :=
    match v q with Some (Some h, b) => Some (Some (with_name h (path_text false q)), b) | x => x end.
  Definition dropped (L : list path) (q : path) : bool :=
    marker_name (last q []) && str_ltb (last q []) opq && (if in_dec path_dec (removelast q ++ [opq]) L then true else false).
  Definition V (L : list path) : view := fun q =>
    if in_dec path_dec q L then if dropped L q then None else ren q
    else match q with [] => Some (None, []) | _ => if existsb (below q) L then Some (None, []) else None end.
  Definition all_headed (L : list path) : Prop := forall q, In q L -> headed v q = true.
  Lemma headed_some q : headed v q = true -> exists h b, v q = Some (Some h, b).
  Proof. unfold headed. destruct (v q) as [[[h|] b]|]; try discriminate. eauto. Qed.
  Lemma headed_plain q : headed v q = true -> plain_path q.
  Proof.
    intros H. apply headed_some in H as (h & b & H). apply (w_shape v WV) in H as [[P _]|[(d & k & -> & [P _] & K) _]]; auto.
    apply plain_path_app. split; auto. constructor; [|constructor].
    destruct K as [->|(x & -> & [X _])]; [apply plain_opq|apply plain_wh; now inversion X].
  Qed.
  (** Above a node there are only directories. *)
  Lemma above_dir a q : v q <> None -> below a q = true -> non_dir (hdr_of v a) = false /\ real_path a.
  Proof.
    intros H B. split.
    - destruct (non_dir (hdr_of v a)) eqn:E; auto. exfalso. apply H. now apply (leafy_below v a CL LF E).
    - destruct (v q) as [n|] eqn:E; [|congruence]. apply (w_shape v WV) in E as [R|[(d & k & -> & R & _) _]].
      + apply below_spec in B as (k & r & ->). now apply real_app in R.
      + apply below_snoc, aob_spec in B as [r ->]. now apply real_app in R.
  Qed.
  Lemma ren_hdr q : headed v q = true -> exists h b, v q = Some (Some h, b) /\ ren q = Some (Some (with_name h (path_text false q)), b).
  Proof. intros H. apply headed_some in H as (h & b & E). exists h, b. unfold ren. now rewrite E. Qed.
  Lemma V_dir L a q : all_headed L -> v q <> None -> below a q = true -> non_dir (hdr_of (V L) a) = false.
  Proof.
    intros AH H B. destruct (above_dir a q H B) as [N R]. unfold hdr_of, V. destruct (in_dec path_dec a L) as [I|_].
    - destruct (dropped L a); auto. apply AH in I. destruct (ren_hdr a I) as (h & b & E & ->). unfold hdr_of in N. rewrite E in N. exact N.
    - destruct a; auto. destruct (existsb _ L); auto.
  Qed.
  Lemma V_below L a q : all_headed L -> In q L -> below a q = true -> V L a = if in_dec path_dec a L then ren a else Some (None, []).
  Proof.
    intros AH I B. unfold V. assert (Hq : v q <> None) by (apply AH, headed_some in I as (h & b & E); congruence).
    destruct (above_dir a q Hq B) as [_ R]. destruct (in_dec path_dec a L).
    - unfold dropped. replace (marker_name (last a [])) with false; auto. destruct a as [|c a] using rev_ind; auto.
      rewrite last_last. now apply real_not_marker in R.
    - destruct a; auto. replace (existsb (below (l :: a)) L) with true; auto. symmetry. apply existsb_exists. eauto.
  Qed.
  Lemma V_none L q : q <> [] -> (forall z, In z L -> at_or_below q z = false) -> V L q = None.
  Proof.
    intros N H. unfold V. destruct (in_dec path_dec q L) as [I|_]; [apply H in I; now rewrite aob_refl in I|].
    destruct q; [congruence|]. replace (existsb _ L) with false; auto. symmetry. apply not_true_is_false. intros E.
    apply existsb_exists in E as (z & I & B). apply H in I. apply below_aob in B. congruence.
  Qed.
  Record okstep (L : list path) (p : path) : Prop := {
    ok_new : ~ In p L;
    ok_all : all_headed L;
    ok_head : headed v p = true;
    ok_wh : forall d x, p = d ++ [wh_prefix ++ x] -> real_path [x] -> forall z, In z L -> at_or_below (d ++ [x]) z = false;
    ok_opq : forall d, p = d ++ [opq] -> forall z, In z L -> below d z = true ->
      exists k, z = d ++ [k] /\ marker_name k = true /\ str_ltb k opq = true;
    ok_lt : forall d k, p = d ++ [k] -> marker_name k = true -> str_ltb k opq = true -> ~ In (d ++ [opq]) L
  }.
  Lemma in_snoc {A} (x y : A) l : In x (l ++ [y]) <-> In x l \/ x = y.
  Proof. rewrite in_app_iff. cbn [In]. intuition congruence. Qed.
  Lemma V_same L p q : q <> p -> below q p = false -> (p = removelast q ++ [opq] -> marker_name (last q []) && str_ltb (last q []) opq = false) ->
    V (L ++ [p]) q = V L q.
  Proof.
    intros N B D. unfold V. destruct (in_dec path_dec q (L ++ [p])) as [I|I].
    - apply in_snoc in I as [I|I]; [|congruence]. destruct (in_dec path_dec q L) as [_|]; [|tauto].
      assert (E : dropped (L ++ [p]) q = dropped L q); [|now rewrite E].
      unfold dropped. destruct (marker_name (last q []) && str_ltb (last q []) opq) eqn:F; auto. cbn [andb].
      destruct (in_dec path_dec (removelast q ++ [opq]) (L ++ [p])) as [J|J], (in_dec path_dec (removelast q ++ [opq]) L) as [K|K]; auto.
      + apply in_snoc in J as [J|J]; [tauto|]. symmetry in J. apply D in J. congruence.
      + destruct J. apply in_snoc. auto.
    - destruct (in_dec path_dec q L) as [J|_]; [destruct I; apply in_snoc; auto|]. destruct q; auto.
      rewrite existsb_app. cbn [existsb]. now rewrite B, !orb_false_r.
  Qed.
  Lemma V_self L p : okstep L p -> V (L ++ [p]) p = ren p.
  Proof.
    intros OK. unfold V. destruct (in_dec path_dec p (L ++ [p])) as [_|N]; [|destruct N; apply in_snoc; auto].
    assert (E : dropped (L ++ [p]) p = false); [|now rewrite E]. unfold dropped.
    destruct (marker_name (last p []) && str_ltb (last p []) opq) eqn:F; auto. cbn [andb]. apply andb_true_iff in F as [F1 F2].
    destruct p as [|c p] using rev_ind; [discriminate|]. rewrite last_last in *. rewrite removelast_last.
    destruct (in_dec path_dec (p ++ [opq]) (L ++ [p ++ [c]])) as [J|J]; auto. apply in_snoc in J as [J|J].
    - now apply (ok_lt _ _ OK p c) in J.
    - apply child_inj in J as [_ <-]. apply str_ltb_lt in F2. rewrite (ok_refl _ str_compare_ok) in F2. discriminate.
  Qed.
  Lemma V_anc L p q : okstep L p -> below q p = true -> V (L ++ [p]) q = match V L q with Some n => Some n | None => Some (None, []) end.
  Proof.
    intros OK B. assert (AH : all_headed (L ++ [p])).
    { intros z I. apply in_snoc in I as [I| ->]; [now apply (ok_all _ _ OK)|apply (ok_head _ _ OK)]. }
    rewrite (V_below _ q p); auto; [|apply in_snoc; auto]. assert (Nq : q <> p) by now apply below_irrefl_neq.
    assert (Hp : v p <> None) by (pose proof (ok_head _ _ OK) as H; apply headed_some in H as (h & b & H); congruence).
    destruct (above_dir q p Hp B) as [_ R].
    assert (Dq : dropped L q = false).
    { unfold dropped. replace (marker_name (last q [])) with false; auto. destruct q as [|c q _] using rev_ind; auto.
      rewrite last_last. now apply real_not_marker in R. }
    destruct (in_dec path_dec q (L ++ [p])) as [I|I].
    - apply in_snoc in I as [I|]; [|congruence]. unfold V. destruct (in_dec path_dec q L); [|tauto]. rewrite Dq.
      destruct (ren_hdr q) as (h & b & _ & ->); auto. now apply (ok_all _ _ OK).
    - unfold V. destruct (in_dec path_dec q L) as [J|_]; [destruct I; apply in_snoc; auto|]. destruct q; auto. destruct (existsb _ L); auto.
  Qed.
  Theorem V_step L p h b : okstep L p -> v p = Some (Some h, b) ->
    veq (V (L ++ [p])) (vstep (V L) p (with_name h (path_text false p)) b).
  Proof.
    intros OK E q. set (h' := with_name h (path_text false p)).
    assert (Hp : v p <> None) by congruence.
    assert (RP : ren p = Some (Some h', b)) by (unfold ren; now rewrite E).
    assert (NDp : forall w, (forall z, z <> p -> below p z = false -> True) -> w p = None \/ w p = Some (None, []) -> non_dir (hdr_of w p) = false).
    { intros w _ [H|H]; unfold hdr_of; now rewrite H. }
    assert (Vp : V L p = None \/ V L p = Some (None, [])).
    { unfold V. destruct (in_dec path_dec p L) as [I|_]; [now apply (ok_new _ _ OK) in I|]. destruct p; auto. destruct (existsb _ L); auto. }
    destruct (path_dec q p) as [->|Nq].
    { rewrite vstep_self, V_self; auto. }
    destruct (path_dec p []) as [Ep|Np].
    - subst p. cbn [vstep]. rewrite V_same; auto.
      2:{ now destruct q. }
      2:{ intros X. destruct (removelast q); discriminate. }
      assert (NW : at_or_below [$".wh.."] q = true -> V L q = None).
      { intros A. apply V_none; auto. intros z I. destruct (at_or_below q z) eqn:B; auto. exfalso.
        pose proof (aob_trans _ _ _ A B) as A'. apply aob_spec in A' as [r ->].
        apply (ok_all _ _ OK), headed_some in I as (hz & bz & Ez).
        assert (Hw : v [$".wh.."] <> None) by (apply (CL [$".wh.."] r); cbn [app] in *; congruence).
        destruct (v [$".wh.."]) as [n|] eqn:Ew; [|congruence]. apply (w_shape v WV) in Ew as [R|[(d & k & Ed & _ & K) _]].
        - destruct R as [_ R]. inversion R; subst. discriminate.
        - destruct d as [|? d]; [|destruct d; discriminate]. injection Ed as <-. destruct K as [K|(x & K & [P _])]; [discriminate|].
          change $".wh.." with (wh_prefix ++ $".") in K. apply wh_inj in K as <-. inversion P as [|? ? (_ & _ & HD & _) _]. now destruct HD. }
      unfold vcut. destruct (at_or_below [$".wh.."] q); [now rewrite NW|].
      unfold vwrite. destruct (byte_eqb (th_type h') TypeDir) eqn:F.
      + rewrite NDp; auto. now rewrite vput_ne.
      + unfold vclear. rewrite vput_ne by auto. destruct (below [] q) eqn:B; auto.
        apply V_none; auto. intros z I. destruct (at_or_below q z) eqn:A; auto. exfalso.
        apply (ok_all _ _ OK), headed_some in I as (hz & bz & Ez). assert (Bz : below [] z = true).
        { apply below_spec in B as (k & r & ->). apply aob_spec in A as [r' ->]. reflexivity. }
        assert (X : v z = None); [|congruence]. apply (leafy_below v [] CL LF); auto. unfold hdr_of. rewrite E. cbn [fst non_dir].
        change (th_type h) with (th_type h'). now rewrite F.
    - destruct (exists_last Np) as (d & k & Ed). rewrite vstep_shape by auto. rewrite Ed in *. rewrite removelast_last, last_last.
      clear Np. subst p. set (w := vmkdirs_from (V L) [] d).
      assert (Ww : forall z, w z = if at_or_below z d then match V L z with Some n => Some n | None => Some (None, []) end else V L z).
      { intros z. subst w. rewrite vmkdirs_fill; [reflexivity|]. intros a c Ea. cbn [app]. apply (V_dir L a (d ++ [k])); auto.
        - apply (ok_all _ _ OK).
        - apply below_snoc. rewrite Ea. apply aob_app. }
      assert (Wp : w (d ++ [k]) = V L (d ++ [k])).
      { rewrite Ww. replace (at_or_below (d ++ [k]) d) with false; auto. symmetry. apply aob_false. intros r Er.
        rewrite <- app_assoc in Er. apply (f_equal (@length _)) in Er. rewrite app_length in Er. cbn [app length] in Er. lia. }
      set (w2 := vwrite w (d ++ [k]) h' b).
      assert (W2 : forall z, z <> d ++ [k] -> w2 z = w z).
      { intros z Nz. subst w2. unfold vwrite. destruct (byte_eqb (th_type h') TypeDir) eqn:F.
        - rewrite NDp; auto; [|now rewrite Wp]. now rewrite vput_ne.
        - unfold vclear. rewrite vput_ne by auto. destruct (below (d ++ [k]) z) eqn:B; auto. symmetry. rewrite Ww.
          replace (at_or_below z d) with false.
          2:{ symmetry. apply aob_false. intros r Er. apply below_spec in B as (y & s & ->). apply (f_equal (@length _)) in Er.
              rewrite !app_length in Er. cbn [length] in Er. lia. }
          apply V_none.
          { intros ->. destruct (d ++ [k]); discriminate. }
          intros y I. destruct (at_or_below z y) eqn:A; auto. exfalso.
          apply (ok_all _ _ OK), headed_some in I as (hz & bz & Ez). assert (Bz : below (d ++ [k]) y = true).
          { apply below_spec in B as (x & r & ->). apply aob_spec in A as [r' ->]. rewrite <- app_assoc. apply below_app. }
          assert (X : v y = None); [|congruence]. apply (leafy_below v (d ++ [k]) CL LF); auto. unfold hdr_of. rewrite E. cbn [fst non_dir].
          change (th_type h) with (th_type h'). now rewrite F. }
      destruct (below q (d ++ [k])) eqn:Bq.
      { rewrite V_anc; auto. assert (A : at_or_below q d = true) by now apply below_snoc in Bq.
        assert (NC : forall k', at_or_below (d ++ [k']) q = false).
        { intros k'. apply aob_false. intros r Er. subst q. apply aob_spec in A as [s A]. apply (f_equal (@length _)) in A.
          rewrite !app_length in A. cbn [length] in A. lia. }
        assert (NB : below d q = false).
        { destruct (below d q) eqn:B; auto. apply below_child in B as [k' B]. congruence. }
        unfold vsettle, vcut. destruct (has_prefix wh_prefix k); [destruct (str_eqb k opq)|]; rewrite ?NC, ?NB, W2, Ww, A; auto. }
      assert (Aq : at_or_below q d = false).
      { destruct (at_or_below q d) eqn:A; auto. apply below_snoc with (k := k) in A. congruence. }
      assert (WQ : w2 q = V L q) by (rewrite W2, Ww, Aq; auto).
      assert (Nq0 : q <> []) by (intros ->; discriminate).
      unfold vsettle, vcut. change (has_prefix wh_prefix k) with (marker_name k). destruct (marker_name k) eqn:M; [destruct (str_eqb k opq) eqn:K|].
      + apply str_eqb_eq in K. subst k. destruct (below d q) eqn:B.
        * destruct (at_or_below (d ++ [opq]) q) eqn:A.
          -- rewrite WQ. apply V_same; auto. intros X. rewrite X in *. destruct q as [|c q _] using rev_ind; [congruence|].
             rewrite removelast_last in *. apply child_inj in X as [<- _]. apply aob_spec in A as [r A].
             rewrite <- app_assoc in A. apply app_inv_head in A. injection A as -> _. congruence.
          -- assert (X : forall z, In z L -> at_or_below q z = true -> z = q /\ exists k', q = d ++ [k'] /\ marker_name k' = true /\ str_ltb k' opq = true).
             { intros z I Az. assert (Bz : below d z = true).
               { apply below_spec in B as (x & r & ->). apply aob_spec in Az as [r' ->]. rewrite <- app_assoc. apply below_app. }
               destruct (ok_opq _ _ OK d eq_refl z I Bz) as (k' & -> & H1 & H2).
               assert (Eq : d ++ [k'] = q).
               { apply aob_cases in Az as [Az|Az]; auto. apply below_snoc in Az. congruence. }
               split; [auto|]. exists k'. auto. }
             unfold V. destruct (in_dec path_dec q (L ++ [d ++ [opq]])) as [I|I].
             ++ apply in_snoc in I as [I|]; [|congruence]. destruct (X q I (aob_refl q)) as (_ & k' & -> & H1 & H2).
                unfold dropped. rewrite last_last, removelast_last, H1, H2. cbn [andb].
                destruct (in_dec path_dec (d ++ [opq]) (L ++ [d ++ [opq]])) as [_|J]; auto. destruct J. apply in_snoc. auto.
             ++ destruct q as [|c q]; [congruence|]. replace (existsb _ _) with false; auto. symmetry. apply not_true_is_false. intros Ex.
                apply existsb_exists in Ex as (z & Iz & Bz). apply in_snoc in Iz as [Iz| ->].
                ** destruct (X z Iz (below_aob _ _ Bz)) as [-> _]. now rewrite below_refl in Bz.
                ** congruence.
        * rewrite WQ. apply V_same; auto. intros X. exfalso. destruct q as [|c q _] using rev_ind; [congruence|].
          rewrite removelast_last in X. apply child_inj in X as [-> _]. rewrite below_app in B. discriminate.
      + assert (SH := w_shape v WV _ _ E). destruct SH as [R|[(d' & k' & Ek & Rd & Kk) _]]; [apply real_not_marker in R; congruence|].
        apply child_inj in Ek as [<- <-]. destruct Kk as [->|(x & -> & Rx)]; [now rewrite str_eqb_refl in K|]. rewrite trim_prefix_app.
        rewrite V_same; auto.
        2:{ intros X. apply child_inj in X as [_ X]. rewrite X, str_eqb_refl in K. discriminate. }
        rewrite WQ. destruct (at_or_below (d ++ [x]) q) eqn:A; auto. apply V_none; auto. intros z I.
        destruct (at_or_below q z) eqn:Az; auto. rewrite <- (ok_wh _ _ OK d x eq_refl Rx z I). symmetry. eapply aob_trans; eauto.
      + rewrite V_same; auto.
        2:{ intros X. apply child_inj in X as [_ ->]. discriminate. }
        rewrite WQ. destruct (at_or_below (d ++ [wh_prefix ++ k]) q) eqn:A; auto. apply V_none; auto. intros z I.
        destruct (at_or_below q z) eqn:Az; auto. exfalso. pose proof (aob_trans _ _ _ A Az) as A'. apply aob_spec in A' as [r ->].
        apply (ok_all _ _ OK), headed_some in I as (hz & bz & Ez).
        assert (Rk : real_path [k]).
        { apply (w_shape v WV) in E as [R|[(d' & k' & Ek & _ & Kk) _]]; [now apply real_app in R|].
          apply child_inj in Ek as [_ <-]. exfalso. destruct Kk as [->|(x & -> & _)]; [discriminate|]. now rewrite wh_marker in M. }
        assert (X : v ((d ++ [wh_prefix ++ k]) ++ r) <> None) by congruence. apply CL in X. apply X.
        now apply (w_hide v WV d k h b).
  Qed.
End reload.
