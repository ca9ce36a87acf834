(** Squash preserves the unpacked file system. *)
From Coq Require Import String Ascii List Bool ZArith Lia Permutation Sorted.
From Verif.Model Require Import GoStr GoPath Tar Squash.
From Verif.Spec Require Import PathSpec SquashSpec SimpleAPISpec.
From Verif.Proofs Require Import Order GoStrFacts GoPathFacts SquashTree SquashLoad SquashSim SquashStack SquashWf SquashInv SquashWrite SquashReload.
Import ListNotations.
Local Arguments byte_eqb : simpl never.
Local Arguments str_eqb : simpl never.
Local Arguments clean : simpl never.

(** *** written entries *)
Lemma text_slash_comps q : plain_path q -> clean_comps (path_text false q ++ $"/") = q.
Proof.
  intros P. destruct q as [|c q]; [reflexivity|]. unfold clean_comps. cbn [path_text].
  assert (NE : join $"/" (c :: q) <> []).
  { pose proof (plain_ne _ P) as F. inversion F as [|? ? N _]; subst. destruct c as [|a c]; [congruence|]. rewrite join_ne_nil. discriminate. }
  replace (is_abs (join $"/" (c :: q) ++ $"/")) with false by (rewrite is_abs_app by auto; symmetry; apply (join_head_not_slash false); now apply plain_clean).
  change (join $"/" (c :: q) ++ $"/") with (join $"/" (c :: q) ++ slash :: []). rewrite split_on_app_gen.
  change (split_on slash []) with [@nil ascii]. rewrite fold_left_app. cbn [fold_left]. rewrite fold_skip.
  pose proof (clean_comps_rel (c :: q) (plain_clean false _ P)) as H. unfold clean_comps in H.
  rewrite (join_head_not_slash false) in H by now apply plain_clean. now rewrite H.
Qed.
Lemma text_not_abs q : plain_path q -> is_abs (path_text false q) = false.
Proof. intros P. apply is_abs_text. now apply plain_clean. Qed.
Lemma text_nonempty q : plain_path q -> path_text false q <> [].
Proof. intros P. apply path_text_ne, plain_ne, P. Qed.
Section written.
  Context (v : view) (WV : wfv v).
  Lemma mk_some q h b : v q = Some (Some h, b) ->
    mk v q = (with_name h (if byte_eqb (th_type h) TypeDir then node_name q ++ $"/" else node_name q), b).
  Proof. intros E. unfold mk. now rewrite E. Qed.
  Lemma mk_path q : headed v q = true -> entry_path (mk v q) = q.
  Proof.
    intros H. pose proof (headed_plain v WV q H) as P. apply headed_some in H as (h & b & E). rewrite (mk_some _ _ _ E).
    unfold entry_path. cbn [fst th_name with_name]. rewrite node_name_plain by auto. destruct (byte_eqb _ _).
    - now apply text_slash_comps.
    - apply clean_comps_text. now apply plain_clean.
  Qed.
  Lemma mk_parsed q h b : v q = Some (Some h, b) -> parsed (mk v q) = (with_name h (path_text false q), b).
  Proof.
    intros E. assert (H : headed v q = true) by (unfold headed; now rewrite E). pose proof (headed_plain v WV q H) as P.
    pose proof (mk_path q H) as M. unfold parsed. rewrite (mk_some _ _ _ E) in *. cbn [fst snd th_name with_name] in *.
    unfold entry_path in M. cbn [fst th_name with_name] in M. set (n := if byte_eqb (th_type h) TypeDir then _ else _) in *.
    assert (C : clean n = path_text false q); [|now rewrite C].
    rewrite clean_text, M. f_equal. subst n. rewrite node_name_plain by auto. destruct (byte_eqb _ _); [|now apply text_not_abs].
    rewrite is_abs_app by now apply text_nonempty. now apply text_not_abs.
  Qed.
  Lemma mk_good q : headed v q = true -> good_entry (mk v q).
  Proof.
    intros H. pose proof (mk_path q H) as M. pose proof (headed_plain v WV q H) as P. pose proof (headed_some v q H) as (h & b & E).
    split.
    - rewrite (mk_some _ _ _ E). cbn [fst th_name with_name]. rewrite node_name_plain by auto. destruct (byte_eqb _ _).
      + rewrite is_abs_app by now apply text_nonempty. now apply text_not_abs.
      + now apply text_not_abs.
    - rewrite M. destruct (w_shape v WV _ _ E) as [R|[(d & k & -> & R & K) (h' & b' & Eh & D & L)]]; auto. injection Eh as <- <-.
      right. exists d, k. unfold is_dir, is_link. rewrite (mk_some _ _ _ E). cbn [fst th_type with_name]. auto.
  Qed.
  Lemma mk_marker q : headed v q = true -> is_marker (mk v q) = marker_name (last q []).
  Proof. intros H. unfold is_marker. now rewrite mk_path. Qed.
  Definition mark (q : path) : bool := marker_name (last q []).
  Definition reordered (L : list path) : list path := filter mark L ++ filter (fun q => negb (mark q)) L.
  Lemma filter_map_mk L (f : entry -> bool) (g : path -> bool) : (forall q, In q L -> f (mk v q) = g q) ->
    filter f (map (mk v) L) = map (mk v) (filter g L).
  Proof.
    induction L as [|q L IH]; intros H; [reflexivity|]. cbn [map filter]. rewrite H by now left. rewrite IH by (intros; apply H; now right).
    now destruct (g q).
  Qed.
  Lemma in_order_mk L : all_headed v L -> in_order (map (mk v) L) = map (mk v) (reordered L).
  Proof.
    intros A. unfold in_order, reordered. rewrite map_app. f_equal; apply filter_map_mk; intros q I; rewrite mk_marker; auto.
  Qed.
End written.

Lemma app_split {A} (a b l1 l2 : list A) x : a ++ b = l1 ++ x :: l2 ->
  (exists m, a = l1 ++ x :: m) \/ (exists m, l1 = a ++ m /\ b = m ++ x :: l2).
Proof.
  revert l1. induction a as [|y a IH]; intros l1 E.
  - right. exists l1. auto.
  - destruct l1 as [|z l1].
    + injection E as -> _. left. exists a. auto.
    + injection E as -> E. apply IH in E as [[m ->]|(m & -> & ->)].
      * left. exists m. auto.
      * right. exists m. auto.
Qed.

Lemma vstep_veq v w p h b : veq v w -> veq (vstep v p h b) (vstep w p h b).
Proof.
  intros H. destruct p as [|c p]; cbn [vstep].
  - now apply vcut_veq, vwrite_veq.
  - now apply vsettle_veq, vwrite_veq, vmkdirs_veq.
Qed.

Section main.
  Context (Q : entry -> Prop) (K : str -> Prop) (t : tree) (WT : wf Q K t) (WV : wfv (view_of t)) (LF : leafy (view_of t)).
  Context (sort : (str -> str -> bool) -> list str -> list str) (order : list str -> list str -> list str).
  Context (HS : sorts sort) (HO : permutes order).
  Notation v := (view_of t).
  Let HW := headed_walk sort order t.
  Lemma HW_all : all_headed v HW.
  Proof. intros q I. unfold HW, headed_walk in I. now apply filter_In in I. Qed.
  Lemma HW_before L1 p L2 : HW = L1 ++ p :: L2 -> forall z, In z L1 -> before z p.
  Proof. intros E. pose proof (headed_walk_sorted sort order HS HO Q K t WT) as S. fold HW in S. rewrite E in S. now apply sorted_split in S. Qed.
  Lemma reordered_in q : In q (reordered HW) <-> In q HW.
  Proof.
    unfold reordered. rewrite in_app_iff, !filter_In. destruct (mark q); cbn [negb]; intuition congruence.
  Qed.
  Lemma filter_before L f l1 p l2 : StronglySorted before L -> filter f L = l1 ++ p :: l2 -> forall z, In z l1 -> before z p.
  Proof. intros S E. apply (sorted_filter before f) in S. rewrite E in S. now apply sorted_split in S. Qed.
  Lemma before_child d x y r r' : before (d ++ x :: r) (d ++ y :: r') -> x <> y -> name_before x y.
  Proof.
    intros H N. induction d as [|k d IH]; [now apply before_heads in H|]. cbn [app] in H. apply before_uncons in H. auto.
  Qed.
  Lemma nodup_split {A} (L1 L2 : list A) p : NoDup (L1 ++ p :: L2) -> ~ In p L1.
  Proof. intros N I. apply NoDup_remove_2 in N. apply N. apply in_app_iff. auto. Qed.
  Lemma HW_sorted : StronglySorted before HW.
  Proof. now apply (headed_walk_sorted sort order HS HO Q K). Qed.
  Lemma HW_nodup : NoDup HW.
  Proof. apply (sorted_nodup before); [apply before_irrefl|apply HW_sorted]. Qed.
  Lemma reordered_ok L1 p L2 : reordered HW = L1 ++ p :: L2 -> okstep v L1 p.
  Proof.
    intros E. assert (IN : forall q, In q (L1 ++ p :: L2) -> headed v q = true).
    { intros q I. rewrite <- E in I. apply reordered_in in I. now apply HW_all. }
    assert (N : NoDup (L1 ++ p :: L2)).
    { rewrite <- E. unfold reordered. pose proof HW_nodup as N. clear E IN. induction HW as [|q L IH]; [constructor|].
      inversion N; subst. assert (Nq : ~ In q (filter mark L ++ filter (fun q => negb (mark q)) L)).
      { rewrite in_app_iff, !filter_In. tauto. }
      cbn [filter]. destruct (mark q); cbn [negb app].
      - constructor; auto.
      - apply NoDup_Add with (a := q) (l := filter mark L ++ filter (fun q => negb (mark q)) L); [apply Add_app|]. auto. }
    assert (BF : mark p = true -> forall z, In z L1 -> before z p /\ mark z = true).
    { intros M z I. unfold reordered in E. apply app_split in E as [[m E]|(m & -> & E)].
      - split; [now apply (filter_before HW mark L1 p m HW_sorted E)|]. assert (J : In z (filter mark HW)) by (rewrite E; apply in_app_iff; auto).
        now apply filter_In in J.
      - exfalso. assert (J : In p (filter (fun q => negb (mark q)) HW)) by (rewrite E; apply in_app_iff; right; now left).
        apply filter_In in J as [_ J]. rewrite M in J. discriminate. }
    split.
    - now apply nodup_split in N.
    - intros q I. apply IN, in_app_iff. auto.
    - apply IN, in_app_iff. right. now left.
    - intros d x Ep Rx z I. assert (M : mark p = true) by (rewrite Ep; unfold mark; rewrite last_last; apply wh_marker).
      destruct (BF M z I) as [B _]. destruct (at_or_below (d ++ [x]) z) eqn:A; auto. exfalso. apply aob_spec in A as [r ->].
      rewrite <- app_assoc in B. rewrite Ep in B. apply before_child in B.
      + apply (real_not_marker [] x) in Rx. pose proof (wh_marker x). destruct B as [[B _]|[B _]]; congruence.
      + intros X. apply (f_equal (@length _)) in X. cbn in X. lia.
    - intros d Ep z I Bz. assert (M : mark p = true) by (rewrite Ep; unfold mark; rewrite last_last; reflexivity).
      destruct (BF M z I) as [B Mz]. apply below_spec in Bz as (k & r & ->).
      destruct (list_eq_dec ascii_dec k opq) as [->|Nk].
      + exfalso. destruct r as [|y r]; [rewrite <- Ep in I; apply nodup_split in N; tauto|].
        assert (Hz : v (d ++ opq :: y :: r) <> None).
        { assert (X : headed v (d ++ opq :: y :: r) = true) by (apply IN, in_app_iff; auto). apply headed_some in X as (hx & bx & X). congruence. }
        destruct (above_dir v WV LF (closed_view t) (d ++ [opq]) _ Hz) as [_ R].
        * change (d ++ opq :: y :: r) with (d ++ [opq] ++ y :: r). rewrite app_assoc. apply below_app.
        * now apply (real_ne_opq _ d) in R.
      + rewrite Ep in B. apply before_child in B; auto. assert (Mk : marker_name k = true).
        { destruct B as [[B _]|[B _]]; auto. }
        exists k. split; [|split; auto].
        * destruct r as [|y r]; auto. exfalso.
          assert (Hz : v (d ++ k :: y :: r) <> None).
          { assert (X : headed v (d ++ k :: y :: r) = true) by (apply IN, in_app_iff; auto). apply headed_some in X as (hx & bx & X). congruence. }
          destruct (above_dir v WV LF (closed_view t) (d ++ [k]) _ Hz) as [_ R].
          -- change (d ++ k :: y :: r) with (d ++ [k] ++ y :: r). rewrite app_assoc. apply below_app.
          -- apply real_not_marker in R. congruence.
        * destruct B as [[_ B]|[_ B]]; [discriminate|]. now apply str_ltb_lt.
    - intros d k Ep Mk Lk I. assert (M : mark p = true) by (rewrite Ep; unfold mark; now rewrite last_last).
      destruct (BF M _ I) as [B _]. rewrite Ep in B. apply before_child in B.
      + destruct B as [[_ B]|[_ B]]; [congruence|]. apply str_ltb_lt in Lk. rewrite (ok_anti _ str_compare_ok opq k), B in Lk. discriminate.
      + intros X. rewrite <- X in Lk. apply str_ltb_lt in Lk. rewrite (ok_refl _ str_compare_ok) in Lk. discriminate.
  Qed.
  Notation VL := (V v).
  Lemma reload_entries n L2 : forall L1 t1, reordered HW = L1 ++ L2 -> veq (view_of t1) (VL L1) -> remembers (map (mk v) L1) (view_of t1) -> leafy (view_of t1) ->
    exists t2, load_entries (S (S (S (S n)))) t1 (map parsed (map (mk v) L2)) = Ret t2 /\ veq (view_of t2) (VL (L1 ++ L2)) /\
      leafy (view_of t2) /\ remembers (map (mk v) (L1 ++ L2)) (view_of t2) /\
      (forall base fs, feq fs (interp (view_of t1) base) -> feq (fold_left unpack_entry (map (mk v) L2) fs) (interp (view_of t2) base)).
  Proof.
    induction L2 as [|p L2 IH]; intros L1 t1 E V1 RM L.
    - exists t1. rewrite app_nil_r. split; [reflexivity|]. split; auto.
    - pose proof (reordered_ok L1 p L2 E) as OK. pose proof (ok_head _ _ _ OK) as HP.
      pose proof (headed_some v p HP) as (h & b & Ep). pose proof (mk_path v WV p HP) as MP.
      assert (Hv : v p <> None) by congruence.
      assert (NH : not_hidden (map (mk v) L1) (mk v p)); [|destruct (load_entry_sim n (map (mk v) L1) t1 (mk v p)) as (t2 & E2 & RM2 & L2' & V2 & _ & S2); auto].
      + intros D d x w Ee (es1 & es2 & El & Hw & _). destruct Hw as [Hw|Hw]; auto. exfalso.
        assert (I : In w (map (mk v) L1)) by (rewrite El; apply in_app_iff; right; now left). apply in_map_iff in I as (z & <- & I).
        pose proof (ok_all _ _ _ OK z I) as Hz. rewrite (mk_path v WV z Hz) in Hw. rewrite MP in Ee. subst p.
        pose proof (headed_some v z Hz) as (hz & bz & Ez). rewrite Hw in Ez.
        assert (X : v (d ++ [wh_prefix ++ x]) = None); [|change $".wh." with wh_prefix in Ez; congruence]. apply (w_hide v WV d x h b); auto.
        destruct (w_shape v WV _ _ Ep) as [R|[_ (h' & b' & Eh & D' & _)]]; [now apply real_app in R|].
        injection Eh as <- <-. unfold is_dir in D. rewrite (mk_some v _ _ _ Ep) in D. cbn [fst th_type with_name] in D. congruence.
      + now apply mk_good.
      + apply no_link_last. intros q l B (es1 & es2 & El & Hq & _). rewrite MP in B.
        assert (I : In l (map (mk v) L1)) by (rewrite El; apply in_app_iff; right; now left). apply in_map_iff in I as (z & <- & I).
        pose proof (ok_all _ _ _ OK z I) as Hz. rewrite (mk_path v WV z Hz) in Hq. subst q.
        destruct (above_dir v WV LF (closed_view t) z p Hv B) as [ND _]. pose proof (headed_some v z Hz) as (hz & bz & Ez).
        unfold is_link. rewrite (mk_some v z _ _ Ez). cbn [fst th_type with_name]. unfold hdr_of in ND. rewrite Ez in ND.
        cbn [fst] in ND. apply dir_not_link in ND. cbn [Squash.link_of] in ND. destruct (byte_eqb (th_type hz) TypeSymlink); congruence.
      + assert (PA : parsed (mk v p) = (with_name h (path_text false p), b)) by now apply mk_parsed.
        assert (SN : snd (mk v p) = b) by (rewrite (mk_some v p h b Ep); reflexivity).
        destruct (IH (L1 ++ [p]) t2) as (t3 & E3 & V3 & L3 & RM3 & S3); auto.
        * now rewrite <- app_assoc.
        * eapply veq_trans; [exact V2|]. intros q. rewrite (V_step v WV LF (closed_view t) L1 p h b OK Ep q). rewrite MP, PA, SN. cbn [fst].
          apply vstep_veq. exact V1.
        * now rewrite map_app.
        * exists t3. rewrite <- app_assoc in V3, RM3. cbn [app] in V3, RM3. split; [|split; [|split; [|split]]]; auto.
          -- cbn [map load_entries]. rewrite E2. exact E3.
          -- intros base fs F. cbn [map fold_left]. apply S3, S2; auto. rewrite MP. intros a B.
             rewrite (hdr_veq _ _ a V1). apply (V_dir v WV LF (closed_view t) L1 a p); auto. apply (ok_all _ _ _ OK).
  Qed.
  (** The tree that is loaded back. *)
  Definition redundant (q : path) : bool :=
    marker_name (last q []) && str_ltb (last q []) opq && present v (removelast q ++ [opq]).
  Lemma V_all q : VL (reordered HW) q = if redundant q then None else ren v q.
  Proof.
    assert (IH : forall z, In z (reordered HW) <-> headed v z = true).
    { intros z. rewrite reordered_in. unfold HW. rewrite headed_walk_in by auto. unfold headed. split.
      - intros (h & b & E). now rewrite E.
      - intros H. destruct (v z) as [[[h|] b]|]; try discriminate. eauto. }
    assert (OP : present v (removelast q ++ [opq]) = if in_dec path_dec (removelast q ++ [opq]) (reordered HW) then true else false).
    { destruct (in_dec path_dec (removelast q ++ [opq]) (reordered HW)) as [I|I].
      - apply IH, headed_some in I as (h & b & E). unfold present. now rewrite E.
      - unfold present. destruct (v (removelast q ++ [opq])) as [n|] eqn:E; auto. exfalso. apply I, IH. unfold headed.
        destruct (w_shape v WV _ _ E) as [R|[_ (h & b & -> & _)]]; [|now rewrite E]. now apply (real_ne_opq _ (removelast q)) in R. }
    unfold redundant. rewrite OP. unfold V. fold (dropped (reordered HW) q).
    destruct (in_dec path_dec q (reordered HW)) as [I|I]; auto.
    assert (NH : headed v q = false) by (destruct (headed v q) eqn:H; auto; now apply IH in H).
    assert (RE : ren v q = v q) by (unfold ren, headed in *; destruct (v q) as [[[h|] b]|]; auto; discriminate).
    assert (D : dropped (reordered HW) q = true -> v q = None).
    { intros D. destruct (v q) as [n|] eqn:E; auto. exfalso. unfold dropped in D. apply andb_true_iff in D as [D _]. apply andb_true_iff in D as [D _].
      destruct (w_shape v WV _ _ E) as [R|[_ (h & b & -> & _)]]; [|unfold headed in NH; now rewrite E in NH].
      destruct q as [|c q _] using rev_ind; [discriminate|]. rewrite last_last in D. apply real_not_marker in R. congruence. }
    assert (X : match q with [] => Some (None, []) | _ :: _ => if existsb (below q) (reordered HW) then Some (None, []) else None end = v q).
    { unfold headed in NH. destruct (v q) as [[[h|] b]|] eqn:E; [discriminate| |].
      - rewrite (w_body v WV _ _ E) in *. destruct q as [|c q]; auto. replace (existsb _ _) with true; auto. symmetry.
        destruct (w_full v WV _ _ E) as (z & hz & cz & B & Ez); [discriminate|]. apply existsb_exists. exists z. split; auto.
        apply IH. unfold headed. now rewrite Ez.
      - destruct q as [|c q]; [rewrite view_root in E; discriminate|]. replace (existsb _ _) with false; auto. symmetry.
        apply not_true_is_false. intros Ex. apply existsb_exists in Ex as (z & Iz & B). apply IH, headed_some in Iz as (hz & bz & Ez).
        apply below_spec in B as (k & r & ->). assert (Y : v ((c :: q) ++ k :: r) <> None) by congruence. apply closed_view in Y. congruence. }
    rewrite RE. destruct (dropped (reordered HW) q) eqn:DD; [|exact X]. etransitivity; [exact X|now apply D].
  Qed.
  Definition out : list entry := write_to sort order [] t.
  Lemma out_mk : out = map (mk v) HW.
  Proof. unfold out. apply write_mk. Qed.
  Theorem reload n : exists t2, load_layers (S (S (S (S n)))) false [out] = Ret t2 /\
    (forall q, view_of t2 q = if redundant q then None else ren v q) /\ leafy (view_of t2) /\
    remembers (in_order out) (view_of t2) /\
    (forall base, (exists m, base [] = Some (FDir m)) -> feq (unpack base [out]) (interp (view_of t2) base)).
  Proof.
    destruct (reload_entries n (reordered HW) [] empty_tree) as (t2 & E & V2 & L2 & RM & S2); auto.
    - intros q. destruct q as [|k q]; reflexivity.
    - apply remembers_empty.
    - apply leafy_empty.
    - exists t2. split; [|split; [|split; [|split]]]; auto.
      + unfold load_layers. rewrite load_layers_entries.
        * cbn [all_entries flat_map]. rewrite app_nil_r, out_mk, in_order_mk; auto. apply HW_all.
        * constructor; [|constructor]. rewrite out_mk. apply Forall_forall. intros e I. apply in_map_iff in I as (q & <- & I).
          apply good_inside, mk_good; auto. now apply HW_all.
      + intros q. rewrite V2. apply V_all.
      + rewrite out_mk, in_order_mk; auto. apply HW_all.
      + intros base [m Hm]. unfold unpack. cbn [fold_left]. unfold unpack_layer. rewrite out_mk, in_order_mk by (auto; apply HW_all).
        apply S2. intros q Rq. rewrite interp_empty. destruct q; auto. now rewrite Hm.
  Qed.
  Lemma interp_ren t2 base : (forall q, view_of t2 q = if redundant q then None else ren v q) -> feq (interp v base) (interp (view_of t2) base).
  Proof.
    intros H q R.
    assert (NR : forall a, real_path a -> redundant a = false).
    { intros a Ra. unfold redundant. destruct a as [|c a _] using rev_ind; auto. rewrite last_last. apply real_not_marker in Ra. now rewrite Ra. }
    assert (SH : shadow v [] q = shadow (view_of t2) [] q).
    { apply eq_true_iff_eq. rewrite !shadow_spec. cbn [app].
      assert (PO : forall a, present (view_of t2) (a ++ [opq]) = present v (a ++ [opq])).
      { intros a. unfold present at 1. rewrite H. unfold redundant. rewrite last_last.
        replace (str_ltb opq opq) with false by reflexivity. rewrite andb_false_r. cbn [andb]. unfold present, ren.
        destruct (v (a ++ [opq])) as [[[h|] b]|]; auto. }
      assert (PW : forall a x, present v (a ++ [wh_prefix ++ x]) = true -> present (view_of t2) (a ++ [wh_prefix ++ x]) = true \/ present (view_of t2) (a ++ [opq]) = true).
      { intros a x Hp. unfold present at 1. rewrite H, PO. unfold redundant. rewrite last_last, removelast_last. unfold present in *.
        destruct (v (a ++ [opq])); auto. rewrite andb_false_r. left. unfold ren. now destruct (v (a ++ [wh_prefix ++ x])) as [[[h|] b]|]. }
      assert (PW' : forall a x, present (view_of t2) (a ++ [wh_prefix ++ x]) = true -> present v (a ++ [wh_prefix ++ x]) = true).
      { intros a x. unfold present. rewrite H. destruct (redundant _); [discriminate|]. unfold ren.
        destruct (v (a ++ [wh_prefix ++ x])) as [[[h|] b]|]; auto. }
      assert (ND : forall a x r, q = a ++ x :: r -> non_dir (hdr_of (view_of t2) a) = non_dir (hdr_of v a)).
      { intros a x r E. unfold hdr_of at 1. rewrite H, NR by (rewrite E in R; now apply real_app in R). unfold ren, hdr_of.
        destruct (v a) as [[[h|] b]|]; auto. }
      split; intros (a & x & r & E & D); exists a, x, r; split; auto; rewrite (ND a x r E), ?PO in *.
      - destruct D as [D|[D|D]]; auto. apply PW in D as [D|D]; auto. rewrite PO in D. auto.
      - destruct D as [D|[D|D]]; auto. }
    unfold interp, visible. rewrite SH, H, NR by auto. unfold ren. destruct (v q) as [[[h|] b]|]; auto.
  Qed.
  Theorem write_exact base : (exists m, base [] = Some (FDir m)) -> feq (interp v base) (unpack base [out]).
  Proof.
    intros B. destruct (reload 0) as (t2 & _ & V2 & _ & _ & S2). intros q R. rewrite (interp_ren t2 base V2 q R). symmetry. now apply S2.
  Qed.
End main.
