(** What holds of the tree after loading a stack of well-formed entries. *)
From Coq Require Import String Ascii List Bool ZArith Lia.
From Verif.Model Require Import GoStr GoPath Tar Squash.
From Verif.Spec Require Import PathSpec SquashSpec.
From Verif.Proofs Require Import Order GoStrFacts GoPathFacts SquashTree SquashLoad SquashSim SquashStack.
Import ListNotations.
Local Arguments byte_eqb : simpl never.
Local Arguments str_eqb : simpl never.
Local Arguments clean : simpl never.

Definition marker_pos (q : path) : Prop := exists d k, q = d ++ [k] /\ real_path d /\
  (k = opq \/ exists x, k = wh_prefix ++ x /\ real_path [x]).
Record wfv (v : view) : Prop := {
  w_shape : forall q n, v q = Some n -> real_path q \/ (marker_pos q /\
     exists h b, n = (Some h, b) /\ byte_eqb (th_type h) TypeDir = false /\ byte_eqb (th_type h) TypeSymlink = false);
  w_full : forall q b, v q = Some (None, b) -> q <> [] -> exists z h c, below q z = true /\ v z = Some (Some h, c);
  w_hide : forall d x h b, real_path [x] -> v (d ++ [x]) = Some (Some h, b) -> v (d ++ [wh_prefix ++ x]) = None;
  w_body : forall q b, v q = Some (None, b) -> b = []
}.
Lemma trim_wh k : marker_name k = true -> trim_prefix wh_prefix k <> k.
Proof.
  intros H E. apply marker_spec in H as [x ->]. rewrite trim_prefix_app in E. apply (f_equal (@length _)) in E. cbn in E. lia.
Qed.
Lemma aob_child_ne d k k' r : k <> k' -> at_or_below (d ++ [k]) (d ++ k' :: r) = false.
Proof.
  intros N. apply aob_false. intros r' E. rewrite <- app_assoc in E. apply app_inv_head in E. injection E as E _. congruence.
Qed.
Lemma vsettle_at v d k : vsettle v d k (d ++ [k]) = v (d ++ [k]).
Proof.
  unfold vsettle, vcut. change (has_prefix wh_prefix k) with (marker_name k). destruct (marker_name k) eqn:M; [destruct (str_eqb k opq) eqn:E|].
  - rewrite aob_refl. now destruct (below d (d ++ [k])).
  - rewrite aob_child_ne; auto. now apply trim_wh.
  - rewrite aob_child_ne; auto. intros E. apply (f_equal (@length _)) in E. cbn in E. lia.
Qed.
Lemma vstep_self v p h b : vstep v p h b p = Some (Some h, b).
Proof.
  destruct p as [|c cs].
  - cbn [vstep]. rewrite vcut_ne by reflexivity. apply vwrite_at.
  - rewrite vstep_shape by discriminate. assert (Np : c :: cs <> []) by discriminate.
    destruct (exists_last Np) as (d & k & E). rewrite E, removelast_last, last_last, vsettle_at. apply vwrite_at.
Qed.
Lemma vmkdirs_cases_at ds : forall v f z, vmkdirs_from v f ds z = v z \/
  (at_or_below z (f ++ ds) = true /\ vmkdirs_from v f ds z = Some (None, [])) \/
  (exists a, z = a ++ [opq] /\ at_or_below a (f ++ ds) = true /\ vmkdirs_from v f ds z = Some (Some opq_header, [])).
Proof.
  induction ds as [|k ds IH]; intros v f z; cbn [vmkdirs_from].
  - rewrite app_nil_r. destruct (vmkdir_cases v f z) as [H|[[-> H]|[-> H]]]; auto.
    + right. left. now rewrite aob_refl.
    + right. right. exists f. rewrite aob_refl. auto.
  - destruct (IH (vmkdir v f) (f ++ [k]) z) as [H|[[A H]|(a & -> & A & H)]].
    + rewrite H. destruct (vmkdir_cases v f z) as [H'|[[-> H']|[-> H']]]; auto.
      * right. left. now rewrite aob_app.
      * right. right. exists f. rewrite aob_app. auto.
    + right. left. rewrite <- app_assoc in A. auto.
    + right. right. exists a. rewrite <- app_assoc in A. auto.
Qed.
Lemma vwrite_cases_at v p h b z : z <> p -> vwrite v p h b z = None \/ vwrite v p h b z = v z \/
  (z = p ++ [opq] /\ byte_eqb (th_type h) TypeDir = true /\ vwrite v p h b z = Some (Some opq_header, [])).
Proof.
  intros N. unfold vwrite. destruct (byte_eqb _ _); [destruct (non_dir _)|].
  - destruct (path_dec z (p ++ [opq])) as [->|N2]; [rewrite vput_eq; auto|]. rewrite !vput_ne by auto. auto.
  - rewrite vput_ne by auto. auto.
  - unfold vclear. destruct (below p z); auto. rewrite vput_ne by auto. auto.
Qed.
Lemma vstep_cases_at v p h b z : z <> p -> vstep v p h b z = None \/ vstep v p h b z = v z \/
  (below z p = true /\ vstep v p h b z = Some (None, [])) \/
  (exists a, z = a ++ [opq] /\ (below a p = true \/ (a = p /\ byte_eqb (th_type h) TypeDir = true)) /\
     vstep v p h b z = Some (Some opq_header, [])).
Proof.
  intros N. destruct p as [|c cs].
  - cbn [vstep]. unfold vcut. destruct (at_or_below _ z); auto.
    destruct (vwrite_cases_at v [] h b z N) as [H|[H|(-> & D & H)]]; auto. right. right. right. exists []. auto.
  - set (p := c :: cs) in *. rewrite vstep_shape by discriminate. assert (Np : p <> []) by discriminate.
    destruct (exists_last Np) as (d & k & Ep). rewrite Ep in *. clear Ep Np p c cs. rewrite removelast_last, last_last.
    destruct (vsettle_shrink (vwrite (vmkdirs_from v [] d) (d ++ [k]) h b) d k z) as [H|H]; auto. rewrite H.
    destruct (vwrite_cases_at (vmkdirs_from v [] d) (d ++ [k]) h b z N) as [H1|[H1|(-> & D & H1)]]; auto; [|right; right; right; eauto 6].
    rewrite H1. destruct (vmkdirs_cases_at d v [] z) as [H2|[[A H2]|(a & -> & A & H2)]]; auto.
    + right. right. left. split; auto. now apply below_snoc.
    + right. right. right. exists a. split; auto. split; auto. left. now apply below_snoc.
Qed.
Lemma vmkdirs_keeps ds v f z : v z <> None -> vmkdirs_from v f ds z <> None.
Proof. intros H. destruct (vmkdirs_cases ds v f z) as [E|[[_ E]|(a & _ & E)]]; rewrite E; congruence. Qed.
(** What goes goes with everything above it that is not above the entry. *)
Lemma above_cut (c q z d : path) : at_or_below c z = true -> at_or_below q z = true -> at_or_below q d = false ->
  (forall a, below a c = true -> at_or_below a d = true) -> at_or_below c q = true.
Proof.
  intros H1 H2 H3 H4. destruct (aob_linear c q z H1 H2) as [H|H]; auto. apply aob_cases in H as [->|H]; [apply aob_refl|].
  apply H4 in H. congruence.
Qed.
Lemma vstep_removed v p h b z q : v z <> None -> vstep v p h b z = None -> at_or_below q z = true -> at_or_below q p = false ->
  vstep v p h b q = None.
Proof.
  intros HV HN HQ NP. destruct p as [|c cs].
  - cbn [vstep] in *. unfold vcut in *. destruct (at_or_below [$".wh.."] z) eqn:A.
    + rewrite (above_cut [$".wh.."] q z []); auto. intros a B. apply below_spec in B as (k & r & B).
      destruct a as [|y a]; auto. injection B as _ B. destruct a; discriminate.
    + destruct (at_or_below [$".wh.."] q); auto. unfold vwrite in *. destruct (byte_eqb _ _); [destruct (non_dir _)|].
      * unfold vput in HN. destruct (path_dec _ _); [discriminate|]. destruct (path_dec _ _); [discriminate|]. congruence.
      * unfold vput in HN. destruct (path_dec _ _); [discriminate|]. congruence.
      * unfold vclear in *. destruct q as [|y q]; [discriminate|]. reflexivity.
  - set (p := c :: cs) in *. rewrite vstep_shape in * by discriminate. assert (Np : p <> []) by discriminate.
    destruct (exists_last Np) as (d & k & Ep). rewrite Ep in *. clear Ep Np p c cs. rewrite removelast_last, last_last in *.
    set (w1 := vmkdirs_from v [] d) in *. assert (HV1 : w1 z <> None) by now apply vmkdirs_keeps.
    set (w2 := vwrite w1 (d ++ [k]) h b) in *.
    assert (NPd : at_or_below q d = false).
    { destruct (at_or_below q d) eqn:E; auto. rewrite <- NP. symmetry. eapply aob_trans; [exact E|apply aob_app]. }
    assert (CH : forall k' a, below a (d ++ [k']) = true -> at_or_below a d = true) by (intros k' a; apply below_snoc).
    destruct (w2 z) eqn:E2.
    + unfold vsettle, vcut in *. destruct (has_prefix wh_prefix k); [destruct (str_eqb k opq)|].
      * destruct (below d z) eqn:B; [|congruence]. destruct (at_or_below (d ++ [k]) z) eqn:A; [congruence|].
        replace (below d q) with true.
        -- destruct (at_or_below (d ++ [k]) q) eqn:A2; auto. exfalso. rewrite (aob_trans _ _ _ A2 HQ) in A. discriminate.
        -- symmetry. destruct (aob_linear d q z) as [H|H]; auto; [now apply below_aob| |congruence].
           apply aob_cases in H as [->|H]; auto. now rewrite aob_refl in NPd.
      * destruct (at_or_below _ z) eqn:A; [|congruence]. now rewrite (above_cut _ q z d A HQ NPd (CH _)).
      * destruct (at_or_below _ z) eqn:A; [|congruence]. now rewrite (above_cut _ q z d A HQ NPd (CH _)).
    + assert (E3 : w2 q = None).
      { subst w2. unfold vwrite in *. destruct (byte_eqb _ _); [destruct (non_dir _)|].
        - unfold vput in E2. destruct (path_dec _ _); [discriminate|]. destruct (path_dec _ _); [discriminate|]. congruence.
        - unfold vput in E2. destruct (path_dec _ _); [discriminate|]. congruence.
        - unfold vclear in *. destruct (below (d ++ [k]) z) eqn:B.
          + replace (below (d ++ [k]) q) with true; auto. symmetry. apply below_aob in B.
            destruct (aob_linear (d ++ [k]) q z B HQ) as [H|H]; [|congruence].
            apply aob_cases in H as [->|H]; auto. now rewrite aob_refl in NP.
          + unfold vput in E2. destruct (path_dec _ _); [discriminate|]. congruence. }
      destruct (vsettle_shrink w2 d k q) as [H|H]; congruence.
Qed.
Lemma vstep_hides v d x h b : real_path [x] -> vstep v (d ++ [wh_prefix ++ x]) h b (d ++ [x]) = None.
Proof.
  intros R. rewrite vstep_shape by (destruct d; discriminate). rewrite removelast_last, last_last. unfold vsettle.
  change (has_prefix wh_prefix (wh_prefix ++ x)) with (marker_name (wh_prefix ++ x)). rewrite wh_marker.
  destruct (str_eqb (wh_prefix ++ x) opq) eqn:E.
  - exfalso. apply str_eqb_eq in E. symmetry in E. apply opq_wh in E. apply (real_not_marker [] x) in R. congruence.
  - rewrite trim_prefix_app. unfold vcut. now rewrite aob_refl.
Qed.
Lemma good_shape e : good_entry e -> real_path (entry_path e) \/
  (marker_pos (entry_path e) /\ is_dir e = false /\ is_link e = false).
Proof. intros [_ [R|(d & k & E & R & D & L & K)]]; auto. right. split; auto. exists d, k. auto. Qed.
Lemma wfv_step v e v' : wfv v -> good_entry e -> veq v' (vstep v (entry_path e) (fst (parsed e)) (snd e)) -> wfv v'.
Proof.
  intros W G V. set (p := entry_path e) in *. set (h := fst (parsed e)) in *. set (b := snd e) in *. split.
  - intros q n Hq. rewrite V in Hq. destruct (path_dec q p) as [->|N].
    + rewrite vstep_self in Hq. injection Hq as <-. destruct (good_shape e G) as [R|(M & D & L)]; auto. right. split; auto.
      exists h, b. auto.
    + destruct (vstep_cases_at v p h b q N) as [H|[H|[[B H]|(a & -> & A & H)]]]; rewrite H in Hq.
      * discriminate.
      * now apply (w_shape v W) in Hq.
      * left. now apply (good_real_anc e).
      * right. injection Hq as <-. split; [|exists opq_header, []; split; auto]. exists a, opq. split; auto. split; auto.
        destruct A as [A|[-> D]]; [now apply (good_real_anc e)|]. destruct (good_shape e G) as [R|(M & D' & _)]; auto.
        change (is_dir e) with (byte_eqb (th_type h) TypeDir) in D'. congruence.
  - intros q c Hq Nq. rewrite V in Hq. destruct (path_dec q p) as [->|N]; [rewrite vstep_self in Hq; discriminate|].
    destruct (below q p) eqn:B.
    { exists p, h, b. split; auto. rewrite V. apply vstep_self. }
    assert (A : at_or_below q p = false).
    { destruct (at_or_below q p) eqn:A; auto. apply aob_cases in A as [A|A]; congruence. }
    destruct (vstep_cases_at v p h b q N) as [H|[H|[[B' H]|(a & E & A' & H)]]]; rewrite H in Hq; try congruence.
    destruct (w_full v W q c Hq Nq) as (z & hz & cz & Bz & Hz).
    assert (Nz : z <> p) by (intros ->; congruence).
    destruct (vstep_cases_at v p h b z Nz) as [Hz'|[Hz'|[[B' Hz']|(a & E & A' & Hz')]]].
    + exfalso. assert (X : vstep v p h b q = None); [|congruence].
      apply (vstep_removed v p h b z q); auto; [congruence|now apply below_aob].
    + exists z, hz, cz. split; auto. rewrite V. congruence.
    + exfalso. rewrite (below_trans _ _ _ Bz B') in B. discriminate.
    + exists z, opq_header, []. split; auto. rewrite V. auto.
  - intros d x hx bx Rx Hx. rewrite V in Hx |- *. pose proof (real_not_marker [] x Rx) as Mx.
    destruct (path_dec (d ++ [x]) p) as [E|N].
    { rewrite <- E. now apply vstep_unhides. }
    destruct (path_dec (d ++ [wh_prefix ++ x]) p) as [E|N'].
    { rewrite <- E, vstep_hides in Hx by auto. discriminate. }
    assert (HV : v (d ++ [x]) = Some (Some hx, bx)).
    { destruct (vstep_cases_at v p h b _ N) as [H|[H|[[B H]|(a & E & _ & H)]]]; rewrite H in Hx; try congruence.
      apply child_inj in E as [_ ->]. discriminate. }
    apply (w_hide v W) in HV; auto.
    destruct (vstep_cases_at v p h b _ N') as [H|[H|[[B H]|(a & E & _ & H)]]]; try congruence.
    + exfalso. apply good_real_anc in B; auto. now apply (real_ne_wh _ d x) in B.
    + exfalso. apply child_inj in E as [_ E]. symmetry in E. apply opq_wh in E. congruence.
  - intros q c Hq. rewrite V in Hq. destruct (path_dec q p) as [->|N]; [rewrite vstep_self in Hq; discriminate|].
    destruct (vstep_cases_at v p h b q N) as [H|[H|[[B' H]|(a & E & A' & H)]]]; rewrite H in Hq; try congruence.
    now apply (w_body v W) in Hq.
Qed.
Lemma wfv_empty : wfv (view_of empty_tree).
Proof.
  split.
  - intros [|k q] n H; [left; split; constructor|discriminate].
  - intros [|k q] n H N; [congruence|discriminate].
  - intros [|k d] x h b _ H; discriminate.
  - intros [|k q] b H; [now injection H|discriminate].
Qed.
