(** When squashing ends. *)
From Coq Require Import String Ascii List Bool ZArith Lia.
From Verif.Model Require Import GoStr GoPath Tar Squash.
From Verif.Spec Require Import PathSpec SquashSpec SimpleAPISpec EndsSpec.
From Verif.Proofs Require Import Order GoStrFacts GoPathFacts SquashTree SquashLoad SquashSim SquashStack SquashWf SquashInv SquashMain SquashFinal SquashMore SquashLinks SquashCreate SquashBack SquashHard.
Import ListNotations.
Local Open Scope nat_scope.
Local Arguments byte_eqb : simpl never.
Local Arguments str_eqb : simpl never.
Local Arguments clean : simpl never.

(** *** exactly when there is an output *)
Theorem squash_ends sort order layers : Forall (Forall good_entry) layers -> Forall (Forall proper_link) layers ->
  ((exists n out, squash n sort order layers = Ret out) <->
   (exists layers', plain_stack layers' /\ all_at_target empty_root (all_entries layers) (all_entries layers'))).
Proof.
  intros G P. split.
  - intros (n & out & E). destruct (squash_back n sort order layers out G P E) as (ls & PL & A & _). eauto.
  - intros (ls & PL & A).
    assert (IN : Forall (Forall in_root) layers) by (eapply Forall_impl; [|exact G]; intros l; apply Forall_impl, good_inside).
    destruct (squash_links sort order layers ls IN PL A) as [N H]. destruct (squash_terminates N sort order ls PL) as [out E].
    exists (4 + N), out. rewrite H by lia. exact E.
Qed.

(** *** the shape of what is unpacked *)
Definition shape (fs : fsys) : Prop := forall d x, fs (d ++ [x]) <> None -> is_dir_at fs d.
Lemma shape_deep fs r : shape fs -> forall d x, fs (d ++ x :: r) <> None -> is_dir_at fs d.
Proof.
  intros S. induction r as [|y r IH] using rev_ind; intros d x H; [now apply S in H|].
  apply (IH d x). change (x :: r ++ [y]) with ((x :: r) ++ [y]) in H. rewrite app_assoc in H. apply S in H as [m ->]. discriminate.
Qed.
Lemma aob_parent d x p : at_or_below (d ++ [x]) p = true -> at_or_below d p = true.
Proof. intros H. apply aob_spec in H as [r ->]. apply aob_spec. exists (x :: r). now rewrite <- app_assoc. Qed.
Lemma shape_mkdirs fs p : shape fs -> shape (mkdirs fs p).
Proof.
  intros S d x. unfold mkdirs, is_dir_at. destruct (at_or_below (d ++ [x]) p) eqn:A.
  - intros _. rewrite (aob_parent _ _ _ A). destruct (fs d) as [[]|]; eauto.
  - intros H. apply S in H as [m E]. rewrite E. destruct (at_or_below d p); eauto.
Qed.
Lemma below_step p d x : below p d = true -> below p (d ++ [x]) = true.
Proof.
  unfold below. rewrite !andb_true_iff, !negb_true_iff. intros [A B]. apply aob_spec in A as [r ->]. split; [apply aob_spec; exists (r ++ [x]); now rewrite app_assoc|].
  destruct (at_or_below ((p ++ r) ++ [x]) p) eqn:C; auto. apply aob_parent in C. congruence.
Qed.
Lemma shape_remove_below fs p : shape fs -> shape (remove_below fs p).
Proof.
  intros S d x. unfold remove_below, is_dir_at. destruct (below p (d ++ [x])) eqn:B; [congruence|]. intros H. apply S in H as [m E].
  destruct (below p d) eqn:B'; [apply (below_step p d x) in B'; congruence|eauto].
Qed.
Lemma shape_remove fs p : shape fs -> shape (remove fs p).
Proof.
  intros S d x. unfold remove, is_dir_at. destruct (at_or_below p (d ++ [x])) eqn:B; [congruence|]. intros H. apply S in H as [m E].
  destruct (at_or_below p d) eqn:B'; [|eauto]. apply aob_spec in B' as [r ->]. assert (at_or_below p ((p ++ r) ++ [x]) = true) by (apply aob_spec; exists (r ++ [x]); now rewrite app_assoc). congruence.
Qed.
Lemma last_longer {A} (d : list A) x : d <> d ++ [x].
Proof. intros E. apply (f_equal (@length A)) in E. rewrite app_length in E. cbn in E. lia. Qed.
Lemma shape_put_dir fs p m : shape fs -> (p = [] \/ is_dir_at fs (removelast p)) -> shape (put_node fs p (FDir m)).
Proof.
  intros S H d x. unfold put_node, is_dir_at. destruct (path_dec (d ++ [x]) p) as [<-|N].
  - intros _. destruct (path_dec d (d ++ [x])) as [E|_]; [now apply last_longer in E|]. destruct H as [H|H]; [now destruct d|]. now rewrite removelast_last in H.
  - intros E. destruct (path_dec d p); [eauto|]. now apply S in E.
Qed.
Lemma shape_put_file fs p h c : shape fs -> (p = [] \/ is_dir_at fs (removelast p)) -> (forall x, fs (p ++ [x]) = None) -> shape (put_node fs p (FFile h c)).
Proof.
  intros S H K d x. unfold put_node, is_dir_at. destruct (path_dec (d ++ [x]) p) as [<-|N].
  - intros _. destruct (path_dec d (d ++ [x])) as [E|_]; [now apply last_longer in E|]. destruct H as [H|H]; [now destruct d|]. now rewrite removelast_last in H.
  - intros E. destruct (path_dec d p) as [->|_]; [now rewrite K in E|]. now apply S in E.
Qed.
Lemma made_dir fs p : is_dir_at (mkdirs fs p) p.
Proof. unfold is_dir_at, mkdirs. rewrite (proj2 (aob_spec p p)) by (exists []; now rewrite app_nil_r). destruct (fs p) as [[]|]; eauto. Qed.
Lemma below_snoc_self p x : below p (p ++ [x]) = true.
Proof.
  unfold below. apply andb_true_iff. split; [apply aob_spec; eauto|]. apply negb_true_iff. destruct (at_or_below (p ++ [x]) p) eqn:A; auto. apply aob_spec in A as [r A].
  apply (f_equal (@length str)) in A. rewrite !app_length in A. cbn in A. lia.
Qed.
Lemma not_below_parent p : p <> [] -> below p (removelast p) = false.
Proof.
  intros N. destruct (exists_last N) as (d & x & ->). rewrite removelast_last. destruct (below (d ++ [x]) d) eqn:B; auto. unfold below in B. apply andb_true_iff in B as [B _].
  apply aob_spec in B as [r B]. apply (f_equal (@length str)) in B. rewrite !app_length in B. cbn in B. lia.
Qed.
Lemma shape_step fs e : shape fs -> shape (unpack_entry fs e).
Proof.
  intros S. unfold unpack_entry. set (p := entry_path e). pose proof (shape_mkdirs fs (removelast p) S) as SM. pose proof (made_dir fs (removelast p)) as MD.
  revert SM MD. generalize (mkdirs fs (removelast p)). clear S fs. intros fs S MD. destruct (marker_name (last p [])).
  - destruct (str_eqb _ _); [now apply shape_remove_below|now apply shape_remove].
  - destruct (is_dir e); [now apply shape_put_dir; auto|]. apply shape_put_file.
    + now apply shape_remove_below.
    + destruct (path_dec p []) as [E|N]; [now left|]. right. destruct MD as [m MD]. exists m. unfold remove_below. now rewrite not_below_parent.
    + intros x. unfold remove_below. now rewrite below_snoc_self.
Qed.

(** *** where paths lead, with direct links *)
Section direct.
  Context (ES : list entry) (DL : direct_links ES) (GE : Forall good_entry ES) (PE : Forall proper_link ES).
  Definition known (fs : fsys) : Prop := forall p h c, fs p = Some (FFile h c) -> th_type h = TypeSymlink ->
    exists e, In e ES /\ is_link e = true /\ entry_path e = p /\ th_link (fst e) = th_link h.
  Definition inv (fs : fsys) : Prop := shape fs /\ (forall p, fs p <> None -> real_path p) /\ known fs.
  Context (fs : fsys) (IV : inv fs).
  Definition open (p : path) : Prop := real_path p /\ forall r, at_or_below r p = true -> ~ is_symlink_at fs r.
  Definition open_above (p : path) : Prop := real_path p /\ forall r, below r p = true -> ~ is_symlink_at fs r.
  Lemma dir_dec d : {is_dir_at fs d} + {~ is_dir_at fs d}.
  Proof. unfold is_dir_at. destruct (fs d) as [[m|h c]|]; [left; eauto|right; intros [m E]; discriminate|right; intros [m E]; discriminate]. Qed.
  Lemma link_dec p : is_symlink_at fs p \/ ~ is_symlink_at fs p.
  Proof.
    unfold is_symlink_at. destruct (fs p) as [[m|h c]|]; [right; intros (h & c & E & _); discriminate| |right; intros (h & c & E & _); discriminate].
    destruct (ascii_dec (th_type h) TypeSymlink) as [E|N]; [left; eauto|]. right. intros (h' & c' & E & T). injection E as <- <-. contradiction.
  Qed.
  Lemma parent_dirs d : is_dir_at fs d -> is_dir_at fs (removelast d).
  Proof.
    intros D. destruct (path_dec d []) as [->|N]; [exact D|]. destruct (exists_last N) as (d' & x & ->). rewrite removelast_last. destruct IV as [S _].
    apply (S d' x). destruct D as [m ->]. discriminate.
  Qed.
  Lemma straight ps : plain_path ps -> forall d, is_dir_at fs d -> (forall r, at_or_below r (d ++ ps) = true -> ~ is_symlink_at fs r) -> reaches fs d ps (d ++ ps).
  Proof.
    induction 1 as [|c cs Pc Pcs IH]; intros d D NL; [rewrite app_nil_r; apply reaches_nil|].
    destruct cs as [|c' cs]; [now apply reaches_last|].
    assert (N1 : ~ is_symlink_at fs (d ++ [c])) by (apply NL, aob_spec; exists (c' :: cs); now rewrite <- app_assoc).
    replace (d ++ c :: c' :: cs) with ((d ++ [c]) ++ c' :: cs) by (rewrite <- app_assoc; reflexivity).
    apply reaches_down with (d' := d ++ [c]); auto; [now apply leads_end|discriminate|]. destruct (dir_dec (d ++ [c])) as [D'|D'].
    - apply IH; auto. intros r A. apply NL. rewrite <- app_assoc in A. exact A.
    - apply reaches_new; auto. discriminate.
  Qed.
  Lemma along_plain ps : plain_path ps -> forall d, along d ps = d ++ ps.
  Proof.
    induction 1 as [|c cs Pc Pcs IH]; intros d; [now rewrite app_nil_r|]. cbn [along]. destruct (plain_keys _ Pc) as [K _]. change dotdot with $"..". rewrite K, IH, <- app_assoc. reflexivity.
  Qed.
  Lemma reaches_steps m ps : plain_path ps -> forall d, is_dir_at fs d ->
    (forall r, at_or_below r (along d (repeat dotdot m ++ ps)) = true -> ~ is_symlink_at fs r) ->
    reaches fs d (repeat dotdot m ++ ps) (along d (repeat dotdot m ++ ps)).
  Proof.
    intros P. induction m as [|m IH]; intros d D NL.
    - cbn [repeat app] in *. rewrite along_plain in * by auto. now apply straight.
    - cbn [repeat app along] in *. rewrite str_eqb_refl in *. apply reaches_up. apply IH; auto. now apply parent_dirs.
  Qed.
  Lemma along_real m ps : plain_path ps -> unmarked ps -> forall d, real_path d -> real_path (along d (repeat dotdot m ++ ps)).
  Proof.
    intros P M. induction m as [|m IH]; intros d R.
    - cbn [repeat app]. rewrite along_plain by auto. now apply real_add.
    - cbn [repeat app along]. rewrite str_eqb_refl. apply IH. now apply (real_parent d).
  Qed.
  Lemma link_entry p h c : fs p = Some (FFile h c) -> th_type h = TypeSymlink -> exists e, In e ES /\ is_link e = true /\ entry_path e = p /\ th_link (fst e) = th_link h.
  Proof. intros. destruct IV as (_ & _ & K). eapply K; eauto. Qed.
  Lemma dest_open e : In e ES -> is_link e = true -> real_path (destination e) -> open (destination e).
  Proof.
    intros I L R. split; auto. intros r A (h & c & E & T). destruct (link_entry r h c E T) as (e' & I' & L' & P' & _).
    destruct (DL e' e I' I L' L) as [X _]. rewrite P' in X. congruence.
  Qed.
  Lemma leads_on p : open_above p -> exists D, leads fs p D /\ open D.
  Proof.
    intros [R A]. destruct (link_dec p) as [(h & c & E & T)|N].
    2: { exists p. split; [now apply leads_end|]. split; auto. intros r B. destruct (path_dec r p) as [->|NE]; auto. apply A. unfold below. rewrite B. cbn [andb].
         apply negb_true_iff. destruct (at_or_below p r) eqn:C; auto. exfalso. apply NE. apply aob_spec in B as [x ->]. apply aob_spec in C as [y C].
         rewrite <- app_assoc in C. rewrite <- (app_nil_r r) in C at 1. apply app_inv_head in C. destruct x; [now rewrite app_nil_r|discriminate]. }
    destruct (link_entry p h c E T) as (e & I & L & P & TL). rewrite Forall_forall in GE, PE. destruct (PE e I L) as (NP & NR & M).
    assert (RD : real_path (destination e) /\ exists m ps, clean_comps (th_link h) = repeat dotdot m ++ ps /\ plain_path ps).
    { destruct (clean_comps_list (th_link (fst e))) as (m & ps & CL & Pp & _). split; [|rewrite <- TL; eauto]. unfold destination. rewrite CL in M |- *. apply Forall_app in M as [_ M].
      apply along_real; auto. destruct (is_abs _); [apply real_nil|]. rewrite P. now apply (real_parent p). }
    destruct RD as (RD & m & ps & CL & Pp). pose proof (dest_open e I L RD) as O. exists (destination e). split; auto.
    assert (BD : is_dir_at fs (if is_abs (th_link h) then [] else removelast p)).
    { destruct (exists_last (l := p)) as (d & x & Ep); [congruence|]. destruct IV as (S & _). rewrite Ep in E. destruct (is_abs (th_link h)).
      - destruct d as [|y d]; [apply (S [] x); cbn [app] in E |- *; congruence|]. apply (shape_deep fs (d ++ [x]) S [] y). cbn [app] in E |- *. congruence.
      - rewrite Ep, removelast_last. apply (S d x). congruence. }
    apply leads_link with (h := h) (c := c) (q := destination e); auto; [congruence| |apply leads_end; apply O; apply aob_spec; exists []; now rewrite app_nil_r].
    unfold destination. rewrite TL, P, CL. apply reaches_steps; auto. rewrite <- CL, <- P, <- TL. apply O.
  Qed.
  Lemma walk cs : plain_path cs -> unmarked cs -> forall d, open d -> exists q, reaches fs d cs q /\ open_above q.
  Proof.
    induction cs as [|c cs IH]; intros P M d O.
    - exists d. split; [apply reaches_nil|]. destruct O as [R O]. split; auto. intros r B. apply O. unfold below in B. apply andb_true_iff in B. apply B.
    - inversion P as [|? ? Pc Pcs]; inversion M as [|? ? Mc Mcs]; subst. destruct (dir_dec d) as [D|D].
      + assert (OA : open_above (d ++ [c])).
        { destruct O as [R O]. split; [apply real_add; auto; constructor; auto|]. intros r B. apply O. now apply below_snoc in B. }
        destruct cs as [|c' cs]; [exists (d ++ [c]); split; auto; now apply reaches_last|].
        destruct (leads_on _ OA) as (D' & L & O'). destruct (IH Pcs Mcs D' O') as (q & Q & OQ). exists q. split; auto. eapply reaches_down; eauto. discriminate.
      + exists (d ++ c :: cs). destruct O as [R O]. assert (NL : ~ is_symlink_at fs d) by (apply O, aob_spec; exists []; now rewrite app_nil_r). split.
        * apply reaches_new; auto. discriminate.
        * split; [now apply real_add|]. intros r B (h & x & E & T). unfold below in B. apply andb_true_iff in B as [B _]. destruct IV as (S & _).
          assert (C : at_or_below r d = true \/ exists y z, r = d ++ y :: z).
          { clear -B. revert d B. induction r as [|a r IHr]; intros d B; [now left|]. destruct d as [|b d]; [right; cbn [app]; eauto|]. cbn [app at_or_below] in B |- *.
            apply andb_true_iff in B as [B1 B2]. apply str_eqb_eq in B1 as ->. rewrite str_eqb_refl. destruct (IHr d B2) as [H|(y & z & ->)]; [now left|right; eauto]. }
          destruct C as [C|(y & z & ->)]; [apply (O r C); exists h, x; auto|]. apply D. apply (shape_deep fs z S d y). congruence.
  Qed.
  Lemma root_open : open [].
  Proof.
    split; [apply real_nil|]. intros r A. destruct r; [|discriminate]. intros (h & c & E & T). destruct (link_entry [] h c E T) as (e & I & L & P & _).
    rewrite Forall_forall in PE. now destruct (PE e I L) as [N _].
  Qed.
  Definition settled (e e' : entry) : Prop := at_target fs e e' /\ good_entry e' /\ is_marker e' = is_marker e /\ (is_link e' = true -> e' = e) /\
    (forall q, below q (entry_path e') = true -> ~ is_symlink_at fs q).
  Lemma entry_on e : In e ES -> exists e', settled e e'.
  Proof.
    intros I. pose proof GE as GE'. rewrite Forall_forall in GE'. pose proof (GE' e I) as G.
    assert (KEEP : (forall q, below q (entry_path e) = true -> ~ is_symlink_at fs q) -> exists e', settled e e').
    { intros H. exists e. split; [destruct G as [A _]; split; auto|]. auto. }
    destruct (is_link e) eqn:L.
    { apply KEEP. intros q B (h & c & E & T). destruct (link_entry q h c E T) as (e' & I' & L' & P' & _). destruct (DL e' e I' I L' L) as [_ X]. rewrite P' in X. congruence. }
    destruct (path_dec (entry_path e) []) as [Ep|Np]; [apply KEEP; intros q B; rewrite Ep in B; now destruct q|].
    destruct (exists_last Np) as (a & k & Ep). pose proof (good_inside e G) as IN.
    assert (Pp : plain_path (a ++ [k])) by (rewrite <- Ep; apply IN). pose proof Pp as Pak. apply plain_path_app in Pak as [Pa Pk].
    assert (Ra : real_path a). { apply (good_real_anc e); auto. rewrite Ep. apply below_app. }
    destruct (walk a (proj1 Ra) (proj2 Ra) [] root_open) as (q & Q & OQ). destruct (leads_on q OQ) as (D & LD & OD). pose proof OD as [RD NL].
    assert (Pe : plain_path (D ++ [k])) by (apply plain_path_app; split; auto; apply RD).
    exists (with_name (fst e) (path_text false (D ++ [k])), snd e).
    assert (EP : entry_path (with_name (fst e) (path_text false (D ++ [k])), snd e) = D ++ [k]).
    { unfold entry_path. cbn [fst th_name with_name]. apply clean_comps_text. now apply plain_clean. }
    assert (AB : is_abs (path_text false (D ++ [k])) = false) by (apply is_abs_text; now apply plain_clean).
    split; [|split; [|split; [|split]]].
    - split; [reflexivity|]. split; [reflexivity|]. split; [exact AB|]. right. exists a, q, D, [k]. split; auto. split; [discriminate|]. split; auto.
    - split; [exact AB|]. rewrite EP. destruct G as [_ [R|(d' & k' & E' & R & I1 & I2 & I3)]].
      + left. rewrite Ep in R. apply real_app in R as [_ R]. apply real_app. split; auto.
      + right. rewrite Ep in E'. apply app_inj_tail in E' as [<- <-]. exists D, k. split; auto.
    - unfold is_marker. rewrite EP, Ep, !last_last. reflexivity.
    - intros X. exfalso. change (is_link e = true) in X. congruence.
    - rewrite EP. intros r B. apply NL. now apply below_snoc in B.
  Qed.
End direct.
Lemma inv_step ES fs e e' : inv ES fs -> In e ES -> settled fs e e' -> inv ES (unpack_entry fs e').
Proof.
  intros (S & R & K) I (_ & G & _ & L & _). split; [now apply shape_step|]. split; [intros p; now apply real_only_step|].
  intros p h c E T. unfold unpack_entry in E. set (q := entry_path e') in *.
  assert (OLD : forall p, mkdirs fs (removelast q) p = Some (FFile h c) -> fs p = Some (FFile h c)).
  { intros x. unfold mkdirs. destruct (at_or_below x _); auto. destruct (fs x) as [[]|]; discriminate. }
  destruct (marker_name (last q [])).
  - destruct (str_eqb _ _); unfold remove_below, remove in E; [destruct (below _ _)|destruct (at_or_below _ _)]; try discriminate; eapply K; eauto.
  - destruct (is_dir e'); unfold put_node, remove_below in E.
    + destruct (path_dec p q); [discriminate|]. eapply K; eauto.
    + destruct (path_dec p q) as [->|_]; [|destruct (below q p); [discriminate|]; eapply K; eauto]. injection E as <- <-.
      assert (LE : is_link e' = true) by (unfold is_link; cbn in T; rewrite T; reflexivity). pose proof (L LE) as Le. unfold q. rewrite Le. rewrite Le in LE. exists e. auto.
Qed.
Lemma inv_empty ES : inv ES empty_root.
Proof.
  split; [|split].
  - intros d x H. destruct d; cbn in H; congruence.
  - intros [|? ?] H; [apply real_nil|cbn in H; congruence].
  - intros [|? ?] h c E; discriminate.
Qed.
Lemma all_settle ES : direct_links ES -> Forall good_entry ES -> Forall proper_link ES -> forall es es0, (forall e, In e es -> In e ES) -> inv ES (unpacked es0) ->
  exists es', all_at_target (unpacked es0) es es' /\ Forall good_entry es' /\ map is_marker es' = map is_marker es /\
    (forall es1 e es2, es' = es1 ++ e :: es2 -> no_link_above (es0 ++ es1) e).
Proof.
  intros DL GE PE. induction es as [|e es IH]; intros es0 IN IV.
  - exists []. split; [constructor|]. split; [constructor|]. split; auto. intros [|? ?] ? ? X; discriminate.
  - destruct (entry_on ES DL GE PE (unpacked es0) IV e) as (e' & ST); [apply IN; now left|]. pose proof ST as (AT & G & M & L & NL).
    destruct (IH (es0 ++ [e'])) as (es' & A & Gs & Ms & Hs).
    { intros x X. apply IN. now right. }
    { rewrite unpacked_snoc. eapply inv_step; eauto. apply IN. now left. }
    exists (e' :: es'). split; [constructor; auto; now rewrite <- unpacked_snoc|]. split; [now constructor|]. split; [cbn [map]; now rewrite M, Ms|].
    intros [|z es1] w es2 X; cbn [app] in X; injection X as <- X; [subst; rewrite app_nil_r; exact NL|].
    specialize (Hs es1 w es2 X). rewrite <- app_assoc in Hs. exact Hs.
Qed.
Theorem direct_ends sort order layers : Forall (Forall good_entry) layers -> Forall (Forall proper_link) layers -> direct_links (all_entries layers) ->
  exists N out, forall n, N <= n -> squash n sort order layers = Ret out.
Proof.
  intros G P DL. destruct (all_settle (all_entries layers) DL (all_Forall _ _ G) (all_Forall _ _ P) (all_entries layers) []) as (es' & A & Gs & Ms & Hs); auto.
  { apply inv_empty. }
  destruct (relayer layers es' Ms Gs) as (ls & <- & GL).
  destruct (proj2 (squash_ends sort order layers G P)) as (n & out & E); [exists ls; split; auto; split; auto|].
  exists n, out. intros m L. eapply more_squash; eauto.
Qed.

(** *** the examples *)
Definition direct_linksb (es : list entry) : bool :=
  forallb (fun e => forallb (fun e' => negb (is_link e && is_link e') || (negb (at_or_below (entry_path e) (destination e')) && negb (below (entry_path e) (entry_path e')))) es) es.
Lemma direct_linksb_ok es : direct_linksb es = true -> direct_links es.
Proof.
  intros H e e' I I' L L'. unfold direct_linksb in H. rewrite forallb_forall in H. specialize (H e I). rewrite forallb_forall in H. specialize (H e' I').
  rewrite L, L' in H. cbn [andb negb orb] in H. apply andb_true_iff in H as [A B]. now apply negb_true_iff in A, B.
Qed.
