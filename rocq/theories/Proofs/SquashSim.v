(** Loading entries into the tree and unpacking them agree. *)
From Coq Require Import String Ascii List Bool ZArith Lia.
From Verif.Model Require Import GoStr GoPath Tar Squash.
From Verif.Spec Require Import PathSpec SquashSpec.
From Verif.Proofs Require Import Order GoStrFacts GoPathFacts SquashTree SquashLoad.
Import ListNotations.
Local Arguments byte_eqb : simpl never.
Local Arguments str_eqb : simpl never.
Local Arguments clean : simpl never.

(** *** the file system that a tree describes, over a base *)
Definition present (v : view) (p : path) : bool := match v p with Some _ => true | None => false end.
Fixpoint shadow (v : view) (d p : path) : bool :=
  match p with
  | [] => false
  | x :: r => present v (d ++ [opq]) || present v (d ++ [wh_prefix ++ x]) || non_dir (hdr_of v d) || shadow v (d ++ [x]) r
  end.
Definition visible (v : view) (base : fsys) (p : path) : option fnode :=
  if shadow v [] p then None else base p.
Definition interp (v : view) (base : fsys) : fsys := fun p =>
  match v p with
  | Some (Some h, b) => Some (if byte_eqb (th_type h) TypeDir then FDir (Some (anon h)) else FFile (anon h) b)
  | Some (None, _) => Some (FDir (match visible v base p with Some (FDir m) => m | _ => None end))
  | None => visible v base p
  end.

Lemma shadow_spec v d p : shadow v d p = true <-> exists a x r, p = a ++ x :: r /\
  (present v (d ++ a ++ [opq]) = true \/ present v (d ++ a ++ [wh_prefix ++ x]) = true \/ non_dir (hdr_of v (d ++ a)) = true).
Proof.
  revert d. induction p as [|y p IH]; intros d; cbn [shadow].
  - split; [discriminate|]. intros (a & x & r & H & _). destruct a; discriminate.
  - rewrite !orb_true_iff, IH. split.
    + intros [[[H|H]|H]|(a & x & r & -> & H)].
      * exists [], y, p. rewrite app_nil_r. cbn [app]. auto.
      * exists [], y, p. rewrite app_nil_r. cbn [app]. auto.
      * exists [], y, p. rewrite app_nil_r. cbn [app]. auto.
      * exists (y :: a), x, r. split; auto. rewrite <- !app_assoc in H. exact H.
    + intros (a & x & r & E & H). destruct a as [|z a].
      * injection E as -> ->. rewrite app_nil_r in H. cbn [app] in H. tauto.
      * injection E as -> ->. right. exists a, x, r. split; auto. rewrite <- !app_assoc. exact H.
Qed.
Lemma shadow_ext v w p : (forall a x r, p = a ++ x :: r ->
  present v (a ++ [opq]) = present w (a ++ [opq]) /\ present v (a ++ [wh_prefix ++ x]) = present w (a ++ [wh_prefix ++ x]) /\
  non_dir (hdr_of v a) = non_dir (hdr_of w a)) -> shadow v [] p = shadow w [] p.
Proof.
  intros H. apply eq_true_iff_eq. rewrite !shadow_spec. cbn [app].
  split; intros (a & x & r & E & D); exists a, x, r; split; auto; destruct (H a x r E) as (E1 & E2 & E3);
    [rewrite E1, E2, E3 in D | rewrite E1, E2, E3]; auto.
Qed.
Lemma shadow_true v p a x r : p = a ++ x :: r ->
  present v (a ++ [opq]) = true \/ present v (a ++ [wh_prefix ++ x]) = true \/ non_dir (hdr_of v a) = true -> shadow v [] p = true.
Proof. intros E H. apply shadow_spec. exists a, x, r. auto. Qed.

(** Real paths and marker paths. *)
Lemma real_app p q : real_path (p ++ q) <-> real_path p /\ real_path q.
Proof. unfold real_path, plain_path. rewrite !Forall_app. tauto. Qed.
Lemma real_not_marker d k : real_path (d ++ [k]) -> marker_name k = false.
Proof. intros [_ H]. apply Forall_app in H as [_ H]. now inversion H. Qed.
Lemma real_ne_opq q d : real_path q -> q <> d ++ [opq].
Proof. intros H ->. apply real_not_marker in H. discriminate. Qed.
Lemma real_ne_wh q d x : real_path q -> q <> d ++ [wh_prefix ++ x].
Proof. intros H ->. apply real_not_marker in H. discriminate. Qed.
Lemma real_prefix q d k : real_path q -> marker_name k = true -> at_or_below (d ++ [k]) q = false.
Proof.
  intros H M. apply aob_false. intros r ->. apply real_app in H as [H _]. apply real_not_marker in H. congruence.
Qed.
Lemma wh_marker x : marker_name (wh_prefix ++ x) = true.
Proof. apply marker_spec. eauto. Qed.
Lemma real_snoc a x r : real_path (a ++ x :: r) -> real_path (a ++ [x]).
Proof. change (x :: r) with ([x] ++ r). rewrite app_assoc. intros H. now apply real_app in H. Qed.

(** *** agreement *)
Lemma agree_refl a : agree a a.
Proof. destruct a as [[m|h c]|]; cbn [agree]; auto. Qed.
Lemma agree_trans a b c : agree a b -> agree b c -> agree a c.
Proof.
  destruct a as [[m|h x]|], b as [[m'|h' x']|], c as [[m''|h'' x'']|]; cbn [agree]; try tauto.
  - intros [H|H] [H0|H0]; subst; auto.
  - intros [-> ->] [-> ->]. auto.
Qed.
(** Agreement of two file systems on real paths. *)
Definition fagree (f g : fsys) : Prop := forall q, real_path q -> agree (f q) (g q).
Definition feq (f g : fsys) : Prop := forall q, real_path q -> f q = g q.
Lemma feq_agree f g : feq f g -> fagree f g.
Proof. intros H q R. rewrite H by auto. apply agree_refl. Qed.
Lemma fagree_trans f g h : fagree f g -> fagree g h -> fagree f h.
Proof. intros H H' q R. eapply agree_trans; eauto. Qed.

(** *** creating directories *)
Definition mkdir1 (fs : fsys) (p : path) : fsys := fun q =>
  if path_dec q p then match fs q with Some (FDir m) => Some (FDir m) | _ => Some (FDir None) end else fs q.
Fixpoint mkdirs_from (fs : fsys) (f : path) (ds : list str) : fsys :=
  match ds with
  | [] => mkdir1 fs f
  | k :: ds' => mkdirs_from (mkdir1 fs f) (f ++ [k]) ds'
  end.
Lemma mkdirs_from_spec ds : forall fs f q, mkdirs_from fs f ds q =
  (if at_or_below f q && at_or_below q (f ++ ds) then match fs q with Some (FDir m) => Some (FDir m) | _ => Some (FDir None) end else fs q).
Proof.
  induction ds as [|k ds IH]; intros fs f q; cbn [mkdirs_from].
  - unfold mkdir1. rewrite app_nil_r. destruct (path_dec q f) as [->|N]; [now rewrite aob_refl|].
    destruct (at_or_below f q) eqn:E1; auto. destruct (at_or_below q f) eqn:E2; auto.
    now destruct N; apply aob_antisym.
  - rewrite IH. unfold mkdir1. rewrite <- app_assoc. cbn [app]. destruct (path_dec q f) as [->|N].
    + rewrite aob_refl, aob_app. cbn [andb]. destruct (fs f) as [[m|h c]|]; now destruct (_ && _).
    + replace (at_or_below f q && at_or_below q (f ++ k :: ds)) with (at_or_below (f ++ [k]) q && at_or_below q (f ++ k :: ds)); auto.
      destruct (at_or_below q (f ++ k :: ds)) eqn:E; rewrite ?andb_false_r, ?andb_true_r; auto.
      apply eq_true_iff_eq. split; intros H.
      * now apply aob_child, below_aob in H.
      * apply aob_spec in H as [[|z r] ->]; [now rewrite app_nil_r in N|]. apply aob_spec in E as [r' E].
        rewrite <- app_assoc in E. apply app_inv_head in E. injection E as -> _. apply aob_spec. exists r. now rewrite <- app_assoc.
Qed.
Lemma mkdirs_eq fs d q : mkdirs fs d q = mkdirs_from fs [] d q.
Proof. rewrite mkdirs_from_spec. reflexivity. Qed.
Lemma mkdir1_agree f g p : fagree f g -> fagree (mkdir1 f p) (mkdir1 g p).
Proof.
  intros H q R. unfold mkdir1. destruct (path_dec q p) as [->|]; auto. specialize (H p R).
  destruct (f p) as [[m|h c]|], (g p) as [[m'|h' c']|]; cbn [agree] in *; tauto || auto.
Qed.
Lemma mkdir1_feq f g p : feq f g -> feq (mkdir1 f p) (mkdir1 g p).
Proof. intros H q R. unfold mkdir1. now rewrite H. Qed.

Lemma interp_same v w base q : v q = w q -> shadow v [] q = shadow w [] q -> interp v base q = interp w base q.
Proof. intros H1 H2. unfold interp, visible. now rewrite H1, H2. Qed.
Lemma interp_blank v w base q : blank base -> v q = w q -> interp v base q = interp w base q.
Proof.
  intros B H. unfold interp, visible. rewrite H. destruct q; [reflexivity|]. rewrite (B (l :: q)) by discriminate.
  now destruct (shadow v [] (l :: q)), (shadow w [] (l :: q)).
Qed.
Lemma interp_hidden v base q : v q = None -> shadow v [] q = true -> interp v base q = None.
Proof. intros H1 H2. unfold interp, visible. now rewrite H1, H2. Qed.
Lemma present_vput v p n q : present (vput v p n) q = (if path_dec q p then true else present v q).
Proof. unfold present, vput. now destruct (path_dec q p). Qed.
Lemma present_ne v p n q : q <> p -> present (vput v p n) q = present v q.
Proof. rewrite present_vput. now destruct (path_dec q p). Qed.
Lemma hdr_vput v p n q : hdr_of (vput v p n) q = (if path_dec q p then fst n else hdr_of v q).
Proof. unfold hdr_of, vput. now destruct (path_dec q p). Qed.
Lemma hdr_vput_ne v p n q : q <> p -> hdr_of (vput v p n) q = hdr_of v q.
Proof. rewrite hdr_vput. now destruct (path_dec q p). Qed.
Lemma app_cons_neq (a : path) x r : a <> a ++ x :: r.
Proof. intros E. apply (f_equal (@length _)) in E. rewrite app_length in E. cbn [length] in E. lia. Qed.

Lemma sim_mkdir1 v base f : real_path f ->
  (non_dir (hdr_of v f) = true -> forall q, below f q = true -> v q = None) ->
  fagree (mkdir1 (interp v base) f) (interp (vmkdir v f) base) /\
  (non_dir (hdr_of v f) = false -> feq (mkdir1 (interp v base) f) (interp (vmkdir v f) base)).
Proof.
  intros Rf HB0. assert (G : non_dir (hdr_of v f) = false -> feq (mkdir1 (interp v base) f) (interp (vmkdir v f) base)).
  { unfold hdr_of. intros ND q R. unfold vmkdir. destruct (v f) as [[h b]|] eqn:E.
    - cbn [fst] in ND. rewrite ND. unfold mkdir1. destruct (path_dec q f) as [->|N]; auto. unfold interp. rewrite E.
      destruct h as [h|]; auto. cbn [non_dir] in ND. apply negb_false_iff in ND. now rewrite ND.
    - assert (S : forall q, real_path q -> shadow (vput v f (None, [])) [] q = shadow v [] q).
      { intros q' R'. apply shadow_ext. intros a x r ->. rewrite !present_ne, hdr_vput.
        - split; [|split]; auto. destruct (path_dec a f) as [->|]; auto. unfold hdr_of. now rewrite E.
        - intros E'. now apply (real_ne_wh f a x).
        - intros E'. now apply (real_ne_opq f a). }
      unfold mkdir1. destruct (path_dec q f) as [->|N].
      + unfold interp at 2. rewrite vput_eq. unfold visible. rewrite S by auto. unfold interp. rewrite E. unfold visible.
        destruct (if shadow v [] f then None else base f) as [[m|h c]|]; auto.
      + apply interp_same; [now rewrite vput_ne|]. symmetry. now apply S. }
  split; auto. destruct (non_dir (hdr_of v f)) eqn:ND; [|now apply feq_agree, G]. clear G.
  assert (HB := HB0 eq_refl).
  intros q R. unfold vmkdir. unfold hdr_of in ND. destruct (v f) as [[h b]|] eqn:E; [|discriminate]. cbn [fst] in ND. rewrite ND.
  set (w := vput (vput v f (None, [])) (f ++ [opq]) (Some opq_header, [])).
  unfold mkdir1. destruct (path_dec q f) as [->|N].
  - unfold interp at 2. subst w. rewrite vput_ne, vput_eq by auto. unfold interp. rewrite E. destruct h as [h|]; [|discriminate].
    cbn [non_dir] in ND. apply negb_true_iff in ND. rewrite ND. cbn [agree]. auto.
  - destruct (below f q) eqn:B.
    + apply below_spec in B as (k & r & ->). rewrite !interp_hidden; [exact I| | | |].
      * subst w. rewrite !vput_ne by (auto; now apply real_ne_opq). apply HB, below_app.
      * apply (shadow_true _ _ f k r); auto. left. subst w. rewrite present_vput. now destruct (path_dec _ _).
      * apply HB, below_app.
      * apply (shadow_true _ _ f k r); auto. right. right. unfold hdr_of. now rewrite E.
    + rewrite (interp_same v w); [apply agree_refl| |].
      * subst w. rewrite !vput_ne by (auto; now apply real_ne_opq). auto.
      * apply shadow_ext. intros a x r ->. assert (a <> f) by (intros ->; now rewrite below_app in B).
        assert (a ++ [opq] <> f ++ [opq]) by (intros E'; apply child_inj in E'; tauto).
        assert (a ++ [opq] <> f) by (intros E'; symmetry in E'; now apply (real_ne_opq f a)).
        assert (a ++ [wh_prefix ++ x] <> f) by (intros E'; symmetry in E'; now apply (real_ne_wh f a x)).
        assert (a ++ [wh_prefix ++ x] <> f ++ [opq]) by (intros E'; apply child_inj in E'; tauto).
        assert (a <> f ++ [opq]) by (intros ->; apply real_app in R as [R _]; now apply (real_ne_opq _ f) in R).
        subst w. rewrite !present_ne, !hdr_vput_ne; auto.
Qed.

(** Nothing is below a file. *)
Definition solid (v : view) : Prop := forall p, non_dir (hdr_of v p) = true -> forall q, below p q = true -> v q = None.
Lemma leafy_solid v : closed v -> leafy v -> solid v.
Proof. intros C L p N. now apply leafy_below. Qed.
Lemma below_irrefl_neq p q : below p q = true -> p <> q.
Proof. intros B ->. now rewrite below_refl in B. Qed.
Lemma below_trans p q r : below p q = true -> below q r = true -> below p r = true.
Proof.
  rewrite !below_spec. intros (k & a & ->) (k' & b & ->). exists k, (a ++ k' :: b). now rewrite <- app_assoc.
Qed.
Lemma below_snoc p d k : below p (d ++ [k]) = true <-> at_or_below p d = true.
Proof.
  rewrite below_spec, aob_spec. split.
  - intros (k' & r & E). destruct (@exists_last _ (k' :: r)) as (r' & z & Er); [discriminate|]. rewrite Er, app_assoc in E.
    apply child_inj in E as [-> _]. now exists r'.
  - intros [r ->]. destruct r as [|z r]; [exists k, []|exists z, (r ++ [k])]; now rewrite <- ?app_assoc, ?app_nil_r.
Qed.
Lemma solid_vmkdir v f : solid v -> (forall a, below a f = true -> non_dir (hdr_of v a) = false) -> solid (vmkdir v f).
Proof.
  intros S A p. unfold vmkdir. destruct (v f) as [[h b]|] eqn:E.
  - destruct (non_dir h) eqn:N; [|apply S]. rewrite hdr_vput. destruct (path_dec p (f ++ [opq])) as [->|N1].
    + intros _ q B. rewrite !vput_ne.
      * apply (S f); [unfold hdr_of; now rewrite E|]. eapply below_trans; [apply below_app|exact B].
      * intros ->. apply below_aob, aob_child in B. now rewrite below_refl in B.
      * intros ->. now rewrite below_refl in B.
    + rewrite hdr_vput. destruct (path_dec p f) as [->|N2]; [discriminate|]. intros NP q B. rewrite !vput_ne; [now apply (S p)| |].
      * intros ->. rewrite A in NP; [discriminate|auto].
      * intros ->. apply below_snoc, aob_cases in B as [B|B]; [congruence|]. rewrite A in NP; [discriminate|auto].
  - rewrite hdr_vput. destruct (path_dec p f) as [->|N2]; [discriminate|]. intros NP q B. rewrite vput_ne; [now apply (S p)|].
    intros ->. rewrite A in NP; [discriminate|auto].
Qed.
Lemma vmkdir_hdr_anc v f a : below a f = true -> hdr_of (vmkdir v f) a = hdr_of v a.
Proof.
  intros B. unfold hdr_of. rewrite vmkdir_other; auto.
  - intros ->. now rewrite below_refl in B.
  - intros ->. apply below_aob, aob_child in B. now rewrite below_refl in B.
Qed.
Lemma anc_step v f k : (forall a, below a f = true -> non_dir (hdr_of v a) = false) ->
  forall a, below a (f ++ [k]) = true -> non_dir (hdr_of (vmkdir v f) a) = false.
Proof.
  intros A a B. apply below_snoc, aob_cases in B as [->|B].
  - apply vmkdir_dir.
  - rewrite vmkdir_hdr_anc by auto. now apply A.
Qed.
Lemma sim_mkdirs base ds : forall v fs f, real_path (f ++ ds) -> solid v ->
  (forall a, below a f = true -> non_dir (hdr_of v a) = false) ->
  fagree fs (interp v base) -> fagree (mkdirs_from fs f ds) (interp (vmkdirs_from v f ds) base).
Proof.
  induction ds as [|k ds IH]; intros v fs f R S A H; cbn [mkdirs_from vmkdirs_from].
  - rewrite app_nil_r in R. eapply fagree_trans; [apply mkdir1_agree, H|]. apply sim_mkdir1; auto; apply S.
  - apply IH.
    + now rewrite <- app_assoc.
    + now apply solid_vmkdir.
    + now apply anc_step.
    + apply real_app in R as [R _]. eapply fagree_trans; [apply mkdir1_agree, H|]. apply sim_mkdir1; auto; apply S.
Qed.
Lemma feq_trans f g h : feq f g -> feq g h -> feq f h.
Proof. intros H H' q R. rewrite H by auto. auto. Qed.
Lemma vmkdir_hdr_dir v f q : non_dir (hdr_of v f) = false -> hdr_of (vmkdir v f) q = hdr_of v q.
Proof.
  unfold vmkdir, hdr_of. destruct (v f) as [[h b]|] eqn:E; intros N; cbn [fst] in N.
  - now rewrite N.
  - unfold vput. destruct (path_dec q f) as [->|]; auto. now rewrite E.
Qed.
Lemma sim_mkdirs_exact base ds : forall v fs f, real_path (f ++ ds) -> solid v ->
  (forall a, at_or_below a (f ++ ds) = true -> non_dir (hdr_of v a) = false) ->
  feq fs (interp v base) -> feq (mkdirs_from fs f ds) (interp (vmkdirs_from v f ds) base).
Proof.
  induction ds as [|k ds IH]; intros v fs f R S A H; cbn [mkdirs_from vmkdirs_from].
  - rewrite app_nil_r in *. eapply feq_trans; [apply mkdir1_feq, H|]. apply sim_mkdir1; auto; [apply S|apply A, aob_refl].
  - assert (N : non_dir (hdr_of v f) = false) by apply A, aob_app. apply IH.
    + now rewrite <- app_assoc.
    + apply solid_vmkdir; auto. intros a B. apply A. eapply aob_trans; [apply below_aob, B|apply aob_app].
    + intros a B. rewrite <- app_assoc in B. rewrite vmkdir_hdr_dir by auto. now apply A.
    + apply real_app in R as [R _]. eapply feq_trans; [apply mkdir1_feq, H|]. apply sim_mkdir1; auto; apply S.
Qed.

(** *** the rest of an entry *)
Definition fin (fs : fsys) (p : path) (h : header) (b : str) : fsys :=
  let k := last p [] in
  if marker_name k then
    if str_eqb k $".wh..wh..opq" then remove_below fs (removelast p)
    else remove fs (removelast p ++ [skipn 4 k])
  else if byte_eqb (th_type h) TypeDir then put_node fs p (FDir (Some (anon h)))
  else put_node (remove_below fs p) p (FFile (anon h) b).
Lemma unpack_fin fs e : unpack_entry fs e = fin (mkdirs fs (removelast (entry_path e))) (entry_path e) (fst e) (snd e).
Proof. reflexivity. Qed.
Lemma fin_rel (R : option fnode -> option fnode -> Prop) f g p h b :
  R None None -> (forall n, R (Some n) (Some n)) ->
  (forall q, real_path q -> R (f q) (g q)) -> forall q, real_path q -> R (fin f p h b q) (fin g p h b q).
Proof.
  intros RN RS H q Rq. unfold fin. destruct (marker_name _); [destruct (str_eqb _ _)|destruct (byte_eqb _ _)];
    unfold remove_below, remove, put_node.
  - destruct (below _ q); auto.
  - destruct (at_or_below _ q); auto.
  - destruct (path_dec q p); auto.
  - destruct (path_dec q p); auto. destruct (below _ q); auto.
Qed.
Lemma fin_agree f g p h b : fagree f g -> fagree (fin f p h b) (fin g p h b).
Proof. intros H q Rq. apply (fin_rel agree f g p h b); auto; intros; apply agree_refl. Qed.
Lemma fin_feq f g p h b : feq f g -> feq (fin f p h b) (fin g p h b).
Proof. intros H q Rq. apply (fin_rel eq f g p h b); auto. Qed.

(** What a step leaves alone. *)
Lemma vcut_ne v p q : at_or_below p q = false -> vcut v p q = v q.
Proof. intros H. unfold vcut. now rewrite H. Qed.
Lemma present_veq v w q : v q = w q -> present v q = present w q.
Proof. unfold present. now intros ->. Qed.
Lemma hdr_of_eq v w q : v q = w q -> hdr_of v q = hdr_of w q.
Proof. unfold hdr_of. now intros ->. Qed.

(** The positions that decide whether [q] is shadowed. *)
Definition uses (q z : path) : Prop := exists a x r, q = a ++ x :: r /\ (z = a \/ z = a ++ [opq] \/ z = a ++ [wh_prefix ++ x]).
Lemma shadow_uses v w q : (forall z, uses q z -> v z = w z) -> shadow v [] q = shadow w [] q.
Proof.
  intros H. apply shadow_ext. intros a x r E.
  rewrite (present_veq v w (a ++ [opq])), (present_veq v w (a ++ [wh_prefix ++ x])), (hdr_of_eq v w a); auto; apply H; exists a, x, r; auto.
Qed.
Lemma uses_real p q z : real_path p -> real_path q -> at_or_below p q = false -> uses q z -> at_or_below p z = false.
Proof.
  intros Rp Rq N (a & x & r & -> & Z). destruct (at_or_below p z) eqn:E; auto. exfalso.
  assert (NA : at_or_below p a = false).
  { apply aob_false. intros s ->. rewrite <- app_assoc, aob_app in N. discriminate. }
  destruct Z as [->|[->| ->]]; [congruence| |]; apply aob_spec in E as [s E]; destruct (@exists_last _ (p ++ s)) as (b & y & Eb);
    try (rewrite <- E; destruct a; discriminate).
  - destruct s as [|s0 s] using rev_ind; [rewrite app_nil_r in E; symmetry in E; now apply real_ne_opq in E|].
    rewrite app_assoc in E. apply child_inj in E as [-> _]. now rewrite aob_app in NA.
  - destruct s as [|s0 s] using rev_ind; [rewrite app_nil_r in E; symmetry in E; now apply real_ne_wh in E|].
    rewrite app_assoc in E. apply child_inj in E as [-> _]. now rewrite aob_app in NA.
Qed.
Lemma uses_marker d m q z : real_path q -> marker_name m = true -> uses q z -> at_or_below (d ++ [m]) z = true ->
  z = d ++ [m] /\ (m = opq /\ below d q = true \/ exists x, m = wh_prefix ++ x /\ at_or_below (d ++ [x]) q = true).
Proof.
  intros Rq M (a & x & r & -> & Z) E. assert (Ra : real_path a) by now apply real_app in Rq.
  assert (NA : at_or_below (d ++ [m]) a = false) by now apply real_prefix.
  apply aob_spec in E as [s E]. destruct Z as [->|[->| ->]].
  - subst a. now rewrite aob_app in NA.
  - destruct s as [|s0 s] using rev_ind.
    + rewrite app_nil_r in E. split; auto. apply child_inj in E as [-> <-]. left. split; auto. apply below_app.
    + rewrite app_assoc in E. apply child_inj in E as [-> _]. now rewrite aob_app in NA.
  - destruct s as [|s0 s] using rev_ind.
    + rewrite app_nil_r in E. split; auto. apply child_inj in E as [-> <-]. right. exists x. split; auto.
      apply aob_spec. exists r. now rewrite <- app_assoc.
    + rewrite app_assoc in E. apply child_inj in E as [-> _]. now rewrite aob_app in NA.
Qed.
Lemma wh_inj x y : wh_prefix ++ x = wh_prefix ++ y -> x = y.
Proof. apply app_inv_head. Qed.
Lemma opq_wh x : opq = wh_prefix ++ x -> marker_name x = true.
Proof. intros H. change opq with (wh_prefix ++ $".wh..opq") in H. apply wh_inj in H. subst. reflexivity. Qed.
Lemma vclear_ne v p q : below p q = false -> vclear v p q = v q.
Proof. intros H. unfold vclear. now rewrite H. Qed.
Lemma not_below p q : at_or_below p q = false -> below p q = false.
Proof. intros H. destruct (below p q) eqn:E; auto. apply below_aob in E. congruence. Qed.
Lemma not_aob_neq p q : at_or_below p q = false -> q <> p.
Proof. intros H ->. now rewrite aob_refl in H. Qed.

(** Entries other than markers. *)
Lemma sim_fin_file w base d k h b : real_path (d ++ [k]) -> byte_eqb (th_type h) TypeDir = false ->
  feq (fin (interp w base) (d ++ [k]) h b) (interp (vsettle (vwrite w (d ++ [k]) h b) d k) base).
Proof.
  intros R F q Rq. set (p := d ++ [k]) in *. assert (M : marker_name k = false) by now apply (real_not_marker d).
  unfold fin, vsettle, vwrite. subst p. rewrite last_last. set (p := d ++ [k]) in *.
  change (has_prefix wh_prefix k) with (marker_name k). rewrite M, F. unfold put_node, remove_below.
  assert (V : forall z, at_or_below p z = false -> at_or_below (d ++ [wh_prefix ++ k]) z = false ->
    vcut (vclear (vput w p (Some h, b)) p) (d ++ [wh_prefix ++ k]) z = w z).
  { intros z Z1 Z2. rewrite vcut_ne, vclear_ne, vput_ne; auto using not_below, not_aob_neq. }
  destruct (path_dec q p) as [->|N].
  - unfold interp. rewrite vcut_ne by (apply real_prefix; auto; apply wh_marker). rewrite vclear_ne, vput_eq by apply below_refl.
    now rewrite F.
  - destruct (below p q) eqn:B.
    + pose proof B as B'. apply below_spec in B' as (x & r & Eq). rewrite interp_hidden; auto.
      * unfold vcut, vclear. rewrite B. now destruct (at_or_below _ q).
      * apply (shadow_true _ _ p x r); auto. right. right. unfold hdr_of.
        rewrite vcut_ne by (apply real_prefix; auto; apply wh_marker). rewrite vclear_ne, vput_eq by apply below_refl.
        cbn [fst non_dir]. now rewrite F.
    + assert (A : at_or_below p q = false) by (rewrite aob_eq, B; now destruct (path_dec q p)).
      apply interp_same; [symmetry; apply V; auto; apply real_prefix; auto; apply wh_marker|].
      symmetry. apply shadow_uses. intros z U. apply V; [now apply (uses_real p q)|].
      destruct (at_or_below (d ++ [wh_prefix ++ k]) z) eqn:E; auto. exfalso.
      apply (uses_marker d _ q) in E as [_ [[E _]|(x & E & E')]]; auto using wh_marker.
      * symmetry in E. apply opq_wh in E. congruence.
      * apply wh_inj in E. subst x. subst p. congruence.
Qed.
Lemma sim_fin_dir w base d k h b : real_path (d ++ [k]) -> byte_eqb (th_type h) TypeDir = true ->
  (non_dir (hdr_of w (d ++ [k])) = true -> forall q, below (d ++ [k]) q = true -> w q = None) ->
  (non_dir (hdr_of w (d ++ [k])) = false -> w (d ++ [wh_prefix ++ k]) = None \/ blank base) ->
  feq (fin (interp w base) (d ++ [k]) h b) (interp (vsettle (vwrite w (d ++ [k]) h b) d k) base).
Proof.
  intros R F HB HM q Rq. set (p := d ++ [k]) in *. assert (M : marker_name k = false) by now apply (real_not_marker d).
  unfold fin, vsettle, vwrite. subst p. rewrite last_last. set (p := d ++ [k]) in *.
  change (has_prefix wh_prefix k) with (marker_name k). rewrite M, F. unfold put_node.
  destruct (non_dir (hdr_of w p)) eqn:ND.
  - specialize (HB eq_refl). clear HM.
    assert (V : forall z, at_or_below p z = false -> at_or_below (d ++ [wh_prefix ++ k]) z = false ->
      vcut (vput (vput w p (Some h, b)) (p ++ [opq]) (Some opq_header, [])) (d ++ [wh_prefix ++ k]) z = w z).
    { intros z Z1 Z2. rewrite vcut_ne, !vput_ne; auto using not_aob_neq. intros ->. now rewrite aob_app in Z1. }
    assert (WM : at_or_below (d ++ [wh_prefix ++ k]) q = false) by (apply real_prefix; auto; apply wh_marker).
    destruct (path_dec q p) as [->|N].
    + unfold interp. rewrite vcut_ne by auto. rewrite vput_ne, vput_eq by auto. now rewrite F.
    + destruct (below p q) eqn:B.
      * pose proof B as B'. apply below_spec in B' as (x & r & Eq). rewrite !interp_hidden; auto.
        -- rewrite vcut_ne, !vput_ne by (auto; now apply real_ne_opq). auto.
        -- apply (shadow_true _ _ p x r); auto. left. unfold present. rewrite vcut_ne, vput_eq; auto.
           apply aob_false. intros s E'. subst p. rewrite <- !app_assoc in E'. apply app_inv_head in E'.
           injection E' as E' _. apply (f_equal (@length _)) in E'. cbn in E'. lia.
        -- apply (shadow_true _ _ p x r); auto.
      * assert (A : at_or_below p q = false) by (rewrite aob_eq, B; now destruct (path_dec q p)).
        apply interp_same; [symmetry; now apply V|].
        symmetry. apply shadow_uses. intros z U. apply V; [now apply (uses_real p q)|].
        destruct (at_or_below (d ++ [wh_prefix ++ k]) z) eqn:E; auto. exfalso.
        apply (uses_marker d _ q) in E as [_ [[E _]|(x & E & E')]]; auto using wh_marker.
        -- symmetry in E. apply opq_wh in E. congruence.
        -- apply wh_inj in E. subst x. subst p. congruence.
  - clear HB. specialize (HM eq_refl).
    assert (V : forall z, z <> p -> at_or_below (d ++ [wh_prefix ++ k]) z = false ->
      vcut (vput w p (Some h, b)) (d ++ [wh_prefix ++ k]) z = w z).
    { intros z Z1 Z2. rewrite vcut_ne, !vput_ne; auto. }
    assert (WM : forall q, real_path q -> at_or_below (d ++ [wh_prefix ++ k]) q = false) by (intros; apply real_prefix; auto; apply wh_marker).
    destruct (path_dec q p) as [->|N].
    + unfold interp. rewrite vcut_ne by auto. rewrite vput_eq by auto. now rewrite F.
    + destruct HM as [HM|SC]; [|apply interp_blank; auto; symmetry; apply V; auto].
      apply interp_same; [symmetry; apply V; auto|]. symmetry. apply shadow_ext. intros a x r E.
      assert (U : forall z, uses q z -> z <> p -> vcut (vput w p (Some h, b)) (d ++ [wh_prefix ++ k]) z = w z).
      { intros z U Z. destruct (at_or_below (d ++ [wh_prefix ++ k]) z) eqn:E0; [|now apply V].
        apply (uses_marker d _ q) in E0 as [E0 _]; auto using wh_marker. subst z. unfold vcut. now rewrite aob_refl. }
      assert (Z1 : uses q (a ++ [opq])) by (exists a, x, r; auto). assert (Z2 : uses q (a ++ [wh_prefix ++ x])) by (exists a, x, r; auto).
      assert (Z3 : uses q a) by (exists a, x, r; auto).
      rewrite (present_veq _ w (a ++ [opq])), (present_veq _ w (a ++ [wh_prefix ++ x])).
      * split; [|split]; auto. destruct (path_dec a p) as [->|NA]; [|f_equal; now apply hdr_of_eq, U].
        rewrite ND. unfold hdr_of. rewrite vcut_ne, vput_eq by auto. cbn [fst non_dir]. now rewrite F.
      * apply U; auto. intros E'. symmetry in E'. now apply real_ne_wh in E'.
      * apply U; auto. intros E'. symmetry in E'. now apply real_ne_opq in E'.
Qed.
(** Markers. *)
Lemma sim_fin_opq w base d h b : real_path d -> byte_eqb (th_type h) TypeDir = false ->
  feq (fin (interp w base) (d ++ [opq]) h b) (interp (vsettle (vwrite w (d ++ [opq]) h b) d opq) base).
Proof.
  intros R F q Rq. unfold fin, vsettle, vwrite. rewrite last_last, removelast_last, F.
  change (has_prefix wh_prefix opq) with true. change (marker_name opq) with true.
  change (str_eqb opq opq) with true. change (str_eqb opq $".wh..wh..opq") with true. cbv iota. unfold remove_below.
  set (w' := fun q => if below d q then if at_or_below (d ++ [opq]) q then vclear (vput w (d ++ [opq]) (Some h, b)) (d ++ [opq]) q else None
    else vclear (vput w (d ++ [opq]) (Some h, b)) (d ++ [opq]) q).
  assert (V : forall z, below d z = false -> w' z = w z).
  { intros z Z. subst w'. cbv beta. rewrite Z. rewrite vclear_ne, vput_ne; auto.
    - intros ->. now rewrite below_app in Z.
    - destruct (below (d ++ [opq]) z) eqn:E; auto. apply below_aob, aob_child in E. congruence. }
  destruct (below d q) eqn:B.
  - pose proof B as B'. apply below_spec in B' as (x & r & Eq). rewrite interp_hidden; auto.
    + subst w'. cbv beta. rewrite B. now rewrite real_prefix by auto.
    + apply (shadow_true _ _ d x r); auto. left. unfold present. subst w'. cbv beta.
      now rewrite below_app, aob_refl, vclear_ne, vput_eq by apply below_refl.
  - apply interp_same; [symmetry; now apply V|]. symmetry. apply shadow_uses. intros z (a & x & r & -> & U). apply V.
    destruct (below d z) eqn:E; auto. exfalso. assert (A : at_or_below d a = true).
    { destruct U as [->|[->| ->]]; [now apply below_aob|now apply below_snoc in E|now apply below_snoc in E]. }
    apply aob_spec in A as [s ->]. rewrite <- app_assoc in B. destruct s; cbn [app] in B; now rewrite below_app in B.
Qed.
Lemma sim_fin_wh w base d x h b : real_path (d ++ [x]) -> byte_eqb (th_type h) TypeDir = false ->
  feq (fin (interp w base) (d ++ [wh_prefix ++ x]) h b) (interp (vsettle (vwrite w (d ++ [wh_prefix ++ x]) h b) d (wh_prefix ++ x)) base).
Proof.
  intros R F q Rq. assert (M : marker_name x = false) by now apply (real_not_marker d).
  unfold fin, vsettle, vwrite. rewrite last_last, removelast_last, F.
  change (has_prefix wh_prefix (wh_prefix ++ x)) with (marker_name (wh_prefix ++ x)). rewrite wh_marker.
  assert (NO : str_eqb (wh_prefix ++ x) opq = false).
  { apply str_eqb_neq. intros E. symmetry in E. apply opq_wh in E. congruence. }
  rewrite NO. change (str_eqb (wh_prefix ++ x) $".wh..wh..opq") with (str_eqb (wh_prefix ++ x) opq). rewrite NO.
  rewrite trim_prefix_app. change (skipn 4 (wh_prefix ++ x)) with x. unfold remove.
  set (p := d ++ [wh_prefix ++ x]).
  assert (V : forall z, at_or_below (d ++ [x]) z = false -> at_or_below p z = false ->
    vcut (vclear (vput w p (Some h, b)) p) (d ++ [x]) z = w z).
  { intros z Z1 Z2. rewrite vcut_ne, vclear_ne, vput_ne; auto using not_below, not_aob_neq. }
  assert (PD : at_or_below (d ++ [x]) p = false).
  { apply aob_false. intros s E. subst p. rewrite <- app_assoc in E. apply app_inv_head in E. injection E as E _. apply (f_equal (@length _)) in E. cbn in E. lia. }
  destruct (at_or_below (d ++ [x]) q) eqn:A.
  - rewrite interp_hidden; auto.
    + unfold vcut. now rewrite A.
    + apply aob_spec in A as [r ->]. apply (shadow_true _ _ d x r); [now rewrite <- app_assoc|]. right. left. unfold present.
      fold p. now rewrite vcut_ne, vclear_ne, vput_eq by (auto; apply below_refl).
  - apply interp_same; [symmetry; apply V; auto; apply real_prefix; auto; apply wh_marker|].
    symmetry. apply shadow_uses. intros z U. apply V; [now apply (uses_real _ q)|].
    destruct (at_or_below p z) eqn:E; auto. exfalso.
    apply (uses_marker d _ q) in E as [_ [[E _]|(y & E & E')]]; auto using wh_marker.
    + symmetry in E. apply opq_wh in E. congruence.
    + apply wh_inj in E. subst y. congruence.
Qed.
(** The root. *)
Lemma sim_fin_root w base h b :
  (non_dir (hdr_of w []) = true -> forall q, below [] q = true -> w q = None) ->
  feq (fin (mkdirs (interp w base) []) [] h b) (interp (vcut (vwrite w [] h b) [$".wh.."]) base).
Proof.
  intros HB q Rq. unfold fin, vwrite. cbn [last marker_name]. change (marker_name []) with false. cbv iota.
  assert (WM : at_or_below [$".wh.."] q = false) by (apply (real_prefix q [] $".wh.."); auto).
  assert (W0 : at_or_below [$".wh.."] [] = false) by reflexivity.
  assert (MK : q <> [] -> mkdirs (interp w base) [] q = interp w base q).
  { intros N. unfold mkdirs. destruct q; [congruence|reflexivity]. }
  destruct (byte_eqb (th_type h) TypeDir) eqn:F; [destruct (non_dir (hdr_of w [])) eqn:ND|]; unfold put_node, remove_below.
  - destruct (path_dec q []) as [->|N].
    + unfold interp. rewrite vcut_ne, vput_ne, vput_eq by (auto; discriminate). now rewrite F.
    + destruct q as [|x r]; [congruence|]. rewrite MK by auto. rewrite !interp_hidden; auto.
      * rewrite vcut_ne, !vput_ne by (auto; now apply (real_ne_opq _ [])). now apply HB.
      * apply (shadow_true _ _ [] x r); auto. 
  - destruct (path_dec q []) as [->|N].
    + unfold interp. rewrite vcut_ne, vput_eq by auto. now rewrite F.
    + rewrite MK by auto.
      assert (U : forall z, uses q z -> z <> [] -> vcut (vput w [] (Some h, b)) [$".wh.."] z = w z).
      { intros z U Z. destruct (at_or_below [$".wh.."] z) eqn:E0; [|now rewrite vcut_ne, vput_ne].
        apply (uses_marker [] _ q) in E0 as [E0 [[E _]|(y & E & E')]]; auto; [discriminate|].
        change $".wh.." with (wh_prefix ++ $".") in E. apply wh_inj in E. subst y. apply aob_spec in E' as [s ->].
        destruct Rq as [Rq _]. inversion Rq as [|? ? (_ & _ & H & _) _]; subst. now destruct H. }
      apply interp_same; [symmetry; now rewrite vcut_ne, vput_ne|]. symmetry. apply shadow_ext. intros a x r E.
      assert (Z1 : uses q (a ++ [opq])) by (exists a, x, r; auto). assert (Z2 : uses q (a ++ [wh_prefix ++ x])) by (exists a, x, r; auto).
      assert (Z3 : uses q a) by (exists a, x, r; auto).
      rewrite (present_veq _ w (a ++ [opq])), (present_veq _ w (a ++ [wh_prefix ++ x])) by (apply U; auto; destruct a; discriminate).
      split; [|split]; auto. destruct (path_dec a []) as [->|NA]; [|f_equal; now apply hdr_of_eq, U].
      rewrite ND. unfold hdr_of. rewrite vcut_ne, vput_eq by auto. cbn [fst non_dir]. now rewrite F.
  - destruct (path_dec q []) as [->|N].
    + unfold interp. rewrite vcut_ne, vclear_ne, vput_eq by auto. now rewrite F.
    + destruct q as [|x r]; [congruence|]. change (below [] (x :: r)) with true. cbv iota. rewrite interp_hidden; auto.
      * unfold vcut, vclear. change (below [] (x :: r)) with true. now destruct (at_or_below _ _).
      * apply (shadow_true _ _ [] x r); auto. right. right. unfold hdr_of. rewrite vcut_ne, vclear_ne, vput_eq by auto.
        cbn [fst non_dir]. now rewrite F.
Qed.
