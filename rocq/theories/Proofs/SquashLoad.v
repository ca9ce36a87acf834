(** What loading one entry does to the nodes, when no symbolic link is on the way. *)
From Coq Require Import String Ascii List Bool ZArith Lia.
From Verif.Model Require Import GoStr GoPath Tar Squash.
From Verif.Spec Require Import PathSpec SquashSpec.
From Verif.Proofs Require Import Order GoStrFacts GoPathFacts SquashTree.
Import ListNotations.
Local Arguments byte_eqb : simpl never.
Local Arguments str_eqb : simpl never.
Local Arguments clean : simpl never.
Local Arguments path_join : simpl never.
Local Arguments path_base : simpl never.

(** *** names of nodes *)
Lemma node_name_snoc p k : node_name (p ++ [k]) = path_join [node_name p; k].
Proof. unfold node_name. now rewrite fold_left_app. Qed.
Lemma plain_path_app a b : plain_path (a ++ b) <-> plain_path a /\ plain_path b.
Proof. apply Forall_app. Qed.
Lemma path_text_ne r l : Forall (fun c => c <> []) l -> path_text r l <> [].
Proof.
  intros H. unfold path_text. destruct r; [discriminate|]. destruct l as [|c l]; [discriminate|].
  inversion H; subst. destruct c as [|x c]; [congruence|]. rewrite join_ne_nil. discriminate.
Qed.
Lemma plain_ne l : plain_path l -> Forall (fun c => c <> []) l.
Proof. apply Forall_impl. now intros c [H _]. Qed.
Lemma node_name_plain p : plain_path p -> node_name p = path_text false p.
Proof.
  induction p as [|k p IH] using rev_ind; intros H; auto. apply plain_path_app in H as [Hp Hk].
  rewrite node_name_snoc, IH by auto. inversion Hk; subst. rewrite join_plain1 by (auto; now apply path_text_ne, plain_ne).
  rewrite clean_comps_text by now apply plain_clean. rewrite is_abs_text by now apply plain_clean. reflexivity.
Qed.
Lemma strip_no_slash c s : c <> slash -> strip_trailing_slashes (c :: s) = c :: s.
Proof. intros H. cbn [strip_trailing_slashes]. destruct (byte_eqb c slash) eqn:E; auto. apply byte_eqb_eq in E. contradiction. Qed.
Lemma path_base_last (a k : str) : k <> [] -> ~ In slash k -> a = [] \/ (exists b, a = b ++ [slash]) -> path_base (a ++ k) = k.
Proof.
  intros Hk Hs Ha. assert (E : exists k0 c, k = k0 ++ [c]).
  { destruct (exists_last Hk) as (k0 & c & ->). eauto. }
  destruct E as (k0 & c & ->). assert (c <> slash) by (intros ->; apply Hs, in_app_iff; right; now left).
  unfold path_base. destruct (a ++ k0 ++ [c]) as [|y s] eqn:E0; [destruct a, k0; discriminate|]. rewrite <- E0. clear E0 y s.
  rewrite app_assoc, rev_app_distr. cbn [rev app]. rewrite strip_no_slash by auto. cbn [rev]. rewrite rev_involutive.
  destruct ((a ++ k0) ++ [c]) as [|y s] eqn:E0; [destruct a, k0; discriminate|]. rewrite <- E0. clear E0 y s. rewrite <- app_assoc.
  destruct Ha as [->|[b ->]].
  - cbn [app]. now rewrite path_split_none.
  - rewrite <- app_assoc. change ([slash] ++ k0 ++ [c]) with ($"/" ++ (k0 ++ [c])). now rewrite path_split_app.
Qed.
Lemma base_plain d k : plain_path (d ++ [k]) -> path_base (path_text false (d ++ [k])) = k.
Proof.
  intros H. apply plain_path_app in H as [Hd Hk]. inversion Hk as [|? ? (K1 & K2 & _) _]; subst. unfold path_text.
  destruct (d ++ [k]) as [|y l] eqn:E; [destruct d; discriminate|]. rewrite <- E. clear E y l. destruct d as [|x d].
  - change (join $"/" ([] ++ [k])) with ([] ++ k). apply path_base_last; auto.
  - rewrite join_app1 by discriminate. rewrite app_assoc. apply path_base_last; auto. right. now exists (join $"/" (x :: d)).
Qed.
Lemma base_node d k : plain_path (d ++ [k]) -> path_base (node_name (d ++ [k])) = k.
Proof. intros H. rewrite node_name_plain by auto. now apply base_plain. Qed.
Lemma parent_snoc (d : path) k : parent (d ++ [k]) = d.
Proof. apply removelast_last. Qed.

(** *** markers *)
Lemma opq_marker : marker_name opq = true. Proof. reflexivity. Qed.
Lemma marker_spec k : marker_name k = true <-> exists x, k = $".wh." ++ x.
Proof. apply has_prefix_spec. Qed.
Lemma plain_opq : plain_comp opq.
Proof. repeat split; try discriminate. intros H. repeat (destruct H as [H|H]; [discriminate|]). destruct H. Qed.
Lemma plain_wh x : plain_comp x -> plain_comp (wh_prefix ++ x).
Proof.
  intros (H1 & H2 & H3 & H4). repeat split; try discriminate. intros H. apply in_app_iff in H as [H|H]; auto.
  repeat (destruct H as [H|H]; [discriminate|]). destruct H.
Qed.

(** *** view-level steps *)
Definition hdr_of (v : view) (p : path) : option header := match v p with Some n => fst n | None => None end.
Definition vmkdir (v : view) (q : path) : view :=
  match v q with
  | None => vput v q (None, [])
  | Some (h, _) => if non_dir h then vput (vput v q (None, [])) (q ++ [opq]) (Some opq_header, []) else v
  end.
Definition ensure (v : view) (p : path) : view :=
  match v p with None => vput v p (None, []) | Some _ => v end.
Fixpoint vmkdirs_from (v : view) (f : path) (ds : list str) : view :=
  match ds with
  | [] => vmkdir v f
  | k :: ds' => vmkdirs_from (vmkdir v f) (f ++ [k]) ds'
  end.
Definition leafy (v : view) : Prop := forall p k, non_dir (hdr_of v p) = true -> v (p ++ [k]) = None.
Definition closed (v : view) : Prop := forall p q, v (p ++ q) <> None -> v p <> None.
Definition opened (v : view) : Prop := v [] <> None.

Lemma veq_sym v w : veq v w -> veq w v. Proof. intros H q. now rewrite H. Qed.
Lemma veq_trans u v w : veq u v -> veq v w -> veq u w. Proof. intros H H' q. now rewrite H. Qed.
Lemma vput_eq v p n : vput v p n p = Some n.
Proof. unfold vput. destruct (path_dec p p); congruence. Qed.
Lemma vput_ne v p n q : q <> p -> vput v p n q = v q.
Proof. unfold vput. destruct (path_dec q p); congruence. Qed.
Lemma vput_veq v w p n : veq v w -> veq (vput v p n) (vput w p n).
Proof. intros H q. unfold vput. now rewrite H. Qed.
Lemma vcut_veq v w p : veq v w -> veq (vcut v p) (vcut w p).
Proof. intros H q. unfold vcut. now rewrite H. Qed.
Lemma vclear_veq v w p : veq v w -> veq (vclear v p) (vclear w p).
Proof. intros H q. unfold vclear. now rewrite H. Qed.
Lemma vmkdir_veq v w q : veq v w -> veq (vmkdir v q) (vmkdir w q).
Proof.
  intros H. unfold vmkdir. rewrite (H q). destruct (w q) as [[h b]|]; [|now apply vput_veq].
  destruct (non_dir h); auto. now apply vput_veq, vput_veq.
Qed.
Lemma ensure_veq v w q : veq v w -> veq (ensure v q) (ensure w q).
Proof. intros H. unfold ensure. rewrite (H q). destruct (w q); auto. now apply vput_veq. Qed.
Lemma vmkdirs_veq ds v w f : veq v w -> veq (vmkdirs_from v f ds) (vmkdirs_from w f ds).
Proof. revert v w f. induction ds as [|k ds IH]; intros v w f H; cbn [vmkdirs_from]; [|apply IH]; now apply vmkdir_veq. Qed.
Lemma hdr_veq v w p : veq v w -> hdr_of v p = hdr_of w p.
Proof. intros H. unfold hdr_of. now rewrite H. Qed.
Lemma leafy_veq v w : veq v w -> leafy v -> leafy w.
Proof. intros H L p k. rewrite <- (hdr_veq _ _ p H), <- (H (p ++ [k])). apply L. Qed.
Lemma header_view t p : header_at t p = hdr_of (view_of t) p.
Proof. apply view_header. Qed.
Lemma closed_view t : closed (view_of t).
Proof. intros p q. apply view_closed. Qed.
Lemma leafy_below v p : closed v -> leafy v -> non_dir (hdr_of v p) = true -> forall q, below p q = true -> v q = None.
Proof.
  intros C L N q B. apply below_spec in B as (k & r & ->). destruct (v (p ++ k :: r)) eqn:E; auto.
  exfalso. apply (C (p ++ [k]) r); [|now apply L]. rewrite <- app_assoc. cbn [app]. congruence.
Qed.
Lemma snoc_neq (p : path) k : p <> p ++ [k].
Proof. intros E. apply (f_equal (@length _)) in E. rewrite app_length in E. cbn [length] in E. lia. Qed.
Lemma snoc_neq' (p : path) k : p ++ [k] <> p.
Proof. intros E. symmetry in E. now apply snoc_neq in E. Qed.
Global Hint Resolve snoc_neq snoc_neq' : core.

(** Set of a non-directory, at an ordinary position. *)
Definition vsettle (v : view) (d : path) (k : str) : view :=
  if has_prefix wh_prefix k then
    if str_eqb k opq then fun q => if below d q then if at_or_below (d ++ [k]) q then v q else None else v q
    else vcut v (d ++ [trim_prefix wh_prefix k])
  else vcut v (d ++ [wh_prefix ++ k]).
Lemma settle_view t d k : plain_path (d ++ [k]) -> veq (view_of (settle t (d ++ [k]))) (vsettle (view_of t) d k).
Proof.
  intros H. unfold settle, vsettle. rewrite base_node, parent_snoc by auto.
  destruct (has_prefix wh_prefix k); [destruct (str_eqb k opq)|]; [apply view_keep|apply view_delete|apply view_delete].
Qed.
Lemma vsettle_veq v w d k : veq v w -> veq (vsettle v d k) (vsettle w d k).
Proof.
  intros H. unfold vsettle. destruct (has_prefix wh_prefix k); [destruct (str_eqb k opq)|]; try now apply vcut_veq.
  intros q. now rewrite H.
Qed.
Lemma set_leaf_view t d k h b : plain_path (d ++ [k]) -> view_of t (d ++ [k]) <> None ->
  veq (view_of (set_leaf t (d ++ [k]) h b)) (vsettle (vclear (vput (view_of t) (d ++ [k]) (Some h, b)) (d ++ [k])) d k).
Proof.
  intros H HN. unfold set_leaf. eapply veq_trans; [now apply settle_view|]. apply vsettle_veq.
  eapply veq_trans; [apply view_drop|]. apply vclear_veq. now apply view_put.
Qed.

(** *** Get *)
Lemma get_S n t f key create follow : get (S n) t f key create follow =
  (let finish (r : tree * pos) : run (tree * pos) := if follow then resolve n (fst r) (snd r) create [] else Ret r in
   if str_eqb key $".." then finish (t, parent f)
   else if str_eqb key $"." then finish (t, f)
   else
     bind (match link_of (header_at t f) with Some l => fs_get n t (parent f) l create true | None => Ret (t, f) end) (fun '(t, f) =>
     bind (if non_dir (header_at t f) then
             if create then bind (get n (update t f (put None [])) f opq true true) (fun '(t, w) => Ret (set_leaf t w opq_header []))
             else Fail ENotDir
           else Ret t) (fun t =>
     match subtree t (f ++ [key]) with
     | Some _ => finish (t, f ++ [key])
     | None => if create then finish (update t f (with_children (fun l => l ++ [(key, empty_tree)])), f ++ [key]) else Fail ENotExist
     end))).
Proof. reflexivity. Qed.
Lemma resolve_nolink n t p create st : link_of (header_at t p) = None -> resolve (S n) t p create st = Ret (t, p).
Proof. intros H. cbn [resolve]. now rewrite H. Qed.
Lemma plain_keys k : plain_comp k -> str_eqb k $".." = false /\ str_eqb k $"." = false.
Proof. intros H. apply plain_neq in H as (_ & A & B). auto. Qed.

(** Looking up (or creating) a child of a directory, without following. *)
Lemma get_dir n t f key : plain_comp key -> link_of (header_at t f) = None -> non_dir (header_at t f) = false ->
  view_of t f <> None ->
  exists t', get (S n) t f key true false = Ret (t', f ++ [key]) /\ veq (view_of t') (ensure (view_of t) (f ++ [key])).
Proof.
  intros Hk HL HN HV. destruct (plain_keys _ Hk) as [K1 K2]. rewrite get_S. cbv zeta. rewrite K1, K2, HL. cbn [bind].
  rewrite HN. cbn [bind]. unfold ensure. destruct (subtree t (f ++ [key])) as [s|] eqn:S.
  - exists t. split; auto. assert (E : view_of t (f ++ [key]) <> None) by (apply view_subtree; eauto).
    destruct (view_of t (f ++ [key])); congruence.
  - eexists. split; [reflexivity|]. assert (E : view_of t (f ++ [key]) = None) by (unfold view_of; now rewrite S).
    rewrite E. now apply view_add.
Qed.
(** The same in the place of a file. *)
Lemma get_opq n t f : link_of (header_at t f) = None -> non_dir (header_at t f) = false ->
  view_of t f <> None -> view_of t (f ++ [opq]) = None ->
  exists t', get (S (S n)) t f opq true true = Ret (t', f ++ [opq]) /\ veq (view_of t') (vput (view_of t) (f ++ [opq]) (None, [])).
Proof.
  intros HL HN HV HO. destruct (plain_keys _ plain_opq) as [K1 K2]. rewrite get_S. cbv zeta. rewrite K1, K2, HL. cbn [bind].
  rewrite HN. cbn [bind]. destruct (subtree t (f ++ [opq])) as [s|] eqn:S.
  { unfold view_of in HO. now rewrite S in HO. }
  pose proof (view_add t f opq HV HO) as V. cbn [fst snd]. rewrite resolve_nolink.
  - eexists. split; [reflexivity|exact V].
  - rewrite header_view, (hdr_veq _ _ _ V). unfold hdr_of. now rewrite vput_eq.
Qed.
Lemma nil_hdr_dir : non_dir None = false. Proof. reflexivity. Qed.
Lemma dir_not_link h : non_dir h = false -> link_of h = None.
Proof.
  destruct h as [h|]; auto. cbn [non_dir link_of]. rewrite negb_false_iff. intros H. apply byte_eqb_eq in H. now rewrite H.
Qed.
(** A file turns into a directory with an opaque marker. *)
Lemma to_dir n t f h' b' : plain_path f -> view_of t f <> None -> leafy (view_of t) -> non_dir (header_at t f) = true ->
  non_dir h' = false ->
  exists t', bind (get (S (S n)) (update t f (put h' b')) f opq true true) (fun '(t, w) => Ret (set_leaf t w opq_header [])) = Ret t' /\
    veq (view_of t') (vput (vput (view_of t) f (h', b')) (f ++ [opq]) (Some opq_header, [])).
Proof.
  intros Hf HV L HN HD. pose proof (view_put t f h' b' HV) as V1.
  assert (HB : forall q, below f q = true -> view_of t q = None).
  { apply leafy_below; auto; [apply closed_view|]. now rewrite <- header_view. }
  assert (HF : hdr_of (view_of (update t f (put h' b'))) f = h').
  { rewrite (hdr_veq _ _ _ V1). unfold hdr_of. now rewrite vput_eq. }
  edestruct (get_opq n (update t f (put h' b')) f) as (t1 & -> & V2); rewrite ?header_view, ?HF; auto using dir_not_link.
  { rewrite V1, vput_eq. discriminate. }
  { rewrite V1, vput_ne by auto. apply HB, below_app. }
  cbn [bind]. eexists. split; [reflexivity|].
  assert (Hp : plain_path (f ++ [opq])) by (apply plain_path_app; split; auto; repeat constructor; apply plain_opq).
  eapply veq_trans; [apply set_leaf_view; auto|].
  { rewrite V2, vput_eq. discriminate. }
  unfold vsettle. change (has_prefix wh_prefix opq) with true. change (str_eqb opq opq) with true. cbv iota.
  intros q. unfold vclear. destruct (path_dec q (f ++ [opq])) as [->|N1].
  - rewrite below_app, aob_refl, below_refl, !vput_eq. reflexivity.
  - rewrite !(vput_ne _ (f ++ [opq])) by auto. rewrite (V2 q), (vput_ne _ (f ++ [opq])) by auto. rewrite (V1 q).
    destruct (below f q) eqn:B.
    + rewrite vput_ne by (intros ->; now rewrite below_refl in B). rewrite (HB _ B).
      destruct (at_or_below (f ++ [opq]) q); auto. now destruct (below (f ++ [opq]) q).
    + destruct (below (f ++ [opq]) q) eqn:B2; auto. apply below_aob, aob_child in B2. congruence.
Qed.
(** One step of the crawl. *)
Lemma get_enter n t f key : plain_path f -> plain_comp key -> view_of t f <> None -> leafy (view_of t) ->
  link_of (header_at t f) = None ->
  exists t', get (S (S (S n))) t f key true false = Ret (t', f ++ [key]) /\
    veq (view_of t') (ensure (vmkdir (view_of t) f) (f ++ [key])).
Proof.
  intros Hf Hk HV L HL. unfold vmkdir. destruct (non_dir (header_at t f)) eqn:ND.
  - destruct (to_dir n t f None [] Hf HV L ND eq_refl) as (t1 & E1 & V1). destruct (plain_keys _ Hk) as [K1 K2].
    assert (HM : match view_of t f with Some (h, _) => if non_dir h then
       vput (vput (view_of t) f (None, [])) (f ++ [opq]) (Some opq_header, []) else view_of t
       | None => vput (view_of t) f (None, []) end = vput (vput (view_of t) f (None, [])) (f ++ [opq]) (Some opq_header, [])).
    { rewrite header_view in ND. unfold hdr_of in ND. destruct (view_of t f) as [[h b]|]; [|discriminate]. cbn [fst] in ND. now rewrite ND. }
    rewrite HM. clear HM. rewrite get_S. cbv zeta. rewrite K1, K2, HL. cbn [bind]. rewrite ND, E1. cbn [bind].
    destruct (subtree t1 (f ++ [key])) as [s|] eqn:S.
    + exists t1. split; auto. assert (EV : view_of t1 (f ++ [key]) <> None) by (apply view_subtree; eauto).
      unfold ensure. rewrite <- (V1 (f ++ [key])). destruct (view_of t1 (f ++ [key])); congruence.
    + assert (EV : view_of t1 (f ++ [key]) = None) by (unfold view_of; now rewrite S).
      eexists. split; [reflexivity|]. unfold ensure. rewrite <- (V1 (f ++ [key])), EV.
      eapply veq_trans; [apply view_add; auto|now apply vput_veq].
      rewrite (V1 f), vput_ne, vput_eq by auto. discriminate.
  - destruct (get_dir (S (S n)) t f key) as (t' & E & V); auto. exists t'. split; auto.
    rewrite header_view in ND. unfold hdr_of in ND. destruct (view_of t f) as [[h b]|]; [|congruence]. cbn [fst] in ND. now rewrite ND.
Qed.

(** *** fsGet *)
Section crawl.
  Context (n : nat) (create follow : bool).
  Fixpoint crawl (t : tree) (dir : pos) (comps : list str) : run (tree * pos) :=
    match comps with
    | [] => Ret (t, dir)
    | [c] => get n t dir c create follow
    | c :: comps' => bind (get n t dir c create false) (fun '(t, dir) => crawl t dir comps')
    end.
End crawl.
Lemma fs_get_S n t dir p create follow : fs_get (S n) t dir p create follow =
  crawl n create follow t (if is_abs (clean p) then [] else dir)
    (split_on slash (if is_abs (clean p) then skipn 1 (clean p) else clean p)).
Proof. cbn [fs_get]. now destruct (is_abs (clean p)). Qed.

(** No link at a proper ancestor of [p]. *)
Definition linkless (v : view) (f : path) (ds : list str) : Prop :=
  forall a k b, ds = a ++ k :: b -> link_of (hdr_of v (f ++ a)) = None.
Lemma vmkdir_other v f q : q <> f -> q <> f ++ [opq] -> vmkdir v f q = v q.
Proof. intros H1 H2. unfold vmkdir. destruct (v f) as [[h b]|]; [destruct (non_dir h)|]; rewrite ?vput_ne by auto; auto. Qed.
Lemma vmkdir_at v f : exists h b, vmkdir v f f = Some (h, b) /\ non_dir h = false.
Proof.
  unfold vmkdir. destruct (v f) as [[h b]|] eqn:E; [destruct (non_dir h) eqn:N|].
  - exists None, []. rewrite vput_ne, vput_eq by auto. auto.
  - exists h, b. auto.
  - exists None, []. rewrite vput_eq. auto.
Qed.
Lemma vmkdir_present v f : vmkdir v f f <> None.
Proof. destruct (vmkdir_at v f) as (h & b & -> & _). discriminate. Qed.
Lemma vmkdir_dir v f : non_dir (hdr_of (vmkdir v f) f) = false.
Proof. unfold hdr_of. destruct (vmkdir_at v f) as (h & b & -> & H). auto. Qed.
Lemma ensure_at v p : ensure v p p <> None.
Proof. unfold ensure. destruct (v p) eqn:E; [congruence|]. rewrite vput_eq. discriminate. Qed.
Lemma ensure_other v p q : q <> p -> ensure v p q = v q.
Proof. intros H. unfold ensure. destruct (v p); auto. now rewrite vput_ne. Qed.
Lemma ensure_hdr v p q : hdr_of (ensure v p) q = hdr_of v q.
Proof.
  unfold hdr_of, ensure. destruct (v p) eqn:E; auto. unfold vput. destruct (path_dec q p) as [->|]; auto. now rewrite E.
Qed.
Lemma ensure_mono v p q : v q <> None -> ensure v p q = v q.
Proof. intros H. unfold ensure. destruct (v p) eqn:E; auto. apply vput_ne. congruence. Qed.
Lemma leafy_vmkdir v f : v f <> None -> closed v -> leafy v -> leafy (vmkdir v f).
Proof.
  intros HV C L p k. unfold vmkdir, hdr_of. destruct (v f) as [[h b]|] eqn:E; [|congruence]. clear HV.
  destruct (non_dir h) eqn:N; [|apply L].
  assert (HB : forall q, below f q = true -> v q = None).
  { apply leafy_below; auto. unfold hdr_of. now rewrite E. }
  destruct (path_dec p (f ++ [opq])) as [->|N1].
  - intros _. rewrite !vput_ne; [apply HB; rewrite <- app_assoc; apply below_app| |auto].
    intros E'. apply (f_equal (@length _)) in E'. rewrite !app_length in E'. cbn [length] in E'. lia.
  - rewrite (vput_ne _ _ _ p) by auto. destruct (path_dec p f) as [->|N2]; [rewrite vput_eq; discriminate|].
    rewrite (vput_ne _ _ _ p) by auto. intros NP. assert (HP : v (p ++ [k]) = None) by (apply L; auto).
    rewrite !vput_ne; auto; congruence || (intros E'; apply child_inj in E' as [-> _]; congruence).
Qed.
Lemma leafy_ensure v f k : leafy v -> non_dir (hdr_of v f) = false -> leafy (ensure v (f ++ [k])).
Proof.
  intros L N p k'. rewrite ensure_hdr. intros NP. unfold ensure. destruct (v (f ++ [k])) eqn:E; [now apply L|].
  rewrite vput_ne; [now apply L|]. intros E'. apply child_inj in E' as [-> _]. congruence.
Qed.
Lemma vmkdir_ensure v p : veq (vmkdir (ensure v p) p) (vmkdir v p).
Proof.
  intros q. unfold vmkdir, ensure. destruct (v p) as [[h b]|] eqn:E; [now rewrite E|]. rewrite vput_eq. cbn [non_dir]. auto.
Qed.
Lemma vmkdirs_ensure v f ds : veq (vmkdirs_from (ensure v f) f ds) (vmkdirs_from v f ds).
Proof. destruct ds; cbn [vmkdirs_from]; [|apply vmkdirs_veq]; apply vmkdir_ensure. Qed.

Lemma crawl_view n cs c : forall t f, plain_path f -> plain_path (c :: cs) -> view_of t f <> None -> leafy (view_of t) ->
  linkless (view_of t) f (c :: cs) -> ~ In opq (removelast (c :: cs)) ->
  exists t', crawl (S (S (S n))) true false t f (c :: cs) = Ret (t', f ++ c :: cs) /\ leafy (view_of t') /\
    veq (view_of t') (ensure (vmkdirs_from (view_of t) f (removelast (c :: cs))) (f ++ c :: cs)).
Proof.
  revert c. induction cs as [|c' cs IH]; intros c t f Hf Hc HV L HL HO.
  - inversion Hc; subst. cbn [crawl]. destruct (get_enter n t f c) as (t' & E & V); auto.
    { rewrite header_view. rewrite <- (app_nil_r f). now apply (HL [] c []). }
    exists t'. split; [|split]; auto. eapply leafy_veq; [now apply veq_sym|]. apply leafy_ensure; [|apply vmkdir_dir].
    apply leafy_vmkdir; auto using closed_view.
  - inversion Hc as [|? ? Hc1 Hc2]; subst. destruct (get_enter n t f c) as (t1 & E & V); auto.
    { rewrite header_view. rewrite <- (app_nil_r f). now apply (HL [] c (c' :: cs)). }
    assert (N : c <> opq) by (intros ->; apply HO; now left).
    assert (NF : f ++ [c] <> f ++ [opq]) by (intros E'; apply child_inj in E'; tauto).
    edestruct (IH c' t1 (f ++ [c])) as (t' & E' & L' & V'); auto.
    { apply plain_path_app. split; auto. now constructor. }
    { rewrite V. apply ensure_at. }
    { eapply leafy_veq; [now apply veq_sym|]. apply leafy_ensure; [|apply vmkdir_dir]. apply leafy_vmkdir; auto using closed_view. }
    { intros a k b Eab. rewrite (hdr_veq _ _ _ V), ensure_hdr. unfold hdr_of. rewrite vmkdir_other.
      - specialize (HL (c :: a) k b). unfold hdr_of in HL. rewrite <- app_assoc. cbn [app]. apply HL. now rewrite Eab.
      - intros E1. apply (f_equal (@length _)) in E1. rewrite !app_length in E1. cbn [length] in E1. lia.
      - rewrite <- app_assoc. intros E1. apply app_inv_head in E1. injection E1 as E1 _. contradiction. }
    { intros H. apply HO. cbn [removelast] in *. now right. }
    exists t'. split; [|split]; auto.
    + cbn [crawl]. rewrite E. cbn [bind]. replace (f ++ c :: c' :: cs) with ((f ++ [c]) ++ c' :: cs) by now rewrite <- app_assoc.
      exact E'.
    + eapply veq_trans; [exact V'|]. replace (f ++ c :: c' :: cs) with ((f ++ [c]) ++ c' :: cs) by now rewrite <- app_assoc.
      apply ensure_veq. change (removelast (c :: c' :: cs)) with (c :: removelast (c' :: cs)). cbn [vmkdirs_from].
      eapply veq_trans; [apply vmkdirs_veq, V|]. apply vmkdirs_ensure.
Qed.
Lemma fs_get_view n t p : plain_path p -> p <> [] -> leafy (view_of t) -> linkless (view_of t) [] p -> ~ In opq (removelast p) ->
  exists t', fs_get (S (S (S (S n)))) t [] (path_text false p) true false = Ret (t', p) /\ leafy (view_of t') /\
    veq (view_of t') (ensure (vmkdirs_from (view_of t) [] (removelast p)) p).
Proof.
  intros Hp Np L HL HO. rewrite fs_get_S, clean_of_text by now apply plain_clean. rewrite is_abs_text by now apply plain_clean.
  destruct p as [|c cs]; [congruence|]. cbn [path_text].
  rewrite split_on_join; [|discriminate|now apply clean_list_no_slash with (r := false), plain_clean].
  destruct (crawl_view n cs c t []) as (t' & E & L' & V); auto; [constructor|now rewrite view_root|].
  exists t'. auto.
Qed.
Lemma fs_get_root n t : fs_get (S (S n)) t [] $"." true false = Ret (t, []).
Proof. reflexivity. Qed.

(** *** Set *)
Definition vwrite (v : view) (p : path) (h : header) (b : str) : view :=
  if byte_eqb (th_type h) TypeDir then
    if non_dir (hdr_of v p) then vput (vput v p (Some h, b)) (p ++ [opq]) (Some opq_header, [])
    else vput v p (Some h, b)
  else vclear (vput v p (Some h, b)) p.
Lemma vwrite_veq v w p h b : veq v w -> veq (vwrite v p h b) (vwrite w p h b).
Proof.
  intros H. unfold vwrite. rewrite (hdr_veq _ _ p H). destruct (byte_eqb _ _); [destruct (non_dir _)|].
  - now apply vput_veq, vput_veq.
  - now apply vput_veq.
  - now apply vclear_veq, vput_veq.
Qed.
Lemma set_written n t p h b : plain_path p -> view_of t p <> None -> leafy (view_of t) ->
  exists t1, set (S (S n)) t p h b = Ret (settle t1 p) /\ veq (view_of t1) (vwrite (view_of t) p h b).
Proof.
  intros Hp HV L. unfold set, vwrite. destruct (byte_eqb (th_type h) TypeDir) eqn:ED; cbn [negb].
  - rewrite header_view. destruct (non_dir (hdr_of (view_of t) p)) eqn:ND.
    + destruct (to_dir n t p (Some h) b Hp HV L) as (t1 & -> & V); [now rewrite header_view|cbn [non_dir]; now rewrite ED|].
      cbn [bind]. exists t1. auto.
    + cbn [bind]. eexists. split; [reflexivity|]. now apply view_put.
  - unfold set_leaf. eexists. split; [reflexivity|]. eapply veq_trans; [apply view_drop|]. apply vclear_veq. now apply view_put.
Qed.
Lemma set_view n t d k h b : plain_path (d ++ [k]) -> view_of t (d ++ [k]) <> None -> leafy (view_of t) ->
  exists t', set (S (S n)) t (d ++ [k]) h b = Ret t' /\ veq (view_of t') (vsettle (vwrite (view_of t) (d ++ [k]) h b) d k).
Proof.
  intros Hp HV L. destruct (set_written n t (d ++ [k]) h b Hp HV L) as (t1 & -> & V). eexists. split; [reflexivity|].
  eapply veq_trans; [now apply settle_view|]. now apply vsettle_veq.
Qed.
Lemma set_view_root n t h b : leafy (view_of t) ->
  exists t', set (S (S n)) t [] h b = Ret t' /\ veq (view_of t') (vcut (vwrite (view_of t) [] h b) [$".wh.."]).
Proof.
  intros L. destruct (set_written n t [] h b) as (t1 & -> & V); auto; [constructor|now rewrite view_root|].
  eexists. split; [reflexivity|]. eapply veq_trans; [|apply vcut_veq, V]. apply (view_delete t1 [] $".wh..").
Qed.

(** *** one entry *)
Definition vstep (v : view) (p : path) (h : header) (b : str) : view :=
  match p with
  | [] => vcut (vwrite v [] h b) [$".wh.."]
  | _ => vsettle (vwrite (vmkdirs_from v [] (removelast p)) p h b) (removelast p) (last p [])
  end.
Lemma vwrite_ensure v p h b : veq (vwrite (ensure v p) p h b) (vwrite v p h b).
Proof.
  unfold vwrite. rewrite ensure_hdr.
  assert (E : forall n, veq (vput (ensure v p) p n) (vput v p n)).
  { intros n q. unfold vput. destruct (path_dec q p); auto. now rewrite ensure_other. }
  destruct (byte_eqb _ _); [destruct (non_dir _)|]; [apply vput_veq, E|apply E|apply vclear_veq, E].
Qed.
Lemma leafy_shrink v w : (forall q, w q = None \/ w q = v q) -> leafy v -> leafy w.
Proof.
  intros H L p k N. destruct (H (p ++ [k])) as [E|E]; auto. rewrite E. apply L. unfold hdr_of in *.
  destruct (H p) as [Ep|Ep]; rewrite Ep in N; auto. discriminate.
Qed.
Lemma vsettle_shrink v d k q : vsettle v d k q = None \/ vsettle v d k q = v q.
Proof.
  unfold vsettle, vcut. destruct (has_prefix wh_prefix k); [destruct (str_eqb k opq)|].
  - destruct (below d q); auto. destruct (at_or_below (d ++ [k]) q); auto.
  - destruct (at_or_below _ q); auto.
  - destruct (at_or_below _ q); auto.
Qed.
Lemma leafy_write v p h b : closed v -> leafy v -> v p <> None -> leafy (vwrite v p h b).
Proof.
  intros C L HV q k. unfold vwrite. destruct (byte_eqb (th_type h) TypeDir) eqn:ED; [destruct (non_dir (hdr_of v p)) eqn:ND|].
  - assert (HB := leafy_below v p C L ND). unfold hdr_of. destruct (path_dec q (p ++ [opq])) as [->|N1].
    + intros _. rewrite !vput_ne; [apply HB; rewrite <- app_assoc; apply below_app| |auto].
      intros E'. apply (f_equal (@length _)) in E'. rewrite !app_length in E'. cbn [length] in E'. lia.
    + rewrite (vput_ne _ _ _ q) by auto. destruct (path_dec q p) as [->|N2].
      { rewrite vput_eq. cbn [fst non_dir]. rewrite ED. discriminate. }
      rewrite (vput_ne _ _ _ q) by auto. intros NP. assert (HP : v (q ++ [k]) = None) by (apply L; auto).
      rewrite !vput_ne; auto; congruence || (intros E'; apply child_inj in E' as [-> _]; congruence).
  - unfold hdr_of. destruct (path_dec q p) as [->|N2].
    { rewrite vput_eq. cbn [fst non_dir]. rewrite ED. discriminate. }
    rewrite (vput_ne _ _ _ q) by auto. intros NP. assert (HP : v (q ++ [k]) = None) by (apply L; auto).
    rewrite vput_ne; auto; congruence.
  - unfold hdr_of, vclear. destruct (below p (q ++ [k])) eqn:B; auto. destruct (below p q) eqn:B2; [discriminate|].
    destruct (path_dec q p) as [->|N2]; [now rewrite below_app in B|].
    rewrite (vput_ne _ _ _ q) by auto. intros NP. assert (HP : v (q ++ [k]) = None) by (apply L; auto).
    rewrite vput_ne; auto; congruence.
Qed.
Theorem load_entry_view n t p h b : plain_path p -> th_name h = path_text false p -> leafy (view_of t) ->
  linkless (view_of t) [] p -> ~ In opq (removelast p) ->
  exists t', load_entry (S (S (S (S n)))) t (h, b) = Ret t' /\ veq (view_of t') (vstep (view_of t) p h b) /\
    leafy (view_of t') /\
    (p <> [] -> let v1 := vmkdirs_from (view_of t) [] (removelast p) in
     non_dir (hdr_of v1 p) = true -> forall q, below p q = true -> v1 q = None).
Proof.
  intros Hp Hn L HL HO. unfold load_entry. cbn [fst snd]. rewrite Hn. destruct p as [|c cs].
  - change (path_text false []) with $".". rewrite fs_get_root. cbn [bind].
    destruct (set_view_root (S (S n)) t h b L) as (t' & E & V). exists t'. split; [|split; [|split]]; auto; [|congruence].
    eapply leafy_veq; [now apply veq_sym|].
    eapply leafy_shrink; [|apply (leafy_write (view_of t) [] h b); auto using closed_view; now rewrite view_root].
    intros q. unfold vcut. destruct (at_or_below _ q); auto.
  - set (p := c :: cs) in *. assert (Np : p <> []) by discriminate.
    destruct (fs_get_view n t p Hp Np L HL HO) as (t1 & -> & L1 & V1). cbn [bind].
    destruct (exists_last Np) as (d & k & Ep).
    assert (EV : vstep (view_of t) p h b = vsettle (vwrite (vmkdirs_from (view_of t) [] d) p h b) d k).
    { assert (E1 : removelast p = d) by (rewrite Ep; apply removelast_last).
      assert (E2 : last p [] = k) by (rewrite Ep; apply last_last). rewrite <- E1, <- E2. reflexivity. }
    rewrite EV. clear EV. rewrite Ep in *. clear Ep. rewrite removelast_last in *.
    assert (HV : view_of t1 (d ++ [k]) <> None) by (rewrite V1; apply ensure_at).
    destruct (set_view (S (S n)) t1 d k h b Hp) as (t' & E & V); auto.
    exists t'. split; auto. split; [|split].
    + eapply veq_trans; [exact V|]. apply vsettle_veq.
      eapply veq_trans; [apply vwrite_veq, V1|]. apply vwrite_ensure.
    + eapply leafy_veq; [now apply veq_sym|]. eapply leafy_shrink; [apply vsettle_shrink|]. apply leafy_write; auto using closed_view.
    + cbv zeta. intros _ ND q B. rewrite <- (ensure_hdr _ (d ++ [k])), <- (hdr_veq _ _ _ V1) in ND.
      pose proof (leafy_below _ _ (closed_view t1) L1 ND q B) as H. rewrite V1, ensure_other in H; auto.
      intros ->. now rewrite below_refl in B.
Qed.
