(** Hard links, divergence, and the counterexamples. *)
From Coq Require Import String Ascii List Bool ZArith Lia Permutation Sorted.
From Verif.Model Require Import GoStr GoPath Tar Squash.
From Verif.Spec Require Import PathSpec SquashSpec SimpleAPISpec.
From Verif.Proofs Require SimpleAPIFacts.
From Verif.Proofs Require Import Order GoStrFacts GoPathFacts SquashTree SquashLoad SquashSim SquashStack SquashWf SquashInv SquashWrite SquashReload SquashMain SquashFinal SquashMore SquashLinks SquashCreate SquashCheck.
Import ListNotations.
Local Arguments byte_eqb : simpl never.
Local Arguments str_eqb : simpl never.
Local Arguments clean : simpl never.

(** *** hard links *)
Lemma deref_path fs e : entry_path (deref fs e) = entry_path e.
Proof. unfold deref. destruct (_ && _); auto. destruct (fs (target e)) as [[]|]; auto. Qed.
Lemma deref_marker fs e : is_marker (deref fs e) = is_marker e.
Proof. unfold is_marker. now rewrite deref_path. Qed.
Lemma hard_not_dir e : is_hard_link e = true -> is_dir e = false.
Proof. unfold is_hard_link, is_dir. intros H. apply byte_eqb_eq in H. rewrite H. reflexivity. Qed.
Lemma deref_overrides fs e p d : overrides (deref fs e) p d -> overrides e p d.
Proof.
  unfold overrides, hides. rewrite deref_path, deref_marker. intros [H|[(M & D & H)|H]]; auto. right. left. split; auto. split; auto.
  unfold deref in D. destruct (is_hard_link e) eqn:L; [now apply hard_not_dir|]. exact D.
Qed.
Lemma link_keeps es : forall fs p n, fs p = Some n -> (forall e, In e es -> ~ overrides e p (dirn n)) -> fold_left link_entry es fs p = Some n.
Proof.
  induction es as [|e es IH]; intros fs p n E H; auto. cbn [fold_left]. apply IH; [|intros e' I; apply H; now right].
  unfold link_entry. apply keeps; auto. intros O. apply deref_overrides in O. apply (H e); auto. now left.
Qed.
Lemma link_result base es1 f es2 e es3 : is_marker f = false -> is_dir f = false -> is_hard_link f = false ->
  is_marker e = false -> is_hard_link e = true -> target e = entry_path f ->
  (forall x, In x es2 -> ~ overrides x (entry_path f) false) -> (forall x, In x es3 -> ~ overrides x (entry_path e) false) ->
  fold_left link_entry (es1 ++ f :: es2 ++ e :: es3) base (entry_path e) = Some (node_of f).
Proof.
  intros Mf Df Lf Me Le T H2 H3. rewrite fold_left_app. cbn [fold_left]. rewrite fold_left_app. cbn [fold_left].
  set (fs1 := fold_left link_entry es1 base). assert (E1 : link_entry fs1 f (entry_path f) = Some (node_of f)).
  { unfold link_entry, deref. rewrite Lf. cbn [andb]. now apply puts. }
  assert (Nf : node_of f = FFile (anon (fst f)) (snd f)) by (unfold node_of; now rewrite Df).
  assert (E2 : fold_left link_entry es2 (link_entry fs1 f) (entry_path f) = Some (node_of f)).
  { apply link_keeps; auto. rewrite Nf. exact H2. }
  set (fs2 := fold_left link_entry es2 (link_entry fs1 f)) in *. apply link_keeps; [|rewrite Nf; exact H3].
  unfold link_entry. pose proof (puts fs2 (deref fs2 e)) as X. rewrite deref_path, deref_marker in X. rewrite X by auto. clear X.
  unfold deref. rewrite Le, Me, T, E2, Nf. cbn [andb negb]. unfold node_of, is_dir. cbn [fst snd]. change (th_type (with_name (anon (fst f)) (th_name (fst e)))) with (th_type (fst f)).
  unfold is_dir in Df. rewrite Df. reflexivity.
Qed.

Section hard.
  Context (Q : entry -> Prop) (K : str -> Prop) (t : tree) (WT : wf Q K t) (WV : wfv (view_of t)) (LF : leafy (view_of t)).
  Context (sort : (str -> str -> bool) -> list str -> list str) (order : list str -> list str -> list str).
  Context (HS : sorts sort) (HO : permutes order).
  Notation v := (view_of t).
  Let HW := headed_walk sort order t.
  Lemma leafy_below p q : non_dir (hdr_of v p) = true -> below p q = true -> v q = None.
  Proof.
    intros N B. unfold below in B. apply andb_true_iff in B as [A B]. apply aob_spec in A as [r ->]. destruct r as [|k r]; [rewrite app_nil_r, aob_refl in B; discriminate|].
    pose proof (LF p k N) as X. destruct (v (p ++ k :: r)) eqn:E; auto. exfalso. replace (p ++ k :: r) with ((p ++ [k]) ++ r) in E by now rewrite <- app_assoc.
    apply (view_closed t (p ++ [k]) r); congruence.
  Qed.
  Lemma sorted_keeps p q : v p <> None -> non_dir (hdr_of v p) = true -> In q HW -> before p q -> is_marker (mk v q) = false -> ~ overrides (mk v q) p false.
  Proof.
    intros V N I B M O. assert (Hq : headed v q = true) by (apply (HW_all t sort order q I)). unfold overrides, hides in O. rewrite (mk_path v WV q Hq) in O.
    unfold is_marker in M. rewrite (mk_path v WV q Hq) in M.
    destruct O as [->|[(_ & _ & O)|[(d & x & -> & _)|[(d & -> & _)|[_ O]]]]].
    - now apply before_irrefl in B.
    - apply (before_asym p q B). now left.
    - rewrite last_last in M. rewrite wh_marker in M. discriminate.
    - rewrite last_last in M. discriminate.
    - apply leafy_below in O; auto. unfold headed in Hq. rewrite O in Hq. discriminate.
  Qed.
End hard.

Lemma plain_node n layers p nd : plain_stack layers -> real_path p -> unpack empty_root layers p = Some nd -> nd <> FDir None ->
  exists t, load_layers (4 + n) false layers = Ret t /\ exists h b, view_of t p = Some (Some h, b) /\
    match nd with FDir m => byte_eqb (th_type h) TypeDir = true /\ m = Some (anon h) | FFile h' c => byte_eqb (th_type h) TypeDir = false /\ h' = anon h /\ c = b end.
Proof.
  intros P R SV ND. destruct (load_plain n layers P) as (t & E & _ & _ & LF & _ & S & _). exists t. split; auto.
  assert (B : blank empty_root) by (intros [|k q] N; [congruence|reflexivity]).
  assert (BR : exists m, empty_root [] = Some (FDir m)) by (exists None; reflexivity).
  pose proof (S empty_root BR (or_introl B) _ R) as A. rewrite SV in A. apply (fun A => agree_node _ _ (or_intror A) ND) in A.
  unfold interp in A. destruct (view_of t p) as [[[h|] b]|] eqn:V.
  - exists h, b. split; auto. destruct (byte_eqb (th_type h) TypeDir) eqn:D; injection A as <-; auto.
  - unfold visible in A. exfalso. destruct (shadow _ _ _); [congruence|]. destruct p; cbn [empty_root] in A; congruence.
  - exfalso. unfold visible in A. destruct (shadow _ _ _); [discriminate|]. destruct p; cbn [empty_root] in A; congruence.
Qed.
Lemma sorted_two {A} (R : A -> A -> Prop) l x y : StronglySorted R l -> (forall x, ~ R x x) -> (forall x y, R x y -> R y x -> False) -> In x l -> In y l -> R x y ->
  exists l1 l2 l3, l = l1 ++ x :: l2 ++ y :: l3.
Proof.
  intros S Ir As Ix Iy Rxy. apply in_split in Ix as (l1 & l2 & ->). apply sorted_split in S as [S1 S2]. apply in_app_iff in Iy as [Iy|[->|Iy]].
  - exfalso. eauto.
  - exfalso. eapply Ir, Rxy.
  - apply in_split in Iy as (a & b & ->). eauto.
Qed.
Theorem squash_hard_link n sort order layers es1 f es2 e es3 : sorts sort -> permutes order -> plain_stack layers ->
  all_entries layers = es1 ++ f :: es2 ++ e :: es3 ->
  is_marker f = false -> is_dir f = false -> is_hard_link f = false ->
  is_marker e = false -> is_hard_link e = true -> target e = entry_path f ->
  (forall x, In x (es2 ++ e :: es3) -> ~ overrides x (entry_path f) false) -> (forall x, In x es3 -> ~ overrides x (entry_path e) false) ->
  before (entry_path f) (entry_path e) ->
  exists out, squash (4 + n) sort order layers = Ret out /\
    (exists o1 f' o2 e' o3, out = o1 ++ f' :: o2 ++ e' :: o3 /\ entry_path f' = entry_path f /\ node_of f' = node_of f /\
       entry_path e' = entry_path e /\ node_of e' = node_of e) /\
    unpack_linking empty_root layers (entry_path e) = Some (node_of f) /\
    unpack_linking empty_root [out] (entry_path e) = Some (node_of f).
Proof.
  intros HS HO P EA Mf Df Lf Me Le T H2 H3 Bf. pose proof (hard_not_dir e Le) as De.
  assert (GA : forall x, In x (all_entries layers) -> is_marker x = false -> real_path (entry_path x)).
  { intros x Ix Mx. destruct P as [G _]. apply good_all in G. rewrite Forall_forall in G. apply G in Ix. destruct Ix as [_ [R|(d & k & E & _ & _ & _ & Kk)]]; auto.
    exfalso. unfold is_marker in Mx. rewrite E, last_last in Mx. destruct Kk as [->|(y & -> & _)]; [discriminate|]. rewrite wh_marker in Mx. discriminate. }
  assert (If : In f (all_entries layers)) by (rewrite EA; apply in_app_iff; right; now left).
  assert (Ie : In e (all_entries layers)) by (rewrite EA; apply in_app_iff; right; right; apply in_app_iff; right; now left).
  assert (Nf : node_of f = FFile (anon (fst f)) (snd f)) by (unfold node_of; now rewrite Df).
  assert (Ne : node_of e = FFile (anon (fst e)) (snd e)) by (unfold node_of; now rewrite De).
  assert (Uf : unpack empty_root layers (entry_path f) = Some (node_of f)).
  { rewrite unpack_all, EA, fold_left_app. cbn [fold_left]. apply keeps_all; [now apply puts|rewrite Nf; exact H2]. }
  assert (Ue : unpack empty_root layers (entry_path e) = Some (node_of e)).
  { rewrite unpack_all, EA, fold_left_app. cbn [fold_left]. rewrite fold_left_app. cbn [fold_left]. apply keeps_all; [now apply puts|rewrite Ne; exact H3]. }
  destruct (load_plain n layers P) as (t & E & WT & WV & LF & _).
  destruct (plain_node n layers _ _ P (GA f If Mf) Uf (node_of_some f)) as (tf & Ef & hf & bf & Vf & Xf). change (4 + n)%nat with (S (S (S (S n)))) in Ef. rewrite E in Ef. injection Ef as <-.
  destruct (plain_node n layers _ _ P (GA e Ie Me) Ue (node_of_some e)) as (te & Ee & he & be & Ve & Xe). change (4 + n)%nat with (S (S (S (S n)))) in Ee. rewrite E in Ee. injection Ee as <-.
  rewrite Nf in Xf. rewrite Ne in Xe. destruct Xf as (Tf & Af & Cf), Xe as (Te & Ae & Ce).
  exists (write_to sort order [] t). split; [unfold squash; cbn [plus]; rewrite E; reflexivity|].
  assert (Hf : headed (view_of t) (entry_path f) = true) by (unfold headed; now rewrite Vf).
  assert (He : headed (view_of t) (entry_path e) = true) by (unfold headed; now rewrite Ve).
  assert (NDf : node_of (mk (view_of t) (entry_path f)) = node_of f).
  { rewrite (mk_some _ _ _ _ Vf), Nf. unfold node_of, is_dir. cbn [fst snd th_type with_name]. rewrite Tf, Cf, Af. reflexivity. }
  assert (NDe : node_of (mk (view_of t) (entry_path e)) = node_of e).
  { rewrite (mk_some _ _ _ _ Ve), Ne. unfold node_of, is_dir. cbn [fst snd th_type with_name]. rewrite Te, Ce, Ae. reflexivity. }
  assert (Sr : StronglySorted before (headed_walk sort order t)) by (now apply (headed_walk_sorted sort order HS HO any ok_key)).
  destruct (sorted_two before (headed_walk sort order t) (entry_path f) (entry_path e)) as (L1 & L2 & L3 & EL); auto.
  { apply before_irrefl. } { apply before_asym. } { apply headed_walk_in; eauto. } { apply headed_walk_in; eauto. }
  pose proof (mk_path _ WV _ Hf) as Pf. pose proof (mk_path _ WV _ He) as Pe.
  rewrite write_mk, EL, !map_app. cbn [map]. rewrite map_app. cbn [map].
  set (f' := mk (view_of t) (entry_path f)) in *. set (e' := mk (view_of t) (entry_path e)) in *. set (mkv := mk (view_of t)) in *.
  split; [|split].
  - exists (map mkv L1), f', (map mkv L2), e', (map mkv L3). auto.
  - unfold unpack_linking. rewrite EA. apply link_result; auto. intros x I. apply H2. apply in_app_iff. now left.
  - assert (Mf' : is_marker f' = false) by (unfold is_marker; rewrite Pf; exact Mf).
    assert (Me' : is_marker e' = false) by (unfold is_marker; rewrite Pe; exact Me).
    unfold unpack_linking, all_entries. cbn [flat_map]. rewrite app_nil_r. unfold in_order. do 2 (rewrite !filter_app; cbn [filter]; rewrite ?Mf', ?Me'; cbn [negb]).
    rewrite <- Pe, <- NDf. rewrite app_assoc. rewrite EL in Sr. pose proof (sorted_split before _ _ _ Sr) as [_ S2].
    replace (L1 ++ entry_path f :: L2 ++ entry_path e :: L3) with ((L1 ++ entry_path f :: L2) ++ entry_path e :: L3) in Sr by (now rewrite <- app_assoc). apply sorted_split in Sr as [_ S3].
    assert (IN : forall q, In q (L2 ++ L3) -> In q (headed_walk sort order t)).
    { intros q I. rewrite EL. apply in_app_iff. right. right. apply in_app_iff in I as [I|I]; apply in_app_iff; auto. right. now right. }
    apply link_result; auto.
    + rewrite (mk_some _ _ _ _ Vf : f' = _). exact Tf.
    + unfold is_hard_link. rewrite (mk_some _ _ _ _ Vf : f' = _). cbn [fst th_type with_name]. change (th_type hf) with (th_type (anon hf)). rewrite <- Af. exact Lf.
    + unfold is_hard_link. rewrite (mk_some _ _ _ _ Ve : e' = _). cbn [fst th_type with_name]. change (th_type he) with (th_type (anon he)). rewrite <- Ae. exact Le.
    + rewrite Pf, <- T. unfold target. rewrite (mk_some _ _ _ _ Ve : e' = _). cbn [fst th_link with_name]. change (th_link he) with (th_link (anon he)). rewrite <- Ae. reflexivity.
    + intros x I. apply filter_In in I as [I M]. apply negb_true_iff in M. apply in_map_iff in I as (q & <- & I). rewrite Pf.
      apply (sorted_keeps t WV LF sort order); auto.
      * congruence.
      * unfold hdr_of. rewrite Vf. cbn [fst non_dir]. now rewrite Tf.
      * apply IN, in_app_iff. now left.
      * apply S2. apply in_app_iff. now left.
    + intros x I. apply filter_In in I as [I M]. apply negb_true_iff in M. apply in_map_iff in I as (q & <- & I). rewrite Pe.
      apply (sorted_keeps t WV LF sort order); auto.
      * congruence.
      * unfold hdr_of. rewrite Ve. cbn [fst non_dir]. now rewrite Te.
      * apply IN, in_app_iff. now right.
Qed.

(** *** plain stacks are written in order *)
Theorem squash_sorted_plain n sort order layers : sorts sort -> permutes order -> plain_stack layers ->
  exists out, squash (4 + n) sort order layers = Ret out /\ StronglySorted before (map entry_path out).
Proof.
  intros HS HO P. destruct (load_plain n layers P) as (t & E & WT & WV & LF & _). exists (write_to sort order [] t).
  split; [unfold squash; cbn [plus]; rewrite E; reflexivity|]. rewrite write_mk, map_map. erewrite map_ext_in; [rewrite map_id; now apply (headed_walk_sorted sort order HS HO any ok_key)|].
  intros q I. apply (mk_path _ WV). apply (HW_all t sort order q I).
Qed.
Lemma sorted_paths_nodup (out : list entry) : StronglySorted before (map entry_path out) -> NoDup (map entry_path out).
Proof. apply sorted_nodup, before_irrefl. Qed.

(** *** a link below itself: no amount of recursion is enough *)
Definition self_link : list (list entry) := [[a_symlink $"a" $"a/b"]; [a_file $"a/x" $"x"]].
Definition self_tree : tree := Tree None [] [($"a", Tree (Some (fst (a_symlink $"a" $"a/b"))) [] [])].
Lemma self_get n : forall key follow, str_eqb key $".." = false -> str_eqb key $"." = false -> get n self_tree [$"a"] key true follow = OutOfFuel.
Proof.
  induction n as [n IH] using (well_founded_induction lt_wf). intros key follow K1 K2. destruct n as [|n]; [reflexivity|]. cbn [get]. rewrite K1, K2.
  change (Squash.link_of (header_at self_tree [$"a"])) with (Some $"a/b"). cbv match.
  assert (F : fs_get n self_tree (parent [$"a"]) $"a/b" true true = OutOfFuel); [|now rewrite F].
  destruct n as [|n]; [reflexivity|]. cbn [fs_get]. change (is_abs (clean $"a/b")) with false. cbv match. change (split_on slash (clean $"a/b")) with [$"a"; $"b"]. cbv match beta.
  change (parent [$"a"]) with (@nil str). destruct n as [|n]; [reflexivity|].
  change (get (S n) self_tree [] $"a" true false) with (@Ret (tree * pos) (self_tree, [$"a"])). cbn [bind]. apply IH; auto.
Qed.
Theorem squash_diverges n sort order : squash n sort order self_link = OutOfFuel.
Proof.
  assert (E : load_layers n false self_link = OutOfFuel); [|unfold squash; now rewrite E].
  unfold load_layers, self_link. cbn [load_layers_from]. change (parse_layer false [a_symlink $"a" $"a/b"]) with (@Ret (list entry * list entry) ([], [a_symlink $"a" $"a/b"])).
  change (parse_layer false [a_file $"a/x" $"x"]) with (@Ret (list entry * list entry) ([], [a_file $"a/x" $"x"])). cbn [bind load_entries].
  assert (L : load_entry n empty_tree (a_symlink $"a" $"a/b") = OutOfFuel \/ load_entry n empty_tree (a_symlink $"a" $"a/b") = Ret self_tree).
  { destruct n as [|[|n]]; [left; reflexivity|left; reflexivity|right; vm_compute; reflexivity]. }
  destruct L as [-> | ->]; [reflexivity|]. cbn [bind].
  assert (F : load_entry n self_tree (a_file $"a/x" $"x") = OutOfFuel); [|now rewrite F].
  unfold load_entry. assert (G : fs_get n self_tree [] (th_name (fst (a_file $"a/x" $"x"))) true false = OutOfFuel); [|now rewrite G].
  destruct n as [|n]; [reflexivity|]. cbn [fs_get]. change (th_name (fst (a_file $"a/x" $"x"))) with $"a/x". change (is_abs (clean $"a/x")) with false. cbv match.
  change (split_on slash (clean $"a/x")) with [$"a"; $"x"]. cbv match beta. destruct n as [|n]; [reflexivity|].
  change (get (S n) self_tree [] $"a" true false) with (@Ret (tree * pos) (self_tree, [$"a"])). cbn [bind]. now apply self_get.
Qed.

(** *** concrete squashes *)
Lemma any_order n sort order layers r : sorts sort -> permutes order ->
  squash n insertion_sort (fun _ l => l) layers = r -> squash n sort order layers = r.
Proof.
  intros HS HO <-. apply squash_unique; auto.
  - apply SimpleAPIFacts.insertion_sorts.
  - intros p l. apply Permutation_refl.
Qed.
Theorem squash_terminates n sort order layers : plain_stack layers -> exists out, squash (4 + n) sort order layers = Ret out.
Proof. intros P. destruct (load_plain n layers P) as (t & E & _). exists (write_to sort order [] t). unfold squash. cbn [plus]. now rewrite E. Qed.
Theorem squash_through_links sort order layers layers' : sorts sort -> permutes order ->
  Forall (Forall in_root) layers -> plain_stack layers' ->
  all_at_target empty_root (all_entries layers) (all_entries layers') ->
  exists N out, (forall n, (N <= n)%nat -> squash n sort order layers = Ret out) /\ StronglySorted before (map entry_path out) /\
    (forall base, (exists m, base [] = Some (FDir m)) -> blank base \/ history not_hidden (all_entries layers') ->
     forall p, real_path p -> agree (unpack base layers' p) (unpack base [out] p) /\
       (history no_file_above (all_entries layers') -> unpack base layers' p = unpack base [out] p)).
Proof.
  intros HS HO I P A. destruct (squash_links sort order layers layers' I P A) as [N H].
  destruct (squash_preserves 0 sort order layers' HS HO P) as (out & E & S). exists (4 + N)%nat, out. split; [|split].
  - intros n L. rewrite H by lia. eapply more_fuel; [exact E|discriminate|lia].
  - destruct (squash_sorted_plain 0 sort order layers' HS HO P) as (out' & E' & S'). congruence.
  - exact S.
Qed.

(** *** examples with links *)
Lemma pc c : plain_compb c = true -> plain_comp c.
Proof. apply plain_compb_ok. Qed.
Lemma not_link_at fs p : match fs p with Some (FFile h _) => byte_eqb (th_type h) TypeSymlink | _ => false end = false -> ~ is_symlink_at fs p.
Proof. intros E (h & c & F & T). rewrite F, T in E. discriminate. Qed.
Lemma not_dir_at fs p : match fs p with Some (FDir _) => true | _ => false end = false -> ~ is_dir_at fs p.
Proof. intros E (m & F). rewrite F in E. discriminate. Qed.
Lemma dir_at fs p m : fs p = Some (FDir m) -> is_dir_at fs p.
Proof. now exists m. Qed.
Lemma stays fs e : is_abs (th_name (fst e)) = false -> at_target fs e e.
Proof. unfold at_target. auto. Qed.
Definition merged_usr : list (list entry) :=
  [[a_dir $"usr/"; a_dir $"usr/bin/"; a_symlink $"bin" $"usr/bin"; a_symlink $"sbin" $"/bin"]; [a_file $"bin/sh" $"S"]; [a_file $"sbin/init" $"I"]].
Definition merged_usr_real : list (list entry) :=
  [[a_dir $"usr/"; a_dir $"usr/bin/"; a_symlink $"bin" $"usr/bin"; a_symlink $"sbin" $"/bin"]; [a_file $"usr/bin/sh" $"S"]; [a_file $"usr/bin/init" $"I"]].
Lemma merged_at_target : all_at_target empty_root (all_entries merged_usr) (all_entries merged_usr_real).
Proof.
  change (all_entries merged_usr) with [a_dir $"usr/"; a_dir $"usr/bin/"; a_symlink $"bin" $"usr/bin"; a_symlink $"sbin" $"/bin"; a_file $"bin/sh" $"S"; a_file $"sbin/init" $"I"].
  change (all_entries merged_usr_real) with [a_dir $"usr/"; a_dir $"usr/bin/"; a_symlink $"bin" $"usr/bin"; a_symlink $"sbin" $"/bin"; a_file $"usr/bin/sh" $"S"; a_file $"usr/bin/init" $"I"].
  do 4 (apply aat_cons; [now apply stays|]).
  set (fs := unpack_entry _ _).
  assert (B : forall fs, fs [] = Some (FDir None) -> fs [$"usr"] = Some (FDir (Some (anon (fst (a_dir []))))) -> fs [$"usr"; $"bin"] = Some (FDir (Some (anon (fst (a_dir []))))) ->
     fs [$"bin"] = Some (FFile (anon (fst (a_symlink [] $"usr/bin"))) []) -> leads fs [$"bin"] [$"usr"; $"bin"]).
  { intros f E0 E1 E2 E3. eapply leads_link with (q := [$"usr"; $"bin"]); [exact E3|reflexivity|vm_compute; discriminate| |apply leads_end, not_link_at; now rewrite E2].
    change (clean_comps _) with [$"usr"; $"bin"]. cbn. eapply reaches_down with (d' := [$"usr"]); [eapply dir_at, E0|apply pc; reflexivity| |discriminate|].
    - apply leads_end, not_link_at. cbn [app]. now rewrite E1.
    - apply (reaches_last f [$"usr"] $"bin"); [eapply dir_at, E1|apply pc; reflexivity]. }
  apply aat_cons.
  - split; [reflexivity|]. split; [reflexivity|]. split; [reflexivity|]. right. exists [$"bin"], [$"bin"], [$"usr"; $"bin"], [$"sh"].
    split; [reflexivity|]. split; [discriminate|]. split; [|split; [apply B; vm_compute; reflexivity|reflexivity]].
    apply (reaches_last fs [] $"bin"); [eapply dir_at; vm_compute; reflexivity|apply pc; reflexivity].
  - set (fs' := unpack_entry fs _). apply aat_cons; [|apply aat_nil].
    split; [reflexivity|]. split; [reflexivity|]. split; [reflexivity|]. right. exists [$"sbin"], [$"sbin"], [$"usr"; $"bin"], [$"init"].
    split; [reflexivity|]. split; [discriminate|]. split; [|split; [|reflexivity]].
    + apply (reaches_last fs' [] $"sbin"); [eapply dir_at; vm_compute; reflexivity|apply pc; reflexivity].
    + eapply leads_link with (q := [$"bin"]); [vm_compute; reflexivity|reflexivity|vm_compute; discriminate| |].
      * apply (reaches_last fs' [] $"bin"); [eapply dir_at; vm_compute; reflexivity|apply pc; reflexivity].
      * apply B; vm_compute; reflexivity.
Qed.
(** A link to a directory that is not there, and one to a file. *)
Definition dangling : list (list entry) :=
  [[a_symlink $"bin" $"usr/bin"; a_file $"f" $"1"; a_symlink $"l" $"f"]; [a_file $"bin/x/sh" $"S"]; [a_file $"l/x" $"2"]].
Definition dangling_real : list (list entry) :=
  [[a_symlink $"bin" $"usr/bin"; a_file $"f" $"1"; a_symlink $"l" $"f"]; [a_file $"usr/bin/x/sh" $"S"]; [a_file $"f/x" $"2"]].
Lemma dangling_at_target : all_at_target empty_root (all_entries dangling) (all_entries dangling_real).
Proof.
  change (all_entries dangling) with [a_symlink $"bin" $"usr/bin"; a_file $"f" $"1"; a_symlink $"l" $"f"; a_file $"bin/x/sh" $"S"; a_file $"l/x" $"2"].
  change (all_entries dangling_real) with [a_symlink $"bin" $"usr/bin"; a_file $"f" $"1"; a_symlink $"l" $"f"; a_file $"usr/bin/x/sh" $"S"; a_file $"f/x" $"2"].
  do 3 (apply aat_cons; [now apply stays|]). set (fs := unpack_entry _ _). apply aat_cons; [|apply aat_cons; [|apply aat_nil]].
  - split; [reflexivity|]. split; [reflexivity|]. split; [reflexivity|]. right. exists [$"bin"], [$"bin"], [$"usr"; $"bin"], [$"x"; $"sh"].
    split; [reflexivity|]. split; [discriminate|]. split; [|split; [|reflexivity]].
    + apply (reaches_last fs [] $"bin"); [eapply dir_at; vm_compute; reflexivity|apply pc; reflexivity].
    + eapply leads_link with (q := [$"usr"; $"bin"]); [vm_compute; reflexivity|reflexivity|vm_compute; discriminate| |apply leads_end, not_link_at; vm_compute; reflexivity].
      change (clean_comps _) with [$"usr"; $"bin"]. cbn [is_abs]. eapply reaches_down with (d' := [$"usr"]); [eapply dir_at; vm_compute; reflexivity|apply pc; reflexivity| |discriminate|].
      * apply leads_end, not_link_at. vm_compute. reflexivity.
      * apply (reaches_new fs [$"usr"] [$"bin"]); [apply not_dir_at; vm_compute; reflexivity|apply not_link_at; vm_compute; reflexivity|discriminate|]. constructor; [apply pc; reflexivity|constructor].
  - split; [reflexivity|]. split; [reflexivity|]. split; [reflexivity|]. right. exists [$"l"], [$"l"], [$"f"], [$"x"].
    split; [reflexivity|]. split; [discriminate|]. split; [|split; [|reflexivity]].
    + apply (reaches_last _ [] $"l"); [eapply dir_at; vm_compute; reflexivity|apply pc; reflexivity].
    + eapply leads_link with (q := [$"f"]); [vm_compute; reflexivity|reflexivity|vm_compute; discriminate| |apply leads_end, not_link_at; vm_compute; reflexivity].
      apply (reaches_last _ [] $"f"); [eapply dir_at; vm_compute; reflexivity|apply pc; reflexivity].
Qed.
