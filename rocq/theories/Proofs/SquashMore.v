(** More properties of squash: order, names, iteration order, termination,
    which entries survive. *)
From Coq Require Import String Ascii List Bool ZArith Lia Permutation Sorted.
From Verif.Model Require Import GoStr GoPath Tar Squash.
From Verif.Spec Require Import PathSpec SquashSpec SimpleAPISpec.
From Verif.Proofs Require Import Order GoStrFacts GoPathFacts SquashTree SquashLoad SquashSim SquashStack SquashWf SquashInv SquashWrite SquashReload SquashMain SquashFinal.
Import ListNotations.
Local Arguments byte_eqb : simpl never.
Local Arguments str_eqb : simpl never.
Local Arguments clean : simpl never.

Lemma squash_ret n sort order layers out : squash n sort order layers = Ret out ->
  exists t, load_layers n false layers = Ret t /\ out = write_to sort order [] t.
Proof. unfold squash. destruct (load_layers n false layers) as [t| |]; try discriminate. cbn [bind]. intros E. injection E as <-. eauto. Qed.

(** *** names written *)
Definition nonempty (k : str) : bool := negb (str_eqb k []).
Lemma ok_nonempty q : Forall ok_key q -> plain_path (filter nonempty q).
Proof.
  intros H. unfold plain_path. rewrite Forall_forall in *. intros k I. apply filter_In in I as [I N]. apply H in I as (S & D & DD).
  repeat split; auto. intros ->. discriminate.
Qed.
Lemma node_name_ok q : Forall ok_key q -> node_name q = path_text false (filter nonempty q).
Proof.
  induction q as [|k q IH] using rev_ind; intros H; auto. apply Forall_app in H as [Hq Hk].
  rewrite node_name_snoc, IH, filter_app by auto. 
  replace (filter nonempty [k]) with (if str_eqb k [] then [] else [k]) by (cbn [filter]; unfold nonempty; now destruct (str_eqb k [])).
  pose proof (ok_nonempty q Hq) as P.
  pose proof (path_text_ne false _ (plain_ne _ P)) as NE. destruct (str_eqb k []) eqn:E.
  - apply str_eqb_eq in E as ->. rewrite app_nil_r. unfold path_join. cbn [filter].
    destruct (str_eqb (path_text false (filter nonempty q)) []) eqn:E0; [apply str_eqb_eq in E0; congruence|].
    replace (str_eqb [] []) with true by reflexivity. cbn [negb join]. rewrite clean_text, clean_comps_text, is_abs_text by now apply plain_clean. reflexivity.
  - assert (K : plain_comp k).
    { inversion Hk as [|? ? (S & D & DD) _]; subst. repeat split; auto. intros ->. discriminate. }
    rewrite join_plain1 by auto. rewrite clean_comps_text, is_abs_text by now apply plain_clean. reflexivity.
Qed.
Lemma wf_keys Q K t q : wf Q K t -> view_of t q <> None -> Forall K q.
Proof.
  revert t. induction q as [|k q IH]; intros t W H; [constructor|]. unfold view_of in H. cbn [subtree] in H.
  destruct (child k (t_children t)) as [c|] eqn:E; [|congruence]. constructor.
  - destruct (W [] t eq_refl) as (_ & F & _). rewrite Forall_forall in F. apply child_In in E. now apply F in E.
  - apply (IH c); auto. apply (wf_sub Q K t [k]); auto. cbn [subtree]. now rewrite E.
Qed.
Lemma named_in_root q h b e : Forall ok_key q -> e = (with_name h (if byte_eqb (th_type h) TypeDir then node_name q ++ $"/" else node_name q), b) ->
  is_abs (th_name (fst e)) = false /\ entry_path e = filter nonempty q /\ th_name (fst e) = written_name e.
Proof.
  intros F ->. pose proof (ok_nonempty q F) as P. unfold written_name, is_dir, entry_path. cbn [fst th_name th_type with_name]. rewrite node_name_ok by auto.
  destruct (byte_eqb (th_type h) TypeDir).
  - rewrite text_slash_comps by auto. split; auto. rewrite is_abs_app by now apply text_nonempty. now apply text_not_abs.
  - rewrite clean_comps_text, app_nil_r by now apply plain_clean. split; auto. now apply text_not_abs.
Qed.
Lemma out_cases sort order t e : permutes order -> sorts sort -> In e (write_to sort order [] t) ->
  exists q h b, view_of t q = Some (Some h, b) /\ e = mk (view_of t) q /\ e = (with_name h (if byte_eqb (th_type h) TypeDir then node_name q ++ $"/" else node_name q), b).
Proof.
  intros HO HS I. rewrite write_mk in I. apply in_map_iff in I as (q & <- & I). apply headed_walk_in in I as (h & b & E); auto.
  exists q, h, b. split; auto. split; auto. unfold mk. now rewrite E.
Qed.
Theorem squash_in_root n sort order layers out : sorts sort -> permutes order -> squash n sort order layers = Ret out ->
  forall e, In e out -> in_root e /\ th_name (fst e) = written_name e.
Proof.
  intros HS HO E e I. apply squash_ret in E as (t & E & ->). apply out_cases in I as (q & h & b & V & _ & Ee); auto.
  pose proof (wf_any _ _ _ _ E) as W. assert (F : Forall ok_key q) by (eapply wf_keys; [exact W|congruence]).
  destruct (named_in_root q h b e F Ee) as (A & P & N). split; auto. split; auto. rewrite P. now apply ok_nonempty.
Qed.
(** *** entries outside the root *)
Lemma parse_rejects om l e : In e l -> outside_root (clean (th_name (fst e))) = true -> forall x, parse_layer om l <> Ret x.
Proof.
  induction l as [|[h b] l IH]; intros I O x; [destruct I|]. cbn [parse_layer]. destruct I as [<-|I].
  - cbn [fst] in O. rewrite O. discriminate.
  - destruct (outside_root (clean (th_name h))); [discriminate|]. destruct (parse_layer om l) as [y| |]; try discriminate. now destruct (IH I O y).
Qed.
Theorem squash_rejects n sort order layers e : (exists l, In l layers /\ In e l) -> ~ in_root e -> forall out, squash n sort order layers <> Ret out.
Proof.
  intros (l & Il & I) N out E. apply squash_ret in E as (t & E & _). unfold load_layers in E. revert E. generalize empty_tree.
  assert (O : outside_root (clean (th_name (fst e))) = true).
  { destruct (outside_root (clean (th_name (fst e)))) eqn:O; auto. apply inside_plain in O. now destruct N. }
  induction layers as [|l' layers IH]; intros t0; [destruct Il|]. cbn [load_layers_from]. destruct (parse_layer false l') as [[w f]| |] eqn:P; cbn [bind]; try discriminate.
  destruct Il as [->|Il]; [now apply (parse_rejects false l e I O) in P|].
  destruct (load_entries n t0 w) as [t1| |]; cbn [bind]; try discriminate. destruct (load_entries n t1 f) as [t2| |]; cbn [bind]; try discriminate.
  now apply IH.
Qed.
(** *** order of the output *)
Theorem squash_sorted n sort order layers out : sorts sort -> permutes order -> Forall (Forall (fun e => ~ links_to_root e)) layers ->
  squash n sort order layers = Ret out -> StronglySorted before (map entry_path out).
Proof.
  intros HS HO NR E. apply squash_ret in E as (t & E & ->).
  assert (W : wf (fun e => not_to_root (fst e)) plain_comp t).
  { eapply wf_rootless; [|exact E]. eapply Forall_impl; [|exact NR]. intros l. apply Forall_impl. intros e N l' L C. apply N. cbn [Squash.link_of] in L.
    split; [unfold is_link|]; destruct (byte_eqb _ _); congruence. }
  rewrite write_mk, map_map. erewrite map_ext_in; [rewrite map_id; now apply (headed_walk_sorted sort order HS HO (fun e => not_to_root (fst e)) plain_comp)|].
  intros q I. cbv beta. apply headed_walk_in in I as (h & b & V); auto. assert (P : plain_path q) by (eapply wf_keys; [exact W|congruence]).
  assert (F : Forall ok_key q) by (eapply Forall_impl; [|exact P]; intros k (_ & A & B & C); repeat split; auto).
  destruct (named_in_root q h b (mk (view_of t) q) F) as (_ & X & _); [unfold mk; now rewrite V|]. rewrite X. apply filter_all.
  intros k I. unfold nonempty. destruct (str_eqb k []) eqn:Ek; auto. apply str_eqb_eq in Ek as ->. unfold plain_path in P. rewrite Forall_forall in P. now destruct (P [] I).
Qed.
(** *** map iteration order *)
Theorem squash_unique n layers sort order sort' order' : sorts sort -> permutes order -> sorts sort' -> permutes order' ->
  squash n sort order layers = squash n sort' order' layers.
Proof.
  intros S O S' O'. unfold squash. destruct (load_layers n false layers) as [t| |] eqn:E; auto. cbn [bind]. f_equal. pose proof (wf_any _ _ _ _ E) as W.
  now apply (write_unique any ok_key any ok_key).
Qed.

(** *** more fuel does not change the result *)
Definition le_run {A} (r r' : run A) : Prop := r = OutOfFuel \/ r = r'.
Lemma le_refl {A} (r : run A) : le_run r r.
Proof. now right. Qed.
Lemma le_bind {A B} (r r' : run A) (k k' : A -> run B) : le_run r r' -> (forall a, le_run (k a) (k' a)) -> le_run (bind r k) (bind r' k').
Proof. intros [->| ->] H; [now left|]. destruct r' as [a| |]; cbn [bind]; auto; now right. Qed.
Lemma le_get n :
  (forall t f key create follow, le_run (get n t f key create follow) (get (S n) t f key create follow)) /\
  (forall t f create stack, le_run (resolve n t f create stack) (resolve (S n) t f create stack)) /\
  (forall t f p create follow, le_run (fs_get n t f p create follow) (fs_get (S n) t f p create follow)).
Proof.
  induction n as [|n (IG & IR & IF)]; [split; [|split]; intros; now left|]. split; [|split].
  - intros t f key create follow. set (m := S n) in *.
    cbn [get]. unfold m at 1. cbn [get].
    assert (FIN : forall r, le_run (if follow then resolve n (fst r) (snd r) create [] else Ret r) (if follow then resolve m (fst r) (snd r) create [] else Ret r)).
    { intros r. destruct follow; [apply IR|now right]. }
    destruct (str_eqb key $".."); [apply (FIN (t, parent f))|]. destruct (str_eqb key $"."); [apply (FIN (t, f))|].
    apply le_bind; [destruct (Squash.link_of _); [apply IF|now right]|]. intros [t1 f1]. apply le_bind.
    + destruct (non_dir _); [|now right]. destruct create; [|now right]. apply le_bind; [apply IG|]. intros [t2 w]. now right.
    + intros t2. destruct (subtree t2 (f1 ++ [key])); [apply (FIN (t2, f1 ++ [key]))|]. destruct create; [apply (FIN (_, _))|now right].
  - intros t f create stack. set (m := S n) in *. cbn [resolve]. unfold m at 1. cbn [resolve]. destruct (Squash.link_of _) as [l|]; [|now right].
    destruct (existsb _ stack); [now right|]. apply le_bind; [apply IF|]. intros [t1 g]. apply IR.
  - intros t f p create follow. set (m := S n) in *. cbn [fs_get]. unfold m at 1. cbn [fs_get]. destruct (if is_abs (clean p) then _ else _) as [d r].
    generalize (split_on slash r) as comps. intros comps. revert t d. induction comps as [|c comps IH]; intros t d; [now right|].
    destruct comps as [|c' comps]; [apply IG|]. apply le_bind; [apply IG|]. intros [t1 d1]. apply IH.
Qed.
Lemma le_load_entry n t e : le_run (load_entry n t e) (load_entry (S n) t e).
Proof.
  unfold load_entry. apply le_bind; [apply le_get|]. intros [t1 f]. unfold set. destruct (negb _); [now right|].
  apply le_bind; [|intros; now right]. destruct (non_dir _); [|now right]. apply le_bind; [apply le_get|]. intros [t2 w]. now right.
Qed.
Lemma le_load_entries n es : forall t, le_run (load_entries n t es) (load_entries (S n) t es).
Proof.
  induction es as [|e es IH]; intros t; [now right|]. cbn [load_entries]. apply le_bind; [apply le_load_entry|]. intros t1. apply IH.
Qed.
Lemma le_load_layers n om ls : forall t, le_run (load_layers_from n om t ls) (load_layers_from (S n) om t ls).
Proof.
  induction ls as [|l ls IH]; intros t; [now right|]. cbn [load_layers_from]. apply le_bind; [now right|]. intros [w f].
  apply le_bind; [apply le_load_entries|]. intros t1. apply le_bind; [apply le_load_entries|]. intros t2. apply IH.
Qed.
Theorem more_fuel n m sort order layers r : squash n sort order layers = r -> r <> OutOfFuel -> (n <= m)%nat -> squash m sort order layers = r.
Proof.
  intros E N L. induction L as [|m L IH]; auto. rewrite <- IH. symmetry. rewrite <- IH in N. unfold squash in *.
  assert (X : le_run (load_layers m false layers) (load_layers (S m) false layers)) by apply le_load_layers.
  destruct X as [X|X]; [rewrite X in N; now destruct N|now rewrite X].
Qed.
Theorem more_fuel_load n m om layers r : load_layers n om layers = r -> r <> OutOfFuel -> (n <= m)%nat -> load_layers m om layers = r.
Proof.
  intros E N L. induction L as [|m L IH]; auto. rewrite <- IH in N |- *. symmetry.
  destruct (le_load_layers m om layers empty_tree) as [X|X]; [unfold load_layers in N; rewrite X in N; now destruct N|exact X].
Qed.

(** *** which entries survive *)
Definition dirn (n : fnode) : bool := match n with FDir _ => true | FFile _ _ => false end.
Lemma path_parts (p : path) : p <> [] -> removelast p ++ [last p []] = p.
Proof. intros N. symmetry. now apply app_removelast_last. Qed.
Lemma keeps fs e p n : fs p = Some n -> ~ overrides e p (dirn n) -> unpack_entry fs e p = Some n.
Proof.
  intros E N. unfold overrides in N. unfold unpack_entry. set (p' := entry_path e) in *.
  assert (Np : p' <> p) by tauto.
  assert (M : mkdirs fs (removelast p') p = Some n).
  { unfold mkdirs. rewrite E. destruct (at_or_below p (removelast p')) eqn:A; auto. destruct n as [m|h c]; auto. exfalso.
    apply N. right. right. right. right. split; auto. destruct p' as [|c0 p0] using rev_ind.
    - destruct p; [now destruct Np|discriminate].
    - rewrite removelast_last in A. now apply below_snoc. }
  destruct (marker_name (last p' [])) eqn:Mk.
  - assert (Ne : p' <> []) by (intros X; rewrite X in Mk; discriminate). pose proof (path_parts p' Ne) as PP.
    destruct (str_eqb (last p' []) $".wh..wh..opq") eqn:O.
    + apply str_eqb_eq in O. unfold remove_below. destruct (below (removelast p') p) eqn:B; auto. exfalso. apply N. right. right. right. left.
      exists (removelast p'). rewrite O in PP. auto.
    + unfold remove. destruct (at_or_below _ p) eqn:B; auto. exfalso. apply N. right. right. left. apply marker_spec in Mk as [x Mk].
      exists (removelast p'), x. rewrite Mk in B. split; auto. unfold hides. fold p'. now rewrite <- Mk.
  - destruct (is_dir e) eqn:D.
    + unfold put_node. destruct (path_dec p p'); [congruence|auto].
    + unfold put_node. destruct (path_dec p p'); [congruence|]. unfold remove_below. destruct (below p' p) eqn:B; auto. exfalso. apply N. right. left. auto.
Qed.
Lemma keeps_all es : forall fs p n, fs p = Some n -> (forall e, In e es -> ~ overrides e p (dirn n)) -> fold_left unpack_entry es fs p = Some n.
Proof.
  induction es as [|e es IH]; intros fs p n E H; auto. cbn [fold_left]. apply IH; [|intros e' I; apply H; now right].
  apply keeps; auto. apply H. now left.
Qed.
Lemma puts fs e : is_marker e = false -> unpack_entry fs e (entry_path e) = Some (node_of e).
Proof.
  intros M. unfold unpack_entry. unfold is_marker in M. rewrite M. unfold node_of. destruct (is_dir e); unfold put_node; now destruct (path_dec _ _).
Qed.
Lemma in_order_app f1 e f2 : is_marker e = false -> exists a b, in_order (f1 ++ e :: f2) = a ++ e :: b /\ (forall e', In e' b -> In e' f2 /\ is_marker e' = false).
Proof.
  intros M. unfold in_order. rewrite !filter_app. cbn [filter]. rewrite M. cbn [negb].
  exists (filter is_marker f1 ++ filter is_marker f2 ++ filter (fun e => negb (is_marker e)) f1), (filter (fun e => negb (is_marker e)) f2).
  split; [now rewrite <- !app_assoc|]. intros e' I. apply filter_In in I as [I N]. now apply negb_true_iff in N.
Qed.
Lemma in_all layers e : In e (all_entries layers) -> exists l, In l layers /\ In e l.
Proof.
  unfold all_entries. rewrite in_flat_map. intros (l & Il & I). exists l. split; auto. unfold in_order in I. apply in_app_iff in I as [I|I]; now apply filter_In in I.
Qed.
Lemma survives l1 f1 e f2 l2 base : is_marker e = false ->
  (forall e', In e' f2 -> is_marker e' = false -> ~ overrides e' (entry_path e) (is_dir e)) ->
  (forall l e', In l l2 -> In e' l -> ~ overrides e' (entry_path e) (is_dir e)) ->
  unpack base (l1 ++ (f1 ++ e :: f2) :: l2) (entry_path e) = Some (node_of e).
Proof.
  intros M H1 H2. rewrite unpack_all. unfold all_entries. rewrite flat_map_app. cbn [flat_map].
  destruct (in_order_app f1 e f2 M) as (a & b & -> & Hb). rewrite !fold_left_app. cbn [fold_left].
  assert (D : dirn (node_of e) = is_dir e) by (unfold node_of; now destruct (is_dir e)).
  apply keeps_all.
  - apply keeps_all; [now apply puts|]. intros e' I. rewrite D. apply Hb in I as [I N]. auto.
  - intros e' I. rewrite D. apply in_all in I as (l & Il & I). eauto.
Qed.
Lemma agree_node n x : n = FDir None \/ agree (Some n) x -> n <> FDir None -> x = Some n.
Proof.
  intros [->|A] N; [congruence|]. destruct n as [[m|]|h c], x as [[m'|h' c']|]; cbn [agree] in A; try contradiction; try (now destruct N).
  - destruct A as [A|A]; congruence.
  - destruct A as [-> ->]. auto.
Qed.
Lemma node_of_some e : node_of e <> FDir None.
Proof. unfold node_of. destruct (is_dir e); discriminate. Qed.
Theorem squash_last_wins n sort order l1 f1 e f2 l2 : let layers := l1 ++ (f1 ++ e :: f2) :: l2 in
  sorts sort -> permutes order -> plain_stack layers -> is_marker e = false ->
  (forall e', In e' f2 -> is_marker e' = false -> ~ overrides e' (entry_path e) (is_dir e)) ->
  (forall l e', In l l2 -> In e' l -> ~ overrides e' (entry_path e) (is_dir e)) ->
  exists out, squash (4 + n) sort order layers = Ret out /\
    (exists e', In e' out /\ entry_path e' = entry_path e /\ anon (fst e') = anon (fst e) /\ (is_dir e = false -> snd e' = snd e)) /\
    unpack empty_root [out] (entry_path e) = Some (node_of e).
Proof.
  intros layers HS HO P M H1 H2. pose proof (survives l1 f1 e f2 l2 empty_root M H1 H2) as SV. fold layers in SV.
  assert (R : real_path (entry_path e)).
  { destruct P as [G _]. rewrite Forall_forall in G. assert (Ge : good_entry e).
    { assert (I : In (f1 ++ e :: f2) layers) by (apply in_app_iff; right; now left). apply G in I. rewrite Forall_forall in I. apply I, in_app_iff. right. now left. }
    destruct Ge as [_ [R|(d & k & E & _ & _ & _ & K)]]; auto. exfalso. unfold is_marker in M. rewrite E, last_last in M.
    destruct K as [->|(x & -> & _)]; [discriminate|]. rewrite wh_marker in M. discriminate. }
  assert (B : blank empty_root) by (intros [|k q] N; [congruence|reflexivity]).
  destruct (load_plain n layers P) as (t & E & WT & WV & LF & _ & S & _).
  assert (BR : exists m, empty_root [] = Some (FDir m)) by (exists None; reflexivity).
  pose proof (S empty_root BR (or_introl B) _ R) as A. rewrite SV in A. apply (fun A => agree_node _ _ (or_intror A) (node_of_some e)) in A.
  exists (write_to sort order [] t). split; [unfold squash; cbn [plus]; rewrite E; reflexivity|]. split.
  - assert (V : exists h b, view_of t (entry_path e) = Some (Some h, b) /\ anon h = anon (fst e) /\ (is_dir e = false -> b = snd e)).
    { unfold interp in A. destruct (view_of t (entry_path e)) as [[[h|] b]|] eqn:V.
      - exists h, b. split; auto. unfold node_of in A. destruct (byte_eqb (th_type h) TypeDir); destruct (is_dir e); try discriminate; split; congruence.
      - exfalso. unfold node_of in A. destruct (is_dir e); [|discriminate]. unfold visible in A. destruct (shadow _ _ _); [discriminate|].
        destruct (entry_path e); discriminate.
      - exfalso. unfold visible in A. destruct (shadow _ _ _); [discriminate|]. unfold node_of in A. destruct (entry_path e); [|discriminate]. destruct (is_dir e); discriminate. }
    destruct V as (h & b & V & Ah & Ab). assert (H : headed (view_of t) (entry_path e) = true) by (unfold headed; now rewrite V).
    exists (mk (view_of t) (entry_path e)). split; [|split; [|split]].
    + rewrite write_mk. apply in_map, headed_walk_in; eauto.
    + now apply mk_path.
    + rewrite (mk_some _ _ _ _ V). exact Ah.
    + rewrite (mk_some _ _ _ _ V). exact Ab.
  - pose proof (write_exact _ _ t WT WV LF sort order HS HO empty_root BR _ R) as X. unfold SquashMain.out in X. rewrite <- X. exact A.
Qed.
(** *** what a marker hides *)
Lemma marked fs w p : good_entry w -> real_path p -> marks w p -> unpack_entry fs w p = None.
Proof.
  intros G R [(d & x & H & A)|(d & H & A)]; unfold unpack_entry; unfold hides in H; rewrite H, removelast_last, last_last.
  - change (marker_name ($".wh." ++ x)) with (marker_name (wh_prefix ++ x)). rewrite wh_marker. destruct (str_eqb _ _) eqn:E.
    + exfalso. apply str_eqb_eq in E. symmetry in E. apply opq_wh in E. apply aob_spec in A as [r ->]. apply real_app in R as [R _]. apply real_not_marker in R. congruence.
    + unfold remove. change (skipn 4 ($".wh." ++ x)) with x. now rewrite A.
  - replace (marker_name _) with true by reflexivity. rewrite str_eqb_refl. unfold remove_below. now rewrite A.
Qed.
Lemma stays_out fs e p : fs p = None -> at_or_below p (entry_path e) = false -> unpack_entry fs e p = None.
Proof.
  intros E A. unfold unpack_entry. set (p' := entry_path e) in *.
  assert (M : mkdirs fs (removelast p') p = None).
  { unfold mkdirs. rewrite E. destruct (at_or_below p (removelast p')) eqn:B; auto. exfalso. destruct p' as [|c0 p0] using rev_ind.
    - cbn [removelast] in B. congruence.
    - rewrite removelast_last in B. rewrite (aob_trans p p0 (p0 ++ [c0])) in A; [discriminate|auto|apply aob_app]. }
  destruct (marker_name _); [destruct (str_eqb _ _)|destruct (is_dir e)].
  - unfold remove_below. now destruct (below _ p).
  - unfold remove. now destruct (at_or_below _ p).
  - unfold put_node. destruct (path_dec p p') as [->|]; auto. rewrite aob_refl in A. discriminate.
  - unfold put_node. destruct (path_dec p p') as [->|]; [rewrite aob_refl in A; discriminate|]. unfold remove_below. now destruct (below _ p).
Qed.
Lemma stays_out_all es : forall fs p, fs p = None -> (forall e, In e es -> at_or_below p (entry_path e) = false) -> fold_left unpack_entry es fs p = None.
Proof.
  induction es as [|e es IH]; intros fs p E H; auto. cbn [fold_left]. apply IH; [|intros e' I; apply H; now right]. apply stays_out; auto. apply H. now left.
Qed.
Theorem squash_hides n sort order l1 l w l2 p base : let layers := l1 ++ l :: l2 in
  sorts sort -> permutes order -> plain_stack layers -> In w l -> marks w p -> real_path p ->
  (forall l' e, In l' (l :: l2) -> In e l' -> at_or_below p (entry_path e) = false) ->
  (exists m, base [] = Some (FDir m)) -> blank base \/ history not_hidden (all_entries layers) ->
  exists out, squash (4 + n) sort order layers = Ret out /\ unpack base [out] p = None.
Proof.
  intros layers HS HO P I M R H BR B. destruct (squash_preserves n sort order layers HS HO P) as (out & E & S). exists out. split; auto.
  destruct (S base BR B p R) as [A _]. assert (N : unpack base layers p = None).
  { rewrite unpack_all. unfold layers, all_entries. rewrite flat_map_app. cbn [flat_map]. rewrite !fold_left_app.
    assert (J : In w (in_order l)).
    { unfold in_order. apply in_app_iff. destruct (is_marker w) eqn:Mw; [left|right]; apply filter_In; rewrite Mw; auto. }
    apply in_split in J as (a & b & J). rewrite J, fold_left_app. cbn [fold_left].
    assert (G : good_entry w).
    { destruct P as [G _]. rewrite Forall_forall in G. assert (Il : In l layers) by (apply in_app_iff; right; now left). apply G in Il. rewrite Forall_forall in Il. auto. }
    apply stays_out_all.
    - apply stays_out_all; [now apply marked|]. intros e Ie. apply (H l); [now left|].
      assert (K : In e (in_order l)) by (rewrite J; apply in_app_iff; right; now right). unfold in_order in K. apply in_app_iff in K as [K|K]; now apply filter_In in K.
    - intros e Ie. apply in_all in Ie as (l' & Il & Ie). apply (H l'); auto. now right. }
  rewrite N in A. destruct (unpack base [out] p); [destruct A|auto].
Qed.
