(** Images whose layers are written through links: what Load, Open and Read give. *)
From Coq Require Import String Ascii List Bool ZArith Lia Permutation Sorted.
From Verif.Model Require Import GoStr GoPath Tar Squash VfsFS.
From Verif.Spec Require Import PathSpec SquashSpec SimpleAPISpec VfsFSSpec OverlaySpec.
From Verif.Proofs Require Import Order GoStrFacts SquashTree SquashLoad SquashSim SquashStack SquashWf SquashInv SquashFinal SquashMore SquashBack SquashLinks SquashCheck SquashHard SquashCreate VfsFSFacts VfsImage OverlayFacts OverlayThrough.
Import ListNotations.
Local Open Scope nat_scope.

(** *** trees that differ in the names of headers only *)
Lemma open_strip utf8 n t u name : strip t = strip u -> open utf8 n t name = open utf8 n u name.
Proof.
  intros E. unfold open. destruct (valid_path utf8 name); [|reflexivity]. cbn [negb].
  pose proof (proj2 (proj2 (get_strip n)) t [] name false false) as A. pose proof (proj2 (proj2 (get_strip n)) u [] name false false) as B. rewrite E, <- B in A.
  destruct (fs_get n t [] name false false) as [[t1 p]| |], (fs_get n u [] name false false) as [[u1 q]| |]; cbn [rmap bind] in *; try congruence.
  unfold smap in A. cbn [fst snd] in A. injection A as A ->.
  pose proof (proj1 (get_strip n) t1 q dot false true) as A'. pose proof (proj1 (get_strip n) u1 q dot false true) as B'. rewrite A, <- B' in A'.
  destruct (get n t1 q dot false true) as [[t2 p']| |], (get n u1 q dot false true) as [[u2 q']| |]; cbn [rmap bind] in *; try congruence.
  unfold smap in A'. cbn [fst snd] in A'. now injection A' as _ ->.
Qed.
Lemma header_same t u p : strip t = strip u -> option_map anon (header_at t p) = option_map anon (header_at u p).
Proof. intros E. now rewrite <- !header_strip, E. Qed.
Lemma body_same t u p : strip t = strip u -> option_map t_body (subtree t p) = option_map t_body (subtree u p).
Proof.
  intros E. pose proof (subtree_strip p t) as A. rewrite E, subtree_strip in A. destruct (subtree t p) as [x|], (subtree u p) as [y|]; cbn [option_map] in *; try congruence.
  injection A as A. now rewrite <- strip_body, <- A, strip_body.
Qed.
Lemma keys_same t u p : strip t = strip u -> keys_at t p = keys_at u p.
Proof.
  intros E. unfold keys_at. pose proof (subtree_strip p t) as A. rewrite E, subtree_strip in A. destruct (subtree t p) as [x|], (subtree u p) as [y|]; cbn [option_map] in *; try congruence.
  injection A as A. assert (X : forall z, map fst (t_children z) = map fst (t_children (strip z))).
  { intros z. rewrite strip_children. unfold schild. rewrite map_map. reflexivity. }
  now rewrite X, (X y), A.
Qed.

Theorem load_links layers layers' : Forall (Forall in_root) layers -> plain_stack layers' ->
  all_at_target empty_root (all_entries layers) (all_entries layers') ->
  exists N t t', strip t = strip t' /\ forall n, N <= n -> load_layers n false layers = Ret t /\ load_layers n false layers' = Ret t'.
Proof.
  intros I P A. pose proof P as [G NL]. destruct (load_at_target (all_entries layers) (all_entries layers') [] empty_tree empty_root) as [N H]; auto.
  - apply Forall_forall. intros e Ie. apply in_all in Ie as (l & Il & Ie). rewrite Forall_forall in I. specialize (I l Il). rewrite Forall_forall in I. now apply I in Ie.
  - now apply good_all.
  - apply remembers_empty.
  - apply leafy_empty.
  - intros [|k p] E; [split; constructor|now destruct E].
  - intros p R. rewrite interp_empty. destruct p; [now left|exact Logic.I].
  - destruct (load_image layers' P) as (t' & L & _).
    assert (X : rmap strip (load_layers (4 + N) false layers) = rmap strip (load_layers (4 + N) false layers')).
    { unfold load_layers. rewrite !load_layers_entries; [apply H; lia| |exact I]. eapply Forall_impl; [|exact G]. intros l. apply Forall_impl, good_inside. }
    rewrite (L (4 + N)) in X by lia. destruct (load_layers (4 + N) false layers) as [t| |] eqn:E; try discriminate X. cbn [rmap] in X. injection X as X.
    exists (4 + N), t, t'. split; [exact X|]. intros n LE. split; [|apply L; lia]. eapply more_fuel_load; [exact E|discriminate|exact LE].
Qed.
Section through.
  Context (layers layers' : list (list entry)) (I : Forall (Forall in_root) layers) (P : plain_stack layers')
    (A : all_at_target empty_root (all_entries layers) (all_entries layers')).
  (** Open gives the same in both images. *)
  Theorem open_same : exists N t t', (forall n, N <= n -> load_layers n false layers = Ret t /\ load_layers n false layers' = Ret t') /\
    forall utf8 n name, open utf8 n t name = open utf8 n t' name.
  Proof. destruct (load_links layers layers' I P A) as (N & t & t' & E & H). exists N, t, t'. split; [exact H|]. intros. now apply open_strip. Qed.
  Context (NR : Forall (Forall (fun e => ~ links_to_root e)) layers').
  Notation fs := (unpack empty_root layers').
  Theorem through_file sort order utf8 p q e h c : (forall l, Permutation (order l) l) -> plain_path p -> utf8 (open_name p) = true -> walks fs [] p q -> ends fs q e ->
    fs e = Some (FFile h c) -> (th_size h <= Z.of_nat (length c))%Z ->
    exists N t f, (forall n, N <= n -> load_layers n false layers = Ret t /\ open_file utf8 n order t (open_name p) = Ret f) /\
      forall programs c', reachable sort f programs c' -> reads_file c false (c_log c').
  Proof.
    intros HO PP U W R E SZ. destruct (load_image layers' P) as (t' & L & AG & WT & WV & LF & NK).
    destruct (load_links layers layers' I P A) as (N1 & t & t2 & S & H).
    assert (t2 = t') as ->. { destruct (H (4 + N1) ltac:(lia)) as [_ H2]. rewrite L in H2 by lia. congruence. }
    destruct (open_found layers' P NR t' AG utf8 p q e PP U W R) as [N HN]. destruct (file_handle layers' P t' AG LF (fun l => l) e h c E (fun l => Permutation_refl l)) as (h' & Ah & T & HH).
    assert (K0 : keys_at t' e = []).
    { destruct (keys_at t' e) as [|k ks] eqn:K; auto. assert (Ik : In k (keys_at t' e)) by (rewrite K; now left). apply keys_view in Ik.
      rewrite (LF e k) in Ik; [congruence|]. specialize (HH 0). unfold handle_at in HH. destruct (build _ _ _ _ _) in HH; try discriminate. cbn [bind] in HH. injection HH as HH _ _.
      rewrite <- header_view, HH. cbn [non_dir]. apply negb_true_iff. destruct (byte_eqb (th_type h') TypeDir) eqn:D; auto. apply byte_eqb_eq in D. congruence. }
    assert (HD : header_at t' e = Some h' /\ (match subtree t' e with Some s => t_body s | None => [] end) = c).
    { specialize (HH 0). unfold handle_at in HH. rewrite K0 in HH. cbn [build bind] in HH. now injection HH as -> ->. }
    destruct HD as [HD HB]. pose proof (header_same t t' e S) as HS. rewrite HD in HS. cbn [option_map] in HS. destruct (header_at t e) as [h2|] eqn:H2; [|discriminate]. cbn [option_map] in HS. assert (HS' : anon h2 = anon h') by congruence. clear HS.
    pose proof (body_same t t' e S) as BS.
    exists (N1 + N), t, (mkHandle (Some h2) c ([], None)). split.
    - intros n LE. split; [apply H; lia|]. unfold open_file. rewrite (open_strip utf8 n t t' _ S), HN by lia. cbn [bind]. unfold handle_at. rewrite (keys_same t t' e S), K0.
      replace (order []) with (@nil str) by (symmetry; apply Permutation_nil, Permutation_sym, HO). cbn [build bind]. rewrite H2. do 2 f_equal.
      rewrite <- HB. destruct (subtree t e), (subtree t' e); cbn [option_map] in BS; congruence.
    - intros programs c' RR. assert (TY : th_type h2 = th_type h') by (change (th_type (anon h2) = th_type (anon h')); now rewrite HS').
      assert (SS : th_size h2 = th_size h) by (rewrite <- Ah; change (th_size (anon h2) = th_size (anon h')); now rewrite HS').
      apply (reads_file_any sort _ programs c' h2 RR); cbn [hd_header hd_body]; [reflexivity|congruence|now rewrite SS].
  Qed.
End through.
Section over.
  Context (base : list (list entry)) (l l' : list entry) (P : plain_stack base) (I : Forall in_root l) (T : tree_layer l')
    (A : all_at_target (unpack empty_root base) l l') (PL : past_links (unpack empty_root base) l').
  Lemma over_in_root : Forall (Forall in_root) (base ++ [l]).
  Proof. destruct P as [G _]. apply Forall_app. split; [|constructor; auto]. eapply Forall_impl; [|exact G]. intros m. apply Forall_impl. intros e E. now apply good_inside in E. Qed.
  Lemma over_at_target : all_at_target empty_root (all_entries (base ++ [l])) (all_entries (base ++ [l'])).
  Proof.
    rewrite !all_over. pose proof (tree_in_order l' T) as O. rewrite O, (aat_in_order _ _ _ A O). apply SquashBack.aat_join.
    - apply SquashBack.aat_same, good_all. exact (proj1 P).
    - rewrite unpack_empty in A. exact A.
  Qed.
  Context (NR : Forall (Forall (fun e => ~ links_to_root e)) (base ++ [l'])).
  Notation fs := (unpack empty_root (base ++ [l'])).
  Theorem over_through_reads e p q : In e l' -> is_dir e = false -> is_link e = false -> (th_size (fst e) <= Z.of_nat (length (snd e)))%Z ->
    plain_path p -> walks fs [] p q -> ends fs q (entry_path e) -> reads_back (base ++ [l]) (open_name p) (snd e).
  Proof.
    intros Ie D L SZ PP W E sort order utf8 HO U.
    apply (through_file (base ++ [l]) (base ++ [l']) over_in_root (plain_over base l' P T PL) over_at_target NR sort order utf8 p q (entry_path e) (anon (fst e)) (snd e)); auto.
    rewrite (over_entry base empty_root l' e T Ie). unfold node_of. now rewrite D.
  Qed.
  Theorem over_through_place e : In e l' -> is_dir e = false -> is_link e = false -> (th_size (fst e) <= Z.of_nat (length (snd e)))%Z ->
    reads_back (base ++ [l]) (open_name (entry_path e)) (snd e).
  Proof.
    intros Ie D L SZ. apply (over_through_reads e (entry_path e) (entry_path e)); auto.
    - destruct T as (F & _). rewrite Forall_forall in F. apply F; auto.
    - now apply over_walks.
    - now apply over_ends.
  Qed.
End over.

(** *** examples *)
Lemma bin_follows fs : fs [] = Some (FDir None) -> fs [$"usr"] = Some (FDir (Some (anon (fst (a_dir []))))) ->
  fs [$"usr"; $"bin"] = Some (FDir (Some (anon (fst (a_dir []))))) -> fs [$"bin"] = Some (FFile (anon (fst (a_symlink [] $"usr/bin"))) []) ->
  follows fs [$"bin"] [$"usr"; $"bin"].
Proof.
  intros E0 E1 E2 E3. eapply follows_link with (q := [$"usr"; $"bin"]); [exact E3|reflexivity| |eapply follows_dir, E2].
  change (clean_comps _) with [$"usr"; $"bin"]. cbn. eapply walks_down with (d' := [$"usr"]); [exact E0|apply pc; reflexivity|eapply follows_dir, E1|discriminate|].
  apply (walks_last fs [$"usr"] (Some (anon (fst (a_dir []))))); [exact E1|apply pc; reflexivity|]. change (fs [$"usr"; $"bin"] <> None). rewrite E2. discriminate.
Qed.
Lemma bin_walks : let l := [a_file $"bin/run" $"x"; a_file $"opt" $"y"] in let l' := [a_file $"usr/bin/run" $"x"; a_file $"opt" $"y"] in
  Forall (Forall (fun e => ~ links_to_root e)) (a_base ++ [l']) /\
  walks (unpack empty_root (a_base ++ [l'])) [] [$"bin"; $"run"] [$"usr"; $"bin"; $"run"] /\
  ends (unpack empty_root (a_base ++ [l'])) [$"usr"; $"bin"; $"run"] (entry_path (a_file $"usr/bin/run" $"x")).
Proof.
  intros l l'. split; [apply no_rootb_ok; vm_compute; reflexivity|]. split.
  - eapply walks_down with (d' := [$"usr"; $"bin"]); [vm_compute; reflexivity|apply pc; reflexivity|apply bin_follows; vm_compute; reflexivity|discriminate|].
    eapply (walks_last _ [$"usr"; $"bin"]); [vm_compute; reflexivity|apply pc; reflexivity|vm_compute; discriminate].
  - eapply ends_file; [vm_compute; reflexivity|vm_compute; discriminate].
Qed.
Lemma init_walks : walks (unpack empty_root merged_usr_real) [] [$"sbin"; $"init"] [$"usr"; $"bin"; $"init"] /\
  ends (unpack empty_root merged_usr_real) [$"usr"; $"bin"; $"init"] [$"usr"; $"bin"; $"init"].
Proof.
  split.
  - eapply walks_down with (d' := [$"usr"; $"bin"]); [vm_compute; reflexivity|apply pc; reflexivity| |discriminate|].
    + eapply follows_link with (q := [$"bin"]); [vm_compute; reflexivity|reflexivity| |apply bin_follows; vm_compute; reflexivity].
      apply (walks_last _ [] None $"bin"); [vm_compute; reflexivity|apply pc; reflexivity|vm_compute; discriminate].
    + eapply (walks_last _ [$"usr"; $"bin"]); [vm_compute; reflexivity|apply pc; reflexivity|vm_compute; discriminate].
  - eapply ends_file; [vm_compute; reflexivity|vm_compute; discriminate].
Qed.
Lemma merged_in_root : Forall (Forall in_root) merged_usr.
Proof.
  unfold merged_usr. repeat match goal with |- Forall in_root [] => constructor | |- Forall in_root (_ :: _) => constructor | |- Forall (Forall _) _ => constructor end;
    (split; [reflexivity|]); apply Forall_forall; intros x H; apply pc;
    match type of H with In x ?l => let l' := eval vm_compute in l in change (In x l') in H end; cbn [In] in H;
    repeat (destruct H as [<-|H]; [vm_compute; reflexivity|]); destruct H.
Qed.
