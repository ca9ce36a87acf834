(** Laying a layer over an image. *)
From Coq Require Import String Ascii List Bool ZArith Sorted Permutation Lia.
From Verif.Model Require Import GoStr GoPath Tar Squash VfsFS.
From Verif.Spec Require Import PathSpec SimpleAPISpec SquashSpec VfsFSSpec OverlaySpec.
From Verif.Proofs Require Import Order GoStrFacts GoPathFacts SquashTree SquashLoad SquashSim SquashStack SquashFinal SquashMore SquashSources SquashBack SquashCheck LookPathFacts VfsImage.
Import ListNotations.
Local Open Scope nat_scope.
Local Arguments byte_eqb : simpl never.
Local Arguments str_eqb : simpl never.

Definition dirify (n : option fnode) : option fnode := Some (FDir (match n with Some (FDir m) => m | _ => None end)).
Lemma below_removelast q p : q <> p -> at_or_below q (removelast p) = below q p.
Proof.
  intros N. destruct p as [|k d] using rev_ind.
  - cbn [removelast]. destruct q; [congruence|reflexivity].
  - rewrite removelast_last. destruct (at_or_below q d) eqn:A, (below q (d ++ [k])) eqn:B; auto.
    + apply (below_snoc q d k) in A. congruence.
    + apply (below_snoc q d k) in B. congruence.
Qed.
Lemma step_at fs e q : is_marker e = false -> unpack_entry fs e q =
  if path_dec q (entry_path e) then Some (node_of e)
  else if negb (is_dir e) && below (entry_path e) q then None
  else if below q (entry_path e) then dirify (fs q) else fs q.
Proof.
  intros M. unfold is_marker in M. unfold unpack_entry. rewrite M. set (p := entry_path e). unfold node_of.
  assert (K : q <> p -> mkdirs fs (removelast p) q = if below q p then dirify (fs q) else fs q).
  { intros N. unfold mkdirs. rewrite below_removelast by auto. destruct (below q p); auto. destruct (fs q) as [[m|h c]|]; reflexivity. }
  destruct (is_dir e); unfold put_node; destruct (path_dec q p) as [->|N]; auto; cbn [negb andb].
  unfold remove_below. destruct (below p q); auto.
Qed.
Lemma below_trans a b c : below a b = true -> below b c = true -> below a c = true.
Proof.
  intros H1 H2. apply below_spec in H1 as (k & r & ->). apply below_spec in H2 as (k' & r' & ->). apply below_spec. exists k, (r ++ k' :: r'). now rewrite <- app_assoc.
Qed.
Lemma tree_real l e : tree_layer l -> In e l -> is_marker e = false.
Proof.
  intros (F & _) I. rewrite Forall_forall in F. destruct (F e I) as [_ [_ M]]. unfold is_marker. destruct (entry_path e) as [|k p] using rev_ind; [reflexivity|].
  rewrite last_last. apply Forall_app in M as [_ M]. now inversion M.
Qed.
Lemma tree_in_order l : tree_layer l -> in_order l = l.
Proof. intros T. apply in_order_none. apply Forall_forall. intros e. now apply tree_real. Qed.
Lemma tree_tail e l : tree_layer (e :: l) -> tree_layer l.
Proof.
  intros (F & N & D). inversion F; inversion N; subst. split; auto. split; auto. intros e1 e2 I1 I2. apply D; now right.
Qed.
Lemma overlay_entries l : forall fs p, tree_layer l -> laid_over l fs p (fold_left unpack_entry l fs p).
Proof.
  induction l as [|e l IH]; intros fs p T; cbn [fold_left].
  - apply lo_rest; cbn; tauto.
  - pose proof T as (F & N & D). assert (M : is_marker e = false) by (eapply tree_real; eauto; now left).
    pose proof (tree_tail e l T) as T'. specialize (IH (unpack_entry fs e) p T'). remember (fold_left unpack_entry l (unpack_entry fs e) p) as x eqn:X. clear X.
    inversion N as [|? ? N1 _]; subst. cbn [map].
    destruct IH as [e' I E|e' NI I DI B|e' NI I B|NI ND NB].
    + apply lo_entry with (e := e'); auto. now right.
    + apply lo_gone with (e := e'); auto; [|now right]. intros [<-|X]; auto. rewrite (D e' e) in DI; auto; [discriminate|now right|now left].
    + rewrite step_at by auto. destruct (path_dec p (entry_path e)) as [->|Np].
      * assert (DE : is_dir e = true) by (apply (D e e'); auto; [now left|now right]). unfold node_of. rewrite DE.
        replace (FDir (Some (anon (fst e)))) with (node_of e) by (unfold node_of; now rewrite DE). apply lo_entry with (e := e); auto. now left.
      * assert (NE : ~ In p (entry_path e :: map entry_path l)) by (intros [Z|Z]; auto).
        destruct (negb (is_dir e) && below (entry_path e) p) eqn:G.
        { exfalso. apply andb_true_iff in G as [G1 G2]. apply negb_true_iff in G1. rewrite (D e e') in G1; [discriminate|now left|now right|]. eapply below_trans; eauto. }
        destruct (below p (entry_path e)) eqn:B'.
        -- cbn [dirify]. apply lo_above with (e := e); auto. now left.
        -- apply lo_above with (e := e'); auto. now right.
    + rewrite step_at by auto. destruct (path_dec p (entry_path e)) as [->|Np]; [apply lo_entry; auto; now left|].
      assert (NE : ~ In p (entry_path e :: map entry_path l)) by (intros [Z|Z]; auto).
      destruct (negb (is_dir e) && below (entry_path e) p) eqn:G.
      { apply andb_true_iff in G as [G1 G2]. apply negb_true_iff in G1. apply lo_gone with (e := e); auto. now left. }
      destruct (below p (entry_path e)) eqn:B; [apply lo_above with (e := e); auto; now left|].
      apply lo_rest; auto.
      * intros e' [<-|I] B'; auto. rewrite B', andb_true_r in G. now apply negb_false_iff in G.
      * intros e' [<-|I]; auto.
Qed.
Theorem overlay base fs l : tree_layer l -> forall p, laid_over l (unpack fs base) p (unpack fs (base ++ [l]) p).
Proof.
  intros T p. unfold unpack. rewrite fold_left_app. cbn [fold_left]. unfold unpack_layer at 2. rewrite tree_in_order by auto. now apply overlay_entries.
Qed.
(** The relation is a function. *)
Lemma nodup_path l e e' : NoDup (map entry_path l) -> In e l -> In e' l -> entry_path e = entry_path e' -> e = e'.
Proof.
  induction l as [|x l IH]; intros N I I' E; [destruct I|]. cbn [map] in N. inversion N as [|? ? N1 N2]; subst.
  destruct I as [->|I], I' as [->|I']; auto; exfalso; apply N1; [rewrite E|rewrite <- E]; now apply in_map.
Qed.
Theorem laid_over_fun l fs p x y : tree_layer l -> laid_over l fs p x -> laid_over l fs p y -> x = y.
Proof.
  intros (F & N & D) [e I E|e NI I DI B|e NI I B|NI ND NB] [e' I' E'|e' NI' I' DI' B'|e' NI' I' B'|NI' ND' NB']; auto;
    try (exfalso; first [apply NI|apply NI']; rewrite in_map_iff; eauto; fail).
  - f_equal. f_equal. apply (nodup_path l); auto. congruence.
  - exfalso. rewrite (D e e') in DI; auto; [discriminate|eapply below_trans; eauto].
  - exfalso. rewrite (ND' e) in DI; auto. discriminate.
  - exfalso. rewrite (D e' e) in DI'; auto; [discriminate|eapply below_trans; eauto].
  - exfalso. rewrite NB' in B; auto. discriminate.
  - exfalso. rewrite (ND e') in DI'; auto. discriminate.
  - exfalso. rewrite NB in B'; auto. discriminate.
Qed.
(** *** the stack stays plain *)
Lemma tree_good l : tree_layer l -> Forall good_entry l.
Proof. intros (F & _). eapply Forall_impl; [|exact F]. intros e [A R]. split; auto. Qed.
Lemma tree_prefix l1 l2 : tree_layer (l1 ++ l2) -> tree_layer l1.
Proof.
  intros (F & N & D). split; [now apply Forall_app in F|]. split; [|intros e e' I I'; apply D; apply in_app_iff; auto].
  rewrite map_app in N. revert N. generalize (map entry_path l1) (map entry_path l2). intros a b. induction a as [|x a IH]; intros N; constructor; inversion N; subst; auto. intros I. apply H1. apply in_app_iff. auto.
Qed.
Theorem plain_over base l : plain_stack base -> tree_layer l -> past_links (unpack empty_root base) l -> plain_stack (base ++ [l]).
Proof.
  intros [G H] T PL. split; [apply Forall_app; split; auto; constructor; auto; now apply tree_good|].
  unfold all_entries. rewrite flat_map_app. cbn [flat_map]. rewrite app_nil_r, tree_in_order by auto. fold (all_entries base).
  intros es1 e es2 E q B (h & c & U & S).
  assert (X : (exists r, all_entries base = es1 ++ e :: r) \/ exists l1, es1 = all_entries base ++ l1 /\ l = l1 ++ e :: es2).
  { revert E. generalize (all_entries base). clear. intros a. revert es1. induction a as [|x a IH]; intros es1 E; cbn [app] in *.
    - right. exists es1. auto.
    - destruct es1 as [|y es1]; cbn [app] in *; injection E as <- E; [left; eauto|]. destruct (IH es1 E) as [[r ->]|(l1 & -> & ->)]; [left; eauto|right; eauto]. }
  destruct X as [[r X]|(l1 & -> & ->)].
  - apply (H es1 e r X q B). exists h, c. auto.
  - unfold unpacked in U. rewrite fold_left_app in U. fold (unpacked (all_entries base)) in U. rewrite <- unpack_empty in U.
    pose proof (tree_prefix _ _ T) as T1. destruct T as (_ & _ & D).
    pose proof (overlay_entries l1 (unpack empty_root base) q T1) as O. rewrite U in O.
    assert (Ie : In e (l1 ++ e :: es2)) by (apply in_app_iff; right; now left).
    inversion O as [e' I E' X|e' NI I DI B'|e' NI I B' X|NI ND NB X]; try discriminate; subst.
    + unfold node_of in X. rewrite (D e' e) in X; auto; [discriminate|apply in_app_iff; auto].
    + apply NI. apply (PL l1 e es2 q eq_refl B). exists h, c. auto.
Qed.
Theorem squash_over n sort order base l : sorts sort -> permutes order -> plain_stack base -> tree_layer l -> past_links (unpack empty_root base) l ->
  exists out, squash (4 + n) sort order (base ++ [l]) = Ret out /\
    forall p, real_path p -> exists x, laid_over l (unpack empty_root base) p x /\ agree x (unpack empty_root [out] p).
Proof.
  intros HS HO P T PL. destruct (squash_preserves n sort order (base ++ [l]) HS HO (plain_over base l P T PL)) as (out & E & H). exists out. split; auto.
  intros p R. exists (unpack empty_root (base ++ [l]) p). split; [now apply overlay|]. apply H; auto; [exists None; reflexivity|left; exact empty_blank].
Qed.
(** *** opening the entries *)
Lemma over_entry base fs l e : tree_layer l -> In e l -> unpack fs (base ++ [l]) (entry_path e) = Some (node_of e).
Proof. intros T I. eapply laid_over_fun; [exact T|now apply overlay|]. now apply lo_entry. Qed.
Lemma over_above base fs l e q : tree_layer l -> In e l -> below q (entry_path e) = true -> exists m, unpack fs (base ++ [l]) q = Some (FDir m).
Proof.
  intros T I B. destruct (in_dec path_dec q (map entry_path l)) as [Q|Q].
  - apply in_map_iff in Q as (e' & <- & I'). rewrite over_entry by auto. destruct T as (_ & _ & D). unfold node_of. rewrite (D e' e) by auto. eauto.
  - eexists. eapply laid_over_fun; [exact T|now apply overlay|]. now apply lo_above with (e := e).
Qed.
Lemma over_walks base fs l e : tree_layer l -> In e l -> walks (unpack fs (base ++ [l])) [] (entry_path e) (entry_path e).
Proof.
  intros T I. apply (direct_walk _ (entry_path e) []).
  - destruct T as (F & _). rewrite Forall_forall in F. apply F; auto.
  - intros r1 x r2 E. cbn [app]. apply over_above with (e := e); auto. rewrite E. apply below_app.
  - cbn [app]. rewrite over_entry by auto. discriminate.
Qed.
Lemma over_ends base fs l e : tree_layer l -> In e l -> is_link e = false -> ends (unpack fs (base ++ [l])) (entry_path e) (entry_path e).
Proof.
  intros T I L. pose proof (over_entry base fs l e T I) as E. unfold node_of in E. destruct (is_dir e); [eapply ends_dir; eauto|]. eapply ends_file; eauto.
  cbn. intros X. unfold is_link in L. rewrite X in L. discriminate.
Qed.
Section image.
  Context (base : list (list entry)) (l : list entry) (P : plain_stack base) (T : tree_layer l) (PL : past_links (unpack empty_root base) l).
  Context (NR : Forall (Forall (fun e => ~ links_to_root e)) (base ++ [l])).
  Theorem over_read e sort order utf8 : (forall l, Permutation (order l) l) -> In e l -> is_dir e = false -> is_link e = false ->
    (th_size (fst e) <= Z.of_nat (length (snd e)))%Z -> utf8 (open_name (entry_path e)) = true ->
    exists N t f, (forall n, N <= n -> load_layers n false (base ++ [l]) = Ret t /\ open_file utf8 n order t (open_name (entry_path e)) = Ret f) /\
      forall programs c, reachable sort f programs c -> reads_file (snd e) false (c_log c).
  Proof.
    intros HO I D L SZ U. apply (image_file (base ++ [l]) (plain_over base l P T PL) NR sort order HO utf8 (entry_path e) (entry_path e) (entry_path e) (anon (fst e)) (snd e)); auto.
    - destruct T as (F & _). rewrite Forall_forall in F. apply F; auto.
    - now apply over_walks.
    - now apply over_ends.
    - rewrite over_entry by auto. unfold node_of. now rewrite D.
  Qed.
  Theorem over_stat e utf8 : In e l -> is_link e = false -> utf8 (open_name (entry_path e)) = true ->
    exists N t, forall n, N <= n -> load_layers n false (base ++ [l]) = Ret t /\
      open utf8 n t (open_name (entry_path e)) = Ret (entry_path e, entry_path e) /\
      stat_tells (Some (node_of e)) (entry_path e) (stat t (entry_path e) (entry_path e)).
  Proof.
    intros I L U. rewrite <- (over_entry base empty_root l e T I). apply image_open; auto.
    - now apply plain_over.
    - destruct T as (F & _). rewrite Forall_forall in F. apply F; auto.
    - now apply over_walks.
    - now apply over_ends.
  Qed.
End image.
(** *** for the examples *)
Fixpoint nodupb (l : list path) : bool := match l with [] => true | p :: l => (if in_dec path_dec p l then false else true) && nodupb l end.
Lemma nodupb_ok l : nodupb l = true -> NoDup l.
Proof. induction l as [|p l IH]; cbn [nodupb]; intros H; constructor; apply andb_true_iff in H as [H1 H2]; auto. now destruct (in_dec path_dec p l). Qed.
Definition tree_layerb (l : list entry) : bool :=
  forallb (fun e => negb (is_abs (th_name (fst e))) && real_pathb (entry_path e)) l &&
  (nodupb (map entry_path l)) &&
  forallb (fun e => forallb (fun e' => negb (below (entry_path e) (entry_path e')) || is_dir e) l) l.
Lemma tree_layerb_ok l : tree_layerb l = true -> tree_layer l.
Proof.
  unfold tree_layerb. rewrite !andb_true_iff. intros [[A B] C]. split; [|split].
  - apply Forall_forall. intros e I. rewrite forallb_forall in A. apply A in I. apply andb_true_iff in I as [I J]. split; [now apply negb_true_iff|now apply real_pathb_ok].
  - now apply nodupb_ok.
  - intros e e' I I' H. rewrite forallb_forall in C. specialize (C e I). rewrite forallb_forall in C. specialize (C e' I'). now rewrite H in C.
Qed.
Fixpoint past_linksb_from (fs : fsys) (seen : list path) (l : list entry) : bool :=
  match l with
  | [] => true
  | e :: l => forallb (fun n => let q := firstn n (entry_path e) in
      match fs q with Some (FFile h _) => negb (byte_eqb (th_type h) TypeSymlink) || (if in_dec path_dec q seen then true else false) | _ => true end)
      (seq 0 (length (entry_path e))) && past_linksb_from fs (entry_path e :: seen) l
  end.
Lemma past_linksb_ok fs l : past_linksb_from fs [] l = true -> past_links fs l.
Proof.
  assert (X : forall l seen, past_linksb_from fs seen l = true -> forall l1 e l2 q, l = l1 ++ e :: l2 -> below q (entry_path e) = true -> is_symlink_at fs q -> In q (map entry_path l1) \/ In q seen).
  { clear l. induction l as [|x l IH]; intros seen H l1 e l2 q E B S; [destruct l1; discriminate|]. cbn [past_linksb_from] in H. apply andb_true_iff in H as [H1 H2].
    destruct l1 as [|y l1]; cbn [app] in E; injection E as -> E.
    - right. apply below_spec in B as (k & r & B). rewrite forallb_forall in H1. specialize (H1 (length q)). cbv zeta in H1. rewrite B, firstn_app, firstn_all, Nat.sub_diag, firstn_O, app_nil_r in H1.
      destruct S as (h & c & S & T). rewrite S, T in H1. rewrite app_length in H1. cbn [length] in H1. destruct (in_dec path_dec q seen); auto. cbn in H1. assert (false = true) by (apply H1; apply in_seq; lia). discriminate.
    - destruct (IH _ H2 l1 e l2 q E B S) as [I|[<-|I]]; cbn [map In]; auto. }
  intros H l1 e l2 q E B S. destruct (X l [] H l1 e l2 q E B S) as [I|[]]; auto.
Qed.
