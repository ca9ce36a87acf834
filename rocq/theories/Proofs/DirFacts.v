(** Layers from directories. *)
From Coq Require Import String Ascii List Bool ZArith Lia Sorted Permutation.
From Verif.Model Require Import GoStr GoPath Tar Layer Dir.
From Verif.Spec Require Import PathSpec SimpleAPISpec LayerSpec DirSpec.
From Verif.Proofs Require Import Order GoStrFacts GoPathFacts LayerFacts.
Import ListNotations.
Local Open Scope nat_scope.
Local Arguments byte_eqb : simpl never.
Local Arguments str_eqb : simpl never.
Local Arguments clean : simpl never.
Local Arguments path_dir : simpl never.

(** *** the request for an owner changes nothing *)
Lemma write_file_entry encodable chown h c : write_file encodable chown h c = write_entry encodable h c.
Proof. unfold write_file, write_entry. destruct chown; reflexivity. Qed.
Lemma visit_chown encodable px chown c steps : forall log, visit encodable px chown c log steps = visit encodable px None c log steps.
Proof.
  induction steps as [|[|[|x p] i] steps IH]; intros log; cbn [visit]; auto. destruct (dir_header _ _ _ _); auto. rewrite !write_file_entry. destruct (write_entry _ _ _); auto. now rewrite IH.
Qed.
Theorem chown_no_effect encodable n sort root px chown c :
  layer_from_dir encodable n sort root px chown c = layer_from_dir encodable n sort root px None c.
Proof. unfold layer_from_dir. now rewrite visit_chown. Qed.

(** *** the directories of the prefix *)
Lemma last_slash_some s : forall a b, last_slash s = Some (a, b) -> s = a ++ b /\ a <> [].
Proof.
  induction s as [|c s IH]; intros a b H; cbn [last_slash] in H; [discriminate|]. destruct (last_slash s) as [[a' b']|].
  - injection H as <- <-. destruct (IH a' b' eq_refl) as [-> _]. split; [reflexivity|discriminate].
  - destruct (byte_eqb c slash); [|discriminate]. injection H as <- <-. split; [reflexivity|discriminate].
Qed.
Lemma last_slash_no s : last_slash s = None -> ~ In slash s.
Proof.
  induction s as [|c s IH]; intros H; cbn [last_slash] in H; [auto|]. destruct (last_slash s) as [[a' b']|]; [discriminate|].
  destruct (byte_eqb c slash) eqn:E; [discriminate|]. intros [->|I]; [rewrite byte_eqb_refl in E; discriminate|now apply IH].
Qed.
Lemma is_abs_in s : is_abs s = true -> In slash s.
Proof. destruct s as [|c s]; [discriminate|]. intros H. left. unfold is_abs in H. cbn [has_prefix] in H. apply andb_true_iff in H as [H _]. now apply byte_eqb_eq in H. Qed.
Lemma split_fst_abs s : is_abs (fst (path_split s)) = is_abs s.
Proof.
  unfold path_split. destruct (last_slash s) as [[a b]|] eqn:E; cbn [fst].
  - apply last_slash_some in E as [-> N]. now rewrite is_abs_app.
  - apply last_slash_no in E. destruct (is_abs s) eqn:A; auto. now apply is_abs_in in A.
Qed.
Lemma dir_abs s : is_abs (path_dir s) = is_abs s.
Proof. unfold path_dir. now rewrite is_abs_clean, split_fst_abs. Qed.
Lemma abs_not_dot s : is_abs s = true -> str_eqb s dot = false.
Proof. intros H. apply str_eqb_neq. intros ->. discriminate. Qed.
Theorem prefix_abs n : forall name, is_abs name = true -> prefix_dirs n name = None.
Proof. induction n as [|n IH]; intros name A; cbn [prefix_dirs]; rewrite (abs_not_dot _ A); auto. rewrite IH; auto. now rewrite dir_abs. Qed.
Lemma clean_list_init r l c : clean_list r (l ++ [c]) -> clean_list r l.
Proof.
  intros (n & ps & E & P & R). destruct ps as [|p ps] using rev_ind.
  - rewrite app_nil_r in E. destruct n as [|n]; [now apply app_eq_nil in E as [_ X]|]. replace (repeat dotdot (S n)) with (repeat dotdot n ++ [dotdot]) in E.
    + apply app_inj_tail in E as [-> _]. exists n, []. rewrite app_nil_r. repeat split; auto. intros X. specialize (R X). discriminate.
    + clear. induction n; auto. cbn [repeat app] in *. now rewrite IHn.
  - rewrite app_assoc in E. apply app_inj_tail in E as [-> _]. exists n, ps. repeat split; auto. apply Forall_app in P. tauto.
Qed.
Lemma dir_text l c : clean_list false (l ++ [c]) -> path_dir (path_text false (l ++ [c])) = path_text false l.
Proof.
  intros C. pose proof (clean_list_init _ _ _ C) as C'. pose proof (clean_list_no_slash _ _ C) as NS. apply Forall_app in NS as [_ NS]. inversion NS as [|? ? Nc _]; subst.
  unfold path_text, path_dir. destruct l as [|x l].
  - cbn [app join]. rewrite path_split_none by auto. reflexivity.
  - destruct ((x :: l) ++ [c]) eqn:E; [discriminate|]. rewrite <- E, join_app1 by discriminate. rewrite path_split_app by auto. cbn [fst]. rewrite clean_text.
    assert (J : join $"/" (x :: l) <> []). { pose proof (clean_list_ne _ _ C') as NE. inversion NE; subst. destruct x; [congruence|]. rewrite join_ne_nil. discriminate. }
    rewrite is_abs_app by auto. rewrite (join_head_not_slash _ _ C'). change ($"/") with ($"/" ++ @nil ascii) at 2. rewrite clean_comps_app by auto. cbn [split_on fold_left]. rewrite fold_skip, rev_involutive.
    rewrite clean_comps_rel by (auto; discriminate). reflexivity.
Qed.
Lemma text_dot l : clean_list false l -> str_eqb (path_text false l) dot = true -> l = [].
Proof. intros C E. apply str_eqb_eq in E. rewrite <- (clean_comps_text false l C), E. reflexivity. Qed.
Lemma nonempty_prefixes_snoc {A} (l : list A) x : nonempty_prefixes (l ++ [x]) = nonempty_prefixes l ++ [l ++ [x]].
Proof. induction l as [|y l IH]; auto. cbn [app nonempty_prefixes]. rewrite IH, map_app. reflexivity. Qed.
Lemma prefix_dirs_text l : forall n, clean_list false l -> length l <= n -> prefix_dirs n (path_text false l) = Some (rev (map (path_text false) (nonempty_prefixes l))).
Proof.
  induction l as [|c l IH] using rev_ind; intros n C L.
  - destruct n; reflexivity.
  - rewrite app_length in L. cbn [length] in L. destruct n as [|n]; [lia|]. cbn [prefix_dirs]. destruct (str_eqb _ dot) eqn:E.
    + apply text_dot in E; auto. now apply app_eq_nil in E as [_ X].
    + rewrite dir_text by auto. rewrite IH by (eauto using clean_list_init; lia). cbn [option_map]. rewrite nonempty_prefixes_snoc, map_app, rev_app_distr. reflexivity.
Qed.
Lemma split_on_length c s : length (split_on c s) <= S (length s).
Proof. induction s as [|x s IH]; cbn [split_on length]; auto. destruct (byte_eqb c x); cbn [length]; [lia|]. destruct (split_on c s); cbn [length] in *; lia. Qed.
Lemma clean_fold_length r l : forall st, length (fold_left (clean_step r) l st) <= length l + length st.
Proof.
  induction l as [|c l IH]; intros st; cbn [fold_left length]; [lia|]. etransitivity; [apply IH|]. enough (length (clean_step r st c) <= S (length st)) by lia.
  unfold clean_step. destruct (str_eqb c []); [lia|]. destruct (str_eqb c dot); [lia|]. destruct (str_eqb c dotdot); [|cbn [length]; lia].
  destruct st as [|t st]; [destruct r; cbn [length]; lia|]. destruct (str_eqb t dotdot); cbn [length]; lia.
Qed.
Theorem prefix_rel n name : is_abs name = false -> S (length name) < n -> prefix_dirs n name <> None.
Proof.
  intros A L. destruct n as [|n]; [lia|]. cbn [prefix_dirs]. destruct (str_eqb name dot); [discriminate|]. unfold path_dir. rewrite clean_text, split_fst_abs, A.
  pose proof (clean_comps_list (fst (path_split name))) as C. rewrite split_fst_abs, A in C. rewrite prefix_dirs_text; auto; [discriminate|].
  unfold clean_comps. rewrite rev_length. etransitivity; [apply clean_fold_length|]. cbn [length]. pose proof (split_on_length slash (fst (path_split name))) as S.
  assert (length (fst (path_split name)) <= length name); [|lia]. unfold path_split. destruct (last_slash name) as [[a b]|] eqn:E; cbn [fst length]; [|lia].
  apply last_slash_some in E as [-> _]. rewrite app_length. lia.
Qed.
Lemma write_prefix_ok encodable px c dirs : forall above, write_prefix encodable px c (map (path_text false) dirs) = inl above -> Forall2 (prefix_entry px c) dirs above.
Proof.
  induction dirs as [|d dirs IH]; intros above H; cbn [map write_prefix] in H; [injection H as <-; constructor|].
  unfold write_entry in H. destruct (negb _); [discriminate|]. change (byte_eqb (th_type (prefix_header px c (path_text false d))) TypeReg) with false in H.
  destruct (write_prefix _ _ _ _); [|discriminate]. injection H as <-. constructor; auto. unfold prefix_entry. cbn [fst snd]. unfold tar_written. cbn.
  repeat (split; [auto; fail|]). split; [apply round_nearest|]. now repeat split.
Qed.

(** *** the walk *)
Section dnode_ind.
  Context (P : dnode -> Prop) (Hb : P DBad) (Hf : forall i, P (DFile i)) (Hd : forall i r ch, (forall c d, In (c, d) ch -> P d) -> P (DDir i r ch)).
  Lemma dnode_ind' : forall d : dnode, P d.
  Proof.
    fix F 1. intros [|i|i r ch]; [exact Hb|apply Hf|]. apply Hd. induction ch as [|[k x] ch IH]; intros c d; [intros []|].
    intros [E|I]; [|now apply (IH c)]. injection E as _ <-. apply F.
  Qed.
End dnode_ind.
Section walks.
  Context (sort : (str * list wstep -> str * list wstep -> bool) -> list (str * list wstep) -> list (str * list wstep)) (HS : sorts sort).
  Lemma sorted_names l : NoDup (map fst l) -> StronglySorted (fun a b => str_compare (fst a) (fst b) = Lt) (sort walk_less l).
  Proof.
    intros N. destruct (HS walk_less l) as [P S].
    assert (T : forall a b : str, a <> b -> str_compare a b = Lt \/ str_compare b a = Lt).
    { intros a b D. destruct (str_compare a b) eqn:E; auto; [now apply str_compare_eq in E|]. right. now rewrite (ok_anti _ str_compare_ok), E. }
    assert (AS : forall a b : str, str_compare a b = Lt -> str_compare b a = Lt -> False).
    { intros a b H H'. rewrite (ok_anti _ str_compare_ok), H in H'. discriminate. }
    assert (SW : strict_weak walk_less l).
    { unfold walk_less. split.
      - intros a b _ _ H. apply str_ltb_lt in H. destruct (str_ltb (fst b) (fst a)) eqn:E; auto. apply str_ltb_lt in E. exfalso. eauto.
      - intros a b c _ _ _ H. rewrite !str_ltb_lt in *. destruct (list_eq_dec ascii_dec (fst a) (fst c)) as [X|X]; [right; now rewrite <- X|].
        destruct (T _ _ X); auto. right. eapply (Order.ok_lt _ str_compare_ok); eauto. }
    specialize (S SW). assert (N' : NoDup (map fst (sort walk_less l))) by (eapply Permutation_NoDup; [apply Permutation_map; symmetry; exact P|exact N]).
    clear SW P. revert N'. induction S as [|a l' S IH F]; intros N'; [constructor|]. cbn [map] in N'. inversion N'; subst. constructor; auto.
    apply Forall_forall. intros x Ix. rewrite Forall_forall in F. specialize (F x Ix). destruct (T (fst a) (fst x)) as [H|H]; auto.
    - intros X. apply H1. rewrite X. now apply in_map.
    - apply str_ltb_lt in H. unfold walk_less in F. congruence.
  Qed.
  Definition walks_to (p : list str) (d : dnode) (files : list (list str * dinfo)) : Prop :=
    walk sort p d = map (fun f => WFile (p ++ fst f) (snd f)) files /\ StronglySorted parts_before (map fst files) /\
    forall q i, In (q, i) files <-> info_at d q = Some i.
  Definition in_child (ch : list (str * dnode)) (q : list str) (i : dinfo) : Prop := exists c d q', q = c :: q' /\ In (c, d) ch /\ info_at d q' = Some i.
  Lemma walk_children p ch : StronglySorted (fun a b : str * dnode => str_compare (fst a) (fst b) = Lt) ch ->
    (forall c d, In (c, d) ch -> exists files, walks_to (p ++ [c]) d files) ->
    exists files, flat_map snd (map (fun kc => (fst kc, walk sort (p ++ [fst kc]) (snd kc))) ch) = map (fun f => WFile (p ++ fst f) (snd f)) files /\
    StronglySorted parts_before (map fst files) /\ (forall q i, In (q, i) files <-> in_child ch q i).
  Proof.
    induction 1 as [|[c d] ch S IH F]; intros W.
    - exists []. repeat split; [constructor|intros []|intros (? & ? & ? & _ & [] & _)].
    - destruct IH as (fs & E & SS & I). { intros c' d' I'. apply W. now right. }
      destruct (W c d) as (f1 & E1 & S1 & I1); [now left|]. exists (map (fun f => (c :: fst f, snd f)) f1 ++ fs). split; [|split].
      + cbn [map flat_map fst snd]. rewrite E, E1, map_app, map_map. f_equal. apply map_ext. intros f. cbn [fst snd]. now rewrite <- app_assoc.
      + rewrite map_app, map_map. cbn [fst].
        assert (A : forall q, In q (map fst fs) -> forall q0, parts_before (c :: q0) q).
        { intros q Iq q0. apply in_map_iff in Iq as ((q1 & i) & <- & If). apply I in If as (c' & d' & q' & -> & Ic & _). rewrite Forall_forall in F. specialize (F _ Ic). cbn [fst parts_before] in *. now left. }
        clear -S1 SS A. induction f1 as [|f f1 IH]; [exact SS|]. cbn [map app] in *. inversion S1 as [|? ? S1' F1]; subst. constructor; [now apply IH|].
        apply Forall_app. split.
        * apply Forall_forall. intros q Iq. apply in_map_iff in Iq as (g & <- & Ig). rewrite Forall_forall in F1. cbn [parts_before]. right. split; auto. apply F1. now apply in_map.
        * apply Forall_forall. intros q Iq. now apply A.
      + intros q i. rewrite in_app_iff, I. split.
        * intros [H|(c' & d' & q' & -> & Ic & X)]; [|exists c', d', q'; repeat split; auto; now right].
          apply in_map_iff in H as ((q' & i') & H & Hf). injection H as <- <-. exists c, d, q'. repeat split; [now left|]. now apply I1.
        * intros (c' & d' & q' & -> & [Ic|Ic] & X); [|right; exists c', d', q'; auto]. injection Ic as -> ->. left. apply in_map_iff. exists (q', i). split; auto. now apply I1.
  Qed.
  Lemma file_at_child i r ch c d p : NoDup (map fst ch) -> In (c, d) ch -> file_at (DDir i r ch) (c :: p) = file_at d p.
  Proof.
    cbn [file_at]. intros N I. induction ch as [|[k x] ch IH]; [destruct I|]. cbn [map fst] in N. inversion N; subst. destruct I as [I|I].
    - injection I as -> ->. now rewrite str_eqb_refl.
    - destruct (str_eqb k c) eqn:E; [|now apply IH]. apply str_eqb_eq in E as ->. exfalso. apply H1. apply in_map_iff. now exists (c, d).
  Qed.
  Lemma file_at_in i r ch c p x : file_at (DDir i r ch) (c :: p) = Some x -> exists d, In (c, d) ch.
  Proof.
    cbn [file_at]. induction ch as [|[k y] ch IH]; [discriminate|]. destruct (str_eqb k c) eqn:E.
    - apply str_eqb_eq in E as ->. intros _. exists y. now left.
    - intros H. destruct (IH H) as (d & I). exists d. now right.
  Qed.
  Lemma walk_ok d : disk_names d -> forall p, ~ In WErr (walk sort p d) -> exists files, walks_to p d files.
  Proof.
    induction d as [|i|i r ch IH] using dnode_ind'; intros N p NE.
    - cbn [walk] in NE. exfalso. apply NE. now left.
    - exists [([], i)]. split; [cbn [walk map fst snd]; now rewrite app_nil_r|]. split; [repeat constructor|]. intros q j. unfold info_at. destruct q as [|c q]; cbn [file_at info_of].
      + split; [intros [H|[]]; congruence|intros H; left; congruence].
      + split; [intros [H|[]]; discriminate|discriminate].
    - inversion N as [| |? ? ? Nd Pl Sub]; subst. cbn [walk] in NE |- *. destruct r; [|exfalso; apply NE; now left].
      set (f := fun kc : str * dnode => (fst kc, walk sort (p ++ [fst kc]) (snd kc))) in *.
      assert (Nm : NoDup (map fst (map f ch))) by (rewrite map_map; exact Nd).
      destruct (HS walk_less (map f ch)) as [P _]. pose proof (sorted_names _ Nm) as S.
      apply Permutation_map_inv in P as (ch' & E & P'). rewrite E in *.
      assert (S' : StronglySorted (fun a b : str * dnode => str_compare (fst a) (fst b) = Lt) ch').
      { clear -S. induction ch' as [|x l IHl]; [constructor|]. cbn [map] in S. inversion S as [|? ? S0 F0]; subst. constructor; [now apply IHl|]. rewrite Forall_map in F0. exact F0. }
      destruct (walk_children p ch' S') as (fs & E' & SS & I).
      { intros c d Ic. apply (IH c d); [eapply Permutation_in; [symmetry; exact P'|exact Ic]|apply (Sub c); eapply Permutation_in; [symmetry; exact P'|exact Ic]|].
        intros X. apply NE. right. apply in_flat_map. exists (f (c, d)). split; [now apply in_map|exact X]. }
      exists (([], i) :: fs). unfold walks_to. cbn [walk]. fold f. rewrite E. split; [|split].
      + cbn [map fst snd]. rewrite app_nil_r. f_equal. exact E'.
      + cbn [map fst]. constructor; auto. apply Forall_forall. intros q Iq. apply in_map_iff in Iq as ((q' & j) & <- & Iq). apply I in Iq as (c & d & q & -> & _). exact Logic.I.
      + intros q j. cbn [In]. destruct q as [|c q].
        * unfold info_at. cbn [file_at info_of]. split; [|intros H; left; congruence]. intros [H|H]; [congruence|]. apply I in H as (? & ? & ? & X & _). discriminate.
        * split.
          -- intros [H|H]; [discriminate|]. apply I in H as (c' & d & q' & X & Ic & H). injection X as <- <-. unfold info_at. rewrite (file_at_child _ _ _ c d); auto. eapply Permutation_in; [symmetry; exact P'|exact Ic].
          -- intros H. right. apply I. unfold info_at in H. destruct (file_at _ (c :: q)) as [x|] eqn:X; [|discriminate]. destruct (file_at_in _ _ _ _ _ _ X) as (d & Id).
             exists c, d, q. repeat split; [eapply Permutation_in; [exact P'|exact Id]|]. rewrite (file_at_child _ _ _ c d) in X by auto. unfold info_at. now rewrite X.
  Qed.
End walks.

(** *** the entries *)
Lemma visit_no_err encodable px chown c steps : forall log out, visit encodable px chown c log steps = LayerOk out -> ~ In WErr steps.
Proof.
  induction steps as [|[|[|x p] i] steps IH]; intros log out H; cbn [visit] in H; [auto|discriminate| |].
  - intros [X|X]; [discriminate|]. eapply IH; eauto.
  - destruct (dir_header _ _ _ _); [|discriminate]. destruct (write_file _ _ _ _); [|discriminate]. destruct (visit _ _ _ _ (log ++ _) steps) eqn:V; try discriminate.
    intros [X|X]; [discriminate|]. eapply IH; eauto.
Qed.
Lemma same_file_eq a b : same_file a b = true <-> a = b.
Proof. destruct a, b. unfold same_file. cbn [fst snd]. rewrite andb_true_iff, !Z.eqb_eq. intuition congruence. Qed.
Lemma inl_inj {A B} (a b : A) : @inl A B a = inl b -> a = b.
Proof. congruence. Qed.
Section entries.
  Context (encodable : header -> bool) (px : option prefix) (c : option Z) (l : list str) (PX : prefix_path px l).
  Definition log_of (before : list (list str * dinfo)) : list (str * (Z * Z)) := map (fun f => (join $"/" (l ++ fst f), di_id (snd f))) before.
  Lemma entry_name_ok p : plain_path p -> p <> [] -> entry_name px p = join $"/" (l ++ p).
  Proof.
    intros P N. unfold entry_name, prefix_path in *. destruct px as [x|]; [|now subst]. destruct PX as [E C].
    assert (A : is_abs (px_name x) = false) by (rewrite <- is_abs_clean, E; now apply is_abs_text).
    assert (K : clean_comps (px_name x) = l) by (rewrite <- clean_comps_clean, E; now apply clean_comps_text).
    assert (T : path_text false (l ++ p) = join $"/" (l ++ p)) by (unfold path_text; destruct (l ++ p) eqn:X; auto; now apply app_eq_nil in X as [_ X]).
    destruct (px_name x) as [|b s] eqn:Nm.
    - change (clean_comps []) with (@nil str) in K. subst l. cbn [app] in *. rewrite <- T. rewrite join_empty_l; [apply clean_of_text, plain_clean, P|].
      rewrite <- (clean_of_text false p) by (now apply plain_clean). apply clean_ne.
    - rewrite join_plain; auto; [|discriminate]. now rewrite A, K.
  Qed.
  Lemma logged_some id before n : logged id (log_of before) = Some n ->
    exists b1 q j b2, before = b1 ++ (q, j) :: b2 /\ di_id j = id /\ (forall x, In x b1 -> di_id (snd x) <> id) /\ n = join $"/" (l ++ q).
  Proof.
    unfold logged. induction before as [|[q j] before IH]; cbn [log_of map find fst snd]; [discriminate|]. destruct (same_file (di_id j) id) eqn:E.
    - cbn [option_map fst]. intros H. injection H as <-. apply same_file_eq in E. exists [], q, j, before. repeat split; auto.
    - intros H. destruct (IH H) as (b1 & q' & j' & b2 & -> & X & Y & Z). exists ((q, j) :: b1), q', j', b2. repeat split; auto.
      intros x [<-|Ix]; auto. cbn [snd]. intros K. apply same_file_eq in K. congruence.
  Qed.
  Lemma logged_none id before : logged id (log_of before) = None -> forall x, In x before -> di_id (snd x) <> id.
  Proof.
    unfold logged. induction before as [|[q j] before IH]; cbn [log_of map find fst snd]; [intros _ x []|]. destruct (same_file (di_id j) id) eqn:E; [discriminate|].
    intros H x [<-|Ix]; [|now apply IH]. cbn [snd]. intros K. apply same_file_eq in K. congruence.
  Qed.
  Lemma write_entry_ok h co e : write_entry encodable h co = inl e -> fst e = tar_written h /\
    (if byte_eqb (th_type h) TypeReg then co = Bytes (snd e) true /\ th_size h = Z.of_nat (length (snd e)) else snd e = []).
  Proof.
    unfold write_entry. destruct (negb _); [discriminate|]. destruct (byte_eqb (th_type h) TypeReg).
    - destruct co as [| |s cl]; try discriminate. destruct (_ <? _)%Z eqn:L1; [discriminate|]. destruct cl; [|discriminate]. cbn [negb].
      destruct (_ <? th_size h)%Z eqn:L2; [discriminate|]. apply Z.ltb_ge in L1, L2. intros H. injection H as <-. cbn [fst snd]. repeat split. lia.
    - intros H. injection H as <-. auto.
  Qed.
  Lemma written_meta h : same_metadata h (tar_written (clamp_header c h)) /\ th_name (tar_written (clamp_header c h)) = th_name h /\ th_type (tar_written (clamp_header c h)) = th_type h /\ th_link (tar_written (clamp_header c h)) = th_link h.
  Proof. unfold tar_written. destruct (_ =? 0)%Z; repeat split. Qed.
  Lemma one_entry before p i h e : plain_path p -> p <> [] -> dir_header c (log_of before) (entry_name px p) i = inl h ->
    write_entry encodable h (di_content i) = inl e -> file_entry l before p i e.
  Proof.
    intros P N D W. rewrite (entry_name_ok p P N) in D. unfold dir_header in D. destruct (di_header i) as [h0|] eqn:H0; [|discriminate].
    apply write_entry_ok in W as [W C]. destruct (logged (di_id i) (log_of before)) as [n|] eqn:L.
    - change (byte_eqb (th_type (with_link (with_name h0 (join $"/" (l ++ p))) TypeLink n)) TypeSymlink) with false in D. apply inl_inj in D; subst h.
      destruct (written_meta (with_link (with_name h0 (join $"/" (l ++ p))) TypeLink n)) as (M & Nm & T & K). rewrite <- W in M, Nm, T, K. split; [exact Nm|]. exists h0. split; [auto|]. split; [exact M|].
      left. apply logged_some in L as (b1 & q & j & b2 & -> & X & Y & ->). exists b1, q, j, b2. repeat split; auto.
    - pose proof (logged_none _ _ L) as L0. clear L. rename L0 into L. change (th_type (with_name h0 (join $"/" (l ++ p)))) with (th_type h0) in D. destruct (byte_eqb (th_type h0) TypeSymlink) eqn:Sy.
      + destruct (di_readlink i) as [t|] eqn:R; [|discriminate]. apply inl_inj in D; subst h. destruct (written_meta (with_link (with_name h0 (join $"/" (l ++ p))) (th_type h0) t)) as (M & Nm & T & K). rewrite <- W in M, Nm, T, K.
        split; [exact Nm|]. exists h0. split; [auto|]. split; [exact M|]. right. rewrite Sy. split; [exact L|]. split; [exact T|]. split; [rewrite K; exact R|exact C].
      + apply inl_inj in D; subst h. destruct (written_meta (with_name h0 (join $"/" (l ++ p)))) as (M & Nm & T & K). rewrite <- W in M, Nm, T, K.
        split; [exact Nm|]. exists h0. split; [auto|]. split; [exact M|]. right. rewrite Sy. split; [exact L|]. split; [exact T|]. split; [exact K|exact C].
  Qed.
  Lemma visit_files chown files : (forall p i, In (p, i) files -> plain_path p /\ p <> []) -> forall before out,
    visit encodable px chown c (log_of before) (map (fun f => WFile (fst f) (snd f)) files) = LayerOk out -> file_entries l before files out.
  Proof.
    induction files as [|[p i] files IH]; intros P before out H; cbn [map visit fst snd] in H; [injection H as <-; exact I|].
    destruct (P p i) as [Pp Np]; [now left|]. destruct p as [|x p]; [congruence|]. destruct (dir_header _ _ _ _) as [h|] eqn:D; [|discriminate].
    rewrite write_file_entry in H. destruct (write_entry _ _ _) as [e|] eqn:W; [|discriminate].
    replace (log_of before ++ [(entry_name px (x :: p), di_id i)]) with (log_of (before ++ [(x :: p, i)])) in H by (unfold log_of; rewrite map_app; cbn [map fst snd]; now rewrite (entry_name_ok (x :: p))).
    destruct (visit _ _ _ _ _ _) as [out'| |] eqn:V; try discriminate. injection H as <-. cbn [file_entries]. split; [eapply one_entry; eauto|].
    apply IH; auto. intros q j Iq. apply (P q j). now right.
  Qed.
  Lemma visit_times chown files : (forall p i, In (p, i) files -> p <> []) -> forall log out,
    visit encodable px chown c log (map (fun f => WFile (fst f) (snd f)) files) = LayerOk out ->
    Forall2 (fun f e => exists h, di_header (snd f) = Some h /\ clamped c h (fst e)) files out.
  Proof.
    induction files as [|[p i] files IH]; intros P log out H; cbn [map visit fst snd] in H; [injection H as <-; constructor|].
    assert (Np : p <> []) by (apply (P p i); now left). destruct p as [|x p]; [congruence|]. destruct (dir_header _ _ _ _) as [h|] eqn:D; [|discriminate].
    rewrite write_file_entry in H. destruct (write_entry _ _ _) as [e|] eqn:W; [|discriminate].
    destruct (visit _ _ _ _ _ _) as [out'| |] eqn:V; try discriminate. injection H as <-. constructor; [|eapply IH; [intros q j Iq; apply (P q j); now right|exact V]].
    unfold dir_header in D. destruct (di_header i) as [h0|] eqn:H0; [|discriminate]. exists h0. split; [exact H0|].
    apply write_entry_ok in W as [W _]. rewrite W.
    destruct (logged (di_id i) log) as [n|].
    - change (byte_eqb (th_type (with_link (with_name h0 (entry_name px (x :: p))) TypeLink n)) TypeSymlink) with false in D. apply inl_inj in D; subst h. now apply written_clamped.
    - destruct (byte_eqb _ TypeSymlink).
      + destruct (di_readlink i) as [t|]; [|discriminate]. apply inl_inj in D; subst h. now apply written_clamped.
      + apply inl_inj in D; subst h. now apply written_clamped.
  Qed.
End entries.
Lemma disk_plain d : disk_names d -> forall p i, info_at d p = Some i -> plain_path p.
Proof.
  induction d as [|i|i r ch IH] using dnode_ind'; intros N p j H; destruct p as [|c p]; try constructor; unfold info_at in H; try discriminate.
  - destruct (file_at _ (c :: p)) eqn:X; [|discriminate]. destruct (file_at_in _ _ _ _ _ _ X) as (x & Ix). inversion N as [| |? ? ? Nd Pl _]; subst. rewrite Forall_forall in Pl. apply Pl. apply in_map_iff. now exists (c, x).
  - destruct (file_at _ (c :: p)) eqn:X; [|discriminate]. destruct (file_at_in _ _ _ _ _ _ X) as (x & Ix). inversion N as [| |? ? ? Nd Pl Sub]; subst. rewrite (file_at_child _ _ _ c x) in X by auto.
    apply (IH c x Ix (Sub _ _ Ix) p j). unfold info_at. now rewrite X.
Qed.
Theorem dir_layer_times encodable n sort root px chown c l out : sorts sort -> disk_names root -> prefix_path px l ->
  layer_from_dir encodable n sort root px chown c = LayerOk out ->
  exists files above rest, listing root files /\ out = above ++ rest /\
  match px with None => above = [] | Some px => px_name px = path_text false l -> Forall2 (prefix_entry px c) (nonempty_prefixes l) above end /\
  file_entries l [] files rest /\ Forall2 (fun f e => exists h, di_header (snd f) = Some h /\ clamped c h (fst e)) files rest.
Proof.
  intros HS DN PX H. unfold layer_from_dir in H. destruct (match px with None => Some [] | Some px => prefix_dirs n (px_name px) end) as [dirs|] eqn:PD; [|discriminate].
  destruct (match px with None => inl [] | Some px => write_prefix encodable px c (rev dirs) end) as [above|] eqn:WP; [|discriminate].
  destruct (visit encodable px chown c [] (walk sort [] root)) as [rest| |] eqn:V; try discriminate. injection H as <-.
  destruct (walk_ok sort HS root DN [] (visit_no_err _ _ _ _ _ _ _ V)) as (all & E & S & I).
  assert (R : exists i files, all = ([], i) :: files).
  { destruct all as [|[p i] files].
    - exfalso. destruct root as [|i|i r ch]; [| |]; cbn [walk map] in E; [discriminate|discriminate|]. destruct r; discriminate.
    - exists i, files. f_equal. f_equal. destruct p as [|x p]; auto. exfalso. destruct root as [|j|j r ch]; cbn [walk map] in E; [discriminate|discriminate|destruct r; discriminate]. }
  destruct R as (i & files & ->). cbn [map fst snd] in E, S. inversion S as [|? ? S' F]; subst.
  assert (Np : forall p j, In (p, j) files -> p <> []).
  { intros p j Ip ->. rewrite Forall_forall in F. specialize (F [] (in_map fst _ _ Ip)). exact F. }
  exists files, above, rest. split; [|split; [reflexivity|split; [|split]]].
  - split; auto. intros p j. split.
    + intros Ip. split; [eauto|]. apply I. now right.
    + intros [N Ip]. apply I in Ip as [X|X]; auto. congruence.
  - destruct px as [x|]; [|congruence]. destruct PX as [_ C]. intros Nm.
    rewrite Nm in PD. assert (PD' : dirs = rev (map (path_text false) (nonempty_prefixes l))).
    { clear -PD C. revert n dirs PD C. induction l as [|y l IH] using rev_ind; intros n dirs PD C.
      - destruct n; injection PD as <-; reflexivity.
      - destruct n as [|n]; cbn [prefix_dirs] in PD; destruct (str_eqb _ dot) eqn:D; try (apply text_dot in D; auto; now apply app_eq_nil in D as [_ D]); [discriminate|].
        rewrite dir_text in PD by auto. destruct (prefix_dirs n (path_text false l)) as [ds|] eqn:E; [|discriminate]. cbn [option_map] in PD. injection PD as <-.
        rewrite (IH n ds E) by eauto using clean_list_init. now rewrite nonempty_prefixes_snoc, map_app, rev_app_distr. }
    subst dirs. rewrite rev_involutive in WP. now apply write_prefix_ok in WP.
  - rewrite E in V. cbn [visit app] in V. apply (visit_files encodable px c l PX chown) with (before := []); auto.
    intros p j Ip. split; [|eauto]. eapply (disk_plain root DN). apply I. right. exact Ip.
  - rewrite E in V. cbn [visit app] in V. eapply visit_times; [|exact V]. exact Np.
Qed.

Theorem dir_layer encodable n sort root px chown c l out : sorts sort -> disk_names root -> prefix_path px l ->
  layer_from_dir encodable n sort root px chown c = LayerOk out ->
  exists files above rest, listing root files /\ out = above ++ rest /\
  match px with None => above = [] | Some px => px_name px = path_text false l -> Forall2 (prefix_entry px c) (nonempty_prefixes l) above end /\
  file_entries l [] files rest.
Proof. intros HS DN PX H. destruct (dir_layer_times _ _ _ _ _ _ _ _ _ HS DN PX H) as (f & a & r & L & E & P & F & _). eauto 10. Qed.

(** *** consequences *)
Theorem dir_returns encodable n sort root px chown c : is_abs (px_name px) = false -> S (length (px_name px)) < n ->
  layer_from_dir encodable n sort root (Some px) chown c <> LayerFuel.
Proof.
  intros A L. unfold layer_from_dir. destruct (prefix_dirs n (px_name px)) as [dirs|] eqn:P; [|now apply prefix_rel in P].
  destruct (write_prefix _ _ _ _); [|discriminate]. enough (forall steps log, visit encodable (Some px) chown c log steps <> LayerFuel).
  { specialize (H (walk sort [] root) []). destruct (visit _ _ _ _ _ _); congruence. }
  clear. induction steps as [|[|[|x p] i] steps IH]; intros log; cbn [visit]; try discriminate; auto.
  destruct (dir_header _ _ _ _); [|discriminate]. destruct (write_file _ _ _ _); [|discriminate]. specialize (IH (log ++ [(entry_name (Some px) (x :: p), di_id i)])).
  destruct (visit _ _ _ _ _ steps); congruence.
Qed.
Theorem dir_absolute encodable n sort root px chown c : is_abs (px_name px) = true -> layer_from_dir encodable n sort root (Some px) chown c = LayerFuel.
Proof. intros A. unfold layer_from_dir. now rewrite prefix_abs. Qed.
Lemma entries_names l files : forall before out, file_entries l before files out -> map (fun e => th_name (fst e)) out = map (fun f => join $"/" (l ++ fst f)) files.
Proof.
  induction files as [|[p i] files IH]; intros before [|e out]; cbn [file_entries]; try tauto. intros [(N & _) F]. cbn [map fst]. now rewrite N, (IH _ _ F).
Qed.
Theorem dir_files encodable n sort root px chown c l out : sorts sort -> disk_names root -> prefix_path px l ->
  layer_from_dir encodable n sort root px chown c = LayerOk out ->
  exists files above rest, listing root files /\ out = above ++ rest /\ file_entries l [] files rest.
Proof. intros HS DN PX H. destruct (dir_layer _ _ _ _ _ _ _ _ _ HS DN PX H) as (f & a & r & L & E & _ & F). eauto 10. Qed.
Theorem dir_paths encodable n sort root px chown c l out : sorts sort -> disk_names root -> prefix_path px l ->
  layer_from_dir encodable n sort root px chown c = LayerOk out ->
  exists paths above rest, out = above ++ rest /\
  map (fun e => th_name (fst e)) rest = map (fun p => join $"/" (l ++ p)) paths /\
  StronglySorted parts_before paths /\ forall p, In p paths <-> p <> [] /\ exists i, info_at root p = Some i.
Proof.
  intros HS DN PX H. destruct (dir_layer _ _ _ _ _ _ _ _ _ HS DN PX H) as (f & a & r & [S I] & E & _ & F). exists (map fst f), a, r. split; auto. split; [|split; auto].
  - rewrite map_map. eapply entries_names, F.
  - intros p. rewrite in_map_iff. split.
    + intros ((q & i) & <- & Iq). apply I in Iq as [N X]. eauto.
    + intros (N & i & X). exists (p, i). split; auto. now apply I.
Qed.
Theorem dir_prefix encodable n sort root px chown c l out : sorts sort -> disk_names root -> clean_list false l -> px_name px = path_text false l ->
  layer_from_dir encodable n sort root (Some px) chown c = LayerOk out ->
  exists above rest, out = above ++ rest /\ Forall2 (prefix_entry px c) (nonempty_prefixes l) above /\
  Forall (fun e => exists p, p <> [] /\ th_name (fst e) = join $"/" (l ++ p)) rest.
Proof.
  intros HS DN C Nm H. assert (PX : prefix_path (Some px) l) by (split; [rewrite Nm; now apply clean_of_text|auto]).
  destruct (dir_layer _ _ _ _ _ _ _ _ _ HS DN PX H) as (f & a & r & [S I] & E & P & F). exists a, r. split; auto. split; auto.
  apply entries_names in F. apply Forall_forall. intros e Ie. apply (in_map (fun e => th_name (fst e))) in Ie. rewrite F in Ie. apply in_map_iff in Ie as ((p & i) & X & Ip).
  exists p. split; auto. now apply I in Ip as [Ip _].
Qed.
Theorem dir_unclean encodable sort root owner chown c out :
  (layer_from_dir encodable 5 sort root (Some (mkPrefix $"a/" 0 owner)) chown c = LayerOk out ->
   exists rest, map (fun e => th_name (fst e)) out = $"a" :: $"a/" :: rest) /\
  (layer_from_dir encodable 5 sort root (Some (mkPrefix [] 0 owner)) chown c = LayerOk out ->
   exists rest, map (fun e => th_name (fst e)) out = [] :: rest).
Proof.
  unfold layer_from_dir. change (prefix_dirs 5 (px_name (mkPrefix $"a/" 0 owner))) with (Some [$"a/"; $"a"]). change (prefix_dirs 5 (px_name (mkPrefix [] 0 owner))) with (Some [@nil ascii]).
  cbn [rev app write_prefix write_entry]. unfold write_entry.
  split; intros H; repeat (destruct (encodable (prefix_header _ c _)); cbn [negb] in H; try discriminate);
  change (byte_eqb (th_type (prefix_header _ c _)) TypeReg) with false in H; cbn iota in H; destruct (visit _ _ _ _ _ _); try discriminate; injection H as <-; eexists; reflexivity.
Qed.
Lemma walk_no_err sort d : sorts sort -> disk_names d -> forall p, ~ In WErr (walk sort p d) ->
  forall q, file_at d q <> Some DBad /\ forall i ch, file_at d q <> Some (DDir i false ch).
Proof.
  intros HS. induction d as [|i|i r ch IH] using dnode_ind'; intros N p NE q.
  - exfalso. apply NE. now left.
  - destruct q; cbn [file_at]; split; discriminate.
  - cbn [walk] in NE. destruct r; [|exfalso; apply NE; now left]. destruct q as [|c q]; [split; discriminate|]. inversion N as [| |? ? ? Nd Pl Sub]; subst.
    assert (K : forall x, file_at (DDir i true ch) (c :: q) = Some x -> exists d, In (c, d) ch /\ file_at d q = Some x).
    { intros x X. destruct (file_at_in _ _ _ _ _ _ X) as (d & Id). rewrite (file_at_child _ _ _ c d) in X by auto. eauto. }
    assert (W : forall d, In (c, d) ch -> ~ In WErr (walk sort (p ++ [c]) d)).
    { intros d Id X. apply NE. right. apply in_flat_map. exists (c, walk sort (p ++ [c]) d). split; [|exact X].
      eapply Permutation_in; [symmetry; apply HS|]. apply in_map_iff. exists (c, d). auto. }
    split; [intros X|intros j ch' X]; apply K in X as (d & Id & X); destruct (IH c d Id (Sub _ _ Id) _ (W d Id) q) as [A B]; [now apply A|now apply B in X].
Qed.
Theorem dir_errors encodable n sort root px chown c (l : list str) out p : sorts sort -> disk_names root -> prefix_path px l ->
  layer_from_dir encodable n sort root px chown c = LayerOk out ->
  file_at root p <> Some DBad /\ forall i ch, file_at root p <> Some (DDir i false ch).
Proof.
  intros HS DN _ H. unfold layer_from_dir in H. destruct (match px with None => Some [] | Some px => prefix_dirs n (px_name px) end) as [dirs|] eqn:PD; [|discriminate].
  destruct (match px with None => inl [] | Some px => write_prefix encodable px c (rev dirs) end) as [above|] eqn:WP; [|discriminate].
  destruct (visit encodable px chown c [] (walk sort [] root)) as [rest| |] eqn:V; try discriminate. eapply walk_no_err; eauto using visit_no_err.
Qed.
Lemma walk_fine sort d : sorts sort -> disk_names d -> forall p, (forall q x, file_at d q = Some x -> without_errors x) ->
  Forall (fun s => match s with WErr => False | WFile _ i => fine i end) (walk sort p d).
Proof.
  intros HS. induction d as [|i|i r ch IH] using dnode_ind'; intros N p W.
  - now specialize (W [] _ eq_refl).
  - repeat constructor. exact (W [] _ eq_refl).
  - destruct (W [] _ eq_refl) as [Fi ->]. cbn [walk]. constructor; auto. apply Forall_forall. intros s Is. apply in_flat_map in Is as ((k & st) & Ik & Is).
    eapply Permutation_in in Ik; [|apply HS]. apply in_map_iff in Ik as ((c & d) & E & Ic). injection E as <- <-. cbn [fst snd] in Is. inversion N as [| |? ? ? Nd Pl Sub]; subst.
    assert (F : Forall (fun s => match s with WErr => False | WFile _ i => fine i end) (walk sort (p ++ [c]) d)).
    { apply (IH c); eauto. intros q x X. apply (W (c :: q)). now rewrite (file_at_child _ _ _ c d). }
    rewrite Forall_forall in F. now apply F.
Qed.
Theorem dir_succeeds n sort root px chown c : sorts sort -> disk_names root -> (forall p d, file_at root p = Some d -> without_errors d) ->
  match px with None => True | Some px => is_abs (px_name px) = false /\ S (length (px_name px)) < n end ->
  exists out, layer_from_dir (fun _ => true) n sort root px chown c = LayerOk out.
Proof.
  intros HS DN W PX. assert (V : exists out, visit (fun _ => true) px chown c [] (walk sort [] root) = LayerOk out).
  { pose proof (walk_fine sort root HS DN [] W) as F. revert F. generalize (walk sort [] root) (@nil (str * (Z * Z))). intros steps log F. revert log.
    induction F as [|s steps Fs F IH]; intros log; [eexists; reflexivity|]. destruct s as [|p i]; [destruct Fs|]. destruct p as [|x p]; cbn [visit]; [apply IH|].
    destruct Fs as (h & Hh & Sy & Re). set (nm := entry_name px (x :: p)). destruct (IH (log ++ [(nm, di_id i)])) as (out & V). unfold dir_header. rewrite Hh.
    assert (K : forall h', (th_type h' = th_type h /\ th_size h' = th_size h \/ th_type h' = TypeLink) -> exists e, write_file (fun _ => true) chown h' (di_content i) = inl e).
    { intros h' T. rewrite write_file_entry. unfold write_entry. cbn [negb]. destruct (byte_eqb (th_type h') TypeReg) eqn:R; [|eexists; reflexivity]. apply byte_eqb_eq in R.
      destruct T as [[T Sz]|T]; [|rewrite T in R; discriminate]. destruct Re as (b & -> & Sb); [congruence|]. rewrite Sz, Sb, Z.ltb_irrefl. eexists; reflexivity. }
    destruct (logged (di_id i) log) as [first|].
    - change (byte_eqb (th_type (with_link (with_name h nm) TypeLink first)) TypeSymlink) with false. cbn iota. destruct (K (clamp_header c (with_link (with_name h nm) TypeLink first))) as (e & ->); [now right|]. rewrite V. eexists; reflexivity.
    - change (th_type (with_name h nm)) with (th_type h). destruct (byte_eqb (th_type h) TypeSymlink) eqn:T.
      + apply byte_eqb_eq in T. specialize (Sy T). destruct (di_readlink i) as [t|]; [|congruence]. destruct (K (clamp_header c (with_link (with_name h nm) (th_type h) t))) as (e & ->); [now left|]. rewrite V. eexists; reflexivity.
      + destruct (K (clamp_header c (with_name h nm))) as (e & ->); [now left|]. rewrite V. eexists; reflexivity. }
  destruct V as (out & V). unfold layer_from_dir. rewrite V. destruct px as [x|]; [|eexists; reflexivity]. destruct PX as [A L].
  destruct (prefix_dirs n (px_name x)) as [dirs|] eqn:P; [|now apply prefix_rel in P].
  assert (K : exists above, write_prefix (fun _ => true) x c (rev dirs) = inl above).
  { clear. generalize (rev dirs). induction l as [|d l (above & IH)]; [eexists; reflexivity|]. cbn [write_prefix]. unfold write_entry. cbn [negb]. change (byte_eqb (th_type (prefix_header x c d)) TypeReg) with false. cbn iota. rewrite IH. eexists; reflexivity. }
  destruct K as (above & ->). eexists; reflexivity.
Qed.
(** A check for the example. *)
Fixpoint all_fine (d : dnode) : Prop :=
  match d with
  | DBad => False
  | DFile i => fine i
  | DDir i r ch => (fine i /\ r = true) /\ (fix all (l : list (str * dnode)) : Prop := match l with [] => True | (_, x) :: l' => all_fine x /\ all l' end) ch
  end.
Lemma no_errors_check d : all_fine d -> forall p x, file_at d p = Some x -> without_errors x.
Proof.
  induction d as [|i|i r ch IH] using dnode_ind'; intros A p x H.
  - destruct A.
  - destruct p; [|discriminate]. injection H as <-. exact A.
  - destruct p as [|c p]; [injection H as <-; exact (proj1 A)|]. destruct A as [_ A]. cbn [file_at] in H. induction ch as [|[k y] ch IHc]; [discriminate|]. destruct A as [Ay A]. destruct (str_eqb k c).
    + eapply (IH k y); eauto. now left.
    + apply IHc; auto. intros c' d' I'. apply (IH c' d'). now right.
Qed.
