(** Installing a wheel. *)
From Coq Require Import String Ascii List Bool NArith ZArith Lia Permutation.
From Verif.Model Require Import GoStr GoPath Tar Stat Layer ConfigParser Platform WheelFile Wheel.
From Verif.Spec Require Import PathSpec SimpleAPISpec LayerSpec DirSpec WheelSpec.
From Verif.Proofs Require Import Order GoStrFacts GoPathFacts DirFacts LayerFacts ConfigFacts WheelPaths WheelSpread.
Import ListNotations.
Local Open Scope nat_scope.

Local Arguments str_eqb : simpl never.
Local Arguments byte_eqb : simpl never.
Local Arguments clean_comps : simpl never.
Local Arguments has_prefix : simpl never.
Local Arguments has_suffix : simpl never.
Local Arguments path_join : simpl never.

(** ** The two directories *)
Lemma top_inner f : inner (z_name (zf_header f)) -> exists c cs, clean_comps (z_name (zf_header f)) = c :: cs /\ top_dir f = c /\ plain_comp c.
Proof.
  intros H. unfold top_dir. rewrite clean_inner by auto. destruct H as (A & N & P).
  destruct (clean_comps (z_name (zf_header f))) as [|c cs]; [congruence|]. exists c, cs. split; auto.
  assert (PC : plain_comp c) by (now inversion P). split; auto. rewrite (split_on_join slash); [reflexivity|discriminate|].
  eapply Forall_impl; [|exact P]. intros ? X. apply X.
Qed.
Lemma info_in wh info : dist_info_dir wh = Some info -> has_suffix $".dist-info" info = true /\ exists f, In f wh /\ top_dir f = info.
Proof.
  unfold dist_info_dir. destruct (filter _ _) as [|d ds] eqn:F; [discriminate|]. destruct (forallb _ _); [|discriminate]. intros [= ->].
  assert (I : In info (filter (has_suffix $".dist-info") (map top_dir wh))) by (rewrite F; now left).
  apply filter_In in I as [I H]. split; auto. apply in_map_iff in I as (f & E & I). eauto.
Qed.
Lemma info_plain wh info : inner_names wh -> dist_info_dir wh = Some info -> plain_comp info /\ plain_comp (data_name info).
Proof.
  intros N H. apply info_in in H as (S & f & I & E). unfold inner_names in N. rewrite Forall_forall in N.
  destruct (top_inner f (N f I)) as (c & cs & _ & T & P). rewrite E in T. subst c. split; auto.
  unfold data_name. apply has_suffix_spec in S as (t & ->).
  assert (X : trim_suffix $".dist-info" (t ++ $".dist-info") = t) by apply trim_suffix_app. rewrite X.
  destruct P as (_ & NS & _). assert (NT : ~ In slash t) by (intros ?; apply NS; apply in_or_app; auto).
  split; [destruct t; discriminate|]. split; [intros J; apply in_app_or in J as [J|J]; auto; cbn in J; intuition discriminate|].
  assert (L : 5 <= length (t ++ $".data")) by (rewrite app_length; cbn; lia).
  split; intros E'; rewrite E' in L; cbn in L; lia.
Qed.
Lemma data_dir_text root info : inner root -> plain_comp (data_name info) -> data_dir root info = join $"/" (clean_comps root ++ [data_name info]).
Proof.
  intros R P. unfold data_dir. fold (data_name info). destruct (inner_comp _ P) as [I C]. rewrite join_inner by auto. now rewrite C.
Qed.
Lemma root_dir_in o s info wh root : root_dir o s info wh = Some root -> root = s_purelib s \/ root = s_platlib s.
Proof.
  unfold root_dir. destruct (wh_open _ _); try discriminate. destruct (o_wheel o s0) as [[v p]|]; [|discriminate].
  destruct (Pep440.parse_version v); [|discriminate]. destruct (1 <? _)%Z; [discriminate|]. intros [= <-]. destruct (str_eqb p _); auto.
Qed.
Lemma root_inner o s info wh root : inner_scheme s -> root_dir o s info wh = Some root -> inner root.
Proof.
  intros I H. unfold inner_scheme, scheme_paths in I. rewrite Forall_forall in I. apply I. destruct (root_dir_in _ _ _ _ _ H) as [-> | ->]; cbn; auto.
Qed.

(** ** One script *)
Lemma executable_same f : is_executable (zf_header f) = marked_executable f.
Proof.
  unfold is_executable, marked_executable, is_regular, bit_set, zip_parse, truncate. cbn [za_unix]. rewrite <- !N.land_assoc. reflexivity.
Qed.
Lemma firstn_prefix {A} n (l : list A) : exists t, l = firstn n l ++ t.
Proof. exists (skipn n l). symmetry. apply firstn_skipn. Qed.
Lemma prefix_firstn p n s : length p <= n -> has_prefix p (firstn n s) = has_prefix p s.
Proof.
  intros L. destruct (has_prefix p s) eqn:E.
  - apply has_prefix_spec in E as (t & ->). apply has_prefix_spec. rewrite firstn_app, firstn_all2 by lia. eauto.
  - destruct (has_prefix p (firstn n s)) eqn:E2; auto. apply has_prefix_spec in E2 as (t & E2).
    assert (X : has_prefix p s = true); [|congruence]. apply has_prefix_spec. exists (t ++ skipn n s).
    rewrite app_assoc, <- E2. symmetry. apply firstn_skipn.
Qed.
Lemma nine text : str_eqb (firstn 9 text) $"#!pythonw" = has_prefix $"#!pythonw" text.
Proof.
  destruct (has_prefix $"#!pythonw" text) eqn:E.
  - apply has_prefix_spec in E as (t & ->). cbn [app firstn]. apply str_eqb_refl.
  - destruct (str_eqb (firstn 9 text) $"#!pythonw") eqn:E2; auto. apply str_eqb_eq in E2.
    assert (X : has_prefix $"#!pythonw" text = true); [|congruence]. apply has_prefix_spec. exists (skipn 9 text).
    rewrite <- E2 at 1. symmetry. apply firstn_skipn.
Qed.
Lemma prefix_length p s : has_prefix p s = true -> length p <= length s.
Proof. intros E. apply has_prefix_spec in E as (t & ->). rewrite app_length. lia. Qed.
Theorem rewritten_text digest pl r r' : rewritten digest pl r = IOk r' ->
  exists text ok, ref_content r = Bytes text ok /\ ref_content r' = Bytes (shebang_line (pl_console pl) (pl_graphical pl) text) ok /\
  ref_full r' = ref_full r /\ ref_mtime r' = ref_mtime r /\
  (has_prefix $"#!python" text = false -> r' = r) /\
  (has_prefix $"#!python" text = true -> exists h c, r = ZipRef h c /\
     exists h' c', r' = RecRef h' c' ($"sha256=" ++ digest $"sha256" text) (Z.of_nat (length text)) /\
     z_attrs h' = zip_raw (mkZipAttr (N.lor (za_unix (zip_parse (z_attrs h))) 73) (za_unused (zip_parse (z_attrs h))) (za_dos (zip_parse (z_attrs h)))) /\
     z_creator h' = z_creator h /\ z_name h' = z_name h /\
     (z_size h = N.of_nat (length text) -> (N.of_nat (length (shebang_line (pl_console pl) (pl_graphical pl) text)) < 2 ^ 64)%N ->
      ref_size r' = Z.of_nat (length (shebang_line (pl_console pl) (pl_graphical pl) text)))).
Proof.
  unfold rewritten. destruct (ref_content r) as [| |text ok] eqn:C; try discriminate. intros H. exists text, ok. split; auto.
  rewrite prefix_firstn in H by (cbn; lia). unfold shebang_line.
  destruct (has_prefix $"#!python" text) eqn:P; cbn [negb] in H.
  2:{ injection H as <-. assert (W : has_prefix $"#!pythonw" text = false).
      { destruct (has_prefix $"#!pythonw" text) eqn:W; auto. apply has_prefix_spec in W as (t & ->). vm_compute in P. discriminate. }
      rewrite W. repeat split; auto. discriminate. }
  destruct r as [h c| |]; try discriminate. rewrite nine in H. cbn [ref_content] in C. subst c.
  assert (SR : forall n, n <= length text -> skip_read n text = Bytes (skipn n text) true).
  { intros n L. unfold skip_read. destruct (length text <? n)%nat eqn:E; auto. apply Nat.ltb_lt in E. lia. }
  assert (SZ : forall n (sb : str), (n <= length text)%nat -> n <= 9 -> (N.of_nat (length ($"#!" ++ sb ++ skipn n text)) < 2 ^ 64)%N -> 
     Z.of_N (sub64 (truncate 64 (N.of_nat (length text) + 2 + N.of_nat (length sb))) (N.of_nat n)) = Z.of_nat (length ($"#!" ++ sb ++ skipn n text))).
  { intros n sb L L9 B. rewrite !app_length, skipn_length in *. change (length $"#!") with 2 in *.
    unfold sub64, truncate. rewrite !N.land_ones. set (M := (2 ^ 64)%N) in *. assert (M9 : (9 < M)%N) by reflexivity.
    assert (E : (N.of_nat (length text) + 2 + N.of_nat (length sb))%N = (N.of_nat (2 + (length sb + (length text - n))) + N.of_nat n)%N) by lia.
    rewrite E. set (x := N.of_nat (2 + _)) in *. set (k := N.of_nat n) in *. assert (K : (k <= 9)%N) by (unfold k; lia).
    assert (X : (((x + k) mod M + M - k) mod M = x)%N).
    { assert (MZ : M <> 0%N) by discriminate. destruct (N.lt_ge_cases (x + k) M) as [LT|GE].
      - rewrite (N.mod_small (x + k)) by auto. replace (x + k + M - k)%N with (x + 1 * M)%N by lia. rewrite N.mod_add by auto. now apply N.mod_small.
      - assert (Y : ((x + k) mod M = x + k - M)%N).
        { replace (x + k)%N with ((x + k - M) + 1 * M)%N at 1 by lia. rewrite N.mod_add by auto. apply N.mod_small. lia. }
        rewrite Y. replace (x + k - M + M - k)%N with x by lia. now apply N.mod_small. }
    rewrite X. unfold x. lia. }
  destruct (has_prefix $"#!pythonw" text) eqn:W.
  - assert (L : 9 <= length text) by (now apply prefix_length in W). rewrite (SR 9 L) in H. injection H as <-. cbn [ref_content ref_full ref_mtime z_name z_modified].
    repeat split; auto; try discriminate. intros _. exists h, (Bytes text ok). split; auto. eexists _, _. split; [reflexivity|].
    cbn [z_attrs z_creator z_name ref_size z_size]. repeat split; auto. intros -> B. apply (SZ 9); auto.
  - assert (L : 8 <= length text) by (now apply prefix_length in P). rewrite (SR 8 L) in H. injection H as <-. cbn [ref_content ref_full ref_mtime z_name z_modified].
    repeat split; auto; try discriminate. intros _. exists h, (Bytes text ok). split; auto. eexists _, _. split; [reflexivity|].
    cbn [z_attrs z_creator z_name ref_size z_size]. repeat split; auto. intros -> B. apply (SZ 8); auto.
Qed.

(** ** The virtual file system *)
Lemma IOk_inj {A} (a b : A) : IOk a = IOk b -> a = b.
Proof. congruence. Qed.
Lemma info_of_dir wh info : inner_names wh -> dist_info_dir wh = Some info -> info_of wh info.
Proof.
  intros N H. apply info_in in H as (S & f & I & E). split; auto. unfold inner_names in N. rewrite Forall_forall in N.
  destruct (top_inner f (N f I)) as (c & cs & C & T & P). exists f, cs. split; auto. congruence.
Qed.
Lemma set_outs_get outs : forall fs k r, get_key k (fold_left (fun fs r => set_key (ref_full r) r fs) outs fs) = Some r ->
  (In r outs /\ k = ref_full r) \/ get_key k fs = Some r.
Proof.
  induction outs as [|x outs IH]; intros fs k r H; cbn [fold_left] in H; auto. apply IH in H as [[I E]|H]; [left; split; auto; now right|].
  rewrite get_set_key in H. destruct (str_eqb k (ref_full x)) eqn:E; auto. injection H as ->. apply str_eqb_eq in E. left. split; auto. now left.
Qed.
Lemma set_outs_keep outs : forall fs k, ~ In k (map ref_full outs) -> get_key k (fold_left (fun fs r => set_key (ref_full r) r fs) outs fs) = get_key k fs.
Proof.
  induction outs as [|x outs IH]; intros fs k N; cbn [fold_left]; auto. rewrite IH by (intros I; apply N; now right).
  rewrite get_set_key. destruct (str_eqb k (ref_full x)) eqn:E; auto. apply str_eqb_eq in E. subst k. exfalso. apply N. now left.
Qed.
Lemma set_outs_nodup outs : forall fs, NoDup (map fst fs) -> NoDup (map fst (fold_left (fun fs r => set_key (ref_full r) r fs) outs fs)).
Proof. induction outs as [|x outs IH]; intros fs N; cbn [fold_left]; auto. apply IH. now apply set_key_nodup. Qed.

Lemma join3 root info x : inner root -> plain_comp info -> plain_comp x -> path_join [root; info; x] = join $"/" (clean_comps root ++ [info; x]).
Proof.
  intros R I X. assert (PX : plain_path [info; x]) by (constructor; [|constructor]; auto; constructor).
  destruct (inner_join [info; x] PX ltac:(discriminate)) as [IJ CJ].
  assert (E : path_join [root; info; x] = path_join [root; join $"/" [info; x]]).
  { assert (NR := inner_ne _ R). assert (NI := inner_ne _ IJ). destruct I as (I & _), X as (X & _). unfold path_join. cbn [filter].
    destruct root as [|a root]; [congruence|]. destruct info as [|b info]; [congruence|]. destruct x as [|c x]; [congruence|].
    destruct (join $"/" [b :: info; c :: x]) as [|d j] eqn:J; [congruence|]. cbn [negb].
    change (str_eqb (a :: root) []) with false. change (str_eqb (b :: info) []) with false. change (str_eqb (c :: x) []) with false. change (str_eqb (d :: j) []) with false.
    cbn [negb]. rewrite <- J. cbn [join]. reflexivity. }
  rewrite E, join_inner by auto. now rewrite CJ.
Qed.
Lemma plain_name c : forallb (fun x => negb (byte_eqb x slash)) c && negb (str_eqb c []) && negb (str_eqb c dot) && negb (str_eqb c dotdot) = true -> plain_comp c.
Proof.
  rewrite !andb_true_iff, !negb_true_iff. intros (((A & B) & C) & D). rewrite forallb_forall in A.
  repeat split; intros E; subst; try discriminate. apply A in E. discriminate.
Qed.
(** What is in the archive file [f] for the key and the path of its destination *)
Definition made_from digest pl min (key : option str) k f r : Prop :=
  if is_script key then rewritten digest pl (created min k f) = IOk r else r = created min k f.
Theorem vfs_places o pl min t wh fs info_path : fair o -> inner_scheme (pl_scheme pl) -> inner_names wh -> never_nested (pl_scheme pl) wh ->
  install_vfs o pl min t wh = IOk (fs, info_path) ->
  exists info root, info_of wh info /\ root_of (pl_scheme pl) root /\ root_dir o (pl_scheme pl) info wh = Some root /\ dist_info_dir wh = Some info /\
  info_path = join $"/" (clean_comps root ++ [info]) /\
  NoDup (map fst fs) /\ forall k r, get_key k fs = Some r ->
    (exists refs outs, o_compile o t refs = Some outs /\ In r outs /\ k = ref_full r) \/
    (exists f key, In f wh /\ destination (pl_scheme pl) root (data_name info) (z_name (zf_header f)) = Some (key, k) /\
       made_from (o_digest o) pl min key k f r /\
       ~ In k (left_out root info)).
Proof.
  intros (F1 & _ & _ & F3 & _) HS HN NN H. unfold install_vfs in H. destruct (dist_info_dir wh) as [info|] eqn:DI; [|discriminate].
  destruct (root_dir o (pl_scheme pl) info wh) as [root|] eqn:RD; [|discriminate].
  assert (IO := info_of_dir _ _ HN DI). assert (RO := root_dir_in _ _ _ _ _ RD). assert (HR := root_inner _ _ _ _ _ HS RD).
  destruct (info_plain _ _ HN DI) as [PI PD]. exists info, root. split; auto. split; auto. split; auto. split; auto.
  pose proof (data_dir_text root info HR PD) as DD.
  destruct (spread (pl_scheme pl) (data_dir root info) _ _ []) as [[fs1 types]|?| |] eqn:SP; try discriminate.
  destruct (rewrite_python _ _ _ _) as [fs2|?| |] eqn:RW; try discriminate.
  destruct (o_compile o t _) as [outs|] eqn:CO; [|discriminate]. apply IOk_inj, pair_equal_spec in H as [H1 H2]. subst fs info_path.
  rewrite DD in SP.
  destruct (spread_places _ root (data_name info) wh min HS HR PD HN (NN _ _ IO RO) _ _ _ (F1 _) SP) as (P1 & P2 & P3 & P4).
  assert (N' : NoDup (map fst (o_types o types))) by (apply (perm_nodup types); auto).
  assert (RG := rewrite_get _ _ _ _ _ N' RW). assert (RN := rewrite_nodup _ _ _ _ _ P3 RW).
  split; [destruct (inner_comp _ PI) as [II CI]; rewrite join_inner by auto; now rewrite CI|].
  split; [apply set_outs_nodup; now repeat apply del_key_nodup|].
  intros k r G. apply set_outs_get in G as [[I E]|G]; [left; eauto|]. right. rewrite !get_del_key in G.
  destruct (str_eqb k (data_dir root info)) eqn:E1; [discriminate|]. destruct (str_eqb k (path_join [root; info; $"RECORD.p7s"])) eqn:E2; [discriminate|].
  destruct (str_eqb k (path_join [root; info; $"RECORD.jws"])) eqn:E3; [discriminate|]. destruct (str_eqb k (path_join [root; info; $"RECORD"])) eqn:E4; [discriminate|].
  apply str_eqb_neq in E1, E2, E3, E4. assert (LO : ~ In k (left_out root info)).
  { unfold left_out. cbn [map In]. rewrite <- !join3 by (auto; now apply plain_name). rewrite <- DD. intuition congruence. }
  clear E1 E2 E3 E4.
  destruct (RG k) as [R1 R2]. rewrite (perm_get types) in R1, R2 by auto.
  destruct (get_key k types) as [key|] eqn:T.
  - assert (X : exists r0, get_key k fs1 = Some r0) by (destruct (get_key k fs1) eqn:Y; eauto; exfalso; eapply P2; eauto).
    destruct X as [r0 G0]. destruct (P1 _ _ G0) as (f & I & D & ->). rewrite T in D. exists f, (Some key). repeat split; auto.
    unfold made_from. cbn [is_script]. destruct (str_eqb key $"scripts") eqn:EK.
    + apply str_eqb_eq in EK. subst key. destruct (R1 eq_refl) as (r1 & r2 & G1 & RR & G2). rewrite G0 in G1. injection G1 as <-. congruence.
    + rewrite R2 in G by (intros [= ->]; rewrite str_eqb_refl in EK; discriminate). congruence.
  - rewrite R2 in G by (intros X; discriminate X). destruct (P1 _ _ G) as (f & I & D & ->). rewrite T in D. exists f, None. repeat split; auto.
Qed.

(** ** Names *)
Lemma dest_plain s root data f key k : inner_scheme s -> inner root -> inner (z_name (zf_header f)) ->
  destination s root data (z_name (zf_header f)) = Some (key, k) -> exists cs, k = join $"/" cs /\ plain_path cs /\ cs <> [].
Proof.
  intros HS (_ & RN & RP) (_ & FN & FP) D. unfold destination in D.
  assert (G : forall l, plain_path l -> exists cs, join $"/" (clean_comps root ++ l) = join $"/" cs /\ plain_path cs /\ cs <> []).
  { intros l P. exists (clean_comps root ++ l). split; auto. split; [apply plain_app; auto|]. destruct (clean_comps root); [congruence|discriminate]. }
  destruct (clean_comps (z_name (zf_header f))) as [|d [|key' rest]] eqn:EC.
  - assert (k = join $"/" (clean_comps root ++ [])) as -> by congruence. auto.
  - assert (k = join $"/" (clean_comps root ++ [d])) as -> by congruence. auto.
  - destruct (str_eqb d data).
    + destruct (get_key key' (key_dirs s)) as [dir|] eqn:GK; [|discriminate]. assert (k = join $"/" (clean_comps dir ++ rest)) as -> by congruence.
      destruct (key_dir_inner _ _ _ HS GK) as (_ & DN & DP). inversion FP as [|? ? _ FP']; subst. inversion FP'; subst.
      exists (clean_comps dir ++ rest). split; auto. split; [apply plain_app; auto|]. destruct (clean_comps dir); [congruence|discriminate].
    + assert (k = join $"/" (clean_comps root ++ d :: key' :: rest)) as -> by congruence. auto.
Qed.
Lemma plain_clean_text cs : plain_path cs -> cs <> [] -> clean (join $"/" cs) = join $"/" cs /\ clean (join $"/" cs ++ $"/") = join $"/" cs /\ is_abs (join $"/" cs) = false.
Proof.
  intros P N. destruct (inner_join cs P N) as [I C]. split; [rewrite clean_inner by auto; now rewrite C|]. split; [|apply I].
  assert (X : clean_comps (join $"/" cs ++ $"/") = cs).
  { pose proof (clean_comps_app (join $"/" cs) []) as Y. rewrite app_nil_r in Y. rewrite Y by (now apply inner_ne). rewrite C.
    cbn [split_on fold_left]. unfold clean_step. rewrite str_eqb_refl. apply rev_involutive. }
  rewrite clean_text, X. rewrite is_abs_app by (now apply inner_ne). destruct I as (A & _). rewrite A. unfold path_text. destruct cs; congruence.
Qed.
Lemma created_full min cs f : plain_path cs -> cs <> [] -> ref_full (created min (join $"/" cs) f) = join $"/" cs.
Proof.
  intros P N. unfold created. cbn [ref_full]. unfold with_zname. cbn [z_name]. destruct (plain_clean_text cs P N) as (A & B & _).
  destruct (has_suffix _ _); auto.
Qed.

(** ** The directories above *)
Definition ups (n : str) : list str := map (path_text false) (nonempty_prefixes (removelast (clean_comps n))).
Definition add_dir (t : option Z) (fs : vfs) (d : str) : vfs :=
  match get_key d fs with Some _ => fs | None => set_key d (mem_dir d 493 t) fs end.
Definition add_dirs (t : option Z) (l : list str) (fs : vfs) : vfs := fold_left (add_dir t) l fs.
Lemma add_dirs_app t a b fs : add_dirs t (a ++ b) fs = add_dirs t b (add_dirs t a fs).
Proof. apply fold_left_app. Qed.
Lemma add_parents_text t l : forall fuel fs, clean_list false l ->
  add_parents fuel t (path_text false l) fs =
  if length l <? fuel then Some (add_dirs t (rev (map (path_text false) (nonempty_prefixes l))) fs) else None.
Proof.
  induction l as [|c l IH] using rev_ind; intros fuel fs C.
  - destruct fuel; reflexivity.
  - destruct fuel as [|fuel]; [reflexivity|]. cbn [add_parents].
    destruct (str_eqb (path_text false (l ++ [c])) dot) eqn:D; [apply text_dot in D; auto; destruct l; discriminate|].
    rewrite dir_text by auto. rewrite IH by (now apply clean_list_init in C). rewrite app_length. cbn [length].
    replace (length l + 1 <? S fuel) with (length l <? fuel) by (rewrite Nat.add_1_r; reflexivity).
    destruct (length l <? fuel); auto. f_equal. rewrite nonempty_prefixes_snoc, map_app, rev_app_distr. reflexivity.
Qed.
Lemma clean_rel n : clean_path n -> is_abs n = false -> n = path_text false (clean_comps n) /\ clean_list false (clean_comps n).
Proof. intros C A. pose proof (clean_comps_list n) as L. rewrite A in L. split; auto. unfold clean_path in C. rewrite <- C at 1. now rewrite clean_text, A. Qed.
Lemma add_parents_ok fuel t n fs : clean_path n -> is_abs n = false ->
  add_parents fuel t (path_dir n) fs = if length (removelast (clean_comps n)) <? fuel then Some (add_dirs t (rev (ups n)) fs) else None.
Proof.
  intros C A. destruct (clean_rel n C A) as [E L]. unfold ups. destruct (clean_comps n) as [|c l _] eqn:EC using rev_ind.
  - rewrite E. change (path_dir (path_text false [])) with (path_text false []). apply add_parents_text. exists 0, []. repeat split; constructor.
  - rewrite removelast_last. rewrite E, dir_text by auto. apply add_parents_text. now apply clean_list_init in L.
Qed.
Lemma prefixes_in {A} (l : list A) p : In p (nonempty_prefixes l) <-> p <> [] /\ exists q, l = p ++ q.
Proof.
  revert p. induction l as [|x l IH]; intros p; cbn [nonempty_prefixes In].
  - split; [intros []|]. intros (N & q & E). destruct p; [congruence|discriminate].
  - rewrite in_map_iff. split.
    + intros [<-|(p' & <- & I)]; [split; [discriminate|]; now exists l|]. apply IH in I as (_ & q & ->). split; [discriminate|]. now exists q.
    + intros (N & q & E). destruct p as [|y p]; [congruence|]. injection E as <- ->. destruct p as [|z p]; [now left|]. right. exists (z :: p). split; auto.
      apply IH. split; [discriminate|]. now exists q.
Qed.
Lemma below_ups d n : clean_path n -> is_abs n = false -> (below d n <-> In d (ups n)).
Proof.
  intros C A. destruct (clean_rel n C A) as [E L]. unfold ups. pose proof (clean_list_no_slash _ _ L) as NS. split.
  - intros (x & [B|(-> & B & _)]); [|rewrite B in A; discriminate]. apply in_map_iff.
    destruct (clean_comps n) as [|c0 l0] eqn:EC.
    { rewrite E in B. destruct d as [|y [|z d]]; try discriminate. }
    assert (SP : c0 :: l0 = split_on slash d ++ split_on slash x).
    { rewrite <- split_on_app_gen. change (slash :: x) with ($"/" ++ x). rewrite <- B, E. unfold path_text. change $"/" with [slash]. rewrite split_on_join; auto. discriminate. }
    exists (split_on slash d). assert (ND := split_on_nonempty slash d). assert (NX := split_on_nonempty slash x). split.
    + unfold path_text. destruct (split_on slash d) eqn:SD; [congruence|]. rewrite <- SD. apply (join_split_on slash).
    + apply prefixes_in. split; auto. destruct (split_on slash x) as [|y ys _] eqn:SX using rev_ind; [congruence|].
      rewrite SP, app_assoc, removelast_last. now exists ys.
  - intros I. apply in_map_iff in I as (p & <- & I). apply prefixes_in in I as (N & q & Q).
    destruct (clean_comps n) as [|c l _] eqn:EC using rev_ind; [destruct p; [congruence|discriminate]|].
    rewrite removelast_last in Q. subst l. exists (join $"/" (q ++ [c])). left. rewrite E. unfold path_text. destruct p as [|y p]; [congruence|].
    rewrite <- app_assoc. cbn [app]. rewrite <- join_app by (try discriminate; destruct q; discriminate). reflexivity.
Qed.
Lemma add_dirs_get t l : forall fs k, get_key k (add_dirs t l fs) =
  match get_key k fs with Some r => Some r | None => if in_dec (list_eq_dec ascii_dec) k l then Some (mem_dir k 493 t) else None end.
Proof.
  induction l as [|d l IH]; intros fs k; cbn [add_dirs fold_left].
  - destruct (get_key k fs); auto. 
  - fold (add_dirs t l (add_dir t fs d)). rewrite IH. unfold add_dir. destruct (get_key d fs) as [r|] eqn:G.
    + destruct (get_key k fs) eqn:Gk; auto. destruct (in_dec _ k (d :: l)) as [I|I], (in_dec _ k l) as [J|J]; auto; exfalso.
      * destruct I as [->|]; congruence.
      * apply I. now right.
    + rewrite get_set_key. destruct (str_eqb k d) eqn:E.
      * apply str_eqb_eq in E. subst k. rewrite G. destruct (in_dec _ d (d :: l)) as [|N]; auto. exfalso. apply N. now left.
      * destruct (get_key k fs) eqn:Gk; auto. destruct (in_dec _ k (d :: l)) as [I|I], (in_dec _ k l) as [J|J]; auto; exfalso.
        -- destruct I as [->|]; [now rewrite str_eqb_refl in E|auto].
        -- apply I. now right.
Qed.
Lemma add_dirs_nodup t l : forall fs, NoDup (map fst fs) -> NoDup (map fst (add_dirs t l fs)).
Proof.
  induction l as [|d l IH]; intros fs N; cbn [add_dirs fold_left]; auto. apply IH. unfold add_dir. destruct (get_key d fs); auto. now apply set_key_nodup.
Qed.
Lemma add_all_ok fuel t sched : forall fs, Forall (fun n => clean_path n /\ is_abs n = false) sched ->
  add_all_parents fuel t sched fs =
  if forallb (fun n => length (removelast (clean_comps n)) <? fuel) sched then Some (add_dirs t (concat (map (fun n => rev (ups n)) sched)) fs) else None.
Proof.
  induction sched as [|n sched IH]; intros fs F; cbn [add_all_parents]; auto. inversion F as [|? ? [C A] F']; subst.
  rewrite add_parents_ok by auto. cbn [forallb map concat]. destruct (_ <? fuel); auto. cbn [andb]. rewrite IH by auto.
  destruct (forallb _ sched); auto. now rewrite add_dirs_app.
Qed.
Lemma below_trans a b c : below a b -> below b c -> is_abs c = false -> below a c.
Proof.
  intros (x & H) (y & H') A. destruct H' as [->|(-> & -> & _)]; [|discriminate]. destruct H as [->|(-> & -> & X)].
  - exists (x ++ $"/" ++ y). left. now rewrite <- !app_assoc.
  - discriminate.
Qed.
Lemma below_clean d n : clean_path n -> is_abs n = false -> below d n -> clean_path d /\ is_abs d = false.
Proof.
  intros C A B. apply (below_ups d n C A) in B. destruct (clean_rel n C A) as [E L]. unfold ups in B. apply in_map_iff in B as (p & <- & I).
  apply prefixes_in in I as (N & q & Q). assert (LP : clean_list false p).
  { destruct (clean_comps n) as [|c l _] eqn:EC using rev_ind; [destruct p; [congruence|discriminate]|]. rewrite removelast_last in Q. subst l.
    rewrite <- app_assoc in L. clear -L. revert L. generalize (q ++ [c]) as r. intros r. induction r as [|x r IH] using rev_ind; intros L; [now rewrite app_nil_r in L|].
    rewrite app_assoc in L. apply clean_list_init in L. auto. }
  assert (X : clean (path_text false p) = path_text false p /\ is_abs (path_text false p) = false); [|exact X].
  assert (AP : is_abs (path_text false p) = false).
  { unfold path_text. destruct p as [|y p]; auto. now apply (join_head_not_slash false). }
  split; auto. rewrite clean_text, AP. now rewrite clean_comps_text.
Qed.
Theorem parents_spec fuel t sched fs fs' : good_map fs -> incl (map fst fs) sched ->
  (forall k, In k sched -> In k (map fst fs) \/ exists k', In k' (map fst fs) /\ below k k') ->
  add_all_parents fuel t sched fs = Some fs' ->
  good_map fs' /\ (forall k r, get_key k fs = Some r -> get_key k fs' = Some r) /\
  (forall k r, get_key k fs' = Some r -> get_key k fs = Some r \/
     (get_key k fs = None /\ r = mem_dir k 493 t /\ exists n, In n (map fst fs) /\ below k n)) /\
  (forall n d, In n (map fst fs') -> below d n -> In d (map fst fs')).
Proof.
  intros [N G] I1 I2 E. rewrite Forall_forall in G.
  assert (GK : forall k, In k (map fst fs) -> clean_path k /\ is_abs k = false).
  { intros k I. apply in_map_iff in I as ([k' r] & <- & I). apply (G _ I). }
  assert (GS : forall k, In k sched -> clean_path k /\ is_abs k = false).
  { intros k I. destruct (I2 k I) as [J|(k' & J & B)]; auto. destruct (GK k' J). eapply below_clean; eauto. }
  rewrite add_all_ok in E by (apply Forall_forall; exact GS). destruct (forallb _ sched); [|discriminate].
  set (L := concat _) in E. apply (f_equal (fun x => match x with Some y => y | None => fs' end)) in E. cbv beta iota in E. subst fs'.
  assert (LS : forall d, In d L <-> exists n, In n (map fst fs) /\ below d n).
  { intros d. unfold L. rewrite in_concat. split.
    - intros (l & Il & Id). apply in_map_iff in Il as (n & <- & In'). apply in_rev in Id. destruct (GS n In') as [C A]. apply (below_ups d n C A) in Id.
      destruct (I2 n In') as [J|(k' & J & B)]; eauto. exists k'. split; auto. eapply below_trans; eauto. now apply GK.
    - intros (n & In' & B). destruct (GK n In') as [C A]. exists (rev (ups n)). split; [apply in_map_iff; exists n; split; auto|].
      apply -> in_rev. now apply below_ups. }
  assert (KS : forall k, In k (map fst (add_dirs t L fs)) <-> In k (map fst fs) \/ In k L).
  { intros k. assert (X : forall (m : vfs), In k (map fst m) <-> get_key k m <> None).
    { intros m. split; [intros I Y; now apply get_key_none in Y|]. intros Y. destruct (get_key k m) as [r|] eqn:Z; [|congruence].
      apply get_key_in in Z. change k with (fst (k, r)). now apply in_map. }
    rewrite !X, add_dirs_get. destruct (get_key k fs); [split; [left|intros _]; discriminate|]. destruct (in_dec _ k L); split; auto; try discriminate. intros [|]; auto. }
  split; [split; [now apply add_dirs_nodup|]|split; [|split]].
  - apply Forall_forall. intros [k r] Ik. apply in_get_key in Ik; [|now apply add_dirs_nodup]. rewrite add_dirs_get in Ik. cbn [fst snd].
    destruct (get_key k fs) eqn:Gk; [injection Ik as <-; apply get_key_in in Gk; now apply G in Gk|].
    destruct (in_dec _ k L) as [J|]; [|discriminate]. assert (r = mem_dir k 493 t) as -> by congruence. apply LS in J as (n & Jn & B). destruct (GK n Jn) as [C A]. split; [reflexivity|]. eapply below_clean; eauto.
  - intros k r Gk. now rewrite add_dirs_get, Gk.
  - intros k r Gk. rewrite add_dirs_get in Gk. destruct (get_key k fs) eqn:Z; auto. destruct (in_dec _ k L) as [J|]; [|discriminate]. right.
    split; auto. split; [congruence|]. now apply LS.
  - intros n d In' B. apply KS. right. apply LS. apply KS in In' as [J|J]; eauto. apply LS in J as (n' & J & B'). exists n'. split; auto.
    eapply below_trans; eauto. now apply GK.
Qed.

(** ** Entries *)
Lemma install_inv o fuel pl min mx wh l : install_wheel o fuel pl min mx wh = IOk l ->
  exists pl' fs info fs1 fs2 refs, sanitize pl = Some pl' /\ integrity_check (o_csv o) (o_digest o) wh = true /\
  install_vfs o pl' min (max_time o wh mx) wh = IOk (fs, info) /\ o_hook o (max_time o wh mx) fs info = Some fs1 /\
  add_all_parents fuel (max_time o wh mx) (o_parents o fs1) fs1 = Some fs2 /\
  tar_entries pl' (map snd (o_refs o fs2)) = Some refs /\
  layer_from_refs (o_encodable o) (o_sort o) refs (max_time o wh mx) = LayerOk l.
Proof.
  unfold install_wheel. destruct (sanitize pl) as [pl'|] eqn:S; [|discriminate]. destruct (integrity_check _ _ _) eqn:IC; [|discriminate]. cbn [negb].
  destruct (install_vfs _ _ _ _ _) as [[fs info]|?| |] eqn:IV; try discriminate. destruct (o_hook _ _ _ _) as [fs1|] eqn:HK; [|discriminate].
  destruct (add_all_parents _ _ _ _) as [fs2|] eqn:AP; [|discriminate]. destruct (tar_entries _ _) as [refs|] eqn:TE; [|discriminate].
  destruct (layer_from_refs _ _ _ _) eqn:LR; try discriminate. intros [= <-]. exists pl', fs, info, fs1, fs2, refs. auto 10.
Qed.
Lemma sanitize_owner pl pl' : sanitize pl = Some pl' ->
  pl_uid pl' = pl_uid pl /\ pl_gid pl' = pl_gid pl /\ pl_uname pl' = pl_uname pl /\ pl_gname pl' = pl_gname pl.
Proof.
  unfold sanitize, plat_init. destruct (pl_console pl) as [|a b], (pl_graphical pl) as [|a' b']; try discriminate; destruct (forallb _ _); try discriminate; intros [= <-]; auto.
Qed.
Lemma tar_entries_ok pl rs : forall refs, tar_entries pl rs = Some refs -> Forall2 (fun r fr => tar_entry pl r = Some fr) rs refs.
Proof.
  induction rs as [|r rs IH]; intros refs H; cbn [tar_entries] in H; [injection H as <-; constructor|].
  destruct (tar_entry pl r) as [fr|] eqn:T; [|discriminate]. destruct (tar_entries pl rs) as [frs|]; [|discriminate]. injection H as <-. constructor; auto.
Qed.
Lemma forall2_in_r {A B} (P : A -> B -> Prop) l m y : Forall2 P l m -> In y m -> exists x, In x l /\ P x y.
Proof. induction 1 as [|a b l m H F IH]; intros []; [subst; exists a; split; auto; now left|]. destruct (IH H0) as (x & I & Px). exists x. split; auto. now right. Qed.
Lemma forall2_in_l {A B} (P : A -> B -> Prop) l m x : Forall2 P l m -> In x l -> exists y, In y m /\ P x y.
Proof. induction 1 as [|a b l m H F IH]; intros []; [subst; exists b; split; auto; now left|]. destruct (IH H0) as (y & I & Py). exists y. split; auto. now right. Qed.
Lemma layer_refs o pl t fs refs l : sorts (o_sort o) -> Permutation (o_refs o fs) fs -> tar_entries pl (map snd (o_refs o fs)) = Some refs ->
  layer_from_refs (o_encodable o) (o_sort o) refs t = LayerOk l ->
  (forall e, In e l -> exists k r fr, In (k, r) fs /\ tar_entry pl r = Some fr /\ written t fr e) /\
  (forall k r, In (k, r) fs -> exists fr e, In e l /\ tar_entry pl r = Some fr /\ written t fr e).
Proof.
  intros HS HP TE LR. apply tar_entries_ok in TE. destruct (layer_entries _ _ _ _ _ HS LR) as (m & P & F). split.
  - intros e I. destruct (forall2_in_r _ _ _ _ F I) as (fr & Im & W). apply (Permutation_in _ P) in Im.
    destruct (forall2_in_r _ _ _ _ TE Im) as (r & Ir & T). apply in_map_iff in Ir as ([k r'] & <- & Ir). apply (Permutation_in _ HP) in Ir. eauto 10.
  - intros k r I. apply (Permutation_in _ (Permutation_sym HP)) in I. assert (Ir : In r (map snd (o_refs o fs))) by (change r with (snd (k, r)); now apply in_map).
    destruct (forall2_in_l _ _ _ _ TE Ir) as (fr & If & T). apply (Permutation_in _ (Permutation_sym P)) in If. destruct (forall2_in_l _ _ _ _ F If) as (e & Ie & W). eauto 10.
Qed.
Lemma written_fields t fr e h : written t fr e -> fr_header fr = Some h ->
  th_name (fst e) = fr_name fr /\ th_type (fst e) = th_type h /\ th_size (fst e) = th_size h /\ th_mode (fst e) = th_mode h /\
  th_uid (fst e) = th_uid h /\ th_gid (fst e) = th_gid h /\ th_uname (fst e) = th_uname h /\ th_gname (fst e) = th_gname h /\
  (if byte_eqb (th_type h) TypeReg then fr_content fr = Bytes (snd e) true /\ th_size h = Z.of_nat (length (snd e)) else snd e = []).
Proof.
  intros ((h' & H' & NM & SB & CT) & _) H. assert (h' = h) by congruence. subst h'.
  destruct SB as (A1 & A2 & A3 & A4 & A5 & A6 & A7 & A8 & _). repeat split; auto.
Qed.
Theorem wheel_owner o fuel pl min mx wh l : fair o -> install_wheel o fuel pl min mx wh = IOk l ->
  Forall (fun e => th_uid (fst e) = pl_uid pl /\ th_gid (fst e) = pl_gid pl /\ th_uname (fst e) = pl_uname pl /\ th_gname (fst e) = pl_gname pl) l.
Proof.
  intros (_ & _ & _ & _ & _ & FR & FS) H. apply install_inv in H as (pl' & fs & info & fs1 & fs2 & refs & S & _ & _ & _ & _ & TE & LR).
  apply sanitize_owner in S as (<- & <- & <- & <-). apply Forall_forall. intros e I.
  destruct (layer_refs _ _ _ _ _ _ FS (FR fs2) TE LR) as [L1 _]. destruct (L1 e I) as (k & r & fr & _ & T & W).
  unfold tar_entry in T. destruct (ref_header r) as [h|]; [|discriminate]. injection T as <-. destruct (written_fields _ _ _ _ W eq_refl) as (_ & _ & _ & _ & U & G & UN & GN & _). auto.
Qed.
Theorem wheel_devices o fuel pl min mx wh l : fair o -> install_wheel o fuel pl min mx wh = IOk l ->
  Forall (fun e => th_devmajor (fst e) = 0%Z /\ th_devminor (fst e) = 0%Z /\ th_format (fst e) = 0%Z /\ (th_type (fst e) <> TypeLink -> th_link (fst e) = [])) l.
Proof.
  intros (_ & _ & _ & _ & _ & FR & FS) H. apply install_inv in H as (pl' & fs & info & fs1 & fs2 & refs & S & _ & _ & _ & _ & TE & LR).
  apply Forall_forall. intros e I. destruct (layer_refs _ _ _ _ _ _ FS (FR fs2) TE LR) as [L1 _]. destruct (L1 e I) as (k & r & fr & _ & T & W).
  unfold tar_entry in T. destruct (ref_header r) as [h|] eqn:E; [|discriminate]. injection T as <-. destruct W as ((h' & H' & _ & SB & _) & _). cbn [fr_header] in H'. assert (X' : forall (A : Type) (a b : A), Some a = Some b -> a = b) by (intros A a b Q; congruence). apply X' in H'. subst h'.
  unfold ref_header, file_info_header in E. destruct (header_type (ref_mode r)) as [t|]; [|discriminate].
  assert (X : th_devmajor h = 0%Z /\ th_devminor h = 0%Z /\ th_format h = 0%Z /\ (th_type h <> TypeLink -> th_link h = [])).
  { destruct (match r with MemRef m => m_sys m | _ => None end) as [sys|].
    - destruct (byte_eqb (th_type sys) TypeLink); apply X' in E; subst h; cbn; repeat split; intros; congruence.
    - apply X' in E; subst h; cbn; auto. }
  destruct SB as (A1 & A2 & A3 & A4 & A5 & A6 & A7 & A8 & A9). cbn in *. intuition congruence.
Qed.

Lemma created_content min k f : ref_content (created min k f) = zf_content f.
Proof. reflexivity. Qed.
Lemma created_time min k f : ref_mtime (created min k f) = match min with Some _ => min | None => z_modified (zf_header f) end.
Proof. reflexivity. Qed.
Lemma created_name min k f : exists h, created min k f = ZipRef h (zf_content f) /\ z_name h = (if entry_is_dir f then k ++ $"/" else k) /\ z_creator h = 768%N /\
  z_size h = z_size (zf_header f) /\
  z_attrs h = zip_raw (mkZipAttr (if entry_is_dir f then N.lor ModeFmtDir 493 else if is_executable (zf_header f) then N.lor ModeFmtRegular 493 else N.lor ModeFmtRegular 420) 0 0).
Proof. eexists. split; [reflexivity|]. repeat split. Qed.
Lemma rewritten_mode digest pl min k f r text ok : has_suffix $"/" k = false -> rewritten digest pl (created min k f) = IOk r ->
  zf_content f = Bytes text ok ->
  ref_mode r = (if entry_is_dir f then N.lor go_dir 493 else if is_executable (zf_header f) || has_prefix $"#!python" text then 493%N else 420%N).
Proof.
  intros S R C. destruct (rewritten_text _ _ _ _ R) as (text' & ok' & C' & _ & _ & _ & U & P). rewrite created_content, C in C'. injection C' as <- <-.
  destruct (has_prefix $"#!python" text).
  - destruct (P eq_refl) as (h & c & E & h' & c' & -> & AT & CR & NM & _). destruct (created_name min k f) as (h0 & E0 & NM0 & CR0 & _ & AT0).
    rewrite E0 in E. assert (h0 = h) by congruence. subst h0. cbn [ref_mode]. unfold zip_mode. rewrite AT, CR, NM, AT0, CR0, NM0.
    destruct (entry_is_dir f).
    + assert (X : has_suffix $"/" (k ++ $"/") = true) by (apply has_suffix_spec; now exists k). rewrite X. vm_compute. reflexivity.
    + rewrite S. destruct (is_executable (zf_header f)); vm_compute; reflexivity.
  - rewrite U by auto. rewrite created_mode by auto. unfold installed_mode. destruct (entry_is_dir f); auto. now rewrite orb_false_r.
Qed.
Lemma made_full digest pl min key cs f r : plain_path cs -> cs <> [] -> made_from digest pl min key (join $"/" cs) f r -> ref_full r = join $"/" cs.
Proof.
  intros P N. unfold made_from. destruct (is_script key).
  - intros R. destruct (rewritten_text _ _ _ _ R) as (? & ? & _ & _ & E & _). rewrite E. now apply created_full.
  - intros ->. now apply created_full.
Qed.
(** An entry for a file of the archive *)
Lemma entry_made digest pl min t root data key cs f r fr e : plain_path cs -> cs <> [] ->
  destination (pl_scheme pl) root data (z_name (zf_header f)) = Some (key, join $"/" cs) ->
  made_from digest pl min key (join $"/" cs) f r -> tar_entry pl r = Some fr -> written t fr e ->
  entry_from pl root data f e /\
  th_mtime (fst e) = option_map round_second (clamp t (match min with Some _ => min | None => z_modified (zf_header f) end)).
Proof.
  intros P N D M T W. set (k := join $"/" cs) in *. assert (SK : has_suffix $"/" k = false) by (now apply join_no_slash_end).
  assert (FU := made_full _ _ _ _ _ _ _ P N M). fold k in FU.
  unfold tar_entry in T. destruct (ref_header r) as [h|] eqn:H; [|discriminate].
  apply (f_equal (fun x => match x with Some y => y | None => fr end)) in T. cbv beta iota in T. subst fr.
  assert (NC : clean k = k) by (now apply plain_clean_text).
  destruct (written_fields _ _ _ _ W eq_refl) as (NM & TY & SZ & MO & _ & _ & _ & _ & CT). cbn [fr_name fr_content th_type th_size th_mode owned with_name] in NM, TY, SZ, MO, CT.
  rewrite FU, NC in NM. set (dir := entry_is_dir f) in *.
  (* type, mode, content and time of r *)
  assert (X : match r with MemRef _ => False | _ => True end /\ ref_mtime r = match min with Some _ => min | None => z_modified (zf_header f) end /\
    (dir = true -> ref_mode r = N.lor go_dir 493) /\
    (forall text ok, zf_content f = Bytes text ok -> ref_content r = Bytes (if is_script key then shebang_line (pl_console pl) (pl_graphical pl) text else text) ok) /\
    (forall s, ref_content r = Bytes s true -> exists text, zf_content f = Bytes text true) /\
    (dir = false -> (ref_mode r = 493%N \/ ref_mode r = 420%N) /\
       (forall text ok, zf_content f = Bytes text ok -> ref_mode r = if marked_executable f || (is_script key && has_prefix $"#!python" text) then 493%N else 420%N))).
  { unfold made_from in M. destruct (is_script key).
    - destruct (rewritten_text _ _ _ _ M) as (text & ok & C & C' & _ & MT & U & PY). rewrite created_content in C.
      pose proof (rewritten_mode _ _ _ _ _ _ _ _ SK M C) as RM. fold dir in RM.
      split; [destruct (has_prefix $"#!python" text) eqn:PP; [destruct (PY eq_refl) as (? & ? & _ & ? & ? & -> & _); exact I|rewrite U by auto; exact I]|].
      split; [rewrite MT; apply created_time|]. split; [intros E; now rewrite E in RM|].
      split; [intros text' ok' C2; rewrite C in C2; injection C2 as <- <-; exact C'|].
      split; [intros s C2; rewrite C' in C2; injection C2 as _ ->; eauto|].
      intros E. rewrite E in RM. split.
      + destruct (is_executable _ || _); auto.
      + intros text' ok' C2. rewrite C in C2. injection C2 as <- <-. rewrite RM, executable_same. reflexivity.
    - subst r. split; [exact I|]. split; [apply created_time|]. rewrite created_mode by auto. unfold installed_mode. fold dir.
      split; [intros ->; reflexivity|]. split; [intros text ok C; rewrite created_content; exact C|]. split; [intros s C; rewrite created_content in C; eauto|].
      intros ->. rewrite executable_same. cbn [andb]. split; [destruct (marked_executable f); auto|]. intros. now rewrite orb_false_r. }
  destruct X as (NMem & MT & X1 & X2 & X3 & X4).
  assert (HH : ref_header r = file_info_header (ref_mode r) (ref_size r) (ref_mtime r) None) by (unfold ref_header; destruct r; [reflexivity|reflexivity|destruct NMem]).
  rewrite HH in H. clear HH. split.
  - exists key. rewrite NM. split; auto. fold dir. destruct dir.
    + rewrite X1 in H by auto. apply (f_equal (fun x => match x with Some y => (th_type y, th_mode y) | None => (th_type h, th_mode h) end)) in H. cbv beta iota in H.
      assert (H1 : th_type h = TypeDir) by (symmetry; exact (f_equal fst H)). assert (H2 : th_mode h = 493%Z) by (symmetry; exact (f_equal snd H)).
      rewrite TY, MO, H1, H2. split; auto. split; auto. rewrite H1 in CT. exact CT.
    + destruct (X4 eq_refl) as [MM X5].
      assert (TH : th_type h = TypeReg /\ th_mode h = Z.of_N (ref_mode r)).
      { apply (f_equal (fun x => match x with Some y => (th_type y, th_mode y) | None => (th_type h, th_mode h) end)) in H. cbv beta iota in H.
        split; [symmetry; destruct MM as [MM|MM]; rewrite MM in H; exact (f_equal fst H)|]. symmetry. destruct MM as [MM|MM]; rewrite MM in H |- *; exact (f_equal snd H). }
      destruct TH as [TR TM]. rewrite TR in CT. change (byte_eqb TypeReg TypeReg) with true in CT. cbv iota in CT. destruct CT as [CT CS].
      destruct (X3 _ CT) as [text C]. exists text. split; auto. split; [congruence|].
      split; [rewrite (X2 _ _ C) in CT; congruence|]. split; [congruence|].
      rewrite MO, TM, (X5 _ _ C). destruct (marked_executable f || _); reflexivity.
  - destruct W as [_ (h2 & H2 & E)]. cbn [fr_header fr_name] in H2, E. injection H2 as <-. rewrite E.
    assert (FM : th_format h = 0%Z /\ th_mtime h = ref_mtime r).
    { unfold file_info_header in H. destruct (header_type (ref_mode r)); [|discriminate]. injection H as <-. split; reflexivity. }
    destruct FM as [FM MM]. unfold tar_written. cbn [th_format clamp_header with_times with_name owned]. rewrite FM. cbn. rewrite MM, MT. reflexivity.
Qed.

(** ** The whole layer *)
Lemma vfs_good o pl min t wh fs info_path : fair o -> good_names o -> inner_scheme (pl_scheme pl) -> inner_names wh -> never_nested (pl_scheme pl) wh ->
  install_vfs o pl min t wh = IOk (fs, info_path) -> good_map fs.
Proof.
  intros FO (GC & _) HS HN NN IV. destruct (vfs_places _ _ _ _ _ _ _ FO HS HN NN IV) as (info & root & IO & RO & RD & DI & _ & ND & PL).
  split; auto. apply Forall_forall. intros [k r] I. cbn [fst snd]. apply (in_get_key _ _ _ ND) in I.
  destruct (PL k r I) as [(refs & outs & C & J & ->)|(f & key & J & D & M & _)].
  - specialize (GC _ _ _ C). rewrite Forall_forall in GC. destruct (GC r J). auto.
  - unfold inner_names in HN. rewrite Forall_forall in HN. destruct (dest_plain _ _ _ _ _ _ HS (root_inner _ _ _ _ _ HS RD) (HN f J) D) as (cs & -> & P & N).
    rewrite (made_full _ _ _ _ _ _ _ P N M). destruct (plain_clean_text cs P N) as (A & _ & B). auto.
Qed.
Lemma vfs_info o pl min t wh fs info_path : fair o -> inner_scheme (pl_scheme pl) -> inner_names wh -> never_nested (pl_scheme pl) wh ->
  install_vfs o pl min t wh = IOk (fs, info_path) -> clean_path info_path /\ is_abs info_path = false.
Proof.
  intros FO HS HN NN IV. destruct (vfs_places _ _ _ _ _ _ _ FO HS HN NN IV) as (info & root & IO & RO & RD & DI & -> & _ & _).
  destruct (root_inner _ _ _ _ _ HS RD) as (_ & N & P). destruct (info_plain _ _ HN DI) as [PI _].
  destruct (plain_clean_text (clean_comps root ++ [info])) as (A & _ & B); auto.
  - apply Forall_app. split; auto.
  - destruct (clean_comps root); discriminate.
Qed.
Lemma vfs_input o pl min t wh fs info_path : fair o -> pyc_outputs o -> inner_scheme (pl_scheme pl) -> inner_names wh -> never_nested (pl_scheme pl) wh ->
  install_vfs o pl min t wh = IOk (fs, info_path) -> hook_input fs info_path.
Proof.
  intros FO PO HS HN NN IV. destruct (vfs_places _ _ _ _ _ _ _ FO HS HN NN IV) as (info & root & IO & RO & RD & DI & EI & ND & PL).
  destruct (root_inner _ _ _ _ _ HS RD) as (_ & N & P). destruct (info_plain _ _ HN DI) as [PI _].
  assert (PIP : plain_path (clean_comps root ++ [info])) by (apply Forall_app; split; auto).
  assert (NE : clean_comps root ++ [info] <> []) by (destruct (clean_comps root); discriminate). destruct (inner_join _ PIP NE) as [II CI]. rewrite <- EI in II, CI.
  split; [exact II|]. split; [rewrite EI; now apply plain_clean_text|]. split; [|split].
  - split; auto. apply Forall_forall. intros [k r] I. cbn [fst snd]. apply (in_get_key _ _ _ ND) in I.
    destruct (PL k r I) as [(refs & outs & C & J & ->)|(f & key & J & D & M & _)].
    + specialize (PO _ _ _ C). rewrite Forall_forall in PO. destruct (PO r J) as (A & B & _). repeat split; auto. apply A.
    + unfold inner_names in HN. rewrite Forall_forall in HN. destruct (dest_plain _ _ _ _ _ _ HS (root_inner _ _ _ _ _ HS RD) (HN f J) D) as (cs & -> & P' & N').
      rewrite (made_full _ _ _ _ _ _ _ P' N' M). destruct (plain_clean_text cs P' N') as (A & _ & B). auto.
  - apply Forall_forall. intros [k r] I. cbn [fst]. apply (in_get_key _ _ _ ND) in I.
    destruct (PL k r I) as [(refs & outs & C & J & ->)|(f & key & J & D & M & _)].
    + specialize (PO _ _ _ C). rewrite Forall_forall in PO. now apply PO.
    + unfold inner_names in HN. rewrite Forall_forall in HN. destruct (dest_plain _ _ _ _ _ _ HS (root_inner _ _ _ _ _ HS RD) (HN f J) D) as (cs & -> & P' & N').
      now apply inner_join.
  - destruct (get_key (in_info info_path $"RECORD") fs) as [r|] eqn:G; auto. exfalso. unfold in_info in G. rewrite CI, <- app_assoc in G. cbn [app] in G.
    destruct (PL _ r G) as [(refs & outs & C & J & E)|(f & key & J & D & M & LO)].
    + specialize (PO _ _ _ C). rewrite Forall_forall in PO. destruct (PO r J) as (_ & _ & SX & _). rewrite <- E in SX. apply has_suffix_spec in SX as (x & SX).
      replace (join $"/" (clean_comps root ++ [info; $"RECORD"])) with (join $"/" (clean_comps root ++ [info]) ++ $"/" ++ $"RECORD") in SX.
      * rewrite app_assoc in SX. change $"RECORD" with ($"RE" ++ $"CORD") in SX. rewrite app_assoc in SX. apply (f_equal (@rev _)) in SX. rewrite !rev_app_distr in SX. cbn in SX. discriminate.
      * rewrite <- join_app1 by auto. rewrite <- app_assoc. reflexivity.
    + apply LO. now left.
Qed.
Lemma mem_entry pl k t fr t' e : tar_entry pl (mem_dir k 493 t) = Some fr -> written t' fr e ->
  th_name (fst e) = clean k /\ th_type (fst e) = TypeDir /\ th_mode (fst e) = 493%Z /\ snd e = [].
Proof.
  intros T W. unfold tar_entry in T. destruct (ref_header (mem_dir k 493 t)) as [h|] eqn:H; [|discriminate]. injection T as <-.
  destruct (written_fields _ _ _ _ W eq_refl) as (NM & TY & _ & MO & _ & _ & _ & _ & CT). cbn [fr_name fr_content th_type th_size th_mode owned with_name] in NM, TY, MO, CT.
  apply (f_equal (fun x => match x with Some y => (th_type y, th_mode y) | None => (th_type h, th_mode h) end)) in H.
  assert (H1 : th_type h = TypeDir) by (symmetry; exact (f_equal fst H)). assert (H2 : th_mode h = 493%Z) by (symmetry; exact (f_equal snd H)).
  rewrite H1 in TY, CT. rewrite H2 in MO. repeat split; auto.
Qed.
Lemma ref_entry pl r fr t e : tar_entry pl r = Some fr -> written t fr e -> entry_of_ref r e.
Proof.
  intros T W. unfold tar_entry in T. destruct (ref_header r) as [h|]; [|discriminate]. injection T as <-.
  destruct (written_fields _ _ _ _ W eq_refl) as (NM & TY & _ & _ & _ & _ & _ & _ & CT). cbn [fr_name fr_content th_type owned with_name] in *.
  split; auto. intros E. rewrite <- TY, E in CT. apply CT.
Qed.
Lemma vref_dec (a b : vref) : {a = b} + {a <> b}.
Proof.
  assert (DS : forall x y : str, {x = y} + {x <> y}) by (apply list_eq_dec, ascii_dec).
  assert (DO : forall x y : option Z, {x = y} + {x <> y}) by (decide equality; apply Z.eq_dec).
  assert (DC : forall x y : content, {x = y} + {x <> y}) by (decide equality; apply bool_dec).
  assert (DZ : forall x y : zheader, {x = y} + {x <> y}) by (decide equality; apply N.eq_dec).
  assert (DH : forall x y : header, {x = y} + {x <> y}) by apply header_eq_dec.
  assert (DM : forall x y : memfile, {x = y} + {x <> y}) by (decide equality; try apply Z.eq_dec; try apply N.eq_dec; decide equality).
  decide equality; apply Z.eq_dec.
Defined.
(** Without the compiler *)
Definition quiet (o : outside) : outside :=
  mkOut (o_csv o) (o_digest o) (o_wheel o) (o_now o) (fun _ _ => Some []) (o_hook o) (o_encodable o) (o_spread o) (o_parents o) (o_types o) (o_py o) (o_refs o) (o_sort o).
Lemma vfs_quiet o pl min t wh fs ip : install_vfs o pl min t wh = IOk (fs, ip) ->
  exists fs0 outs, install_vfs (quiet o) pl min t wh = IOk (fs0, ip) /\ o_compile o t (filter is_py (map snd (o_py o fs0))) = Some outs /\
  fs = fold_left (fun fs r => set_key (ref_full r) r fs) outs fs0.
Proof.
  unfold install_vfs. cbn [quiet o_wheel o_spread o_digest o_types o_py o_compile]. destruct (dist_info_dir wh) as [info|]; [|discriminate].
  change (root_dir (quiet o)) with (root_dir o).
  destruct (root_dir o (pl_scheme pl) info wh) as [root|]; [|discriminate].
  destruct (spread _ _ _ _ _) as [[fs1 types]|?| |]; try discriminate. destruct (rewrite_python _ _ _ _) as [fs2|?| |]; try discriminate.
  cbv zeta. destruct (o_compile o t _) as [outs|] eqn:CO; [|discriminate]. intros H. apply IOk_inj, pair_equal_spec in H as [<- <-].
  do 2 eexists. split; [reflexivity|]. split; [exact CO|reflexivity].
Qed.
Lemma made_content digest pl min key k f r : made_from digest pl min key k f r ->
  forall text ok, zf_content f = Bytes text ok -> ref_content r = Bytes (if is_script key then shebang_line (pl_console pl) (pl_graphical pl) text else text) ok.
Proof.
  unfold made_from. destruct (is_script key).
  - intros R text ok C. destruct (rewritten_text _ _ _ _ R) as (text' & ok' & C1 & C2 & _). rewrite created_content, C in C1. injection C1 as <- <-. exact C2.
  - intros -> text ok C. rewrite created_content. exact C.
Qed.
Lemma vfs_compiles o pl min t wh fs ip info root : fair o -> inner_scheme (pl_scheme pl) -> inner_names wh -> never_nested (pl_scheme pl) wh ->
  install_vfs o pl min t wh = IOk (fs, ip) -> dist_info_dir wh = Some info -> root_dir o (pl_scheme pl) info wh = Some root ->
  exists fs0 outs, compiles o pl t wh root info outs /\ fs = fold_left (fun fs r => set_key (ref_full r) r fs) outs fs0 /\
    install_vfs (quiet o) pl min t wh = IOk (fs0, ip) /\
    forall k r, get_key k fs0 = Some r -> exists f key, In f wh /\ destination (pl_scheme pl) root (data_name info) (z_name (zf_header f)) = Some (key, k) /\
       made_from (o_digest o) pl min key k f r /\ ~ In k (left_out root info).
Proof.
  intros FO HS HN NN IV DI RD. destruct (vfs_quiet _ _ _ _ _ _ _ IV) as (fs0 & outs & Q & CO & E). exists fs0, outs.
  assert (FQ : fair (quiet o)) by exact FO.
  destruct (vfs_places _ _ _ _ _ _ _ FQ HS HN NN Q) as (info' & root' & IO & RO & RD' & DI' & _ & ND & PL).
  change (root_dir (quiet o)) with (root_dir o) in RD'. assert (info' = info) by congruence. subst info'. assert (root' = root) by congruence. subst root'.
  assert (PRE : forall k r, get_key k fs0 = Some r -> exists f key, In f wh /\ destination (pl_scheme pl) root (data_name info) (z_name (zf_header f)) = Some (key, k) /\
       made_from (o_digest o) pl min key k f r /\ ~ In k (left_out root info)).
  { intros k r G. destruct (PL k r G) as [(refs & outs' & C & J & _)|X]; [|exact X]. cbn [quiet o_compile] in C. injection C as <-. destruct J. }
  split; [|auto]. exists (filter is_py (map snd (o_py o fs0))). split; auto. apply Forall_forall. intros r I. apply filter_In in I as [I PY]. split; [exact PY|].
  apply in_map_iff in I as ([k r'] & <- & I). cbn [snd] in *. destruct FO as (_ & _ & _ & _ & FP & _). apply (Permutation_in _ (FP fs0)) in I.
  apply in_get_key in I; auto. destruct (PRE k r' I) as (f & key & If & D & M & _). exists f, key. split; auto.
  pose proof HN as HN'. unfold inner_names in HN'. rewrite Forall_forall in HN'. destruct (dest_plain _ _ _ _ _ _ HS (root_inner _ _ _ _ _ HS RD) (HN' f If) D) as (cs & -> & P & N).
  rewrite (made_full _ _ _ _ _ _ _ P N M). split; [exact D|]. eapply made_content; eauto.
Qed.
Theorem wheel_origin o fuel pl pl' min mx wh l : fair o -> good_names o -> sanitize pl = Some pl' ->
  inner_scheme (pl_scheme pl') -> inner_names wh -> never_nested (pl_scheme pl') wh ->
  install_wheel o fuel pl min mx wh = IOk l ->
  exists info root, info_of wh info /\ root_of (pl_scheme pl') root /\ dist_info_dir wh = Some info /\
    root_dir o (pl_scheme pl') info wh = Some root /\ Forall (origin o pl' min (max_time o wh mx) wh root info l) l.
Proof.
  intros FO GN S HS HN NN H. apply install_inv in H as (pl2 & fs & ip & fs1 & fs2 & refs & S2 & IC & IV & HK & AP & TE & LR).
  assert (pl2 = pl') by congruence. subst pl2. destruct (vfs_places _ _ _ _ _ _ _ FO HS HN NN IV) as (info & root & IO & RO & RD & DI & _ & ND & _).
  destruct (vfs_compiles _ _ _ _ _ _ _ _ _ FO HS HN NN IV DI RD) as (fs0 & outs & CO & EF & _ & PL).
  exists info, root. split; auto. split; auto. split; auto. split; auto. assert (GM := vfs_good _ _ _ _ _ _ _ FO GN HS HN NN IV).
  assert (GM1 : good_map fs1) by (destruct GN as [_ GH]; destruct (vfs_info _ _ _ _ _ _ _ FO HS HN NN IV); eapply GH; eauto).
  destruct FO as (F1 & F2 & F2' & F3 & F4 & F5 & F6).
  destruct (parents_spec _ _ _ _ _ GM1 (F2 fs1) (F2' fs1) AP) as (GM2 & Q1 & Q2 & Q3).
  destruct (layer_refs _ _ _ _ _ _ F6 (F5 fs2) TE LR) as [L1 L2].
  assert (NMK : forall k r, In (k, r) fs2 -> clean (ref_full r) = k).
  { intros k r I. destruct GM2 as [_ G]. rewrite Forall_forall in G. destruct (G _ I) as (E & C & _). cbn [fst snd] in E, C. rewrite <- E. exact C. }
  apply Forall_forall. intros e I. destruct (L1 e I) as (k & r & fr & Ik & T & W).
  assert (Gk : get_key k fs2 = Some r) by (apply in_get_key; [apply GM2|exact Ik]).
  destruct (Q2 k r Gk) as [G1|(_ & -> & n & In' & B)].
  - assert (DEC : get_key k fs = Some r \/ get_key k fs <> Some r).
    { destruct (get_key k fs) as [r0|]; [|right; discriminate]. destruct (vref_dec r0 r); [left|right]; congruence. }
    destruct DEC as [G0|G0].
    + rewrite EF in G0. apply set_outs_get in G0 as [[J EK]|G0]; [|destruct (PL k r G0) as (f & key & J & D & M & LO)].
      * eapply from_compiler; eauto. eapply ref_entry; eauto.
      * unfold inner_names in HN. rewrite Forall_forall in HN. destruct (dest_plain _ _ _ _ _ _ HS (root_inner _ _ _ _ _ HS RD) (HN f J) D) as (cs & -> & P & N).
        destruct (entry_made _ _ _ _ _ _ _ _ _ _ _ _ P N D M T W) as [EF0 _]. eapply from_archive; eauto. destruct EF0 as (key' & D' & _). rewrite D in D'. congruence.
    + eapply from_hook; [exists ip; split; [exact IV|exact HK]| | |]; eauto. eapply ref_entry; eauto.
  - assert (X : exists r', In (n, r') fs2).
    { assert (Y : In n (map fst fs2)).
      { apply in_map_iff in In' as ([n' r'] & <- & In'). apply in_get_key in In'; [|apply GM1]. apply Q1 in In'. apply get_key_in in In'. change n' with (fst (n', r')). now apply in_map. }
      apply in_map_iff in Y as ([n' r'] & <- & Y). eauto. }
    destruct X as [r' Ir']. destruct (L2 n r' Ir') as (fr' & e' & Ie' & T' & W').
    destruct (mem_entry _ _ _ _ _ _ T W) as (NM & TY & MO & CT). destruct (ref_entry _ _ _ _ _ T' W') as [NM' _].
    eapply parent_of; eauto. rewrite NM, NM', (NMK _ _ Ir').
    pose proof (NMK _ _ Ik) as X. cbn [ref_full mem_dir m_full] in X. now rewrite X.
Qed.

(** Times of the files of the archive *)
Theorem wheel_parents o fuel pl pl' min mx wh l : fair o -> good_names o -> sanitize pl = Some pl' ->
  inner_scheme (pl_scheme pl') -> inner_names wh -> never_nested (pl_scheme pl') wh ->
  install_wheel o fuel pl min mx wh = IOk l ->
  forall e d, In e l -> below d (th_name (fst e)) -> precedes d (th_name (fst e)) (map (fun e => th_name (fst e)) l).
Proof.
  intros FO GN S HS HN NN H e d Ie B. apply install_inv in H as (pl2 & fs & ip & fs1 & fs2 & refs & S2 & IC & IV & HK & AP & TE & LR).
  assert (pl2 = pl') by congruence. subst pl2. assert (GM := vfs_good _ _ _ _ _ _ _ FO GN HS HN NN IV).
  assert (GM1 : good_map fs1) by (destruct GN as [_ GH]; destruct (vfs_info _ _ _ _ _ _ _ FO HS HN NN IV); eapply GH; eauto).
  destruct FO as (F1 & F2 & F2' & F3 & F4 & F5 & F6).
  destruct (parents_spec _ _ _ _ _ GM1 (F2 fs1) (F2' fs1) AP) as (GM2 & Q1 & Q2 & Q3).
  assert (NMF : Permutation (map fr_name refs) (map fst fs2) /\ Forall (fun r => clean_path (fr_name r)) refs).
  { destruct GM2 as [_ G]. assert (G' : Forall (fun kr => fst kr = ref_full (snd kr) /\ clean_path (fst kr) /\ is_abs (fst kr) = false) (o_refs o fs2)) by (eapply Permutation_Forall; [symmetry; apply F5|exact G]).
    assert (X : map fr_name refs = map fst (o_refs o fs2) /\ Forall (fun r => clean_path (fr_name r)) refs).
    { clear -TE G'. apply tar_entries_ok in TE. revert refs TE. induction (o_refs o fs2) as [|[k r] m IH]; intros refs TE; cbn [map] in TE; inversion TE as [|? ? ? ? T TE']; subst.
      - split; [reflexivity|constructor].
      - inversion G' as [|? ? (E & C & A) G'']; subst. cbn [fst snd] in *. destruct (IH G'' _ TE') as [IH1 IH2].
        assert (FN : fr_name y = k).
        { unfold tar_entry in T. destruct (ref_header r); [|discriminate]. injection T as <-. cbn [fr_name]. rewrite <- E. exact C. }
        cbn [map fst]. split; [now rewrite FN, IH1|]. constructor; auto. now rewrite FN. }
    destruct X as [X1 X2]. split; auto. rewrite X1. apply Permutation_map, F5. }
  destruct NMF as [NP NC]. destruct (layer_entries _ _ _ _ _ F6 LR) as (m & P & F).
  assert (IN : In (th_name (fst e)) (map fr_name refs)).
  { destruct (forall2_in_r _ _ _ _ F Ie) as (fr & Im & (h & _ & NM & _) & _). rewrite NM. apply in_map. eapply Permutation_in; eauto. }
  eapply parents_first; eauto.
  - eapply Permutation_NoDup; [symmetry; exact NP|apply GM2].
  - eapply Permutation_in; [symmetry; exact NP|]. eapply Q3; [|exact B]. eapply Permutation_in; eauto.
Qed.

(** ** Integrity *)
Lemma wh_open_in wh name text ok : wh_open wh name = Bytes text ok -> exists f, In f wh /\ clean (z_name (zf_header f)) = clean name /\ zf_content f = Bytes text ok.
Proof.
  unfold wh_open. destruct (find _ wh) as [f|] eqn:F; [|discriminate]. intros C. apply find_some in F as [I E]. apply str_eqb_eq in E. eauto.
Qed.
Lemma wh_open_unique wh f name : distinct_names wh -> In f wh -> clean (z_name (zf_header f)) = clean name -> wh_open wh name = zf_content f.
Proof.
  intros N I E. unfold wh_open. unfold distinct_names in N. induction wh as [|g wh IH]; [destruct I|]. cbn [find map] in *. inversion N as [|? ? N1 N2]; subst.
  destruct (str_eqb (clean (z_name (zf_header g))) (clean name)) eqn:X.
  - apply str_eqb_eq in X. destruct I as [->|I]; auto. exfalso. apply N1. rewrite X, <- E. apply in_map_iff. eauto.
  - destruct I as [->|I]; [rewrite E, str_eqb_refl in X; discriminate|]. auto.
Qed.
Lemma clean_inj_inner p q : inner p -> inner q -> clean p = clean q -> clean_comps p = clean_comps q.
Proof. intros P Q E. rewrite !clean_inner in E by auto. apply join_inj in E; auto; [apply P|apply Q]. Qed.
Theorem integrity_ok csv digest wh info : inner_names wh -> distinct_names wh -> integrity_check csv digest wh = true -> dist_info_dir wh = Some info ->
  exists record record_text ok rows, In record wh /\ clean_comps (z_name (zf_header record)) = [info; $"RECORD"] /\
  zf_content record = Bytes record_text ok /\ csv record_text = Some rows /\
  forall f, In f wh -> zip_is_dir f = false ->
    In (clean_comps (z_name (zf_header f))) [[info; $"RECORD"]; [info; $"RECORD.jws"]; [info; $"RECORD.p7s"]] \/
    exists name algo text ok', In [name; algo ++ $"=" ++ digest algo text; itoa (Z.of_nat (length text))] rows /\
    clean name = clean (z_name (zf_header f)) /\ In algo [$"sha256"; $"sha384"; $"sha512"] /\ zf_content f = Bytes text ok'.
Proof.
  intros HN DN H DI. unfold integrity_check in H. rewrite DI in H. destruct (record_rows csv info wh) as [rows|] eqn:RR; [|discriminate].
  apply andb_true_iff in H as [H1 H2]. rewrite forallb_forall in H1, H2. unfold record_rows in RR.
  destruct (wh_open wh (path_join [info; $"RECORD"])) as [| |rt ok] eqn:WO; try discriminate.
  destruct (wh_open_in _ _ _ _ WO) as (record & IR & ER & CR).
  destruct (info_plain _ _ HN DI) as [PI _]. destruct (inner_comp _ PI) as [II CI].
  unfold inner_names in HN. rewrite Forall_forall in HN.
  assert (PJ : forall x, plain_comp x -> path_join [info; x] = join $"/" [info; x] /\ plain_path [info; x]).
  { intros x P. destruct (inner_comp _ P) as [IX CX]. rewrite join_inner, CI, CX by auto. split; auto; constructor; auto. }
  assert (NMC : forall f x, In f wh -> plain_comp x -> clean (z_name (zf_header f)) = path_join [info; x] -> clean_comps (z_name (zf_header f)) = [info; x]).
  { intros f x I P E. destruct (PJ x P) as [J PP]. rewrite J, (clean_inner _ (HN f I)) in E. apply join_inj in E; [exact E|apply (HN f I)|exact PP]. }
  assert (PR : plain_comp $"RECORD") by (now apply plain_name).
  assert (PRJ : clean (path_join [info; $"RECORD"]) = path_join [info; $"RECORD"]).
  { destruct (PJ _ PR) as [-> P]. apply plain_clean_text; auto. discriminate. }
  rewrite PRJ in ER. exists record, rt, ok, rows. split; auto. split; [now apply NMC|]. split; auto. split; auto.
  intros f I D. set (name := clean (z_name (zf_header f))).
  destruct (str_eqb name (path_join [info; $"RECORD.jws"]) || str_eqb name (path_join [info; $"RECORD.p7s"])) eqn:SG.
  { left. apply orb_true_iff in SG as [E|E]; apply str_eqb_eq in E; apply NMC in E; auto; try (now apply plain_name); rewrite E; cbn; auto. }
  assert (FC : In name (files_to_check info wh)).
  { unfold files_to_check. apply filter_In. split; [|now rewrite SG]. apply in_map_iff. exists f. split; auto. apply filter_In. split; auto. now rewrite D. }
  apply H2 in FC. apply existsb_exists in FC as (n' & In' & E). apply str_eqb_eq in E. subst n'. apply in_concat in In' as (l & Il & In').
  apply in_map_iff in Il as (row & <- & Ir). pose proof (H1 _ Ir) as OK. unfold row_name in In'. destruct row as [|n [|h [|s [|]]]]; try (now destruct In').
  destruct In' as [NN|[]]. unfold row_ok in OK. rewrite NN in OK. apply andb_true_iff in OK as [O1 O2].
  destruct (str_eqb name (path_join [info; $"RECORD"])) eqn:ISR.
  { left. apply str_eqb_eq in ISR. apply NMC in ISR; auto. rewrite ISR. now left. }
  rewrite orb_false_r in O1. apply negb_true_iff, orb_false_iff in O1 as [NH NS]. rewrite NH, NS in O2. cbn [orb] in O2.
  unfold check_file in O2. rewrite (wh_open_unique wh f) in O2; auto; [|unfold name; now rewrite clean_idem].
  destruct (zf_content f) as [| |text okt] eqn:CF; try discriminate. destruct (cut "=" h) as [algo digest_part] eqn:CU. cbn [fst] in O2.
  destruct algo as [|a0 algo0].
  { exfalso. apply andb_true_iff in O2 as [O2 _]. apply str_eqb_eq in O2. subst h. discriminate. }
  set (algo := a0 :: algo0) in *. destruct (existsb (str_eqb algo) strong_hashes) eqn:ST; [|discriminate].
  apply andb_true_iff in O2 as [O2 O3]. apply str_eqb_eq in O2. apply str_eqb_eq in O3. right. exists n, algo, text, okt. rewrite O2, O3. split; auto. split; auto. split; auto.
  apply existsb_exists in ST as (x & Ix & Ex). apply str_eqb_eq in Ex. now subst x.
Qed.
Lemma suffix_data info : has_suffix $".dist-info" info = true -> str_eqb info (data_name info) = false.
Proof.
  intros H. apply str_eqb_neq. intros E. apply has_suffix_spec in H as (t & ->). unfold data_name in E. 
  assert (X : trim_suffix $".dist-info" (t ++ $".dist-info") = t) by apply trim_suffix_app. rewrite X in E. apply app_inv_head in E. discriminate.
Qed.
(** archive/zip takes an entry for a directory only if its name or its attributes say so *)
Lemma bit_test x k : bit_set x (2 ^ k) = N.testbit x k.
Proof.
  unfold bit_set. destruct (N.testbit x k) eqn:E.
  - apply negb_true_iff, N.eqb_neq. intros Z. assert (X : N.testbit (N.land x (2 ^ k)) k = true) by now rewrite N.land_spec, E, N.pow2_bits_true. rewrite Z in X. now rewrite N.bits_0 in X.
  - apply negb_false_iff, N.eqb_eq, N.bits_inj_0. intros n. rewrite N.land_spec. destruct (N.eq_dec k n) as [->|NE]; [now rewrite E|]. rewrite N.pow2_bits_false by auto. apply andb_false_r.
Qed.
Lemma copy_bit_dir x mask k y : k <> 31%N -> N.testbit (copy_bit x mask (2 ^ k) y) 31 = N.testbit y 31.
Proof. intros K. unfold copy_bit. destruct (bit_set x mask); auto. rewrite N.lor_spec, N.pow2_bits_false by auto. apply orb_false_r. Qed.
Lemma unix_mode_dir m : bit_set (zip_unix_mode m) go_dir = N.eqb (N.land m ModeFmt) ModeFmtDir.
Proof.
  unfold go_dir. rewrite bit_test. unfold zip_unix_mode, go_setgid, go_setuid, go_sticky. cbv zeta. rewrite !copy_bit_dir by discriminate.
  assert (Z : N.testbit (N.land m 511) 31 = false) by (rewrite N.land_spec; apply andb_false_r).
  repeat match goal with |- context [N.eqb (N.land m ModeFmt) ?k] => destruct (N.eqb_spec (N.land m ModeFmt) k) as [E|_]; [rewrite ?E; try (rewrite ?N.lor_spec, Z; reflexivity)|] end; try exact Z.
Qed.
Lemma zip_is_dir_marked f : zip_is_dir f = true -> entry_is_dir f = true \/ marked_dir (zf_header f).
Proof.
  unfold zip_is_dir, zip_mode, entry_is_dir, marked_dir. destruct (zf_header f) as [name size attrs creator modified]. cbn [z_name z_attrs z_creator]. cbv zeta.
  destruct (has_suffix $"/" name); auto. right. rewrite !N.shiftr_div_pow2 in *. change (2 ^ 8)%N with 256%N in *. change (2 ^ 16)%N with 65536%N in *.
  revert H. destruct (N.eqb_spec (creator / 256) 3) as [->|N3]; [|destruct (N.eqb_spec (creator / 256) 19) as [->|N19]]; cbn [orb].
  1,2: rewrite unix_mode_dir; intros H; left; split; [cbn; auto|now apply N.eqb_eq].
  intros H. right. assert (IN : In (creator / 256)%N [0; 11; 14]%N).
  { destruct (N.eqb_spec (creator / 256) 11) as [->|N11]; [cbn; auto|]. destruct (N.eqb_spec (creator / 256) 14) as [->|N14]; [cbn; auto|].
    destruct (N.eqb_spec (creator / 256) 0) as [->|N0]; [cbn; auto|discriminate]. }
  split; auto. rewrite <- bit_test. change (2 ^ 4)%N with 16%N.
  assert (X : bit_set (zip_msdos_mode attrs) go_dir = true) by (destruct IN as [E|[E|[E|[]]]]; rewrite <- E in H; exact H).
  unfold zip_msdos_mode in X. destruct (bit_set attrs 16); auto. exfalso. destruct (bit_set attrs 1); discriminate.
Qed.
Theorem wheel_recorded o fuel pl pl' min mx wh l : fair o -> good_names o -> sanitize pl = Some pl' ->
  inner_scheme (pl_scheme pl') -> inner_names wh -> never_nested (pl_scheme pl') wh ->
  distinct_names wh -> honest_dirs wh ->
  install_wheel o fuel pl min mx wh = IOk l ->
  exists info root, info_of wh info /\ root_of (pl_scheme pl') root /\ Forall (origin o pl' min (max_time o wh mx) wh root info l) l /\
  forall f e, In f wh -> In e l -> entry_from pl' root (data_name info) f e -> ~ In (th_name (fst e)) (left_out root info) ->
    entry_is_dir f = false -> recorded o wh info f.
Proof.
  intros FO GN S HS HN NN DN HD H. pose proof (install_inv _ _ _ _ _ _ _ H) as (pl2 & fs & ip & fs1 & fs2 & refs & S2 & IC & IV & _).
  assert (pl2 = pl') by congruence. subst pl2.
  destruct (wheel_origin _ _ _ _ _ _ _ _ FO GN S HS HN NN H) as (info & root & IO & RO & DI & RD & OR).
  exists info, root. split; auto. split; auto. split; auto.
  intros f e I Ie EF LO ND. destruct (integrity_ok _ _ _ _ HN DN IC DI) as (record & rt & ok & rows & IR & CR & BR & CSV & ALL).
  unfold honest_dirs in HD. rewrite Forall_forall in HD. destruct (ALL f I) as [BAD|(name & algo & text & ok' & IN & NM & AL & CF)].
  { destruct (zip_is_dir f) eqn:Z; auto. destruct (zip_is_dir_marked f Z) as [X|X]; [congruence|]. apply (HD f I) in X. congruence. }
  - exfalso. apply LO. destruct EF as (key & D & _). unfold destination in D. destruct IO as [IO _].
    assert (Y : forall x, clean_comps (z_name (zf_header f)) = [info; x] -> th_name (fst e) = join $"/" (clean_comps root ++ [info; x])).
    { intros x E. rewrite E, (suffix_data info IO) in D. congruence. }
    unfold left_out. cbn [map In] in BAD |- *. destruct BAD as [E|[E|[E|[]]]]; symmetry in E; apply Y in E; rewrite E; auto.
  - exists record, rt, ok, rows. repeat split; auto. exists name, algo, (itoa (Z.of_nat (length text))), text, ok'. auto.
Qed.
