(** Proofs about Model/Inspect.v. *)
From Coq Require Import String Ascii List Bool ZArith Lia Permutation.
From Verif.Model Require Import GoStr GoPath Tar Squash VfsFS LookPath WheelName Platform Inspect.
From Verif.Spec Require Import PathSpec SquashSpec VfsFSSpec LookPathSpec InspectSpec.
From Verif.Proofs Require Import Order GoStrFacts GoPathFacts SquashTree SquashLoad SquashSim SquashStack SquashWf SquashInv SquashWrite SquashReload SquashMain SquashFinal SquashMore SquashLinks SquashHard SquashCheck VfsFSFacts VfsImage VfsBack  WheelNameFacts LookPathFacts.
Import ListNotations.
Local Open Scope nat_scope.

(** *** C73: names of interpreters *)
Lemma as_text_snoc d x : as_text (d ++ [x]) = (match d with [] => [] | _ => as_text d end) ++ $"/" ++ x.
Proof.
  unfold as_text, path_text. destruct d as [|a d]; [reflexivity|]. rewrite <- app_assoc. f_equal. revert a. induction d as [|b d IH]; intros a; [reflexivity|].
  change (join $"/" (a :: b :: d)) with (a ++ $"/" ++ join $"/" (b :: d)). change (join $"/" ((a :: b :: d) ++ [x])) with (a ++ $"/" ++ join $"/" ((b :: d) ++ [x])).
  rewrite IH, <- !app_assoc. reflexivity.
Qed.
Definition dir_part (d : path) : str := match d with [] => $"/" | _ => as_text d ++ $"/" end.
Lemma as_text_dir d x : as_text (d ++ [x]) = dir_part d ++ x.
Proof. rewrite as_text_snoc. destruct d; [reflexivity|]. unfold dir_part. now rewrite <- app_assoc. Qed.
Lemma split_text d x : ~ In slash x -> path_split (as_text (d ++ [x])) = (dir_part d, x).
Proof. intros N. rewrite as_text_snoc, path_split_app by auto. now destruct d. Qed.
Lemma join_text d y : plain_path (d ++ [y]) -> path_join [dir_part d; y] = as_text (d ++ [y]).
Proof.
  intros P. pose proof P as P'. apply Forall_app in P' as [PD PY]. inversion PY as [|? ? Y _]; subst. rewrite join_plain1; auto; [|destruct d; discriminate].
  replace (is_abs (dir_part d)) with true by now destruct d. replace (clean_comps (dir_part d)) with d; [reflexivity|]. destruct d as [|a d]; [reflexivity|].
  unfold dir_part. change $"/" with ($"/" ++ []). rewrite clean_comps_app by discriminate. unfold as_text. rewrite clean_comps_text by now apply plain_clean. symmetry. apply rev_involutive.
Qed.
Lemma plain_swap (d : path) (pre pre' v : str) : pre' <> [] -> ~ In slash pre' -> ~ In "."%char pre' -> plain_path (d ++ [pre ++ v]) -> plain_path (d ++ [pre' ++ v]).
Proof.
  intros N S D H. apply Forall_app in H as [H1 H2]. apply Forall_app. split; auto. inversion H2 as [|? ? (A & B & _) _]; subst. constructor; auto.
  destruct pre' as [|c pre']; [congruence|]. split; [discriminate|]. split; [|split].
  - rewrite in_app_iff in *. tauto.
  - intros E. apply D. injection E as -> _. now left.
  - intros E. apply D. injection E as -> _. now left.
Qed.
Lemma python_ok : python <> [] /\ ~ In slash python /\ ~ In "."%char python.
Proof. split; [discriminate|]. split; cbn; intuition discriminate. Qed.
Lemma pythonw_ok : pythonw <> [] /\ ~ In slash pythonw /\ ~ In "."%char pythonw.
Proof. split; [discriminate|]. split; cbn; intuition discriminate. Qed.
Lemma prefix_w v : has_prefix pythonw (python ++ v) = true <-> hd_error v = Some "w"%char.
Proof.
  destruct v as [|c v]; [split; discriminate|]. change (has_prefix pythonw (python ++ c :: v)) with (byte_eqb "w" c && true). rewrite andb_true_r, byte_eqb_eq. split; cbn; congruence.
Qed.
Theorem shebangs_ok (look : str -> looked) (ex : path -> Prop) name d f : look name = Found (as_text (d ++ [f])) -> plain_path (d ++ [f]) ->
  (forall x, variant f x -> plain_path (d ++ [x]) -> match look (as_text (d ++ [x])) with
     | Found s => s = as_text (d ++ [x]) /\ ex (d ++ [x]) | NotFound => ~ ex (d ++ [x]) | Crashed => True end) ->
  match shebangs look name with
  | Shebangs c g => interpreters ex d f c g
  | ShebangErr => False
  | ShebangCrash => exists s, look s = Crashed
  end.
Proof.
  intros L P H. assert (NS : forall x, plain_path (d ++ [x]) -> ~ In slash x). { intros x Q. apply Forall_app in Q as [_ Q]. inversion Q as [|? ? (A & B & _) _]; auto. }
  unfold shebangs. rewrite L, split_text by auto. destruct (has_prefix pythonw f) eqn:W.
  - apply has_prefix_spec in W as [v ->]. rewrite trim_prefix_app. assert (P1 : plain_path (d ++ [python ++ v])) by (eapply plain_swap; try apply python_ok; eauto).
    rewrite join_text by auto. pose proof (H _ (or_intror (ex_intro _ v (or_introl (conj eq_refl eq_refl)))) P1) as HV. change ($"python") with python in HV. destruct (look (as_text (d ++ [python ++ v]))) as [s| |] eqn:E.
    + destruct HV as [-> X]. unfold graphical_of. rewrite split_text by auto. rewrite has_prefix_app. cbn [andb]. destruct (has_prefix pythonw (python ++ v)) eqn:W2; cbn [negb].
      * left. exists v. split; auto.
      * rewrite trim_prefix_app, join_text by auto. pose proof (H _ (or_introl eq_refl) P) as HW.
        destruct (look (as_text (d ++ [pythonw ++ v]))) as [s| |] eqn:EW.
        -- destruct HW as [-> _]. left. exists v. split; auto.
        -- left. exists v. auto.
        -- eauto.
    + unfold graphical_of. rewrite split_text by auto. rewrite (has_prefix_app pythonw), andb_false_r. left. exists v. split; auto.
    + eauto.
  - unfold graphical_of. rewrite split_text by auto. rewrite W. cbn [negb]. rewrite andb_true_r. destruct (has_prefix python f) eqn:PY.
    + apply has_prefix_spec in PY as [v ->]. rewrite trim_prefix_app. assert (P1 : plain_path (d ++ [pythonw ++ v])) by (eapply plain_swap; try apply pythonw_ok; eauto).
      rewrite join_text by auto.
      assert (NW : hd_error v <> Some "w"%char). { intros X. apply prefix_w in X. congruence. }
      pose proof (H _ (or_intror (ex_intro _ v (or_intror (conj eq_refl eq_refl)))) P1) as HW. change ($"pythonw") with pythonw in HW. destruct (look (as_text (d ++ [pythonw ++ v]))) as [s| |] eqn:EW.
      * destruct HW as [-> X]. right. left. exists v. split; auto. 
      * right. left. exists v. split; auto.
      * eauto.
    + right. right. split; auto. intros v ->. rewrite has_prefix_app in PY. discriminate.
Qed.

(** In an image *)
Lemma look_found utf8 n layers cfg name s : look_path utf8 n layers cfg name = Found s -> exists t, load_layers n true layers = Ret t /\ check_executable utf8 n t s = ChkOk.
Proof.
  unfold look_path. destruct (load_layers n true layers) as [t| |] eqn:L; try discriminate. intros E. exists t. split; auto. unfold look in E. destruct (contains_byte slash name).
  - cbv zeta in E. set (full := if negb _ then _ else _) in E. destruct (check_executable utf8 n t full) eqn:C; try discriminate. injection E as <-. exact C.
  - revert E. generalize (img_path cfg). induction l as [|dir l IH]; [discriminate|]. cbn [look_in]. cbv zeta. set (full := if negb _ then _ else _). destruct (check_executable utf8 n t full) eqn:C; intros E; try discriminate; auto. injection E as <-. exact C.
Qed.
Lemma found_path utf8 n layers cfg name s : handled layers -> look_path utf8 n layers cfg name = Found s -> exists d f, s = as_text (d ++ [f]) /\ plain_path (d ++ [f]).
Proof.
  intros H E. destruct (look_path_clean _ _ _ _ _ _ H E) as [C A]. rewrite clean_text, A in C. assert (P : plain_path (clean_comps s)). { apply clean_list_true. rewrite <- A. apply clean_comps_list. }
  destruct (clean_comps s) as [|x l] using rev_ind.
  - exfalso. destruct (look_found _ _ _ _ _ _ E) as (t & _ & K). rewrite <- C in K. revert K. unfold check_executable. change (negb (is_abs (path_text true []))) with false. cbn [skipn path_text]. unfold open.
    replace (valid_path utf8 _) with false; [discriminate|]. unfold valid_path. change (str_eqb _ dot || forallb _ _) with false. now rewrite andb_false_r.
  - exists l, x. rewrite <- C. auto.
Qed.
Lemma named_text wd p : plain_path p -> named wd (as_text p) = p.
Proof.
  intros P. unfold named. change (is_abs (as_text p)) with true. unfold as_text. change (($"/" ++ [] ++ path_text true p)) with ($"/" ++ path_text true p).
  unfold clean_comps. change (is_abs ($"/" ++ path_text true p)) with true. rewrite split_slash. cbn [fold_left]. rewrite fold_skip.
  pose proof (clean_comps_text true p (plain_clean true p P)) as Q. unfold clean_comps in Q. change (is_abs (path_text true p)) with true in Q. exact Q.
Qed.
Theorem shebangs_image utf8 n layers cfg name : handled layers ->
  match shebangs (look_path utf8 n layers cfg) name with
  | Shebangs c g => exists d f, look_path utf8 n layers cfg name = Found (as_text (d ++ [f])) /\
      ((forall x, variant f x -> askable utf8 (d ++ [x])) -> interpreters (runs (unpack empty_root layers)) d f c g)
  | ShebangErr => look_path utf8 n layers cfg name = NotFound
  | ShebangCrash => exists s, look_path utf8 n layers cfg s = Crashed
  end.
Proof.
  intros H. destruct (look_path utf8 n layers cfg name) as [s| |] eqn:E.
  - destruct (found_path _ _ _ _ _ _ H E) as (d & f & -> & P).
    assert (G : forall look1, look1 = look_path utf8 n layers cfg -> match shebangs look1 name with
      | Shebangs c g => True | ShebangErr => False | ShebangCrash => exists s, look1 s = Crashed end).
    { intros look1 ->. unfold shebangs. rewrite E. destruct (path_split _) as [dp fp]. assert (GR : forall x, match graphical_of (look_path utf8 n layers cfg) (as_text (d ++ [f])) x with Shebangs _ _ => True | ShebangErr => False | ShebangCrash => exists s, look_path utf8 n layers cfg s = Crashed end).
      { intros x. unfold graphical_of. destruct (path_split x). destruct (_ && _); auto. destruct (look_path utf8 n layers cfg (path_join _)) eqn:X; eauto. }
      destruct (has_prefix pythonw fp); [|apply GR]. destruct (look_path _ _ _ _ (path_join _)) eqn:X; [apply GR|apply GR|eauto]. }
    specialize (G _ eq_refl). destruct (shebangs _ _) as [c g| |] eqn:S; auto; [|destruct G].
    exists d, f. split; auto. intros AK. pose proof (shebangs_ok (look_path utf8 n layers cfg) (runs (unpack empty_root layers)) name d f E P) as Q. rewrite S in Q. apply Q.
    intros x V PX. assert (C : exists wd env, forall z, look_path utf8 n layers cfg z = look_path utf8 n layers (Some (mkImageConfig wd env)) z).
    { destruct cfg as [[wd env]|]; [exists wd, env; reflexivity|exists [], []; intros z; apply look_path_no_config]. }
    destruct C as (wd & env & C). rewrite C. pose proof (look_path_named utf8 n layers wd env (as_text (d ++ [x])) H) as N. rewrite named_text in N by auto. apply N; auto.
    + left. reflexivity.
    + right. now apply as_text_clean.
  - unfold shebangs. rewrite E. reflexivity.
  - unfold shebangs. rewrite E. eauto.
Qed.
(** On the host *)
Lemma native_abs ex dirs x : contains_byte slash x = true -> native_look ex dirs x = if ex x then Found x else NotFound.
Proof. intros H. unfold native_look. now rewrite H. Qed.
Theorem shebangs_native ex dirs name d f : native_look ex dirs name = Found (as_text (d ++ [f])) -> plain_path (d ++ [f]) ->
  exists c g, shebangs (native_look ex dirs) name = Shebangs c g /\ interpreters (fun p => ex (as_text p) = true) d f c g.
Proof.
  intros E P. pose proof (shebangs_ok (native_look ex dirs) (fun p => ex (as_text p) = true) name d f E P) as Q.
  assert (N : forall s, native_look ex dirs s <> Crashed).
  { intros s. unfold native_look. destruct (contains_byte slash s); [destruct (ex s); discriminate|]. clear. induction dirs as [|dir dirs IH]; [discriminate|]. cbn [native_in]. cbv zeta. destruct (ex _); [discriminate|auto]. }
  destruct (shebangs _ _) as [c g| |] eqn:S.
  - exists c, g. split; auto. apply Q. intros x _ _. rewrite native_abs by reflexivity. destruct (ex (as_text (d ++ [x]))) eqn:X; [auto|congruence].
  - exfalso. apply Q. intros x _ _. rewrite native_abs by reflexivity. destruct (ex (as_text (d ++ [x]))) eqn:X; [auto|congruence].
  - exfalso. destruct Q as [s K]; [|now apply N in K]. intros x _ _. rewrite native_abs by reflexivity. destruct (ex (as_text (d ++ [x]))) eqn:X; [auto|congruence].
Qed.

(** *** C74: the owner *)
Lemma alike_owned a b p o : alike a b -> owned_by a p o -> owned_by b p o.
Proof.
  intros H (q & e & h & W & E & X & O). exists q, e, h. split; [now apply (alike_paths a b H)|]. split; [now apply (alike_ends a b)|]. split; auto.
  destruct X as [X|[c X]]; [left; eapply alike_dir; eauto|right; eapply alike_file; eauto].
Qed.
Lemma alike_undescribed a b p : alike a b -> undescribed a p -> undescribed b p.
Proof.
  intros H (q & e & W & E & X). exists q, e. split; [now apply (alike_paths a b H)|]. split; [now apply (alike_ends a b)|]. eapply alike_dir; eauto.
Qed.
Lemma anon_owner h : owner_of (anon h) = owner_of h. Proof. reflexivity. Qed.
Lemma stat_good utf8 n layers t p : handled layers -> load_layers n true layers = Ret t -> p <> [] -> plain_path p -> askable utf8 p ->
  match image_stat utf8 n t (as_text p) with
  | Owned o => owned_by (unpack empty_root layers) p o \/ undescribed (unpack empty_root layers) p
  | NoStat => forall o, ~ owned_by (unpack empty_root layers) p o
  | StatCrash => True
  end.
Proof.
  intros H L NE PP [U M]. pose proof (alike_unpack layers _ _ empty_alike) as A. rewrite load_bare in L. apply handled_bare in H.
  cut (match image_stat utf8 n t (as_text p) with Owned o => owned_by (unpack empty_root (bare layers)) p o \/ undescribed (unpack empty_root (bare layers)) p
    | NoStat => forall o, ~ owned_by (unpack empty_root (bare layers)) p o | StatCrash => True end).
  { destruct (image_stat _ _ _ _); auto.
    - intros [X|X]; [left; apply (alike_owned _ _ _ _ (alike_sym _ _ A) X)|right; apply (alike_undescribed _ _ _ (alike_sym _ _ A) X)].
    - intros X o R. apply (X o), (alike_owned _ _ _ _ A R). }
  clear A. revert H L. generalize (bare layers). clear layers. intros layers H L. pose proof H as (P & R & [m D] & K). set (fs := unpack empty_root layers) in *.
  destruct (load_image layers P) as (t' & L' & AG & WT & WV & LF & NK).
  assert (t' = t) as ->. { pose proof (more_fuel_load n (n + 4) false layers (Ret t) L ltac:(discriminate) ltac:(lia)) as Q. rewrite (L' (n + 4) ltac:(lia)) in Q. congruence. }
  assert (X : image_stat utf8 n t (as_text p) = match open utf8 n t (open_name p) with
     | OutOfFuel => StatCrash | Fail _ => NoStat | Ret (lnk, tgt) => match stat t lnk tgt with StatPanic => StatCrash | StatErr _ => NoStat | StatOk h => Owned (owner_of h) end end).
  { destruct p; [congruence|reflexivity]. }
  rewrite X. clear X. pose proof (root_dirT layers t H AG) as ROOT.
  assert (ST : forall lnk tgt, walks fs [] p lnk -> ends fs lnk tgt -> (exists N, forall k, N <= k -> open utf8 k t (open_name p) = Ret (lnk, tgt)) /\ stat_tells (fs tgt) lnk (stat t lnk tgt)).
  { intros lnk tgt W E. destruct (image_open layers P R utf8 p lnk tgt PP U W E) as (N & t2 & HN).
    assert (t2 = t) as ->. { destruct (HN (N + 4) ltac:(lia)) as (Q & _). rewrite (L' (N + 4) ltac:(lia)) in Q. congruence. }
    split; [exists N; intros k LE; apply (HN k LE)|]. destruct (HN N ltac:(lia)) as (_ & _ & Q). exact Q. }
  destruct (open utf8 n t (open_name p)) as [[lnk tgt]| |] eqn:O; auto.
  - destruct (open_back fs t (image_real layers P) AG K utf8 n p lnk tgt WV LF ROOT PP M O) as [W E]. destruct (ST lnk tgt W E) as [[N HN] S].
    assert (ONLY : forall q' e', walks fs [] p q' -> ends fs q' e' -> q' = lnk /\ e' = tgt).
    { intros q' e' W' E'. destruct (ST q' e' W' E') as [[N' HN'] _]. specialize (HN (N + N') ltac:(lia)). specialize (HN' (N + N') ltac:(lia)). rewrite HN in HN'. injection HN' as -> ->. auto. }
    destruct (stat t lnk tgt) as [x|h|]; cbn [stat_tells] in S; [| |destruct S].
    + intros o (q' & e' & h & W' & E' & F & _). destruct (ONLY q' e' W' E') as [-> ->]. destruct S as [S _]. destruct F as [F|[c F]]; congruence.
    + destruct S as [(nd & F & SH) _]. destruct nd as [m0|m0 c0]; cbn [shows] in SH.
      * destruct SH as [_ [-> | ->]]; [right; exists lnk, tgt; auto|]. left. exists lnk, tgt, (anon h). split; auto.
      * subst m0. left. exists lnk, tgt, (anon h). split; auto. split; auto. split; eauto.
  - intros o (q' & e' & h & W' & E' & F & _). destruct (ST q' e' W' E') as [[N HN] _].
    destruct (open_more utf8 t (open_name p) n (n + N) ltac:(lia)) as [Z0|Z0]; rewrite O in Z0; [discriminate|]. rewrite HN in Z0 by lia. discriminate.
Qed.
Theorem owner_first utf8 n layers t ps : handled layers -> load_layers n true layers = Ret t -> (forall p, In p ps -> p <> [] /\ plain_path p /\ askable utf8 p) ->
  match first_owner (image_stat utf8 n t) (map as_text ps) with
  | Owned o => exists pre p post, ps = pre ++ p :: post /\ (owned_by (unpack empty_root layers) p o \/ undescribed (unpack empty_root layers) p) /\
      forall p' o', In p' pre -> ~ owned_by (unpack empty_root layers) p' o'
  | NoStat => forall p o, In p ps -> ~ owned_by (unpack empty_root layers) p o
  | StatCrash => True
  end.
Proof.
  intros H L. induction ps as [|p ps IH]; intros G; [intros p o []|]. cbn [map first_owner]. destruct (G p (or_introl eq_refl)) as (NE & PP & AK).
  pose proof (stat_good utf8 n layers t p H L NE PP AK) as S. destruct (image_stat utf8 n t (as_text p)) as [o| |]; auto.
  - exists [], p, ps. split; auto.
  - specialize (IH (fun p I => G p (or_intror I))). destruct (first_owner _ _); auto.
    + destruct IH as (pre & p1 & post & -> & X & Y). exists (p :: pre), p1, post. split; auto. split; auto. intros p' o' [<-|I]; eauto.
    + intros p' o' [<-|I]; eauto.
Qed.
(** Names that are not cleaned are refused *)
Theorem stat_unclean utf8 n t name : is_abs name = true -> name <> $"/." -> clean name <> name \/ name = $"/" -> image_stat utf8 n t name = NoStat.
Proof.
  intros A ND B. unfold image_stat. rewrite A. cbn [negb]. apply has_prefix_spec in A as [r ->]. change (skipn 1 ($"/" ++ r)) with r. unfold open.
  assert (D : str_eqb r dot = false). { apply str_eqb_neq. intros ->. now apply ND. }
  replace (valid_path utf8 r) with false; [reflexivity|]. unfold valid_path. rewrite D. cbn [orb]. destruct (forallb _ (split_on slash r)) eqn:F; [|now rewrite andb_false_r]. exfalso.
  rewrite forallb_forall in F. assert (V : plain_path (split_on slash r)).
  { apply Forall_forall. intros c I. pose proof (split_on_no_sep slash r) as NS. rewrite Forall_forall in NS. specialize (NS c I). specialize (F c I). apply negb_true_iff in F. apply orb_false_iff in F as [F F3]. apply orb_false_iff in F as [F1 F2].
    apply str_eqb_neq in F1, F2, F3. repeat split; auto. }
  destruct B as [B|B].
  - apply B. rewrite clean_text. change (is_abs ($"/" ++ r)) with true. rewrite <- (join_split_on slash r). change [slash] with $"/". rewrite clean_comps_abs by auto. reflexivity.
  - assert (r = []) as -> by (apply (f_equal (@tl ascii)) in B; exact B). inversion V as [|? ? (X & _) _]. congruence.
Qed.

(** *** C74: what is inspected *)
Lemma first_owner_ok stat dirs o : first_owner stat dirs = Owned o <-> exists before d after, dirs = before ++ d :: after /\ stat d = Owned o /\ Forall (fun x => stat x = NoStat) before.
Proof.
  split.
  - induction dirs as [|d dirs IH]; [discriminate|]. cbn [first_owner]. destruct (stat d) as [o'| |] eqn:S; try discriminate.
    + intros E. injection E as ->. exists [], d, dirs. auto.
    + intros E. destruct (IH E) as (b & d' & a & -> & X & Y). exists (d :: b), d', a. split; auto.
  - intros (b & d & a & -> & S & F). induction F as [|x b X _ IH]; cbn [app first_owner]; [now rewrite S|now rewrite X].
Qed.
Lemma find_host_ok look dynamic magic names full : find_host look dynamic magic names = Some full <->
  exists before n after, names = before ++ n :: after /\ usable look dynamic magic n full /\ Forall (fun x => forall y, ~ usable look dynamic magic x y) before.
Proof.
  assert (U : forall n, (exists full, usable look dynamic magic n full /\ forall ns, find_host look dynamic magic (n :: ns) = Some full) \/
     ((forall y, ~ usable look dynamic magic n y) /\ forall ns, find_host look dynamic magic (n :: ns) = find_host look dynamic magic ns)).
  { intros n. cbn [find_host]. unfold usable. destruct (look n) as [x|] eqn:L; [|right; split; auto; intros y [? _]; discriminate].
    destruct (dynamic x) as [d|] eqn:D; [|right; split; auto; intros y (E & d' & F & _); injection E as <-; congruence]. destruct (str_eqb (dy_magic d) magic) eqn:M.
    - left. exists x. split; auto. split; auto. exists d. apply str_eqb_eq in M. auto.
    - right. split; auto. intros y (E & d' & F & Q). injection E as <-. rewrite D in F. injection F as <-. apply str_eqb_eq in Q. congruence. }
  split.
  - induction names as [|n names IH]; [discriminate|]. intros E. destruct (U n) as [(x & X & Y)|[N Y]].
    + rewrite Y in E. injection E as <-. exists [], n, names. auto.
    + rewrite Y in E. destruct (IH E) as (b & n' & a & -> & P & Q). exists (n :: b), n', a. split; auto.
  - intros (b & n & a & -> & P & F). induction F as [|x b X _ IH]; cbn [app].
    + destruct (U n) as [(x & X & Y)|[N Y]]; [|destruct (N _ P)]. rewrite Y. destruct P as [P _], X as [X _]. congruence.
    + destruct (U x) as [(y & Z & _)|[N Y]]; [destruct (X _ Z)|]. now rewrite Y.
Qed.
Theorem inspect_ok image look stat dynamic host_look host_dynamic unbase64 interpreter p :
  inspect image look stat dynamic host_look host_dynamic unbase64 interpreter = Inspected p <->
  exists con gra dyn magic o full, shebangs look interpreter = Shebangs con gra /\ dynamic con = Some dyn /\ unbase64 (dy_magic dyn) = Some magic /\
    (exists before d after, [s_purelib (dy_scheme dyn); s_platlib (dy_scheme dyn); s_headers (dy_scheme dyn); s_scripts (dy_scheme dyn); s_data (dy_scheme dyn)] = before ++ d :: after /\
       stat d = Owned o /\ Forall (fun x => stat x = NoStat) before) /\
    (if image
     then exists before n after, [$"python" ++ itoa (vi_major (dy_version dyn)) ++ $"." ++ itoa (vi_minor (dy_version dyn)); $"python" ++ itoa (vi_major (dy_version dyn)); $"python"] = before ++ n :: after /\
            usable host_look host_dynamic (dy_magic dyn) n full /\ Forall (fun x => forall y, ~ usable host_look host_dynamic (dy_magic dyn) x y) before
     else full = con) /\
    p = mkPlatFile (mkPlatform con gra (dy_scheme dyn) (o_uid o) (o_gid o) (o_uname o) (o_gname o)) (dy_version dyn) magic (dy_tags dyn) [full; $"-m"; $"compileall"].
Proof.
  split.
  - unfold inspect. destruct (shebangs look interpreter) as [con gra| |]; try discriminate. destruct (dynamic con) as [dyn|] eqn:D; [|discriminate].
    destruct (unbase64 (dy_magic dyn)) as [magic|] eqn:M; [|discriminate]. destruct (first_owner _ _) as [o| |] eqn:F; try discriminate.
    apply first_owner_ok in F. cbv zeta. destruct image.
    + destruct (find_host _ _ _ _) as [full|] eqn:H; [|discriminate]. apply find_host_ok in H. intros E. injection E as <-. exists con, gra, dyn, magic, o, full. repeat (split; auto).
    + intros E. injection E as <-. exists con, gra, dyn, magic, o, con. repeat (split; auto).
  - intros (con & gra & dyn & magic & o & full & S & D & M & F & H & ->). unfold inspect. rewrite S, D, M. apply first_owner_ok in F. unfold scheme_paths. rewrite F. cbv zeta. destruct image.
    + apply find_host_ok in H. unfold host_names, python. rewrite H. reflexivity.
    + subst full. reflexivity.
Qed.

Lemma first_owner_crash stat dirs : first_owner stat dirs = StatCrash <-> exists before d after, dirs = before ++ d :: after /\ stat d = StatCrash /\ Forall (fun x => stat x = NoStat) before.
Proof.
  split.
  - induction dirs as [|d dirs IH]; [discriminate|]. cbn [first_owner]. destruct (stat d) as [o'| |] eqn:S; try discriminate.
    + intros E. destruct (IH E) as (b & d' & a & -> & X & Y). exists (d :: b), d', a. split; auto.
    + intros _. exists [], d, dirs. auto.
  - intros (b & d & a & -> & S & F). induction F as [|x b X _ IH]; cbn [app first_owner]; [now rewrite S|now rewrite X].
Qed.
Theorem inspect_crash image look stat dynamic host_look host_dynamic unbase64 interpreter :
  inspect image look stat dynamic host_look host_dynamic unbase64 interpreter = InspectCrash <->
  shebangs look interpreter = ShebangCrash \/
  exists con gra dyn, shebangs look interpreter = Shebangs con gra /\ dynamic con = Some dyn /\ unbase64 (dy_magic dyn) <> None /\
    exists before d after, [s_purelib (dy_scheme dyn); s_platlib (dy_scheme dyn); s_headers (dy_scheme dyn); s_scripts (dy_scheme dyn); s_data (dy_scheme dyn)] = before ++ d :: after /\
       stat d = StatCrash /\ Forall (fun x => stat x = NoStat) before.
Proof.
  split.
  - unfold inspect. destruct (shebangs look interpreter) as [con gra| |]; try discriminate; [|now left]. destruct (dynamic con) as [dyn|] eqn:D; [|discriminate].
    destruct (unbase64 (dy_magic dyn)) as [magic|] eqn:M; [|discriminate]. destruct (first_owner _ _) as [o| |] eqn:F; try discriminate.
    + cbv zeta. destruct (if image then _ else _); discriminate.
    + intros _. right. exists con, gra, dyn. split; auto. split; auto. split; [congruence|]. now apply first_owner_crash.
  - intros [E|(con & gra & dyn & E & D & M & F)]; unfold inspect; rewrite E; auto. rewrite D. destruct (unbase64 (dy_magic dyn)); [|congruence].
    apply first_owner_crash in F. unfold scheme_paths. now rewrite F.
Qed.

(** *** C75: the platform file *)
Lemma each_map {A B} (f : doc -> option A) (g : B -> doc) (h : B -> A) l : (forall x, In x l -> f (g x) = Some (h x)) -> each f (map g l) = Some (map h l).
Proof. induction l as [|x l IH]; intros H; [reflexivity|]. cbn [map each]. rewrite (H x) by now left. rewrite IH; auto. intros y I. apply H. now right. Qed.
Lemma byte_doc c : as_byte (DInt (Z.of_nat (nat_of_ascii c))) = Some c.
Proof.
  unfold as_byte. pose proof (nat_ascii_bounded c) as B. replace ((0 <=? _) && (_ <? 256))%Z with true; [|symmetry; apply andb_true_iff; split; [apply Z.leb_le|apply Z.ltb_lt]; lia].
  now rewrite Nat2Z.id, ascii_nat_embedding.
Qed.
Theorem plat_roundtrip p : Forall tag_parts (pf_tags p) -> read_plat (plat_doc p) = Some p.
Proof.
  intros T. destruct p as [[con gra [s1 s2 s3 s4 s5] uid gid un gn] [v1 v2 v3 v4 v5] magic tags comp]. cbn [pf_tags] in T.
  assert (E1 : each as_byte (map (fun c => DInt (Z.of_nat (nat_of_ascii c))) magic) = Some magic) by (rewrite (each_map _ _ (fun c => c)), map_id; auto using byte_doc).
  assert (E2 : each as_tag (map (fun t => DStr (tag_string t)) tags) = Some tags).
  { rewrite (each_map _ _ (fun c => c)), map_id; auto. intros t I. rewrite Forall_forall in T. destruct (T t I) as (A & B & C). now apply parse_tag_string. }
  assert (E3 : each as_str (map DStr comp) = Some comp) by (rewrite (each_map _ _ (fun c => c)), map_id; auto).
  unfold read_plat, plat_doc, zero_plat, bytes_doc, scheme_doc, version_doc. cbn [pf_platform pl_console pl_graphical pl_scheme pl_uid pl_gid pl_uname pl_gname pf_version pf_magic pf_tags pf_compile s_purelib s_platlib s_headers s_scripts s_data vi_major vi_minor vi_micro vi_level vi_serial].
  revert E1 E2 E3. generalize (map (fun c => DInt (Z.of_nat (nat_of_ascii c))) magic), (map (fun t => DStr (tag_string t)) tags), (map DStr comp). intros l1 l2 l3 E1 E2 E3.
  cbn -[each]. rewrite E1. cbn -[each]. rewrite E2. cbn -[each]. now rewrite E3.
Qed.
(** Order and spelling of the keys *)
Definition then_ {A B} (x : option A) (f : A -> option B) : option B := match x with Some a => f a | None => None end.
Definition commutes {A} (set : A -> str -> doc -> option A) : Prop :=
  forall a k d k' d', to_lower k <> to_lower k' -> then_ (set a k d) (fun b => set b k' d') = then_ (set a k' d') (fun b => set b k d).
Definition respects {A} (set : A -> str -> doc -> option A) : Prop := forall a k d k' d', same_key k k' -> same_doc d d' -> set a k d = set a k' d'.
Lemma fields_perm {A} (set : A -> str -> doc -> option A) l m : commutes set -> Permutation l m -> NoDup (map (fun x => to_lower (fst x)) l) -> forall a, fields set a l = fields set a m.
Proof.
  intros C. induction 1 as [|[k d] l m _ IH|[k d] [k' d'] l|l1 l2 l3 P1 IH1 P2 IH2]; intros N a; auto.
  - cbn [fields]. destruct (set a k d); auto. apply IH. now inversion N.
  - cbn [map fst] in N. inversion N as [|? ? N1 N2]; subst. assert (D : to_lower k' <> to_lower k) by (intros E; apply N1; left; auto).
    pose proof (C a k' d' k d D) as X. cbn [fields]. unfold then_ in X. destruct (set a k' d') as [b|], (set a k d) as [b'|]; cbn [fields]; try (rewrite X; reflexivity); try (rewrite <- X; reflexivity); auto.
  - rewrite IH1 by auto. apply IH2. eapply Permutation_NoDup; [|exact N]. now apply Permutation_map.
Qed.
Lemma fields_same {A} (set : A -> str -> doc -> option A) l m : respects set -> Forall2 (fun x y => same_key (fst x) (fst y) /\ same_doc (snd x) (snd y)) l m -> forall a, fields set a l = fields set a m.
Proof.
  intros R. induction 1 as [|[k d] [k' d'] l m [K D] _ IH]; intros a; auto. cbn [fields fst snd] in *. rewrite (R a k d k' d') by auto. destruct (set a k' d'); auto.
Qed.
Lemma map_same {A} (set : A -> str -> doc -> option A) d d' : commutes set -> respects set -> same_doc d d' -> forall a, as_map set a d = as_map set a d'.
Proof.
  intros C R S a. destruct S as [d|l l' N (m & P & F)]; auto. cbn [as_map]. rewrite (fields_perm set l m C P N). now apply fields_same.
Qed.
Lemma str_same d d' : same_doc d d' -> as_str d = as_str d'. Proof. now destruct 1. Qed.
Lemma int_same d d' : same_doc d d' -> as_int d = as_int d'. Proof. now destruct 1. Qed.
Lemma list_same {A} (f : doc -> option A) d d' : same_doc d d' -> as_list f d = as_list f d'. Proof. now destruct 1. Qed.
Lemma field_same n k k' : same_key k k' -> field n k = field n k'. Proof. unfold field, same_key. now intros ->. Qed.
(** Which field a key stands for *)
Fixpoint index (names : list str) (k : str) : option nat :=
  match names with [] => None | n :: names => if field n k then Some 0 else option_map S (index names k) end.
Lemma index_same names k k' i : index names k = Some i -> index names k' = Some i -> to_lower k = to_lower k'.
Proof.
  revert i. induction names as [|n names IH]; intros i; [discriminate|]. cbn [index]. destruct (field n k) eqn:F, (field n k') eqn:F'.
  - apply str_eqb_eq in F, F'. congruence.
  - intros E. injection E as <-. destruct (index names k'); discriminate.
  - intros E E'. injection E' as <-. destruct (index names k); discriminate.
  - destruct (index names k) as [j|] eqn:J, (index names k') as [j'|] eqn:J'; try discriminate. cbn [option_map]. intros E E'. apply (IH j); congruence.
Qed.
Lemma index_in names k i : index names k = Some i -> exists n, In n names /\ same_key n k.
Proof.
  revert i. induction names as [|n names IH]; intros i; [discriminate|]. cbn [index]. destruct (field n k) eqn:F.
  - intros _. exists n. split; [now left|]. now apply str_eqb_eq in F.
  - destruct (index names k) as [j|]; [|discriminate]. intros _. destruct (IH j eq_refl) as (m & I & K). exists m. split; [now right|auto].
Qed.
Definition put_scheme (s : scheme) (i : option nat) (d : doc) : option scheme :=
  let '(mkScheme a b c e f) := s in
  match i with
  | Some 0 => option_map (fun x => mkScheme x b c e f) (as_str d)
  | Some 1 => option_map (fun x => mkScheme a x c e f) (as_str d)
  | Some 2 => option_map (fun x => mkScheme a b x e f) (as_str d)
  | Some 3 => option_map (fun x => mkScheme a b c x f) (as_str d)
  | Some 4 => option_map (fun x => mkScheme a b c e x) (as_str d)
  | _ => None
  end.
Definition put_version (v : version_info) (i : option nat) (d : doc) : option version_info :=
  let '(mkVI a b c e f) := v in
  match i with
  | Some 0 => option_map (fun x => mkVI x b c e f) (as_int d)
  | Some 1 => option_map (fun x => mkVI a x c e f) (as_int d)
  | Some 2 => option_map (fun x => mkVI a b x e f) (as_int d)
  | Some 3 => option_map (fun x => mkVI a b c x f) (as_str d)
  | Some 4 => option_map (fun x => mkVI a b c e x) (as_int d)
  | _ => None
  end.
Definition put_plat (p : plat_file) (i : option nat) (d : doc) : option plat_file :=
  let '(mkPlatFile (mkPlatform con gra sch uid gid un gn) ver mag tags comp) := p in
  match i with
  | Some 0 => option_map (fun x => mkPlatFile (mkPlatform x gra sch uid gid un gn) ver mag tags comp) (as_str d)
  | Some 1 => option_map (fun x => mkPlatFile (mkPlatform con x sch uid gid un gn) ver mag tags comp) (as_str d)
  | Some 2 => option_map (fun x => mkPlatFile (mkPlatform con gra x uid gid un gn) ver mag tags comp) (as_map set_scheme sch d)
  | Some 3 => option_map (fun x => mkPlatFile (mkPlatform con gra sch x gid un gn) ver mag tags comp) (as_int d)
  | Some 4 => option_map (fun x => mkPlatFile (mkPlatform con gra sch uid x un gn) ver mag tags comp) (as_int d)
  | Some 5 => option_map (fun x => mkPlatFile (mkPlatform con gra sch uid gid x gn) ver mag tags comp) (as_str d)
  | Some 6 => option_map (fun x => mkPlatFile (mkPlatform con gra sch uid gid un x) ver mag tags comp) (as_str d)
  | Some 7 => option_map (fun x => mkPlatFile (mkPlatform con gra sch uid gid un gn) x mag tags comp) (as_map set_version ver d)
  | Some 8 => option_map (fun x => mkPlatFile (mkPlatform con gra sch uid gid un gn) ver x tags comp) (as_list as_byte d)
  | Some 9 => option_map (fun x => mkPlatFile (mkPlatform con gra sch uid gid un gn) ver mag x comp) (as_list as_tag d)
  | Some 10 => option_map (fun x => mkPlatFile (mkPlatform con gra sch uid gid un gn) ver mag tags x) (as_list as_str d)
  | _ => None
  end.
Ltac by_index := repeat (match goal with |- (if ?b then _ else _) = _ => destruct b; [reflexivity|] end); reflexivity.
Lemma set_scheme_put s k d : set_scheme s k d = put_scheme s (index scheme_keys k) d.
Proof. destruct s. unfold set_scheme, scheme_keys. cbn [index]. by_index. Qed.
Lemma set_version_put s k d : set_version s k d = put_version s (index version_keys k) d.
Proof. destruct s. unfold set_version, version_keys. cbn [index]. by_index. Qed.
Lemma set_plat_put s k d : set_plat s k d = put_plat s (index plat_keys k) d.
Proof. destruct s as [[] ? ? ? ?]. unfold set_plat, plat_keys. cbn [index]. by_index. Qed.
Ltac opts := repeat (match goal with
  | E : ?x = _ |- context[option_map _ ?x] => rewrite E
  | |- context[option_map _ ?x] => let E := fresh in destruct x eqn:E
  end; cbn [option_map then_ put_scheme put_version put_plat]); try reflexivity.
Definition apart (i j : option nat) : Prop := forall n, i = Some n -> j <> Some n.
Lemma apart_keys names k k' : to_lower k <> to_lower k' -> apart (index names k) (index names k').
Proof. intros N i E E'. apply N. eapply index_same; eauto. Qed.
Ltac commute H := try (exfalso; eapply H; reflexivity); cbn -[as_map as_list as_str as_int]; opts.
Lemma put_scheme_commutes a i d j d' : apart i j -> then_ (put_scheme a i d) (fun b => put_scheme b j d') = then_ (put_scheme a j d') (fun b => put_scheme b i d).
Proof. intros H. destruct a, i as [[|[|[|[|[|i]]]]]|], j as [[|[|[|[|[|j]]]]]|]; commute H. Qed.
Lemma put_version_commutes a i d j d' : apart i j -> then_ (put_version a i d) (fun b => put_version b j d') = then_ (put_version a j d') (fun b => put_version b i d).
Proof. intros H. destruct a, i as [[|[|[|[|[|i]]]]]|], j as [[|[|[|[|[|j]]]]]|]; commute H. Qed.
Lemma put_plat_commutes a i d j d' : apart i j -> then_ (put_plat a i d) (fun b => put_plat b j d') = then_ (put_plat a j d') (fun b => put_plat b i d).
Proof.
  intros H. destruct a as [[] ? ? ? ?], i as [[|[|[|[|[|[|[|[|[|[|[|i]]]]]]]]]]]|], j as [[|[|[|[|[|[|[|[|[|[|[|j]]]]]]]]]]]|]; commute H.
Qed.
Lemma then_ext {A B} (x : option A) (f g : A -> option B) : (forall a, f a = g a) -> then_ x f = then_ x g.
Proof. intros H. destruct x; cbn; auto. Qed.
Lemma scheme_commutes : commutes set_scheme.
Proof.
  intros a k d k' d' N. rewrite !set_scheme_put. rewrite (then_ext _ _ (fun b => put_scheme b (index scheme_keys k') d')) by (intros; apply set_scheme_put).
  rewrite (then_ext (put_scheme a (index scheme_keys k') d') _ (fun b => put_scheme b (index scheme_keys k) d)) by (intros; apply set_scheme_put). now apply put_scheme_commutes, apart_keys.
Qed.
Lemma version_commutes : commutes set_version.
Proof.
  intros a k d k' d' N. rewrite !set_version_put. rewrite (then_ext _ _ (fun b => put_version b (index version_keys k') d')) by (intros; apply set_version_put).
  rewrite (then_ext (put_version a (index version_keys k') d') _ (fun b => put_version b (index version_keys k) d)) by (intros; apply set_version_put). now apply put_version_commutes, apart_keys.
Qed.
Lemma plat_commutes : commutes set_plat.
Proof.
  intros a k d k' d' N. rewrite !set_plat_put. rewrite (then_ext _ _ (fun b => put_plat b (index plat_keys k') d')) by (intros; apply set_plat_put).
  rewrite (then_ext (put_plat a (index plat_keys k') d') _ (fun b => put_plat b (index plat_keys k) d)) by (intros; apply set_plat_put). now apply put_plat_commutes, apart_keys.
Qed.
Lemma index_respects names k k' : same_key k k' -> index names k = index names k'.
Proof. intros S. induction names as [|n names IH]; [reflexivity|]. cbn [index]. now rewrite (field_same n k k' S), IH. Qed.
Lemma scheme_respects : respects set_scheme.
Proof. intros a k d k' d' K D. rewrite !set_scheme_put, (index_respects _ k k' K). unfold put_scheme. now rewrite (str_same d d' D). Qed.
Lemma version_respects : respects set_version.
Proof. intros a k d k' d' K D. rewrite !set_version_put, (index_respects _ k k' K). unfold put_version. now rewrite (str_same d d' D), (int_same d d' D). Qed.
Lemma plat_respects : respects set_plat.
Proof.
  intros [[con gra sch uid gid un gn] ver mag tags comp] k d k' d' K D. rewrite !set_plat_put, (index_respects _ k k' K). unfold put_plat.
  now rewrite (str_same d d' D), (int_same d d' D), !(list_same _ d d' D), (map_same _ d d' scheme_commutes scheme_respects D), (map_same _ d d' version_commutes version_respects D).
Qed.
Theorem read_same d d' : same_doc d d' -> read_plat d = read_plat d'.
Proof. intros S. now apply (map_same set_plat d d' plat_commutes plat_respects S). Qed.
(** Unknown keys *)
Lemma fields_known {A} (set : A -> str -> doc -> option A) (P : str -> doc -> Prop) l : (forall a k d b, set a k d = Some b -> P k d) -> forall a b, fields set a l = Some b -> forall k d, In (k, d) l -> P k d.
Proof.
  intros H. induction l as [|[k d] l IH]; intros a b E k' d' I; [destruct I|]. cbn [fields] in E. destruct (set a k d) as [c|] eqn:S; [|discriminate]. destruct I as [I|I]; [|eauto]. injection I as <- <-. eauto.
Qed.
Lemma scheme_known s d s' : as_map set_scheme s d = Some s' -> exists l, d = DMap l /\ only_keys scheme_keys l.
Proof.
  destruct d as [| | |l]; try discriminate. intros E. exists l. split; auto. intros k v I.
  apply (fields_known set_scheme (fun k _ => exists name, In name scheme_keys /\ same_key name k) l) with (2 := E) (3 := I). intros a k0 d b X. rewrite set_scheme_put in X.
  destruct (index scheme_keys k0) as [i|] eqn:Y; [eapply index_in; eauto|]. now destruct a.
Qed.
Lemma version_known s d s' : as_map set_version s d = Some s' -> exists l, d = DMap l /\ only_keys version_keys l.
Proof.
  destruct d as [| | |l]; try discriminate. intros E. exists l. split; auto. intros k v I.
  apply (fields_known set_version (fun k _ => exists name, In name version_keys /\ same_key name k) l) with (2 := E) (3 := I). intros a k0 d b X. rewrite set_version_put in X.
  destruct (index version_keys k0) as [i|] eqn:Y; [eapply index_in; eauto|]. now destruct a.
Qed.
Lemma index_key names n k : In n names -> index names k = index names n \/ ~ same_key n k.
Proof.
  intros _. destruct (list_eq_dec ascii_dec (to_lower n) (to_lower k)) as [E|E]; [left|right; auto]. apply index_respects. unfold same_key. auto.
Qed.
Theorem read_known d p : read_plat d = Some p -> known d.
Proof.
  unfold read_plat. destruct d as [| | |l]; try discriminate. cbn [as_map]. intros E. exists l. split; auto. split.
  - intros k v I. apply (fields_known set_plat (fun k _ => exists name, In name plat_keys /\ same_key name k) l) with (2 := E) (3 := I). intros a k0 d b X. rewrite set_plat_put in X.
    destruct (index plat_keys k0) as [i|] eqn:Y; [eapply index_in; eauto|]. now destruct a as [[] ? ? ? ?].
  - intros k v I. apply (fields_known set_plat (fun k v => (same_key $"Scheme" k -> exists l', v = DMap l' /\ only_keys scheme_keys l') /\ (same_key $"VersionInfo" k -> exists l', v = DMap l' /\ only_keys version_keys l')) l) with (2 := E) (3 := I).
    intros a k0 d b X. rewrite set_plat_put in X. destruct a as [[con gra sch uid gid un gn] ver mag tags comp]. split; intros K.
    + rewrite <- (index_respects plat_keys _ _ K) in X. change (index plat_keys $"Scheme") with (Some 2) in X. cbn [put_plat] in X. destruct (as_map set_scheme sch d) eqn:Y; [|discriminate]. eapply scheme_known; eauto.
    + rewrite <- (index_respects plat_keys _ _ K) in X. change (index plat_keys $"VersionInfo") with (Some 7) in X. cbn [put_plat] in X. destruct (as_map set_version ver d) eqn:Y; [|discriminate]. eapply version_known; eauto.
Qed.
