(** Listing a directory that has entries which lead nowhere. *)
From Coq Require Import String Ascii List Bool ZArith Lia Permutation Sorted.
From Verif.Model Require Import GoStr GoPath Tar Squash VfsFS.
From Verif.Spec Require Import PathSpec SquashSpec SimpleAPISpec VfsFSSpec TripSpec LookPathSpec DanglingSpec.
From Verif.Proofs Require Import Order GoStrFacts SquashTree SquashLoad SquashSim SquashStack SquashWf SquashInv SquashFinal SquashMore SquashLinks VfsFSFacts VfsImage VfsBack VfsTrips LookPathFacts SquashHard VfsThrough NamesThrough.
Import ListNotations.
Local Open Scope nat_scope.

Section runs.
  Context (sort : (dirent -> dirent -> bool) -> list dirent -> list dirent) (f : handle) (ND : non_dir (hd_header f) = false).
  Lemma read_refused : forall size, before_lock f (CRead size) = Some (RErr EIsDir).
  Proof. intros size. unfold before_lock. unfold non_dir in ND. destruct (hd_header f) as [h|]; auto. apply negb_false_iff in ND. now rewrite ND. Qed.
  Lemma replays_listed entries log : forall s s', replays sort f s log s' -> r_pos s <= length entries -> r_dirents s = Some entries ->
    reads_dir (skipn (r_pos s) entries) (r_closed s) log.
  Proof.
    induction log as [|[[i c] r] log IH]; intros s s' R LE D; [exact Logic.I|]. cbn [replays reads_dir] in *. destruct c as [size| |m].
    - rewrite read_refused in R. destruct R as [-> R]. split; auto. eapply IH; eauto.
    - cbn [before_lock in_lock] in R. destruct (r_closed s) eqn:C; destruct R as [-> R]; cbn [fst] in R; split; auto; apply IH in R; auto. now rewrite C in R.
    - cbn [before_lock] in R. rewrite ND in R. cbn [in_lock] in R. destruct (r_closed s) eqn:C; [destruct R as [-> R]; cbn [fst] in R; split; auto; apply IH in R; auto; now rewrite C in R|].
      rewrite D in R. destruct R as [Er R]. destruct (page_spec s entries m LE) as (PG & LE' & C' & D').
      apply IH in R; auto; [|congruence]. rewrite C', C in R. cbv zeta in PG.
      destruct (0 <? m)%Z; [destruct (skipn (r_pos s) entries) eqn:SK|]; injection PG as P1 P2; rewrite P2 in R; rewrite Er, P1; auto.
  Qed.
  Lemma replays_fails acc er log : hd_built f = (acc, Some er) -> forall s s', replays sort f s log s' -> r_pos s = 0 -> r_dirents s = None -> fails_first er acc (r_closed s) log.
  Proof.
    intros HB. induction log as [|[[i c] r] log IH]; intros s s' R Z D; [exact Logic.I|]. cbn [replays fails_first] in *. destruct c as [size| |m].
    - rewrite read_refused in R. destruct R as [-> R]. split; auto. eapply IH; eauto.
    - cbn [before_lock in_lock] in R. destruct (r_closed s) eqn:C; destruct R as [-> R]; cbn [fst] in R; split; auto; apply IH in R; auto. now rewrite C in R.
    - cbn [before_lock] in R. rewrite ND in R. cbn [in_lock] in R. destruct (r_closed s) eqn:C; [destruct R as [-> R]; cbn [fst] in R; split; auto; apply IH in R; auto; now rewrite C in R|].
      rewrite D, HB in R. cbn [fst snd] in R. destruct R as [-> R]. split; auto.
      apply (replays_listed acc) in R; cbn [r_pos r_dirents r_closed] in *; [|lia|reflexivity]. now rewrite Z in R.
  Qed.
End runs.
Theorem fails_any sort f programs c acc er : reachable sort f programs c -> non_dir (hd_header f) = false -> hd_built f = (acc, Some er) -> fails_first er acc false (c_log c).
Proof. intros R H B. apply reachable_replays in R as [s R]. now apply (replays_fails sort f H acc er (c_log c) B just_opened s R). Qed.

Lemma build_stops t d (bad : str -> err -> Prop) keys :
  (forall k, In k keys -> marker_name k = false -> (exists e j, rests t j (d ++ [k]) e) \/
     (exists er, bad k er /\ exists N, forall n, N <= n -> resolve n t (d ++ [k]) false [] = Fail er)) ->
  forall x er0, In x keys -> marker_name x = false -> bad x er0 -> (forall er, bad x er -> forall e j, ~ rests t j (d ++ [x]) e) ->
  exists N pre k er post, keys = pre ++ k :: post /\ bad k er /\
    forall n, N <= n -> forall acc, build n t d keys acc = Ret (acc ++ map (shown t d) (filter (fun k => negb (marker_name k)) pre), Some er).
Proof.
  intros H x er0 I M B NB. induction keys as [|k keys IH]; [destruct I|]. destruct (marker_name k) eqn:MK.
  - destruct I as [->|I]; [congruence|]. destruct IH as (N & pre & k' & er & post & -> & Bk & HN); auto; [intros; apply H; auto; now right|].
    exists N, (k :: pre), k', er, post. split; [reflexivity|]. split; auto. intros n LE acc. cbn [build filter]. change (has_prefix wh_prefix k) with (marker_name k). rewrite MK. cbn [negb]. now apply HN.
  - destruct (H k (or_introl eq_refl) MK) as [(e & j & R)|(er & Bk & N & HN)].
    + destruct I as [->|I]; [exfalso; eapply NB; eauto|]. destruct IH as (N & pre & k' & er & post & -> & Bk & HN); auto; [intros; apply H; auto; now right|].
      destruct (rests_ok t j _ e R) as [N2 H2]. exists (1 + N + N2), (k :: pre), k', er, post. split; [reflexivity|]. split; auto. intros [|n] LE acc; [lia|].
      cbn [build filter]. change (has_prefix wh_prefix k) with (marker_name k). rewrite MK. cbn [negb map]. rewrite get_dot, H2; [|lia|intros y []].
      rewrite HN by lia. now rewrite <- app_assoc.
    + exists (1 + N), [], k, er, keys. split; [reflexivity|]. split; auto. intros [|n] LE acc; [lia|].
      cbn [build filter map]. change (has_prefix wh_prefix k) with (marker_name k). rewrite MK, get_dot, HN by lia. now rewrite app_nil_r.
Qed.

Section built.
  Context (layers : list (list entry)) (HD : handled layers) (t : tree) (L : forall n, load_layers (4 + n) false layers = Ret t).
  Notation fs := (unpack empty_root layers).
  Lemma dangling_built order utf8 p q e m x er : (forall l, Permutation (order l) l) -> plain_path p -> utf8 (open_name p) = true -> walks fs [] p q -> ends fs q e -> fs e = Some (FDir m) ->
    (forall y, fs (e ++ [y]) <> None -> (exists r, ends fs (e ++ [y]) r) \/ (exists a, strays fs (e ++ [y]) a)) -> fs (e ++ [x]) <> None -> strays fs (e ++ [x]) er ->
    exists N ks y a, (forall n, N <= n -> open utf8 n t (open_name p) = Ret (q, e) /\ build n t e (order (keys_at t e)) [] = Ret (map (shown t e) ks, Some a)) /\
      fs (e ++ [y]) <> None /\ strays fs (e ++ [y]) a /\ NoDup ks /\ non_dir (header_at t e) = false /\
      forall k, In k ks -> fst (shown t e k) = k /\ k <> opq /\ exists nd, fs (e ++ [k]) = Some nd /\ shows nd (snd (shown t e k)).
  Proof.
    intros HO PP U W R E RS FX SX. pose proof HD as (P & NR & D & K). destruct (load_image layers P) as (t0 & L0 & AG & WT & WV & LF & NK).
    assert (t0 = t) as ->. { specialize (L0 4 ltac:(lia)). pose proof (L 0) as L1. change (4 + 0) with 4 in L1. congruence. }
    pose proof (root_dirT layers t HD AG) as ROOT. destruct (open_found layers P NR t AG utf8 p q e PP U W R) as [N HN].
    pose proof (image_real layers P e ltac:(congruence)) as RE. destruct (conv_dir fs t (image_real layers P) AG e m E) as [_ DE].
    assert (RK : forall k, In k (order (keys_at t e)) -> marker_name k = false -> real_path (e ++ [k]) /\ fs (e ++ [k]) <> None).
    { intros k I M. apply (Permutation_in _ (HO _)), keys_view in I. assert (Rk : real_path (e ++ [k])) by now apply (real_key t WV). split; auto. now apply (view_there layers t AG). }
    assert (ST : forall k a, strays fs (e ++ [k]) a -> (forall r j, ~ rests t j (e ++ [k]) r) /\ exists N, forall n, N <= n -> resolve n t (e ++ [k]) false [] = Fail a).
    { intros k a S. apply (proj2 (trips_trip layers P NR K t AG)) in S. destruct S as [[j S]|(-> & s & I & RR)].
      - split; [intros r i; apply (proj2 (trip_steps t) _ _ _ S)|]. destruct (proj2 (trip_ok t WV ROOT) _ _ _ S) as [_ [M HM]]. exists M. intros n LE. apply HM; auto. intros z [].
      - split; [intros r i; now apply (ring_rests t s)|]. now apply (ring_ok t s). }
    assert (RX : In x (order (keys_at t e)) /\ marker_name x = false).
    { pose proof (image_real layers P _ FX) as RX. split.
      - apply (Permutation_in _ (Permutation_sym (HO _))), keys_view. now apply (conv_present fs t (image_real layers P) AG).
      - destruct RX as [_ RX]. apply Forall_app in RX as [_ RX]. now inversion RX. }
    destruct RX as [IX MX].
    destruct (build_stops t e (fun k a => strays fs (e ++ [k]) a) (order (keys_at t e))) with (x := x) (er0 := er) as (N' & pre & y & a & post & EK & By & HB); auto.
    { intros k I M. destruct (RK k I M) as [Rk F]. destruct (RS k F) as [[r EN]|[a S]].
      - left. destruct (image_ends layers P NR t AG _ _ EN) as [j RR]. eauto.
      - right. exists a. split; auto. now apply ST. }
    { intros a S r j. now apply (ST x a). }
    assert (ND : NoDup (order (keys_at t e))).
    { eapply Permutation_NoDup; [apply Permutation_sym, HO|]. unfold keys_at. destruct (subtree t e) as [s|] eqn:S; [|constructor]. apply (wf_sub _ _ t e s WT) in S. now apply wf_parts in S. }
    set (ks := filter (fun k => negb (marker_name k)) pre) in *.
    assert (KS : forall k, In k ks -> fs (e ++ [k]) <> None /\ marker_name k = false).
    { intros k I. unfold ks in I. apply filter_In in I as [I M]. apply negb_true_iff in M. split; [apply RK; auto; rewrite EK; apply in_or_app; now left|exact M]. }
    exists (N + N'), ks, y, a. split; [|split; [|split; [exact By|split; [|split; [exact DE|]]]]].
    - intros n LE. rewrite HN, HB by lia. auto.
    - intros F. clear - By F. revert F. inversion By; subst; intros F; try congruence.
      + destruct H as (h & c & X & _). congruence.
      + destruct (H0 _ H) as (z & _ & h & c & X & _). congruence.
    - apply NoDup_filter. rewrite EK in ND. clear - ND. induction pre as [|z pre IH]; [constructor|]. cbn [app] in ND. inversion ND; subst. constructor; auto. intros I. apply H1, in_or_app. now left.
    - intros k I. destruct (KS k I) as [F M]. split; [apply (shown_name t NK); now apply (image_real layers P)|]. split; [intros ->; discriminate M|].
      destruct (fs (e ++ [k])) as [nd|] eqn:Fz; [|congruence]. exists nd. split; auto. now apply (shown_node layers P t AG) in Fz.
  Qed.
End built.
Lemma some_of fs e (g : str -> dirent) ks : NoDup ks -> (forall k, In k ks -> fst (g k) = k /\ exists nd, fs (e ++ [k]) = Some nd /\ shows nd (snd (g k))) -> some_entries fs e (map g ks).
Proof.
  intros ND H. split.
  - rewrite map_map. replace (map (fun k => fst (g k)) ks) with ks; [exact ND|]. rewrite <- (map_id ks) at 1. apply map_ext_in. intros k I. symmetry. now apply H.
  - intros z h I. apply in_map_iff in I as (k & X & I). destruct (H k I) as [N (nd & F & S)]. rewrite X in N, S. cbn [fst snd] in N, S. subst k. eauto.
Qed.
Theorem image_dangling layers sort order utf8 p q e m x er : handled layers -> (forall l, Permutation (order l) l) -> plain_path p -> utf8 (open_name p) = true ->
  walks (unpack empty_root layers) [] p q -> ends (unpack empty_root layers) q e -> unpack empty_root layers e = Some (FDir m) ->
  (forall y, unpack empty_root layers (e ++ [y]) <> None -> (exists r, ends (unpack empty_root layers) (e ++ [y]) r) \/ (exists a, strays (unpack empty_root layers) (e ++ [y]) a)) ->
  unpack empty_root layers (e ++ [x]) <> None -> strays (unpack empty_root layers) (e ++ [x]) er ->
  exists N t f y a l, (forall n, N <= n -> load_layers n false layers = Ret t /\ open_file utf8 n order t (open_name p) = Ret f) /\
    unpack empty_root layers (e ++ [y]) <> None /\ strays (unpack empty_root layers) (e ++ [y]) a /\ some_entries (unpack empty_root layers) e l /\
    forall programs c, reachable sort f programs c -> fails_first a l false (c_log c).
Proof.
  intros HD HO PP U W R E RS FX SX. pose proof HD as (P & _). destruct (load_image layers P) as (t & L & _).
  destruct (dangling_built layers HD t ltac:(intros n; apply L; lia) order utf8 p q e m x er) as (N & ks & y & a & HB & FY & SY & ND & DE & KS); auto.
  exists (4 + N), t, (mkHandle (header_at t e) (match subtree t e with Some s => t_body s | None => [] end) (map (shown t e) ks, Some a)), y, a, (map (shown t e) ks).
  split; [|split; [exact FY|split; [exact SY|split]]].
  - intros n LE. split; [apply L; lia|]. destruct (HB n ltac:(lia)) as [O B]. unfold open_file. rewrite O. cbn [bind]. unfold handle_at. rewrite B. reflexivity.
  - apply some_of; auto. intros k I. destruct (KS k I) as (A & _ & B). auto.
  - intros programs c RR. now apply (fails_any sort _ programs c _ _ RR).
Qed.

(** *** through links *)
Lemma build_same_err n t u d er keys : strip t = strip u -> forall acc acc' r, build n u d keys acc' = Ret (r, Some er) ->
  exists ks, (forall k, In k ks -> marker_name k = false) /\ r = acc' ++ map (shown u d) ks /\ build n t d keys acc = Ret (acc ++ map (shown t d) ks, Some er) /\ incl ks keys.
Proof.
  intros E. induction keys as [|k keys IH]; intros acc acc' r; cbn [build]; [discriminate|].
  change (has_prefix wh_prefix k) with (marker_name k). destruct (marker_name k) eqn:M.
  - intros X. destruct (IH acc acc' r X) as (ks & A & B & C & D). exists ks. split; [auto|split; [auto|split; [auto|]]]. intros z I. right. now apply D.
  - pose proof (get_same n t u (d ++ [k]) dot false true E) as G. destruct (get n t _ _ _ _), (get n u _ _ _ _); try contradiction; try discriminate.
    + intros X. destruct (IH (acc ++ [shown t d k]) _ _ X) as (ks & A & B & C & D). exists (k :: ks). split; [intros z [<-|I]; auto|]. cbn [map]. split; [|split].
      * rewrite B, <- app_assoc. reflexivity.
      * etransitivity; [exact C|]. now rewrite <- app_assoc.
      * intros z [<-|I]; [now left|right; now apply D].
    + intros X. injection X as -> ->. exists []. cbn [map]. rewrite !app_nil_r. split; [intros ? []|]. split; auto. split; [congruence|intros ? []].
Qed.
Theorem through_dangling layers layers' sort order utf8 p q e m x er : Forall (Forall in_root) layers -> handled layers' ->
  all_at_target empty_root (all_entries layers) (all_entries layers') -> (forall l, Permutation (order l) l) -> plain_path p -> utf8 (open_name p) = true ->
  walks (unpack empty_root layers') [] p q -> ends (unpack empty_root layers') q e -> unpack empty_root layers' e = Some (FDir m) ->
  (forall y, unpack empty_root layers' (e ++ [y]) <> None -> (exists r, ends (unpack empty_root layers') (e ++ [y]) r) \/ (exists a, strays (unpack empty_root layers') (e ++ [y]) a)) ->
  unpack empty_root layers' (e ++ [x]) <> None -> strays (unpack empty_root layers') (e ++ [x]) er ->
  exists N t f y a l, (forall n, N <= n -> load_layers n false layers = Ret t /\ open_file utf8 n order t (open_name p) = Ret f) /\
    unpack empty_root layers' (e ++ [y]) <> None /\ strays (unpack empty_root layers') (e ++ [y]) a /\ some_entries (unpack empty_root layers') e l /\
    forall programs c, reachable sort f programs c -> fails_first a l false (c_log c).
Proof.
  intros I HD A HO PP U W R E RS FX SX. pose proof HD as (P & _). destruct (load_image layers' P) as (t' & L & _).
  destruct (load_links layers layers' I P A) as (N1 & t & t2 & S & H).
  assert (t2 = t') as ->. { destruct (H (4 + N1) ltac:(lia)) as [_ H2]. rewrite L in H2 by lia. congruence. }
  pose proof (loaded_keyed layers layers' I P A _ _ (proj1 (H N1 ltac:(lia)))) as K.
  destruct (dangling_built layers' HD t' ltac:(intros n; apply L; lia) order utf8 p q e m x er) as (N & ks & y & a & HB & FY & SY & ND & DE & KS); auto.
  assert (SAME : forall n, N <= n -> build n t e (order (keys_at t' e)) [] = Ret (map (shown t e) ks, Some a)).
  { intros n LE. destruct (HB n LE) as [_ B]. destruct (build_same_err n t t' e a _ S [] [] _ B) as (ks' & M & EQ & B' & IN). cbn [app] in EQ, B'. rewrite B'. do 3 f_equal.
    apply (f_equal (map fst)) in EQ. rewrite !map_map in EQ. destruct HD as (P' & NR & D & KK). destruct (load_image layers' P) as (t0 & L0 & AG & WT & WV & LF & NK).
    assert (t0 = t') as -> by (specialize (L0 4 ltac:(lia)); rewrite L in L0 by lia; congruence).
    rewrite (map_ext_in _ (fun k => k) ks), (map_ext_in _ (fun k => k) ks'), !map_id in EQ; auto.
    - intros k Ik. apply (shown_name t' NK). apply (real_key t' WV); [apply (image_real layers' P); congruence|now apply M|]. apply keys_view. apply (Permutation_in _ (HO _)). now apply IN.
    - intros k Ik. now apply KS. }
  exists (4 + N + N1), t, (mkHandle (header_at t e) (match subtree t e with Some s => t_body s | None => [] end) (map (shown t e) ks, Some a)), y, a, (map (shown t e) ks).
  split; [|split; [exact FY|split; [exact SY|split]]].
  - intros n LE. split; [apply H; lia|]. destruct (HB n ltac:(lia)) as [O _]. unfold open_file. rewrite (open_strip utf8 n t t' _ S), O. cbn [bind]. unfold handle_at. rewrite (keys_same t t' e S), SAME by lia. reflexivity.
  - apply some_of; auto. intros k Ik. destruct (KS k Ik) as (F & NO & nd & Fk & SH). split.
    + unfold shown. destruct (header_at t (e ++ [k])) as [h|] eqn:X; [|reflexivity]. cbn [fst]. apply (proj2 (K e k h X) NO h).
    + exists nd. split; auto. revert SH. apply shows_anon. pose proof (header_same t t' (e ++ [k]) S) as HS. unfold shown.
      destruct (header_at t (e ++ [k])), (header_at t' (e ++ [k])); cbn [snd option_map] in *; congruence.
  - intros programs c RR. apply (fails_any sort _ programs c _ _ RR); [|reflexivity]. cbn [hd_header].
    pose proof (header_same t t' e S) as HS. destruct (header_at t e) as [h|], (header_at t' e) as [h'|]; cbn [option_map] in HS; try discriminate; auto.
    assert (X : anon h = anon h') by congruence. cbn [non_dir] in *. change (th_type h) with (th_type (anon h)). rewrite X. exact DE.
Qed.

(** *** an example: "sbin" leads to a directory with a link that leads nowhere *)
Definition vi : entry := a_symlink $"usr/bin/vi" $"vim".
Definition dangling_usr : list (list entry) := merged_usr ++ [[vi]].
Definition dangling_usr_real : list (list entry) := merged_usr_real ++ [[vi]].
Lemma target_more e es es' : is_abs (th_name (fst e)) = false -> forall fs, all_at_target fs es es' -> all_at_target fs (es ++ [e]) (es' ++ [e]).
Proof. intros N fs. induction 1 as [fs|fs x x' es es' T _ IH]; cbn [app]; [constructor; [now apply stays|constructor]|now constructor]. Qed.
Lemma dangling_at_target : all_at_target empty_root (all_entries dangling_usr) (all_entries dangling_usr_real).
Proof.
  change (all_entries dangling_usr) with (all_entries merged_usr ++ [vi]). change (all_entries dangling_usr_real) with (all_entries merged_usr_real ++ [vi]).
  apply target_more; [reflexivity|exact merged_at_target].
Qed.
Lemma dangling_in_root : Forall (Forall in_root) dangling_usr.
Proof.
  apply Forall_app. split; [exact merged_in_root|]. constructor; [|constructor]. constructor; [|constructor]. split; [reflexivity|]. apply Forall_forall. intros x H. apply pc.
  match type of H with In x ?l => let l' := eval vm_compute in l in change (In x l') in H end. cbn [In] in H. repeat (destruct H as [<-|H]; [vm_compute; reflexivity|]). destruct H.
Qed.
Lemma dangling_bin : let fs := unpack empty_root dangling_usr_real in
  walks fs [] [$"sbin"] [$"sbin"] /\ ends fs [$"sbin"] [$"usr"; $"bin"] /\ fs [$"usr"; $"bin"] = Some (FDir (Some (anon (fst (a_dir []))))) /\
  (forall y, fs ([$"usr"; $"bin"] ++ [y]) <> None -> (exists r, ends fs ([$"usr"; $"bin"] ++ [y]) r) \/ (exists a, strays fs ([$"usr"; $"bin"] ++ [y]) a)) /\
  fs ([$"usr"; $"bin"] ++ [$"vi"]) <> None /\ strays fs ([$"usr"; $"bin"] ++ [$"vi"]) ENotExist.
Proof.
  intros fs. assert (B : strays fs ([$"usr"; $"bin"] ++ [$"vi"]) ENotExist).
  { eapply strays_text; [vm_compute; reflexivity|reflexivity|]. change (trips fs [$"usr"; $"bin"] [$"vim"] ENotExist). eapply trips_missing; [vm_compute; reflexivity|apply pc; reflexivity|vm_compute; reflexivity]. }
  split; [|split; [|split; [|split; [|split; [vm_compute; discriminate|exact B]]]]].
  - apply (walks_last _ [] None $"sbin"); [vm_compute; reflexivity|apply pc; reflexivity|vm_compute; discriminate].
  - eapply ends_link with (q := [$"bin"]); [vm_compute; reflexivity|reflexivity| |].
    + apply (walks_last _ [] None $"bin"); [vm_compute; reflexivity|apply pc; reflexivity|vm_compute; discriminate].
    + eapply ends_link with (q := [$"usr"; $"bin"]); [vm_compute; reflexivity|reflexivity| |eapply ends_dir; vm_compute; reflexivity].
      change (clean_comps _) with [$"usr"; $"bin"]. cbn [parent removelast]. eapply walks_down with (d' := [$"usr"]); [vm_compute; reflexivity|apply pc; reflexivity|eapply follows_dir; vm_compute; reflexivity|discriminate|].
      eapply (walks_last _ [$"usr"]); [vm_compute; reflexivity|apply pc; reflexivity|vm_compute; discriminate].
  - vm_compute. reflexivity.
  - intros y N. pose proof N as J. apply SquashCheck.in_next_names in J. vm_compute in J. destruct J as [<-|[<-|[<-|[]]]]; [left; eexists; (eapply ends_file; [vm_compute; reflexivity|vm_compute; discriminate])..|right; eauto].
Qed.
