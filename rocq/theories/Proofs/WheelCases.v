(** The examples meet the hypotheses; where the claims fail. *)
From Coq Require Import String Ascii List Bool NArith ZArith Lia Permutation.
From Verif.Model Require Import GoStr GoPath Tar Stat Layer ConfigParser Platform WheelFile Wheel.
From Verif.Spec Require Import PathSpec SimpleAPISpec LayerSpec WheelSpec WheelExamples.
From Verif.Proofs Require Import Order GoStrFacts GoPathFacts SimpleAPIFacts LayerFacts SpecifierParse SquashCheck ConfigFacts WheelPaths WheelSpread WheelFacts WheelSame.
Import ListNotations.
Local Open Scope nat_scope.

Lemma ex_fair : fair ex_out.
Proof. repeat split; try (intros; apply incl_refl); try (intros; apply Permutation_refl); try (now left); apply insertion_sorts. Qed.
Lemma ex_rev_fair : fair ex_out_rev.
Proof.
  assert (R : forall fs : vfs, incl (map fst fs) (rev (map fst fs))) by (intros fs k I; now rewrite <- in_rev).
  split; [exact R|]. split; [exact R|]. split; [intros fs k I; left; cbn in I; now rewrite <- in_rev in I|].
  split; [intros; symmetry; apply Permutation_rev|]. split; [intros; symmetry; apply Permutation_rev|]. split; [intros; symmetry; apply Permutation_rev|]. apply insertion_sorts.
Qed.
Lemma ex_more_fair : fair ex_out_more.
Proof.
  split; [intros fs; apply incl_appl, incl_refl|]. repeat split; try (intros; apply incl_refl); try (intros; apply Permutation_refl); try (now left); apply insertion_sorts.
Qed.
Lemma ex_names o : o_compile o = ex_compile -> o_hook o = ex_hook -> good_names o.
Proof.
  intros C H. unfold good_names. rewrite C, H. split.
  - intros t l outs E. unfold ex_compile in E. destruct (existsb _ l); injection E as <-; repeat constructor.
  - intros t fs info fs' E _ _ [N G]. injection E as <-. split; [now apply set_key_nodup|]. apply Forall_forall. intros [k r] I.
    assert (GK : get_key k (set_key $"usr/lib/foo-1.0.dist-info/INSTALLER" (mem_reg $"usr/lib/foo-1.0.dist-info/INSTALLER" 420 t $"me") fs) = Some r) by (apply in_get_key; [now apply set_key_nodup|exact I]).
    rewrite get_set_key in GK. destruct (str_eqb k _) eqn:E.
    + apply str_eqb_eq in E. injection GK as <-. rewrite E. cbn [fst snd]. repeat split.
    + rewrite Forall_forall in G. apply (G (k, r)). now apply get_key_in.
Qed.
Lemma ex_tools : same_tools ex_out ex_out_rev.
Proof.
  repeat (split; [reflexivity|]).
  intros t l l' P. cbn [o_compile ex_out ex_out_rev]. unfold ex_compile. rewrite (existsb_perm _ l l' P). destruct (existsb _ l'); cbn [same_set]; auto.
Qed.
Lemma ex_hooks pl min wh : inner_scheme (pl_scheme pl) -> inner_names wh -> never_nested (pl_scheme pl) wh -> same_hooks ex_out ex_out_rev pl min wh.
Proof.
  intros HS HN NN t fs fs' info IV P. destruct (vfs_places _ _ _ _ _ _ _ ex_fair HS HN NN IV) as (_ & _ & _ & _ & _ & _ & _ & N & _).
  cbn [o_hook ex_out ex_out_rev ex_hook same_set].
  assert (N' : NoDup (map fst fs')) by (eapply Permutation_NoDup; [apply Permutation_map, P|exact N]).
  apply maps_perm; [now apply set_key_nodup|now apply set_key_nodup|]. intros k. rewrite !get_set_key. destruct (str_eqb k _); auto. symmetry. apply perm_get; auto. now symmetry.
Qed.

Definition innerb (p : str) : bool := negb (is_abs p) && negb (match clean_comps p with [] => true | _ => false end) && forallb plain_compb (clean_comps p).
Lemma innerb_ok p : innerb p = true -> inner p.
Proof.
  unfold innerb, inner. rewrite !andb_true_iff, !negb_true_iff. intros ((A & B) & C). split; auto. split; [intros E; rewrite E in B; discriminate|].
  apply Forall_forall. intros c I. rewrite forallb_forall in C. apply plain_compb_ok. auto.
Qed.
Lemma ex_outputs o : o_compile o = ex_compile -> distinct_outputs o /\ pyc_outputs o.
Proof.
  intros C. split; intros t l outs E; rewrite C in E; unfold ex_compile in E; destruct (existsb _ l); injection E as <-.
  - constructor; [intros []|constructor].
  - constructor.
  - constructor; [|constructor]. split; [apply innerb_ok; reflexivity|]. split; [reflexivity|]. split; [reflexivity|]. eexists. reflexivity.
  - constructor.
Qed.
Definition ex_pl : platform :=
  mkPlatform $"/bin/python3.9" $"/bin/pythonw3.9" (mkScheme $"usr/lib" $"usr/lib64" $"usr/include" $"usr/bin" $"usr") 7 8 $"u" $"g".
Lemma ex_sanitize : sanitize ex_platform = Some ex_pl.
Proof. reflexivity. Qed.
Lemma ex_inner : inner_scheme (pl_scheme ex_pl).
Proof. repeat (constructor; [apply innerb_ok; reflexivity|]). constructor. Qed.
Lemma inner_all wh : forallb (fun f => innerb (z_name (zf_header f))) wh = true -> inner_names wh.
Proof. intros H. apply Forall_forall. intros f I. rewrite forallb_forall in H. apply innerb_ok. apply (H f I). Qed.
(** The information directory is always the same *)
Definition infos (wh : list zfile) : list str :=
  filter (has_suffix $".dist-info") (map (fun f => hd [] (clean_comps (z_name (zf_header f)))) wh).
Lemma infos_ok wh info : info_of wh info -> In info (infos wh).
Proof. intros (S & f & cs & I & E). unfold infos. apply filter_In. split; auto. apply in_map_iff. exists f. rewrite E. auto. Qed.
Definition nested_b (s : scheme) (root data : str) (f : zfile) : bool :=
  match destination s root data (z_name (zf_header f)) with
  | Some (Some key, name) => has_prefix (join $"/" (clean_comps root ++ [data]) ++ $"/") name
  | _ => false
  end.
Lemma nested_ok s root data wh : existsb (nested_b s root data) wh = false -> not_nested s root data wh.
Proof.
  intros H f key name x I D E. assert (X : existsb (nested_b s root data) wh = true); [|congruence]. apply existsb_exists. exists f. split; auto.
  unfold nested_b. rewrite D, E. rewrite app_assoc. apply has_prefix_app.
Qed.
Definition never_b (s : scheme) (wh : list zfile) : bool :=
  forallb (fun info => forallb (fun root => negb (existsb (nested_b s root (data_name info)) wh)) [s_purelib s; s_platlib s]) (infos wh).
Lemma never_ok s wh : never_b s wh = true -> never_nested s wh.
Proof.
  intros H info root IO RO. unfold never_b in H. rewrite forallb_forall in H. specialize (H info (infos_ok _ _ IO)). rewrite forallb_forall in H.
  apply nested_ok. apply negb_true_iff. apply H. destruct RO as [->| ->]; cbn; auto.
Qed.
Fixpoint nodupb (l : list (option str)) : bool :=
  match l with
  | [] => true
  | x :: l => negb (existsb (fun y => match x, y with Some a, Some b => str_eqb a b | None, None => true | _, _ => false end) l) && nodupb l
  end.
Lemma nodupb_ok l : nodupb l = true -> NoDup l.
Proof.
  induction l as [|x l IH]; cbn [nodupb]; [constructor|]. rewrite andb_true_iff, negb_true_iff. intros [A B]. constructor; auto. intros I.
  assert (X : existsb (fun y => match x, y with Some a, Some b => str_eqb a b | None, None => true | _, _ => false end) l = true); [|congruence].
  apply existsb_exists. exists x. split; auto. destruct x; auto. apply str_eqb_refl.
Qed.
Definition tame_b (s : scheme) (wh : list zfile) : bool :=
  forallb innerb (scheme_paths s) && forallb (fun f => innerb (z_name (zf_header f))) wh && never_b s wh &&
  forallb (fun info => forallb (fun root =>
    forallb (fun f => match destination s root (data_name info) (z_name (zf_header f)) with Some _ => true | None => false end) wh &&
    nodupb (map (fun f => option_map snd (destination s root (data_name info) (z_name (zf_header f)))) wh)) [s_purelib s; s_platlib s]) (infos wh).
Lemma tame_ok s wh : tame_b s wh = true -> tame s wh.
Proof.
  unfold tame_b. rewrite !andb_true_iff. intros (((A & B) & C) & D). split; [apply Forall_forall; rewrite forallb_forall in A; intros; apply innerb_ok; auto|].
  split; [now apply inner_all|]. split; [now apply never_ok|]. intros info root IO RO.
  rewrite forallb_forall in D. specialize (D info (infos_ok _ _ IO)). rewrite forallb_forall in D.
  assert (Ir : In root [s_purelib s; s_platlib s]) by (destruct RO as [->| ->]; cbn; auto). specialize (D root Ir). apply andb_true_iff in D as [D1 D2].
  split; [|now apply nodupb_ok]. apply Forall_forall. intros f I. rewrite forallb_forall in D1. specialize (D1 f I). intros E. rewrite E in D1. discriminate.
Qed.
Lemma ex_tame : tame (pl_scheme ex_pl) ex_good.
Proof. apply tame_ok. vm_compute. reflexivity. Qed.
Lemma ex_distinct : distinct_names ex_good.
Proof. apply NoDup_map_inv with (f := Some). rewrite map_map. apply nodupb_ok. vm_compute. reflexivity. Qed.
Lemma ex_honest : honest_dirs ex_good.
Proof.
  assert (H : forall f, In f ex_good -> entry_is_dir f = true \/ (z_creator (zf_header f) / 256 = 3 /\ N.land (z_attrs (zf_header f) / 65536) 61440 <> 16384)%N).
  { apply (proj1 (Forall_forall _ _)). unfold ex_good. repeat (constructor; [first [left; vm_compute; reflexivity|right; split; [vm_compute; reflexivity|vm_compute; discriminate]]|]). constructor. }
  apply Forall_forall. intros f I M. destruct (H f I) as [E|[E N]]; auto. exfalso. unfold marked_dir in M. rewrite E in M.
  destruct M as [[_ M]|[M _]]; [contradiction|]. destruct M as [M|[M|[M|[]]]]; discriminate.
Qed.

(** ** Consequences *)
Lemma sanitized pl pl' : sanitize pl = Some pl' ->
  (pl_console pl <> [] -> pl_console pl' = pl_console pl) /\ (pl_graphical pl <> [] -> pl_graphical pl' = pl_graphical pl) /\
  (pl_console pl = [] -> pl_console pl' = pl_graphical pl) /\ (pl_graphical pl = [] -> pl_graphical pl' = pl_console pl) /\
  Forall2 (fun p p' => p = $"/" ++ p') (scheme_paths (pl_scheme pl)) (scheme_paths (pl_scheme pl')).
Proof.
  unfold sanitize. destruct (plat_init pl) as [q|] eqn:I; [|discriminate]. intros E. injection E as <-.
  assert (T : forall p, is_abs p = true -> p = $"/" ++ trim_prefix $"/" p).
  { intros p A. unfold is_abs in A. apply has_prefix_spec in A as (t & ->). reflexivity. }
  unfold plat_init in I. destruct pl as [con gra s u g un gn]. cbn [pl_console pl_graphical pl_scheme pl_uid pl_gid pl_uname pl_gname] in *.
  assert (X : forallb is_abs (scheme_paths s) = true /\ q = mkPlatform (match con with [] => gra | _ => con end) (match gra with [] => match con with [] => gra | _ => con end | _ => gra end) s u g un gn).
  { destruct con, gra; try discriminate; destruct (forallb is_abs (scheme_paths s)); try discriminate; injection I as <-; auto. }
  destruct X as [A ->]. cbn [pl_console pl_graphical pl_scheme]. destruct s as [s1 s2 s3 s4 s5]. cbn [scheme_paths s_purelib s_platlib s_headers s_scripts s_data forallb] in *.
  rewrite !andb_true_iff in A. destruct A as (A1 & A2 & A3 & A4 & A5 & _).
  clear I. do 4 (split; [destruct con, gra; cbn; intros; congruence|]).
  repeat (constructor; [apply T; assumption|]). constructor.
Qed.
Lemma destination_inside s root data name key p : root_of s root -> destination s root data name = Some (key, p) ->
  exists dir rest, In dir (scheme_paths s) /\ p = join $"/" (clean_comps dir ++ rest).
Proof.
  intros RO. assert (IR : In root (scheme_paths s)) by (destruct RO as [->| ->]; cbn; auto). unfold destination.
  destruct (clean_comps name) as [|d [|k rest]]; try (intros E; injection E as _ <-; eauto). destruct (str_eqb d data); [|intros E; injection E as _ <-; eauto].
  destruct (get_key k (key_dirs s)) as [dir|] eqn:G; [|discriminate]. intros E. injection E as _ <-. exists dir, rest. split; auto.
  apply get_key_in in G. cbn in G. cbn. intuition congruence.
Qed.
Theorem wheel_inside o fuel pl pl' min mx wh l : fair o -> good_names o -> sanitize pl = Some pl' ->
  inner_scheme (pl_scheme pl') -> inner_names wh -> never_nested (pl_scheme pl') wh ->
  install_wheel o fuel pl min mx wh = IOk l ->
  exists info root, info_of wh info /\ root_of (pl_scheme pl') root /\
  Forall (fun e => origin o pl' min (max_time o wh mx) wh root info l e /\
    (forall f, In f wh -> entry_from pl' root (data_name info) f e ->
       exists dir rest, In dir (scheme_paths (pl_scheme pl')) /\ th_name (fst e) = join $"/" (clean_comps dir ++ rest))) l.
Proof.
  intros FO GN S HS HN NN H. destruct (wheel_origin _ _ _ _ _ _ _ _ FO GN S HS HN NN H) as (info & root & IO & RO & _ & _ & F).
  exists info, root. split; auto. split; auto. eapply Forall_impl; [|exact F]. intros e O. split; auto. intros f I (key & D & _). eapply destination_inside; eauto.
Qed.
Theorem wheel_scripts o fuel pl pl' min mx wh l : fair o -> good_names o -> sanitize pl = Some pl' -> inner_scheme (pl_scheme pl') -> inner_names wh -> never_nested (pl_scheme pl') wh ->
  install_wheel o fuel pl min mx wh = IOk l ->
  exists info root, info_of wh info /\ root_of (pl_scheme pl') root /\
  forall f rest, In f wh -> clean_comps (z_name (zf_header f)) = data_name info :: $"scripts" :: rest -> entry_is_dir f = false ->
  forall name, name = join $"/" (clean_comps (s_scripts (pl_scheme pl')) ++ rest) ->
    taken (pl_scheme pl') root (data_name info) wh f name \/
    In name (left_out root info) \/
    (exists outs, compiles o pl' (max_time o wh mx) wh root info outs /\ In name (map ref_full outs)) \/
    (exists fs fs', hooks o pl' min (max_time o wh mx) wh fs fs' /\ get_key name fs' <> get_key name fs) \/
    (exists e text, In e l /\ zf_content f = Bytes text true /\ th_name (fst e) = name /\ th_type (fst e) = TypeReg /\ th_size (fst e) = Z.of_nat (length (snd e)) /\
       (forall r, text = $"#!pythonw" ++ r -> snd e = $"#!" ++ pl_graphical pl' ++ r /\ th_mode (fst e) = 493%Z) /\
       (forall r, text = $"#!python" ++ r -> has_prefix $"w" r = false -> snd e = $"#!" ++ pl_console pl' ++ r /\ th_mode (fst e) = 493%Z) /\
       (has_prefix $"#!python" text = false -> snd e = text /\ th_mode (fst e) = if marked_executable f then 493%Z else 420%Z)).
Proof.
  intros FO GN S HS HN NN H. destruct (wheel_alone _ _ _ _ _ _ _ _ FO GN S HS HN NN H) as (info & root & IO & RO & _ & _ & C).
  exists info, root. split; auto. split; auto. intros f rest I E D name ->.
  assert (DS : destination (pl_scheme pl') root (data_name info) (z_name (zf_header f)) = Some (Some $"scripts", join $"/" (clean_comps (s_scripts (pl_scheme pl')) ++ rest))).
  { unfold destination. rewrite E, str_eqb_refl. reflexivity. }
  destruct (C _ _ _ I DS) as [A|[A|[A|[A|(e & Ie & N & (key & D' & R) & _)]]]]; auto. right. right. right. right.
  rewrite DS in D'. assert (key = Some $"scripts") by congruence. subst key. rewrite D in R. destruct R as (text & CT & TY & TX & SZ & MD).
  cbn [is_script] in TX, MD. change (str_eqb $"scripts" $"scripts") with true in TX, MD. cbn [andb] in MD. cbv iota in TX.
  exists e, text. repeat (split; [assumption|]). split; [|split].
  - intros r ->. split; [exact TX|]. rewrite MD. change (has_prefix $"#!python" ($"#!pythonw" ++ r)) with true. now rewrite orb_true_r.
  - intros r -> W. split.
    + rewrite TX. unfold shebang_line. change (has_prefix $"#!python" ($"#!python" ++ r)) with true. change (skipn 8 ($"#!python" ++ r)) with r.
      change (has_prefix $"#!pythonw" ($"#!python" ++ r)) with (has_prefix $"w" r). now rewrite W.
    + rewrite MD. change (has_prefix $"#!python" ($"#!python" ++ r)) with true. now rewrite orb_true_r.
  - intros P. rewrite P, orb_false_r in MD. split; auto. rewrite TX. unfold shebang_line. rewrite P.
    destruct (has_prefix $"#!pythonw" text) eqn:PW; auto. apply has_prefix_spec in PW as (t & ->). change (has_prefix $"#!python" ($"#!pythonw" ++ t)) with true in P. discriminate.
Qed.

(** ** Where the claims fail *)
Ltac in_list := repeat (first [left; reflexivity | right]).
Lemma no_digest rows (text : str) : forallb (fun row : list str => forallb (fun field => negb (has_suffix ($"=" ++ text) field)) row) rows = true ->
  forall name algo size, ~ In [name; algo ++ $"=" ++ text; size] rows.
Proof.
  intros H name algo size I. rewrite forallb_forall in H. specialize (H _ I). cbn [forallb] in H. rewrite !andb_true_iff in H. destruct H as (_ & H & _).
  rewrite has_suffix_app in H. discriminate.
Qed.
Lemma twice_unrecorded : exists l e, install_wheel ex_out 9 ex_platform None None ex_twice = IOk l /\ In e l /\
  th_name (fst e) = $"usr/lib/foo/a.py" /\ snd e = $"evil" /\
  forall record text ok rows, In record ex_twice -> clean_comps (z_name (zf_header record)) = [$"foo-1.0.dist-info"; $"RECORD"] ->
  zf_content record = Bytes text ok -> o_csv ex_out text = Some rows -> forall name algo size, ~ In [name; algo ++ $"=" ++ o_digest ex_out algo (snd e); size] rows.
Proof.
  eexists. eexists. split; [vm_compute; reflexivity|]. split; [do 5 right; left; reflexivity|]. split; [reflexivity|]. split; [reflexivity|].
  intros record text ok rows I N C R name algo size. cbn [snd o_digest ex_out].
  revert name algo size. apply no_digest. repeat (destruct I as [<-|I]; [try (vm_compute in N; discriminate)|]); [|destruct I].
  injection C as <- <-. injection R as <-. vm_compute. reflexivity.
Qed.
Lemma dirmode_unrecorded : exists l e, install_wheel ex_out 9 ex_platform None None ex_dirmode = IOk l /\ In e l /\
  th_name (fst e) = $"usr/lib/foo/b.py" /\ th_type (fst e) = TypeReg /\ snd e = $"evil" /\
  forall record text ok rows, In record ex_dirmode -> clean_comps (z_name (zf_header record)) = [$"foo-1.0.dist-info"; $"RECORD"] ->
  zf_content record = Bytes text ok -> o_csv ex_out text = Some rows -> forall name algo size, ~ In [name; algo ++ $"=" ++ o_digest ex_out algo (snd e); size] rows.
Proof.
  eexists. eexists. split; [vm_compute; reflexivity|]. split; [do 6 right; left; reflexivity|]. split; [reflexivity|]. split; [reflexivity|]. split; [reflexivity|].
  intros record text ok rows I N C R name algo size. cbn [snd o_digest ex_out].
  revert name algo size. apply no_digest. repeat (destruct I as [<-|I]; [try (vm_compute in N; discriminate)|]); [|destruct I].
  injection C as <- <-. injection R as <-. vm_compute. reflexivity.
Qed.
Lemma escapes : exists l e, install_wheel ex_out 9 ex_platform None None ex_outside = IOk l /\ In e l /\
  th_name (fst e) = $"etc/passwd" /\ snd e = $"evil" /\
  forall dir, In dir (scheme_paths (pl_scheme ex_platform)) -> ~ below dir ($"/" ++ th_name (fst e)).
Proof.
  eexists. eexists. split; [vm_compute; reflexivity|]. split; [do 1 right; left; reflexivity|]. split; [reflexivity|]. split; [reflexivity|].
  intros dir I (x & B). repeat (destruct I as [<-|I]; [destruct B as [B|(B & _)]; discriminate|]). destruct I.
Qed.
Lemma replaces : exists l e, install_wheel ex_out 9 ex_platform None None ex_whole = IOk l /\ In e l /\
  $"/" ++ th_name (fst e) = s_scripts (pl_scheme ex_platform) /\ th_type (fst e) = TypeReg /\ snd e = $"evil".
Proof. eexists. eexists. split; [vm_compute; reflexivity|]. split; [do 1 right; left; reflexivity|]. repeat split. Qed.
Lemma never_ends fuel : install_wheel ex_out fuel ex_platform_slashes None None ex_good = ILoop.
Proof.
  unfold install_wheel.
  let s := eval vm_compute in (sanitize ex_platform_slashes) in change (sanitize ex_platform_slashes) with s. cbv iota beta.
  assert (IC : integrity_check (o_csv ex_out) (o_digest ex_out) ex_good = true) by (vm_compute; reflexivity). rewrite IC. cbn [negb]. cbv zeta.
  match goal with |- context [install_vfs ?a ?b ?c ?d ?e] => let v := eval vm_compute in (install_vfs a b c d e) in replace (install_vfs a b c d e) with v by (vm_compute; reflexivity) end.
  cbv iota beta. match goal with |- context [o_hook ?a ?b ?c ?d] => let v := eval vm_compute in (o_hook a b c d) in replace (o_hook a b c d) with v by (vm_compute; reflexivity) end.
  cbv iota beta. match goal with |- context [o_parents ?a ?b] => let v := eval vm_compute in (o_parents a b) in replace (o_parents a b) with v by (vm_compute; reflexivity) end.
  cbn [add_all_parents]. rewrite abs_parents by reflexivity. reflexivity.
Qed.
Lemma file_above : exists l e e', install_wheel ex_out 9 ex_platform None None ex_file_above = IOk l /\ In e l /\ In e' l /\
  below (th_name (fst e')) (th_name (fst e)) /\ th_type (fst e') = TypeReg.
Proof.
  eexists. eexists. eexists. split; [vm_compute; reflexivity|]. split; [do 5 right; left; reflexivity|]. split; [do 2 right; left; reflexivity|].
  split; [exists $"a.py"; left; reflexivity|reflexivity].
Qed.
Definition content_of (name : str) (r : ires (list entry)) : option str :=
  match r with IOk l => option_map snd (find (fun e => str_eqb (th_name (fst e)) name) l) | _ => None end.
Lemma order_matters : fair ex_out /\ fair ex_out_rev /\ same_tools ex_out ex_out_rev /\ o_hook ex_out = o_hook ex_out_rev /\ exists l l',
  install_wheel ex_out 9 ex_platform_same None None ex_clash = IOk l /\ install_wheel ex_out_rev 9 ex_platform_same None None ex_clash = IOk l' /\
  l <> l' /\ map (fun e => th_name (fst e)) l = map (fun e => th_name (fst e)) l'.
Proof.
  split; [exact ex_fair|]. split; [exact ex_rev_fair|]. split; [exact ex_tools|]. split; [reflexivity|]. eexists. eexists. split; [vm_compute; reflexivity|]. split; [vm_compute; reflexivity|].
  split; [|reflexivity]. intros E. apply (f_equal (fun l => content_of $"usr/lib/a" (IOk l))) in E. vm_compute in E. discriminate.
Qed.
Lemma range_matters : fair ex_out /\ fair ex_out_more /\ exists l l',
  install_wheel ex_out 9 ex_platform None None ex_nested = IOk l /\ install_wheel ex_out_more 9 ex_platform None None ex_nested = IOk l' /\
  ~ In $"usr/bin/run" (map (fun e => th_name (fst e)) l) /\ In $"usr/bin/run" (map (fun e => th_name (fst e)) l').
Proof.
  split; [exact ex_fair|]. split; [exact ex_more_fair|]. eexists. eexists. split; [vm_compute; reflexivity|]. split; [vm_compute; reflexivity|].
  split; [|cbn [map fst th_name]; in_list]. cbn [map fst th_name]. intros I. repeat (destruct I as [I|I]; [discriminate|]). destruct I.
Qed.
Lemma archive_order_matters : Permutation ex_twice (rev ex_twice) /\ exists l l',
  install_wheel ex_out 9 ex_platform None None ex_twice = IOk l /\ install_wheel ex_out 9 ex_platform None None (rev ex_twice) = l' /\ IOk l <> l'.
Proof.
  split; [apply Permutation_rev|]. eexists. eexists. split; [vm_compute; reflexivity|]. split; [vm_compute; reflexivity|]. discriminate.
Qed.
