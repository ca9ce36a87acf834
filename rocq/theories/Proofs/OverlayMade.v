(** Layers made by the program, laid over an image. *)
From Coq Require Import String Ascii List Bool ZArith Sorted Permutation Lia.
From Verif.Model Require Import GoStr GoPath Tar Layer Dir Squash VfsFS LookPath ConfigParser Platform WheelFile Wheel.
From Verif.Spec Require Import PathSpec SimpleAPISpec SquashSpec VfsFSSpec LookPathSpec LayerSpec DirSpec MadeSpec WheelSpec OverlaySpec.
From Verif.Proofs Require Import Order GoStrFacts GoPathFacts LayerFacts DirFacts SquashTree SquashLoad SquashWrite SquashSim SquashStack SquashFinal SquashMore SquashSources SquashBack SquashMade SquashWheel SquashEnds WheelFacts WheelSame LookPathFacts VfsImage OverlayFacts.
Import ListNotations.
Local Open Scope nat_scope.

Lemma fine_tree l : fine_layer l -> tree_layer l.
Proof.
  intros (G & M & S & D). split; [|split; auto].
  - rewrite Forall_forall in *. intros e I. destruct (G e I) as [A [R|(d & k & Y & _ & _ & _ & K)]]; auto. exfalso.
    specialize (M e I). unfold is_marker in M. rewrite Y, last_last in M. destruct K as [->|(x & -> & _)]; [discriminate|]. rewrite SquashSim.wh_marker in M. discriminate.
  - now apply (one_nodup l).
Qed.

(** A layer with all directories above its entries is not written through links. *)
Definition with_parents (l : list entry) : Prop := forall e q, In e l -> SquashSpec.below q (entry_path e) = true -> q <> [] -> In q (map entry_path l).
Lemma fine_past fs l : fine_layer l -> with_parents l -> is_dir_at fs [] -> past_links fs l.
Proof.
  intros (_ & _ & S & _) W [m RD] l1 e l2 q E B (h & c & LQ & _).
  assert (N : q <> []) by (intros ->; rewrite RD in LQ; discriminate). assert (I : In q (map entry_path l)) by (apply (W e); auto; rewrite E; apply in_app_iff; right; now left).
  rewrite E in I, S. rewrite map_app in I, S. cbn [map] in I, S. apply in_app_iff in I as [I|[I|I]]; auto; exfalso.
  - rewrite I, below_refl in B. discriminate.
  - apply (before_asym q (entry_path e)); [left; exact B|]. clear - S I. induction (map entry_path l1) as [|z zs IH]; inversion S as [|? ? S' F]; subst; auto.
    rewrite Forall_forall in F. now apply F.
Qed.
Lemma over_reads base l e : plain_stack base -> tree_layer l -> past_links (unpack empty_root base) l ->
  Forall (Forall (fun e => ~ links_to_root e)) (base ++ [l]) ->
  In e l -> th_type (fst e) = TypeReg -> th_size (fst e) = Z.of_nat (length (snd e)) -> forall p, names_path (th_name (fst e)) p ->
  reads_back (base ++ [l]) (th_name (fst e)) (snd e).
Proof.
  intros P T PL NR I TY SZ p N sort order utf8 HO U.
  assert (E : open_name (entry_path e) = th_name (fst e)).
  { destruct (good_named e p N) as (_ & -> & _). destruct N as (N & _ & ->). unfold open_name, path_text. destruct p; [congruence|reflexivity]. }
  rewrite <- E in *. apply over_read; auto.
  - unfold is_dir. now rewrite TY.
  - unfold is_link. now rewrite TY.
  - rewrite SZ. lia.
Qed.
Lemma forall2_left {A B} (R : A -> B -> Prop) l l' a : Forall2 R l l' -> In a l -> exists b, In b l' /\ R a b.
Proof. induction 1 as [|x y l l' H F IH]; intros I; [destruct I|]. destruct I as [->|I]; [exists y; split; auto; now left|]. destruct (IH I) as (b & Ib & H'). exists b. split; auto. now right. Qed.
Theorem over_refs base vfs encodable sort c out r h s : plain_stack base ->
  NoDup (map fr_name vfs) -> Forall (fun r => exists p, names_path (fr_name r) p) vfs ->
  (forall r r', In r vfs -> In r' vfs -> LayerSpec.below (fr_name r) (fr_name r') -> is_dir_ref r) ->
  sorts sort -> layer_from_refs encodable sort vfs c = LayerOk out -> past_links (unpack empty_root base) out ->
  Forall (Forall (fun e => ~ links_to_root e)) (base ++ [out]) ->
  In r vfs -> fr_header r = Some h -> th_type h = TypeReg -> fr_content r = Bytes s true -> reads_back (base ++ [out]) (fr_name r) s.
Proof.
  intros P ND NP DA HS E PL NR I H T C. pose proof (fine_tree _ (refs_fine vfs ND NP DA encodable sort c out HS E)) as TL.
  destruct (layer_in_order encodable sort vfs c out HS ND (refs_clean vfs NP) E) as (_ & l & PM & F2).
  apply (Permutation_in _ (Permutation_sym PM)) in I. destruct (forall2_left _ _ _ _ F2 I) as (e & Ie & h' & H' & En & SB & K).
  assert (h' = h) by congruence. subst h'. rewrite T in K. cbn in K. destruct K as [K SZ]. assert (s = snd e) by congruence. subst s.
  rewrite <- En. rewrite Forall_forall in NP. apply (Permutation_in _ PM) in I. destruct (NP r I) as (p & N). rewrite <- En in N.
  destruct SB as (T' & _ & S' & _). apply (over_reads base out e) with (p := p); auto; congruence.
Qed.
Lemma file_entries_for l files : forall before0 out p i, file_entries l before0 files out -> In (p, i) files ->
  exists f1 f2 e, files = f1 ++ (p, i) :: f2 /\ In e out /\ file_entry l (before0 ++ f1) p i e.
Proof.
  induction files as [|[q j] files IH]; intros b [|x out] p i H I; cbn [file_entries] in H; try tauto; [destruct I|].
  destruct H as [H1 H2]. destruct I as [[= -> ->]|I].
  - exists [], files, x. rewrite app_nil_r. split; auto. split; auto. now left.
  - destruct (IH _ _ _ _ H2 I) as (f1 & f2 & e & -> & Ie & FE). exists ((q, j) :: f1), f2, e. rewrite <- app_assoc in FE. split; auto. split; auto. now right.
Qed.
Lemma prefixes_in2 (q l r : path) : q <> [] -> l = q ++ r -> In q (nonempty_prefixes l).
Proof. intros N E. apply prefixes_in. eauto. Qed.
Lemma dir_parents root (DN : disk_names root) (NM : no_markers_in root) encodable sort px chown c l out m : sorts sort -> real_path l ->
  match px with None => l = [] | Some px => px_name px = path_text false l end ->
  layer_from_dir encodable m sort root px chown c = LayerOk out -> with_parents out.
Proof.
  intros HS RL PX E.
  assert (PP : prefix_path px l).
  { destruct px as [px|]; cbn [prefix_path]; auto. rewrite PX. split; [|apply plain_clean_list, RL].
    rewrite clean_text, clean_comps_text by (apply plain_clean_list, RL). rewrite SquashMain.text_not_abs by apply RL. reflexivity. }
  destruct (dir_layer encodable m sort root px chown c l out HS DN PP E) as (files & above & rest & [SF LF] & -> & AB & FE).
  assert (AI : forall q r, q <> [] -> l = q ++ r -> In q (map entry_path above)).
  { intros q r N El. destruct px as [px|]; [|exfalso; rewrite PX in El; symmetry in El; apply app_eq_nil in El; tauto].
    destruct (forall2_left _ _ _ _ (AB PX) (prefixes_in2 q l r N El)) as (e & Ie & Nm & _). apply in_map_iff. exists e. split; auto.
    assert (NQ : names_path (th_name (fst e)) q). { split; auto. split; [rewrite El in RL; now apply real_app in RL|]. rewrite Nm. destruct q; [congruence|reflexivity]. }
    now apply good_named in NQ. }
  assert (NF : forall p i, info_at root p = Some i -> p <> [] -> In (l ++ p) (map entry_path rest)).
  { intros p i IA N. destruct (file_entries_for l files [] rest p i FE (proj2 (LF p i) (conj N IA))) as (f1 & f2 & e & _ & Ie & En & _). apply in_map_iff. exists e. split; auto.
    assert (NQ : names_path (th_name (fst e)) (l ++ p)).
    { split; [destruct l, p; cbn [app]; congruence|]. split; auto. pose proof (info_file _ _ _ IA) as FA. destruct RL as [R1 R2]. split; apply Forall_app; split; auto. now apply (disk_plain root). }
    now apply good_named in NQ. }
  intros e q I B N. rewrite map_app. apply in_app_iff. apply below_spec in B as (k & r & B). apply in_app_iff in I as [I|I].
  - left. destruct px as [px|]; [|subst above; destruct I]. specialize (AB PX).
    assert (X : exists p, In p (nonempty_prefixes l) /\ prefix_entry px c p e).
    { clear - AB I. induction AB as [|p x ps xs H _ IH]; [destruct I|]. destruct I as [->|I]; [exists p; split; auto; now left|]. destruct (IH I) as (p' & Ip & H'). exists p'. split; auto. now right. }
    destruct X as (p & Ip & Nm & _). apply prefixes_in in Ip as [Np [s El]].
    assert (NQ : names_path (th_name (fst e)) p). { split; auto. split; [rewrite El in RL; now apply real_app in RL|]. rewrite Nm. destruct p; [congruence|reflexivity]. }
    apply good_named in NQ as (_ & EP & _). rewrite EP in B. apply (AI q ((k :: r) ++ s) N). rewrite El, B. now rewrite <- app_assoc.
  - destruct (file_entries_in l files [] rest e FE I) as (f1 & p & i & f2 & Ef & F). assert (Ip : In (p, i) files) by (rewrite Ef; apply in_app_iff; right; now left).
    apply LF in Ip as [Np IA].
    assert (NQ : names_path (th_name (fst e)) (l ++ p)).
    { split; [destruct l, p; cbn [app]; congruence|]. split; [|exact (proj1 F)]. pose proof (info_file _ _ _ IA) as FA. destruct RL as [R1 R2]. split; apply Forall_app; split; auto. now apply (disk_plain root). }
    apply good_named in NQ as (_ & EP & _). rewrite EP in B. apply app_eq_app in B as (w & [[-> B]|[-> B]]).
    + left. now apply (AI q w).
    + destruct w as [|x w]; [left; rewrite app_nil_r in *; apply (AI l []); auto; now rewrite app_nil_r|]. right. destruct (prefix_above (x :: w) p root) as (i' & rd & ch & FA); [rewrite B; apply below_app|congruence|].
      apply (NF (x :: w) i'); [|discriminate]. unfold info_at. now rewrite FA.
Qed.
Theorem over_dir base root encodable sort px chown c l out m p i h s : plain_stack base ->
  disk_names root -> true_directories root -> no_markers_in root -> sorts sort -> real_path l ->
  match px with None => l = [] | Some px => px_name px = path_text false l end ->
  layer_from_dir encodable m sort root px chown c = LayerOk out -> is_dir_at (unpack empty_root base) [] ->
  Forall (Forall (fun e => ~ links_to_root e)) (base ++ [out]) ->
  info_at root p = Some i -> p <> [] -> (forall q j, info_at root q = Some j -> di_id j = di_id i -> q = p) ->
  di_header i = Some h -> th_type h = TypeReg -> di_content i = Bytes s true -> reads_back (base ++ [out]) (join $"/" (l ++ p)) s.
Proof.
  intros P DN TD NM HS RL PX E RD NR IA NP U H T C. pose proof (dir_fine root DN TD NM encodable sort px chown c l out m HS RL PX E) as FL. pose proof (fine_tree _ FL) as TL.
  pose proof (fine_past _ _ FL (dir_parents root DN NM encodable sort px chown c l out m HS RL PX E) RD) as PL.
  assert (PP : prefix_path px l).
  { destruct px as [px|]; cbn [prefix_path]; auto. rewrite PX. split; [|apply plain_clean_list, RL].
    rewrite clean_text, clean_comps_text by (apply plain_clean_list, RL). rewrite SquashMain.text_not_abs by apply RL. reflexivity. }
  destruct (dir_layer encodable m sort root px chown c l out HS DN PP E) as (files & above & rest & [SF LF] & -> & _ & FE).
  assert (I : In (p, i) files) by (apply LF; auto).
  destruct (file_entries_for l files [] rest p i FE I) as (f1 & f2 & e & Ef & Ie & En & h' & H' & SM & K).
  assert (h' = h) by congruence. subst h'.
  assert (N : names_path (th_name (fst e)) (l ++ p)).
  { split; [destruct l, p; cbn [app]; congruence|]. split; auto. pose proof (info_file _ _ _ IA) as FA. destruct RL as [R1 R2]. split; apply Forall_app; split; auto. now apply (disk_plain root). }
  rewrite <- En. destruct K as [(b1 & q & j & b2 & Eb & Ej & _)|(_ & TY & _ & K)].
  - exfalso. cbn [app] in Eb. assert (Iq : In (q, j) files) by (rewrite Ef, Eb, <- app_assoc; apply in_app_iff; right; now left).
    apply LF in Iq as [_ Iq]. specialize (U q j Iq Ej). subst q. rewrite Ef, Eb, map_app, map_app in SF. cbn [map fst] in SF. clear - SF. rewrite <- app_assoc in SF.
    induction (map fst b1) as [|z zs IH]; [|inversion SF; auto]. cbn [app] in SF. inversion SF as [|? ? _ F]; subst. rewrite Forall_forall in F.
    apply (pb_irrefl p). apply F. apply in_app_iff. right. now left.
  - rewrite T in K. cbn in K. destruct K as [K SZ]. assert (s = snd e) by congruence. subst s. destruct SM as (S' & _).
    apply (over_reads base (above ++ rest) e) with (p := l ++ p); auto; try congruence. apply in_app_iff. auto.
Qed.
Lemma wheel_all o fuel pl pl' min mx wh l : fair o -> good_names o -> sanitize pl = Some pl' ->
  inner_scheme (pl_scheme pl') -> inner_names wh -> never_nested (pl_scheme pl') wh ->
  install_wheel o fuel pl min mx wh = IOk l ->
  Forall (fun e => exists p, names_path (th_name (fst e)) p) l -> with_parents l.
Proof.
  intros FO GN S HS HN NN H NP e q I B N. rewrite Forall_forall in NP. destruct (NP e I) as (p & NE). pose proof NE as NE'. apply good_named in NE' as (_ & EP & _). rewrite EP in B. apply below_spec in B as (k & r & ->).
  destruct NE as (_ & RP & Nm). assert (X : LayerSpec.below (join $"/" q) (th_name (fst e))) by (exists (join $"/" (k :: r)); left; rewrite Nm; apply join_app; auto; discriminate).
  destruct (wheel_parents _ _ _ _ _ _ _ _ FO GN S HS HN NN H e _ I X) as (l1 & l2 & l3 & E).
  assert (Iq : In (join $"/" q) (map (fun e => th_name (fst e)) l)) by (rewrite E; apply in_app_iff; right; now left).
  apply in_map_iff in Iq as (e' & En & I'). apply in_map_iff. exists e'. split; auto. assert (NQ : names_path (th_name (fst e')) q) by (split; auto; split; [now apply real_app in RP|auto]). now apply good_named in NQ.
Qed.
Theorem over_wheel base o fuel pl pl' min mx wh l : plain_stack base -> fair o -> good_names o -> sanitize pl = Some pl' -> tame (pl_scheme pl') wh ->
  install_wheel o fuel pl min mx wh = IOk l ->
  Forall (fun e => exists p, names_path (th_name (fst e)) p) l ->
  (forall e e', In e l -> In e' l -> LayerSpec.below (th_name (fst e)) (th_name (fst e')) -> is_dir e = true) ->
  is_dir_at (unpack empty_root base) [] -> Forall (Forall (fun e => ~ links_to_root e)) (base ++ [l]) ->
  exists info root, info_of wh info /\ root_of (pl_scheme pl') root /\
  forall f key name text, In f wh -> destination (pl_scheme pl') root (data_name info) (z_name (zf_header f)) = Some (key, name) ->
    entry_is_dir f = false -> zf_content f = Bytes text true ->
    In name (left_out root info) \/
    (exists outs, compiles o pl' (max_time o wh mx) wh root info outs /\ In name (map ref_full outs)) \/
    (exists fs fs', hooks o pl' min (max_time o wh mx) wh fs fs' /\ get_key name fs' <> get_key name fs) \/
    reads_back (base ++ [l]) name (if is_script key then shebang_line (pl_console pl') (pl_graphical pl') text else text).
Proof.
  intros P FO GN S TA H NP DA RD NR. pose proof TA as (HS & HN & NN & _).
  pose proof (wheel_fine _ _ _ _ _ _ _ _ FO GN S HS HN NN H NP DA) as FL. pose proof (fine_tree _ FL) as TL.
  pose proof (fine_past _ _ FL (wheel_all _ _ _ _ _ _ _ _ FO GN S HS HN NN H NP) RD) as PL.
  destruct (wheel_complete _ _ _ _ _ _ _ _ FO GN S TA H) as (info & root & IO & RO & _ & _ & C). exists info, root. split; auto. split; auto.
  intros f key name text I DE ND ZC. destruct (C f key name I DE) as [X|[X|[X|(e & Ie & En & (key' & DE' & K) & _)]]]; auto. right. right. right.
  rewrite ND in K. destruct K as (text' & ZC' & TY & CO & SZ & _). assert (key' = key) by congruence. subst key'. assert (text' = text) by congruence. subst text'.
  rewrite <- CO, <- En. rewrite Forall_forall in NP. destruct (NP e Ie) as (p & N). now apply (over_reads base l e) with (p := p).
Qed.
(** *** programs *)
Lemma over_runs base l e : tree_layer l -> In e l -> th_type (fst e) = TypeReg -> executable (fst e) -> runs (unpack empty_root (base ++ [l])) (entry_path e).
Proof.
  intros T I TY X. exists (entry_path e), (entry_path e), (anon (fst e)), (snd e). split; [now apply over_walks|]. split; [apply over_ends; auto; unfold is_link; now rewrite TY|]. split; auto.
  rewrite over_entry by auto. unfold node_of, is_dir. now rewrite TY.
Qed.
Theorem over_program base l e utf8 wd env pre dir post name : tree_layer l -> handled (base ++ [l]) ->
  In e l -> th_type (fst e) = TypeReg -> executable (fst e) ->
  path_dirs env (pre ++ dir :: post) -> ~ In slash name -> candidate wd dir name = entry_path e ->
  (forall d, In d (pre ++ dir :: post) -> askable utf8 (candidate wd d name) /\ settles (unpack empty_root (base ++ [l])) (candidate wd d name)) ->
  (forall d, In d pre -> ~ runs (unpack empty_root (base ++ [l])) (candidate wd d name)) ->
  exists N, forall n, N <= n -> look_path utf8 n (base ++ [l]) (Some (mkImageConfig wd env)) name = Found (as_text (entry_path e)).
Proof.
  intros T HD I TY X PD NS CA AS NR. destruct (look_path_returns utf8 (base ++ [l]) wd env (pre ++ dir :: post) name HD PD NS AS) as [N HN]. exists N. intros n L.
  pose proof (look_path_searches utf8 n (base ++ [l]) wd env (pre ++ dir :: post) name HD PD NS (fun d I => proj1 (AS d I))) as LS. specialize (HN n L).
  pose proof (over_runs base l e T I TY X) as RU. rewrite <- CA in *.
  destruct (look_path utf8 n (base ++ [l]) (Some (mkImageConfig wd env)) name) as [s| |]; [|exfalso; apply (LS dir); auto; apply in_app_iff; right; now left|congruence].
  destruct LS as (pre' & dir' & post' & E & -> & R' & NR'). f_equal. f_equal.
  clear - E RU NR R' NR'. revert pre' E NR'. induction pre as [|d pre IH]; intros [|d' pre'] E NR'; cbn [app] in E; injection E as -> E; auto.
  - exfalso. apply (NR' d'); auto. now left.
  - exfalso. apply (NR dir'); auto. now left.
  - apply (IH (fun d I => NR d (or_intror I)) pre'); auto. intros d I. apply NR'. now right.
Qed.
(** *** what was there before *)
Lemma shape_unpacked es : SquashEnds.shape (unpacked es).
Proof.
  unfold unpacked. assert (S : SquashEnds.shape empty_root) by (intros [|k d] x H; unfold empty_root in H; cbn in H; congruence).
  revert S. generalize empty_root. induction es as [|e es IH]; intros fs S; auto. cbn [fold_left]. apply IH. now apply SquashEnds.shape_step.
Qed.
Theorem over_rest base l p h s : plain_stack base -> tree_layer l -> past_links (unpack empty_root base) l ->
  Forall (Forall (fun e => ~ links_to_root e)) (base ++ [l]) ->
  unpack empty_root base p = Some (FFile h s) -> th_type h = TypeReg -> th_size h = Z.of_nat (length s) -> untouched l p ->
  reads_back (base ++ [l]) (open_name p) s.
Proof.
  intros P T PL NR E TY SZ (NI & ND & NB) sort order utf8 HO U. pose proof (plain_over base l P T PL) as P'.
  assert (E' : unpack empty_root (base ++ [l]) p = Some (FFile h s)).
  { rewrite <- E. eapply laid_over_fun; [exact T|now apply overlay|]. now apply lo_rest. }
  assert (RP : real_path p) by (apply (image_real (base ++ [l]) P'); congruence).
  apply (image_file (base ++ [l]) P' NR sort order HO utf8 p p p h s); auto.
  - apply RP.
  - apply (direct_walk _ p []); [apply RP| |cbn [app]; congruence]. intros r1 x r2 Q. cbn [app]. rewrite unpack_empty. apply (SquashEnds.shape_deep _ r2 (shape_unpacked _) r1 x).
    rewrite <- Q, <- unpack_empty. congruence.
  - eapply ends_file; eauto. rewrite TY. discriminate.
  - lia.
Qed.
