(** Proofs about "ocibuild layer wheel" (C55, C56). *)
From Coq Require Import String Ascii List Bool ZArith NArith Lia Permutation Sorted.
From Verif.Model Require Import GoStr GoPath Pep440 Tar Stat Layer ConfigParser Platform WheelFile EntryPoints Wheel DirectURL Record LayerWheel.
From Verif.Spec Require Import PathSpec SimpleAPISpec LayerSpec EntryPointsSpec WheelSpec RecordSpec LayerWheelSpec.
From Verif.Proofs Require Import GoStrFacts GoPathFacts Order DirFacts LayerFacts ConfigFacts EntryPointsFacts SquashLoad DirectURLFacts WheelPaths WheelSpread WheelFacts WheelSame WheelCases RecordFacts.
Import ListNotations.
Local Open Scope nat_scope.

(** ** Where the files come from *)
Definition script_at (scripts : str) (t : option Z) (items : section) (k : str) (r : vref) : Prop :=
  exists key v text, In (key, v) items /\ k = script_name scripts key /\ r = mem_reg k 493 t text.
Lemma add_scripts_from scripts shebang sect t items : forall fs fs', NoDup (map fst fs) ->
  add_scripts scripts shebang sect t items fs = inl fs' ->
  NoDup (map fst fs') /\ forall k r, get_key k fs' = Some r -> get_key k fs = Some r \/ script_at scripts t items k r.
Proof.
  induction items as [|[key v] items IH]; intros fs fs' N H; cbn [add_scripts] in H.
  - injection H as <-. auto.
  - destruct (func_ref v) as [[m f]|]; [|discriminate]. unfold script_ref in H. apply IH in H as [N' F]; [|now apply set_key_nodup]. split; auto.
    intros k r G. apply F in G as [G|(key' & v' & text & I & E & R)].
    + rewrite get_set_key in G. destruct (str_eqb k _) eqn:E; auto. apply str_eqb_eq in E as ->. injection G as <-. right. eexists key, v, _. split; [now left|]. split; reflexivity.
    + right. exists key', v', text. split; [now right|]. auto.
Qed.
Lemma add_sections_from order scripts t cfg secs : (forall s l, Permutation (order s l) l) -> forall fs fs', NoDup (map fst fs) ->
  add_sections order scripts t cfg secs fs = inl fs' ->
  NoDup (map fst fs') /\ forall k r, get_key k fs' = Some r -> get_key k fs = Some r \/ script_at scripts t (items_for cfg secs) k r.
Proof.
  intros HO. induction secs as [|[sect sb] secs IH]; intros fs fs' N H; cbn [add_sections] in H.
  - injection H as <-. auto.
  - unfold items_for. cbn [map concat fst]. unfold entries_of at 1. fold (items_for cfg secs). destruct (get_key sect cfg) as [items|] eqn:G.
    + destruct (add_scripts _ _ _ _ _ fs) as [fs1|] eqn:E1; [|discriminate]. apply add_scripts_from in E1 as [N1 F1]; auto. apply IH in H as [N2 F2]; auto. split; auto.
      intros k r K. apply F2 in K as [K|(key & v & text & I & E)].
      * apply F1 in K as [K|(key & v & text & I & E)]; auto. right. exists key, v, text. split; auto. apply in_or_app. left. eapply Permutation_in; [apply HO|exact I].
      * right. exists key, v, text. split; auto. apply in_or_app. now right.
    + apply IH in H as [N2 F2]; auto.
Qed.
Section Orders.
  Context (outer : list (str * str) -> list (str * str)) (order : str -> section -> section).
  Context (HU : forall l, Permutation (outer l) l) (HO : forall s l, Permutation (order s l) l).
  Lemma hook_from pl t fs info fs' : NoDup (map fst fs) -> scripts_hook outer order pl t fs info = Some fs' ->
    NoDup (map fst fs') /\ (get_key (path_join [info; $"entry_points.txt"]) fs = None -> fs' = fs) /\
    forall k r, get_key k fs' = Some r -> get_key k fs = Some r \/
      exists r0 text ok cfg, get_key (path_join [info; $"entry_points.txt"]) fs = Some r0 /\ ref_content r0 = Bytes text ok /\
      parse_config ep_parser text false = COk cfg /\ script_at (s_scripts (pl_scheme pl)) t (all_entries cfg) k r.
  Proof.
    intros N H. unfold scripts_hook, create_scripts in H. destruct (plat_init pl) as [pl'|] eqn:PI; [|discriminate].
    destruct (init_ok _ _ PI) as (_ & _ & _ & _ & _ & SE & _). rewrite SE in H.
    destruct (get_key (path_join [info; $"entry_points.txt"]) fs) as [r0|] eqn:G; [|apply some_eq in H as ->; repeat split; auto].
    destruct (ref_content r0) as [| |text ok] eqn:C; try discriminate. destruct (parse_config ep_parser text false) as [cfg|] eqn:P; [|discriminate].
    destruct (add_sections _ _ _ _ _ _) as [fs1|] eqn:E; [|discriminate]. apply some_eq in H as ->.
    apply add_sections_from in E as [N' F]; auto. split; auto. split; [discriminate|]. intros k r K. apply F in K as [K|(key & v & x & I & K)]; auto.
    right. exists r0, text, ok, cfg. repeat split; auto. exists key, v, x. split; auto. eapply Permutation_in; [apply (items_outer outer HU)|exact I].
  Qed.
End Orders.
Lemma scripts_inner pl pl' : sanitize pl = Some pl' -> inner_scheme (pl_scheme pl') -> inner (tl (s_scripts (pl_scheme pl))).
Proof.
  intros S I. destruct (sanitized _ _ S) as (_ & _ & _ & _ & F). unfold scheme_paths in F. unfold inner_scheme, scheme_paths in I.
  repeat match type of F with Forall2 _ (_ :: _) _ => let H := fresh in inversion F as [|? ? ? ? H F']; subst; clear F; rename F' into F end.
  rewrite Forall_forall in I. match goal with H : s_scripts (pl_scheme pl) = _ |- _ => rewrite H end. cbn [list_ascii_of_string app tl]. apply I. cbn [In]. auto.
Qed.
Lemma script_good scripts key : inner (tl scripts) -> clean_path (script_name scripts key) /\ is_abs (script_name scripts key) = false.
Proof.
  intros I. assert (NE := inner_ne _ I). assert (A : is_abs (tl scripts) = false) by apply I. unfold script_name. destruct key as [|c key].
  - rewrite join_empty_r by auto. split; [apply clean_idem|now rewrite is_abs_clean].
  - rewrite join2 by (auto; discriminate). split; [apply clean_idem|]. rewrite is_abs_clean, is_abs_app; auto.
Qed.
Lemma script_plain scripts key : inner (tl scripts) -> plain_comp key ->
  script_name scripts key = join $"/" (clean_comps (tl scripts) ++ [key]) /\ inner (script_name scripts key) /\ clean_comps (script_name scripts key) = clean_comps (tl scripts) ++ [key].
Proof.
  intros I P. destruct (inner_comp _ P) as [K E]. unfold script_name. rewrite join_inner by auto. rewrite E. split; auto. apply inner_join; [|apply snoc_ne].
  apply plain_app. split; [apply I|now constructor].
Qed.
Section Command.
  Context (o : outside) (pl pl' : platform) (min : option Z) (wh : list zfile).
  Context (FO : fair o) (PO : pyc_outputs o) (SA : sanitize pl = Some pl').
  Context (HS : inner_scheme (pl_scheme pl')) (HN : inner_names wh) (NN : never_nested (pl_scheme pl') wh).
  (** entry_points.txt is the one of the archive *)
  Lemma installed_text t fs info r text ok : install_vfs o pl' min t wh = IOk (fs, info) ->
    get_key (path_join [info; $"entry_points.txt"]) fs = Some r -> ref_content r = Bytes text ok ->
    exists info0 root, info_of wh info0 /\ root_of (pl_scheme pl') root /\ entry_points_text pl' wh root info0 text.
  Proof.
    intros IV G C. destruct (vfs_places _ _ _ _ _ _ _ FO HS HN NN IV) as (info0 & root & IO & RO & RD & DI & EI & ND & PL). exists info0, root. split; auto. split; auto.
    destruct (root_inner _ _ _ _ _ HS RD) as (_ & NR0 & PR0). destruct (info_plain _ _ HN DI) as [PI _].
    assert (PIP : plain_path (clean_comps root ++ [info0])) by (apply Forall_app; split; auto).
    destruct (inner_join _ PIP (snoc_ne _ _)) as [II CC]. rewrite <- EI in II, CC. rewrite info_join in G by (auto; now apply plain_byb).
    unfold in_info in G. rewrite CC, <- app_assoc in G. cbn [app] in G. destruct (PL _ _ G) as [(rs & outs & CO & J & EK)|(f & key & J & D & M & _)].
    - exfalso. specialize (PO _ _ _ CO). rewrite Forall_forall in PO. destruct (PO _ J) as (_ & _ & SX & _). rewrite <- EK in SX. apply has_suffix_spec in SX as (x & SX).
      replace (join $"/" (clean_comps root ++ [info0; $"entry_points.txt"])) with (join $"/" (clean_comps root ++ [info0]) ++ $"/" ++ $"entry_points.txt") in SX.
      + rewrite app_assoc in SX. change $"entry_points.txt" with ($"entry_points" ++ $".txt") in SX. rewrite app_assoc in SX. apply (f_equal (@rev _)) in SX. rewrite !rev_app_distr in SX. cbn in SX. discriminate.
      + rewrite <- join_app1 by apply snoc_ne. rewrite <- app_assoc. reflexivity.
    - unfold made_from in M. destruct (is_script key) eqn:IS.
      + destruct (rewritten_text _ _ _ _ M) as (raw & ok' & C1 & C2 & _). rewrite created_content in C1. exists f, key, raw, ok'. rewrite IS. repeat split; auto. rewrite C in C2. congruence.
      + subst r. rewrite created_content in C. exists f, key, text, ok. rewrite IS. auto.
  Qed.
  Context (TE : tidy_entry_points pl' wh).
  Context (outer : list (str * str) -> list (str * str)) (order : str -> section -> section).
  Context (HU : forall l, Permutation (outer l) l) (HO : forall s l, Permutation (order s l) l).
  Lemma scripts_input t fs info fs' : install_vfs o pl' min t wh = IOk (fs, info) -> scripts_hook outer order pl t fs info = Some fs' ->
    hook_input fs' info /\ forall k r, get_key k fs' = Some r -> get_key k fs = Some r \/ exists m, r = MemRef m.
  Proof.
    intros IV H. destruct (vfs_input _ _ _ _ _ _ _ FO PO HS HN NN IV) as (II & CI & GM & PN & NR).
    assert (IS := scripts_inner _ _ SA HS). destruct (hook_from _ _ HU HO _ _ _ _ _ (proj1 GM) H) as (ND & _ & F).
    assert (K : forall k r, get_key k fs' = Some r -> get_key k fs = Some r \/ exists key x, plain_comp key /\ key <> $"RECORD" /\ k = script_name (s_scripts (pl_scheme pl)) key /\ r = mem_reg k 493 t x).
    { intros k r G. apply F in G as [G|(r0 & text & ok & cfg & G0 & C & P & key & v & x & I & -> & ->)]; auto. right. exists key, x.
      destruct (installed_text _ _ _ _ _ _ IV G0 C) as (info0 & root & IO & RO & ET). destruct (TE _ _ _ _ IO RO ET P) as [_ PE]. rewrite Forall_forall in PE. destruct (PE _ I). auto. }
    split.
    - split; auto. split; auto. split; [|split].
      + rewrite good_iff in *. split; auto. intros k r G. apply K in G as [G|(key & x & PK & _ & E & ->)]; [now apply GM|]. split; [reflexivity|]. rewrite E. now apply script_good.
      + rewrite plain_iff in * by (auto; apply GM). intros k r G. apply K in G as [G|(key & x & PK & _ & -> & _)]; [now apply (PN k r)|]. now apply script_plain.
      + destruct (get_key (in_info info $"RECORD") fs') as [r|] eqn:G; auto. apply K in G as [G|(key & x & PK & NK & E & _)]; [congruence|]. exfalso. apply NK.
        destruct (script_plain _ _ IS PK) as (_ & _ & CS). rewrite <- E in CS. destruct (in_info_inner info $"RECORD" II) as [_ CR]; [now apply plain_byb|]. rewrite CR in CS. now apply app_inj_tail in CS as [_ <-].
    - intros k r G. apply K in G as [G|(key & x & _ & _ & _ & ->)]; auto. right. eexists. reflexivity.
  Qed.
End Command.
Lemma scripts_same outer outer' order order' pl pl0 t fs fs' info :
  (forall l, Permutation (outer l) l) -> (forall s l, Permutation (order s l) l) -> (forall l, Permutation (outer' l) l) -> (forall s l, Permutation (order' s l) l) ->
  plat_init pl = Some pl0 -> NoDup (map fst fs) -> Permutation fs fs' ->
  (forall r text ok cfg, get_key (path_join [info; $"entry_points.txt"]) fs = Some r -> ref_content r = Bytes text ok -> parse_config ep_parser text false = COk cfg ->
     NoDup (map (fun kv => script_name (s_scripts (pl_scheme pl)) (fst kv)) (all_entries cfg))) ->
  same_set (scripts_hook outer order pl t fs info) (scripts_hook outer' order' pl t fs' info).
Proof.
  intros HU HO HU' HO' PI N P TE. assert (N' : NoDup (map fst fs')) by (eapply perm_nodup; [exact N|symmetry; exact P]).
  assert (PG : forall k, get_key k fs' = get_key k fs) by (intros k; apply perm_get; auto; now symmetry).
  destruct (get_key (path_join [info; $"entry_points.txt"]) fs) as [r|] eqn:G.
  2:{ unfold scripts_hook. rewrite !(scripts_none _ _ _ _ _ _ _ PI) by (rewrite ?PG; auto). exact P. }
  assert (G' := G). rewrite <- PG in G'. destruct (ref_content r) as [| |text ok] eqn:C.
  1,2: unfold scripts_hook, create_scripts; rewrite PI, G, G', C; exact Logic.I.
  destruct (parse_config ep_parser text false) as [cfg|e] eqn:PC.
  2:{ unfold scripts_hook, create_scripts. rewrite PI, G, G', C, PC. exact Logic.I. }
  specialize (TE _ _ _ _ eq_refl C PC).
  assert (A1 := scripts_accepted outer order HU HO pl pl0 t fs info r text ok cfg PI G C PC). assert (A2 := scripts_accepted outer' order' HU' HO' pl pl0 t fs' info r text ok cfg PI G' C PC).
  destruct (create_scripts outer order pl t fs info) as [f1|e1] eqn:E1, (create_scripts outer' order' pl t fs' info) as [f2|e2] eqn:E2.
  - unfold scripts_hook. rewrite E1, E2. cbn [same_set].
    assert (H1 : scripts_hook outer order pl t fs info = Some f1) by (unfold scripts_hook; now rewrite E1). assert (H2 : scripts_hook outer' order' pl t fs' info = Some f2) by (unfold scripts_hook; now rewrite E2).
    destruct (hook_from _ _ HU HO _ _ _ _ _ N H1) as (N1 & _ & _). destruct (hook_from _ _ HU' HO' _ _ _ _ _ N' H2) as (N2 & _ & _).
    destruct (scripts_created outer order HU HO _ _ _ _ _ _ _ _ _ _ PI G C PC E1) as [O1 S1]. destruct (scripts_created outer' order' HU' HO' _ _ _ _ _ _ _ _ _ _ PI G' C PC E2) as [O2 S2].
    apply maps_perm; auto. intros k. destruct (in_dec (list_eq_dec ascii_dec) k (map (fun kv => script_name (s_scripts (pl_scheme pl)) (fst kv)) (all_entries cfg))) as [I|I].
    + apply in_map_iff in I as ([key v] & <- & I). cbn [fst]. unfold all_entries in I.
      assert (X : exists sect sb, (sect = $"console_scripts" /\ sb = pl_console pl0 \/ sect = $"gui_scripts" /\ sb = pl_graphical pl0) /\ In (key, v) (entries_of cfg sect)) by (apply in_app_or in I as [I|I]; eauto 8).
      destruct X as (sect & sb & X & J). destruct (S1 TE _ _ _ _ X J) as (m & f & R & ->). destruct (S2 TE _ _ _ _ X J) as (m' & f' & R' & ->).
      apply func_ref_ok in R, R'. congruence.
    + rewrite O1, O2 by auto. now rewrite PG.
  - exfalso. destruct (proj2 A2) as (x & X); [apply A1; eauto|discriminate].
  - exfalso. destruct (proj2 A1) as (x & X); [apply A2; eauto|discriminate].
  - unfold scripts_hook. rewrite E1, E2. exact Logic.I.
Qed.
Lemma run_two a b t fs info : run_hooks [a; b] t fs info = match a t fs info with Some fs => b t fs info | None => None end.
Proof. cbn [run_hooks]. destruct (a t fs info) as [f|]; auto. now destruct (b t f info). Qed.
Lemma nodup_names scripts (items : section) : inner (tl scripts) -> NoDup (map fst items) -> Forall (fun kv => plain_comp (fst kv) /\ fst kv <> $"RECORD") items ->
  NoDup (map (fun kv => script_name scripts (fst kv)) items).
Proof.
  intros I N F. rewrite <- (map_map fst (script_name scripts)). assert (F' : Forall plain_comp (map fst items)) by (apply Forall_map; eapply Forall_impl; [|exact F]; intros x Hx; exact (proj1 Hx)). clear F. revert F'.
  induction N as [|x l NI N IH]; intros F; [constructor|]. inversion F as [|? ? Px Pl]; subst. cbn [map]. constructor; auto. intros X. apply in_map_iff in X as (y & E & X). apply NI.
  rewrite Forall_forall in Pl. destruct (script_plain _ _ I (Pl y X)) as (_ & _ & Cy), (script_plain _ _ I Px) as (_ & _ & Cx). rewrite E, Cx in Cy. apply app_inj_tail in Cy as [_ <-]. exact X.
Qed.
Lemma sanitize_init pl pl' : sanitize pl = Some pl' -> exists pl0, plat_init pl = Some pl0.
Proof. unfold sanitize. destruct (plat_init pl); [eauto|discriminate]. Qed.

Theorem command_records o space range sort outer order fuel pl pl' wh l :
  fair o -> pyc_outputs o -> (forall m, Permutation (range m) m) -> sorts sort ->
  (forall l, Permutation (outer l) l) -> (forall s l, Permutation (order s l) l) ->
  sanitize pl = Some pl' -> inner_scheme (pl_scheme pl') -> inner_names wh -> never_nested (pl_scheme pl') wh -> tidy_entry_points pl' wh ->
  layer_wheel o space range sort outer order fuel pl wh = IOk l ->
  exists info root, info_of wh info /\ root_of (pl_scheme pl') root /\
  let base := join $"/" (clean_comps root) in
  exists e0 rows, In e0 l /\ th_name (fst e0) = join $"/" (clean_comps root ++ [info; $"RECORD"]) /\ th_type (fst e0) = TypeReg /\
  rfc4180 (snd e0) = Some (map (map crlf) rows) /\ StronglySorted row_before rows /\
  (forall row, In row rows -> exists e, In e l /\ th_type (fst e) <> TypeDir /\ leads_to base (row_name_of row) (th_name (fst e))) /\
  (exists name, only_row rows base (th_name (fst e0)) [name; []; []] /\ names base name (th_name (fst e0))) /\
  forall e, In e l -> th_type (fst e) = TypeReg -> th_name (fst e) <> th_name (fst e0) ->
  exists row, only_row rows base (th_name (fst e)) row /\
    (right_row (o_digest o) $"sha256" base e row \/ script_row (o_digest o) (pl_scheme pl') root (data_name info) base wh e row).
Proof.
  intros FO PO HR HSo HU HO SA HS HN NN TE H. unfold layer_wheel in H. set (oo := mkOut _ _ _ _ _ _ _ _ _ _ _ _ _) in H.
  assert (FO' : fair oo) by exact FO. assert (PO' : pyc_outputs oo) by exact PO.
  apply (record_installed oo (scripts_hook outer order pl) space range sort $"sha256" $"ocibuild layer wheel" None fuel pl pl' None None wh l FO' PO' HR HSo); auto.
  - intros t fs info. cbn [o_hook oo]. unfold command_hook. apply run_two.
  - intros t fs info fs' IV. now apply (scripts_input oo pl pl' None wh).
Qed.
Lemma command_good o space range sort outer order pl pl' : (forall l, Permutation (outer l) l) -> (forall s l, Permutation (order s l) l) ->
  sanitize pl = Some pl' -> inner_scheme (pl_scheme pl') -> pyc_outputs o ->
  o_hook o = command_hook space (o_digest o) range sort outer order pl -> good_names o.
Proof.
  intros HU HO SA HS PO HK. split.
  - intros t l outs C. specialize (PO _ _ _ C). eapply Forall_impl; [|exact PO]. intros r (A & B & _). split; auto. apply A.
  - intros t fs info fs' H CI AI G. rewrite HK in H. unfold command_hook in H. rewrite run_two in H. destruct (scripts_hook outer order pl t fs info) as [fs1|] eqn:E; [|discriminate].
    apply record_keeps in H; auto. destruct (hook_from _ _ HU HO _ _ _ _ _ (proj1 G) E) as (N & _ & F). rewrite good_iff in *. split; auto. intros k r K. apply F in K as [K|(r0 & text & ok & cfg & _ & _ & _ & key & v & x & _ & -> & ->)].
    + now apply G.
    + split; [reflexivity|]. apply script_good. eapply scripts_inner; eauto.
Qed.
Theorem command_same o o' space range range' sort sort' outer outer' order order' fuel pl pl' wh wh' :
  fair o -> fair o' -> same_tools o o' -> pyc_outputs o -> distinct_outputs o -> distinct_outputs o' ->
  (forall m, Permutation (range m) m) -> (forall m, Permutation (range' m) m) -> sorts sort -> sorts sort' ->
  (forall l, Permutation (outer l) l) -> (forall l, Permutation (outer' l) l) -> (forall s l, Permutation (order s l) l) -> (forall s l, Permutation (order' s l) l) ->
  sanitize pl = Some pl' -> tame (pl_scheme pl') wh -> tidy_entry_points pl' wh -> Permutation wh wh' ->
  layer_wheel o space range sort outer order fuel pl wh = layer_wheel o' space range' sort' outer' order' fuel pl wh'.
Proof.
  intros FO FO' ST PO DO DO' HR HR' HSo HSo' HU HU' HO HO' SA TM TE P. unfold layer_wheel. set (o1 := mkOut _ _ _ _ _ _ _ _ _ _ _ _ _) at 1. set (o2 := mkOut _ _ _ _ _ _ _ _ _ _ _ _ _).
  pose proof TM as (HS & HN & NN & _). assert (FO1 : fair o1) by exact FO. assert (PO1 : pyc_outputs o1) by exact PO.
  apply (wheel_same o1 o2 fuel pl pl'); auto.
  - now apply (command_good o1 space range sort outer order pl pl').
  - intros t fs fs' info IV PM.
    change (same_set (command_hook space (o_digest o) range sort outer order pl t fs info) (command_hook space (o_digest o') range' sort' outer' order' pl t fs' info)).
    unfold command_hook. rewrite !run_two.
    destruct (vfs_input _ _ _ _ _ _ _ FO1 PO1 HS HN NN IV) as (II & CI & GM & PN & NR). destruct (sanitize_init _ _ SA) as [pl0 PI].
    assert (SC : same_set (scripts_hook outer order pl t fs info) (scripts_hook outer' order' pl t fs' info)).
    { apply (scripts_same outer outer' order order' pl pl0); auto; [apply GM|]. intros r text ok cfg G C PC.
      destruct (installed_text _ _ _ _ FO1 PO1 HS HN NN _ _ _ _ _ _ IV G C) as (info0 & root & IO & RO & ET). destruct (TE _ _ _ _ IO RO ET PC) as [A B].
      apply nodup_names; auto. eapply scripts_inner; eauto. }
    destruct (scripts_hook outer order pl t fs info) as [f1|] eqn:E1, (scripts_hook outer' order' pl t fs' info) as [f2|] eqn:E2; try contradiction; [|exact Logic.I]. cbn [same_set] in SC.
    destruct (scripts_input o1 pl pl' None wh FO1 PO1 SA HS HN NN TE outer order HU HO _ _ _ _ IV E1) as [HI _].
    destruct ST as (_ & TD & _). rewrite <- TD. apply record_same; auto.
Qed.
