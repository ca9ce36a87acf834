(** Installing a wheel: completeness, and independence of all orders. *)
From Coq Require Import String Ascii List Bool NArith ZArith Lia Permutation.
From Verif.Model Require Import GoStr GoPath Tar Stat Layer ConfigParser Platform WheelFile Wheel.
From Verif.Spec Require Import PathSpec SimpleAPISpec LayerSpec DirSpec WheelSpec.
From Verif.Proofs Require Import Order GoStrFacts GoPathFacts DirFacts LayerFacts ConfigFacts WheelPaths WheelSpread WheelFacts.
Import ListNotations.
Local Open Scope nat_scope.

Local Arguments str_eqb : simpl never.
Local Arguments byte_eqb : simpl never.
Local Arguments clean_comps : simpl never.
Local Arguments has_prefix : simpl never.
Local Arguments has_suffix : simpl never.
Local Arguments path_join : simpl never.

(** ** Before the compiler *)
Definition placed (o : outside) (pl : platform) (min : option Z) (wh : list zfile) : ires (vfs * str) :=
  match dist_info_dir wh with
  | None => IErr WMetadata
  | Some info =>
      match root_dir o (pl_scheme pl) info wh with
      | None => IErr WMetadata
      | Some dst =>
          match spread (pl_scheme pl) (data_dir dst info) (o_spread o (unpack_wheel min dst wh)) (unpack_wheel min dst wh) [] with
          | IErr e => IErr e
          | IPanic => IPanic
          | ILoop => ILoop
          | IOk (fs, types) =>
              match rewrite_python (o_digest o) pl (o_types o types) fs with
              | IErr e => IErr e
              | IPanic => IPanic
              | ILoop => ILoop
              | IOk fs =>
                  IOk (del_key (data_dir dst info) (del_key (path_join [dst; info; $"RECORD.p7s"]) (del_key (path_join [dst; info; $"RECORD.jws"])
                        (del_key (path_join [dst; info; $"RECORD"]) fs))), path_join [dst; info])
              end
          end
      end
  end.
Lemma install_vfs_eq o pl min t wh : install_vfs o pl min t wh =
  match placed o pl min wh with
  | IErr e => IErr e
  | IPanic => IPanic
  | ILoop => ILoop
  | IOk (fs, info_path) =>
      match o_compile o t (filter is_py (map snd (o_py o fs))) with
      | None => IErr WCompile
      | Some outs => IOk (fold_left (fun fs r => set_key (ref_full r) r fs) outs fs, info_path)
      end
  end.
Proof.
  unfold install_vfs, placed. destruct (dist_info_dir wh); auto. destruct (root_dir _ _ _ _); auto. cbv zeta.
  destruct (spread _ _ _ _ _) as [[? ?]| | |]; auto. destruct (rewrite_python _ _ _ _); auto.
Qed.

Lemma rewrite_total digest pl types : forall fs, NoDup (map fst types) ->
  (forall k, get_key k types = Some $"scripts" -> exists h c, get_key k fs = Some (ZipRef h c)) ->
  ((forall k, get_key k types = Some $"scripts" -> exists h s ok, get_key k fs = Some (ZipRef h (Bytes s ok))) ->
   exists fs', rewrite_python digest pl types fs = IOk fs') /\
  ((exists k h c, get_key k types = Some $"scripts" /\ get_key k fs = Some (ZipRef h c) /\ forall s ok, c <> Bytes s ok) ->
   rewrite_python digest pl types fs = IErr WShebang).
Proof.
  induction types as [|[name key] types IH]; intros fs N Z; cbn [rewrite_python].
  - split; [eauto|]. intros (k & h & c & X & _). discriminate.
  - inversion N as [|? ? N1 N2]; subst. cbn [fst] in N1. apply get_key_none in N1. cbn [get_key] in *.
    assert (TL : forall k, get_key k types = Some $"scripts" -> str_eqb k name = false).
    { intros k E. destruct (str_eqb k name) eqn:X; auto. apply str_eqb_eq in X. subst k. congruence. }
    destruct (str_eqb key $"scripts") eqn:EK.
    2:{ destruct (IH fs N2) as [I1 I2]; [intros k E; apply Z; now rewrite (TL k E)|]. split.
        - intros A. apply I1. intros k E. apply A. now rewrite (TL k E).
        - intros (k & h & c & E & G & X). apply I2. exists k, h, c. split; auto. destruct (str_eqb k name) eqn:Y; auto.
          apply str_eqb_eq in Y. subst k. injection E as ->. now rewrite str_eqb_refl in EK. }
    apply str_eqb_eq in EK. subst key. destruct (Z name) as (h & c & G); [now rewrite str_eqb_refl|]. rewrite G.
    destruct c as [| |s ok].
    1,2: split; [intros A; destruct (A name) as (h' & s & ok & G'); [now rewrite str_eqb_refl|congruence]|reflexivity].
    assert (RW : exists r', rewritten digest pl (ZipRef h (Bytes s ok)) = IOk r').
    { unfold rewritten. cbn [ref_content]. destruct (negb _); eauto. destruct (if str_eqb _ _ then _ else _) as [sb skip]. eauto. }
    destruct RW as [r' RW]. rewrite RW.
    assert (GS : forall k, str_eqb k name = false -> get_key k (set_key name r' fs) = get_key k fs) by (intros k E; now rewrite get_set_key, E).
    destruct (IH (set_key name r' fs) N2) as [I1 I2]; [intros k E; rewrite GS by auto; apply Z; now rewrite (TL k E)|]. split.
    + intros A. apply I1. intros k E. rewrite GS by auto. apply A. now rewrite (TL k E).
    + intros (k & h2 & c2 & E & G2 & X). destruct (str_eqb k name) eqn:Y.
      * apply str_eqb_eq in Y. subst k. rewrite G in G2. injection G2 as <- <-. exfalso. now apply (X s ok).
      * apply I2. exists k, h2, c2. split; auto. rewrite GS by auto. auto.
Qed.

Definition script_unreadable (s : scheme) (root data : str) (f : zfile) : bool :=
  match destination s root data (z_name (zf_header f)) with
  | Some (key, _) => is_script key && match zf_content f with Bytes _ _ => false | _ => true end
  | None => false
  end.
Definition placed_map o pl min wh root info (fs : vfs) : Prop :=
  NoDup (map fst fs) /\ forall k r, get_key k fs = Some r <->
    exists f key, In f wh /\ destination (pl_scheme pl) root (data_name info) (z_name (zf_header f)) = Some (key, k) /\
      made_from (o_digest o) pl min key k f r /\ ~ In k (left_out root info).
Theorem placed_spec o pl min wh info root : fair o -> tame (pl_scheme pl) wh -> dist_info_dir wh = Some info -> root_dir o (pl_scheme pl) info wh = Some root ->
  if existsb (script_unreadable (pl_scheme pl) root (data_name info)) wh then placed o pl min wh = IErr WShebang
  else exists fs, placed o pl min wh = IOk (fs, join $"/" (clean_comps root ++ [info])) /\ placed_map o pl min wh root info fs.
Proof.
  intros (F1 & _ & _ & F3 & _) (HS & HN & NN & TM) DI RD. assert (IO := info_of_dir _ _ HN DI). assert (RO := root_dir_in _ _ _ _ _ RD).
  destruct (TM info root IO RO) as [HK HC]. assert (HR := root_inner _ _ _ _ _ HS RD). destruct (info_plain _ _ HN DI) as [PI PD].
  pose proof (data_dir_text root info HR PD) as DD. assert (NX := NN _ _ IO RO).
  unfold placed. rewrite DI, RD.
  destruct (spread_total _ root (data_name info) wh min HS HR PD HN NX HK (o_spread o (unpack_wheel min root wh)) _ _ (unpack_sound _ root (data_name info) wh min)) as (fs1 & types & SP).
  rewrite DD, SP.
  destruct (spread_places _ root (data_name info) wh min HS HR PD HN NX _ _ _ (F1 _) SP) as (P1 & P2 & P3 & P4).
  assert (ALL := spread_all _ root (data_name info) wh min HS HR PD HN NX HK HC _ _ _ (F1 _) SP).
  assert (N' : NoDup (map fst (o_types o types))) by (apply (perm_nodup types); auto).
  assert (GT : forall k, get_key k (o_types o types) = get_key k types) by (intros k; now apply perm_get).
  assert (ZR : forall k, get_key k types = Some $"scripts" -> exists f, In f wh /\ destination (pl_scheme pl) root (data_name info) (z_name (zf_header f)) = Some (Some $"scripts", k) /\ get_key k fs1 = Some (created min k f)).
  { intros k T. destruct (get_key k fs1) as [r|] eqn:G; [|exfalso; eapply P2; eauto]. destruct (P1 _ _ G) as (f & I & D & ->). rewrite T in D. eauto. }
  destruct (rewrite_total (o_digest o) pl (o_types o types) fs1 N') as [R1 R2].
  { intros k T. rewrite GT in T. destruct (ZR k T) as (f & _ & _ & G). destruct (created_name min k f) as (h & E & _). rewrite E in G. eauto. }
  destruct (existsb _ wh) eqn:EX.
  - rewrite R2; auto. apply existsb_exists in EX as (f & I & U). unfold script_unreadable in U.
    destruct (destination _ _ _ _) as [[key k]|] eqn:D; [|discriminate]. apply andb_true_iff in U as [IS U]. destruct key as [key|]; [|discriminate].
    cbn [is_script] in IS. apply str_eqb_eq in IS. subst key. destruct (ALL f _ k I D) as [G T]. destruct (created_name min k f) as (h & E & _).
    exists k, h, (zf_content f). rewrite GT, <- E. split; auto. split; auto. intros s ok E'. rewrite E' in U. discriminate.
  - destruct R1 as [fs2 RW].
    { intros k T. rewrite GT in T. destruct (ZR k T) as (f & I & D & G). destruct (created_name min k f) as (h & E & _). rewrite E in G.
      assert (U : script_unreadable (pl_scheme pl) root (data_name info) f = false).
      { destruct (script_unreadable _ _ _ f) eqn:U; auto. assert (existsb (script_unreadable (pl_scheme pl) root (data_name info)) wh = true) by (apply existsb_exists; eauto). congruence. }
      unfold script_unreadable in U. rewrite D in U. cbn [is_script] in U. rewrite str_eqb_refl in U. destruct (zf_content f) as [| |s ok]; try discriminate. eauto. }
    rewrite RW. eexists. split; [f_equal; f_equal; destruct (inner_comp _ PI) as [II CI]; rewrite join_inner by auto; now rewrite CI|].
    assert (RG := rewrite_get _ _ _ _ _ N' RW). assert (RN := rewrite_nodup _ _ _ _ _ P3 RW).
    assert (GM : forall k r, get_key k fs2 = Some r <-> exists f key, In f wh /\ destination (pl_scheme pl) root (data_name info) (z_name (zf_header f)) = Some (key, k) /\ made_from (o_digest o) pl min key k f r).
    { intros k r. destruct (RG k) as [A1 A2]. rewrite GT in A1, A2. split.
      - intros G. assert (X : exists r0, get_key k fs1 = Some r0).
        { destruct (get_key k fs1) eqn:Y; eauto. exfalso. destruct (get_key k types) as [key|] eqn:T; [eapply P2; eauto|]. rewrite A2 in G by discriminate. discriminate. }
        destruct X as [r0 G0]. destruct (P1 _ _ G0) as (f & I & D & ->). exists f, (get_key k types). split; auto. split; auto. unfold made_from.
        destruct (is_script (get_key k types)) eqn:IS.
        + destruct (get_key k types) as [key|]; [|discriminate]. cbn [is_script] in IS. apply str_eqb_eq in IS. subst key.
          destruct (A1 eq_refl) as (r1 & r2 & G1 & RR & G2). rewrite G0 in G1. injection G1 as <-. congruence.
        + rewrite A2 in G; [congruence|]. intros T. rewrite T in IS. cbn [is_script] in IS. now rewrite str_eqb_refl in IS.
      - intros (f & key & I & D & M). destruct (ALL f key k I D) as [G T]. unfold made_from in M. destruct (is_script key) eqn:IS.
        + destruct key as [key|]; [|discriminate]. cbn [is_script] in IS. apply str_eqb_eq in IS. subst key.
          destruct (A1 T) as (r1 & r2 & G1 & RR & G2). rewrite G in G1. injection G1 as <-. congruence.
        + rewrite A2; [congruence|]. rewrite T. intros ->. cbn [is_script] in IS. now rewrite str_eqb_refl in IS. }
    split; [now repeat apply del_key_nodup|]. intros k r. rewrite !get_del_key.
    assert (LO : In k (left_out root info) <-> k = data_dir root info \/ k = path_join [root; info; $"RECORD.p7s"] \/ k = path_join [root; info; $"RECORD.jws"] \/ k = path_join [root; info; $"RECORD"]).
    { unfold left_out. cbn [map In]. rewrite <- !join3 by (auto; now apply plain_name). rewrite <- DD. intuition congruence. }
    rewrite <- DD.
    destruct (str_eqb k (data_dir root info)) eqn:E1; [apply str_eqb_eq in E1; split; [discriminate|intros (f & key & _ & _ & _ & X); exfalso; apply X, LO; auto]|].
    destruct (str_eqb k (path_join [root; info; $"RECORD.p7s"])) eqn:E2; [apply str_eqb_eq in E2; split; [discriminate|intros (f & key & _ & _ & _ & X); exfalso; apply X, LO; auto]|].
    destruct (str_eqb k (path_join [root; info; $"RECORD.jws"])) eqn:E3; [apply str_eqb_eq in E3; split; [discriminate|intros (f & key & _ & _ & _ & X); exfalso; apply X, LO; auto]|].
    destruct (str_eqb k (path_join [root; info; $"RECORD"])) eqn:E4; [apply str_eqb_eq in E4; split; [discriminate|intros (f & key & _ & _ & _ & X); exfalso; apply X, LO; auto 6]|].
    apply str_eqb_neq in E1, E2, E3, E4. rewrite GM. split.
    + intros (f & key & I & D & M). exists f, key. repeat split; auto. rewrite LO. intuition.
    + intros (f & key & I & D & M & _). eauto.
Qed.

(** ** Nothing is lost *)
Theorem placed_alone o pl min wh info root fs ip f key k : fair o -> inner_scheme (pl_scheme pl) -> inner_names wh -> never_nested (pl_scheme pl) wh ->
  dist_info_dir wh = Some info -> root_dir o (pl_scheme pl) info wh = Some root -> placed o pl min wh = IOk (fs, ip) -> In f wh ->
  destination (pl_scheme pl) root (data_name info) (z_name (zf_header f)) = Some (key, k) ->
  (forall g kg, In g wh -> destination (pl_scheme pl) root (data_name info) (z_name (zf_header g)) = Some (kg, k) -> g = f) ->
  ~ In k (left_out root info) -> exists r, made_from (o_digest o) pl min key k f r /\ get_key k fs = Some r.
Proof.
  intros (F1 & _ & _ & F3 & _) HS HN NN DI RD H I D A LO. assert (IO := info_of_dir _ _ HN DI). assert (RO := root_dir_in _ _ _ _ _ RD).
  assert (HR := root_inner _ _ _ _ _ HS RD). destruct (info_plain _ _ HN DI) as [PI PD]. pose proof (data_dir_text root info HR PD) as DD. assert (NX := NN _ _ IO RO).
  unfold placed in H. rewrite DI, RD, DD in H. destruct (spread _ _ _ _ _) as [[fs1 types]|?| |] eqn:SP; try discriminate.
  destruct (spread_places _ root (data_name info) wh min HS HR PD HN NX _ _ _ (F1 _) SP) as (P1 & P2 & P3 & P4).
  destruct (spread_alone _ root (data_name info) wh min HS HR PD HN NX f key k I D A _ _ _ (F1 _) SP) as [G T].
  assert (N' : NoDup (map fst (o_types o types))) by (apply (perm_nodup types); auto).
  assert (GT : forall k, get_key k (o_types o types) = get_key k types) by (intros k0; now apply perm_get).
  destruct (rewrite_python _ _ _ _) as [fs2|?| |] eqn:RW; try discriminate. assert (RG := rewrite_get _ _ _ _ _ N' RW k). rewrite GT, T in RG. destruct RG as [A1 A2].
  assert (X : exists r, made_from (o_digest o) pl min key k f r /\ get_key k fs2 = Some r).
  { unfold made_from. destruct (is_script key) eqn:IS.
    - destruct key as [key|]; [|discriminate]. cbn [is_script] in IS. apply str_eqb_eq in IS. subst key. destruct (A1 eq_refl) as (r1 & r2 & G1 & RR & G2). rewrite G in G1. injection G1 as <-. eauto.
    - rewrite A2; [eauto|]. intros ->. cbn [is_script] in IS. now rewrite str_eqb_refl in IS. }
  destruct X as (r & M & G2). exists r. split; auto. apply IOk_inj, pair_equal_spec in H as [<- _]. rewrite !get_del_key.
  assert (L : k <> data_dir root info /\ k <> path_join [root; info; $"RECORD.p7s"] /\ k <> path_join [root; info; $"RECORD.jws"] /\ k <> path_join [root; info; $"RECORD"]).
  { unfold left_out in LO. cbn [map In] in LO. rewrite <- !join3 in LO by (auto; now apply plain_name). rewrite <- DD in LO. intuition congruence. }
  rewrite <- DD. destruct L as (L1 & L2 & L3 & L4). apply str_eqb_neq in L1, L2, L3, L4. now rewrite L1, L2, L3, L4.
Qed.
Lemma zfile_dec (a b : zfile) : {a = b} + {a <> b}.
Proof.
  assert (DS : forall x y : str, {x = y} + {x <> y}) by (apply list_eq_dec, ascii_dec).
  assert (DC : forall x y : content, {x = y} + {x <> y}) by (decide equality; apply bool_dec).
  assert (DO : forall x y : option Z, {x = y} + {x <> y}) by (decide equality; apply Z.eq_dec).
  assert (DZ : forall x y : zheader, {x = y} + {x <> y}) by (decide equality; apply N.eq_dec).
  decide equality.
Defined.
Theorem wheel_alone o fuel pl pl' min mx wh l : fair o -> good_names o -> sanitize pl = Some pl' ->
  inner_scheme (pl_scheme pl') -> inner_names wh -> never_nested (pl_scheme pl') wh -> install_wheel o fuel pl min mx wh = IOk l ->
  exists info root, info_of wh info /\ root_of (pl_scheme pl') root /\ dist_info_dir wh = Some info /\ root_dir o (pl_scheme pl') info wh = Some root /\
  forall f key name, In f wh -> destination (pl_scheme pl') root (data_name info) (z_name (zf_header f)) = Some (key, name) ->
    taken (pl_scheme pl') root (data_name info) wh f name \/
    In name (left_out root info) \/
    (exists outs, compiles o pl' (max_time o wh mx) wh root info outs /\ In name (map ref_full outs)) \/
    (exists fs fs', hooks o pl' min (max_time o wh mx) wh fs fs' /\ get_key name fs' <> get_key name fs) \/
    (exists e, In e l /\ th_name (fst e) = name /\ entry_from pl' root (data_name info) f e /\
       th_mtime (fst e) = option_map round_second (clamp (max_time o wh mx) (match min with Some _ => min | None => z_modified (zf_header f) end))).
Proof.
  intros FO GN S HS HN NN H. apply install_inv in H as (pl2 & fs & ip & fs1 & fs2 & refs & S2 & IC & IV & HK & AP & TE & LR).
  assert (pl2 = pl') by congruence. subst pl2.
  destruct (vfs_places _ _ _ _ _ _ _ FO HS HN NN IV) as (info & root & IO & RO & RD & DI & _ & _ & _).
  exists info, root. split; auto. split; auto. split; auto. split; auto. intros f key name I D.
  assert (GM := vfs_good _ _ _ _ _ _ _ FO GN HS HN NN IV). destruct (vfs_info _ _ _ _ _ _ _ FO HS HN NN IV) as [IC1 IC2]. pose proof IV as IV0.
  destruct (vfs_compiles _ _ _ _ _ _ _ _ _ FO HS HN NN IV DI RD) as (fsq & outs & CM & EQF & Q & _). rewrite install_vfs_eq in Q.
  set (same := fun g => match destination (pl_scheme pl') root (data_name info) (z_name (zf_header g)) with Some (_, n) => str_eqb n name | None => false end).
  destruct (Forall_Exists_dec (fun g => ~ (g <> f /\ same g = true))) with (l := wh) as [AL|EX].
  { intros g. destruct (same g); [|left; now intros []]. destruct (zfile_dec g f) as [->|NE]; [left; now intros []|right; intuition]. }
  2:{ left. apply Exists_exists in EX as (g & Ig & X). assert (Y : g <> f /\ same g = true) by (destruct (zfile_dec g f); destruct (same g); intuition congruence). destruct Y as [NE SM]. unfold same in SM.
      destruct (destination _ _ _ (z_name (zf_header g))) as [[kg n]|] eqn:Dg; [|discriminate]. apply str_eqb_eq in SM. subst n. exists g, kg. repeat split; auto. }
  right. assert (A : forall g kg, In g wh -> destination (pl_scheme pl') root (data_name info) (z_name (zf_header g)) = Some (kg, name) -> g = f).
  { intros g kg Ig Dg. rewrite Forall_forall in AL. specialize (AL g Ig). unfold same in AL. rewrite Dg, str_eqb_refl in AL. destruct (zfile_dec g f); intuition congruence. }
  destruct (in_dec (list_eq_dec ascii_dec) name (left_out root info)) as [LO|LO]; [now left|right].
  change (placed (quiet o)) with (placed o) in Q. destruct (placed o pl' min wh) as [[fs0 ip0]|?| |] eqn:EP; try discriminate.
  cbn [quiet o_compile fold_left] in Q. apply IOk_inj, pair_equal_spec in Q as [<- _].
  destruct (placed_alone _ _ _ _ _ _ _ _ f key name FO HS HN NN DI RD EP I D A LO) as (r & MF & GR).
  destruct (in_dec (list_eq_dec ascii_dec) name (map ref_full outs)) as [CN|CN]; [left; exists outs; auto|right].
  assert (G0 : get_key name fs = Some r) by (subst fs; rewrite set_outs_keep by auto; exact GR).
  destruct (get_key name fs1) as [r1|] eqn:G1; [|left; exists fs, fs1; split; [exists ip; auto|]; congruence].
  destruct (vref_dec r1 r) as [->|NE]; [right|left; exists fs, fs1; split; [exists ip; auto|]; congruence].
  assert (GM1 : good_map fs1) by (destruct GN as [_ GH]; eapply GH; eauto).
  destruct FO as (F1 & F2 & F2' & F3 & F4 & F5 & F6).
  destruct (parents_spec _ _ _ _ _ GM1 (F2 fs1) (F2' fs1) AP) as (GM2 & Q1 & Q2 & Q3).
  destruct (layer_refs _ _ _ _ _ _ F6 (F5 fs2) TE LR) as [_ L2].
  destruct (L2 name r) as (fr & e & Ie & T & W); [apply get_key_in; auto|].
  unfold inner_names in HN. rewrite Forall_forall in HN. destruct (dest_plain _ _ _ _ _ _ HS (root_inner _ _ _ _ _ HS RD) (HN f I) D) as (cs & -> & P & N).
  destruct (entry_made _ _ _ _ _ _ _ _ _ _ _ _ P N D MF T W) as [EF MT]. exists e. split; auto. split; [|auto].
  destruct EF as (key' & D' & _). rewrite D in D'. congruence.
Qed.

Theorem wheel_complete o fuel pl pl' min mx wh l : fair o -> good_names o -> sanitize pl = Some pl' -> tame (pl_scheme pl') wh ->
  install_wheel o fuel pl min mx wh = IOk l ->
  exists info root, info_of wh info /\ root_of (pl_scheme pl') root /\ dist_info_dir wh = Some info /\ root_dir o (pl_scheme pl') info wh = Some root /\
  forall f key name, In f wh -> destination (pl_scheme pl') root (data_name info) (z_name (zf_header f)) = Some (key, name) ->
    In name (left_out root info) \/
    (exists outs, compiles o pl' (max_time o wh mx) wh root info outs /\ In name (map ref_full outs)) \/
    (exists fs fs', hooks o pl' min (max_time o wh mx) wh fs fs' /\ get_key name fs' <> get_key name fs) \/
    (exists e, In e l /\ th_name (fst e) = name /\ entry_from pl' root (data_name info) f e /\
       th_mtime (fst e) = option_map round_second (clamp (max_time o wh mx) (match min with Some _ => min | None => z_modified (zf_header f) end))).
Proof.
  intros FO GN S TM H. pose proof TM as (HS & HN & NN & TK). destruct (wheel_alone _ _ _ _ _ _ _ _ FO GN S HS HN NN H) as (info & root & IO & RO & DI & RD & C).
  exists info, root. split; auto. split; auto. split; auto. split; auto. intros f key name I D. destruct (C f key name I D) as [(g & kg & Ig & NE & Dg)|X]; auto.
  exfalso. apply NE. destruct (TK info root IO RO) as [_ NC]. eapply dest_inj; eauto.
Qed.

(** ** Order *)
Lemma nodup_finer {A B C} (g : A -> B) (h : A -> C) l : (forall x y, In x l -> In y l -> h x = h y -> g x = g y) -> NoDup (map g l) -> NoDup (map h l).
Proof.
  induction l as [|x l IH]; intros E N; cbn [map] in *; [constructor|]. inversion N as [|? ? N1 N2]; subst. constructor.
  - intros I. apply in_map_iff in I as (y & Ey & Iy). apply N1. apply in_map_iff. exists y. split; auto. apply E; auto; [now right|now left].
  - apply IH; auto. intros; apply E; auto; now right.
Qed.
Lemma tame_distinct s wh info : tame s wh -> info_of wh info -> distinct_names wh.
Proof.
  intros (HS & HN & NN & TM) IO. destruct (TM info (s_purelib s) IO (or_introl eq_refl)) as [_ NC]. unfold no_clash in NC. unfold distinct_names.
  eapply nodup_finer; [|exact NC]. intros x y Ix Iy E. unfold inner_names in HN. rewrite Forall_forall in HN.
  apply clean_inj_inner in E; auto. cbv beta. unfold destination. now rewrite E.
Qed.
Lemma maps_perm {V} (m m' : list (str * V)) : NoDup (map fst m) -> NoDup (map fst m') -> (forall k, get_key k m = get_key k m') -> Permutation m m'.
Proof.
  intros N N' E. apply NoDup_Permutation.
  - eapply NoDup_map_inv; eauto.
  - eapply NoDup_map_inv; eauto.
  - intros [k v]. split; intros I; apply in_get_key in I; auto; apply get_key_in; [rewrite <- E|rewrite E]; auto.
Qed.
Lemma info_perm wh wh' : Permutation wh wh' -> dist_info_dir wh = dist_info_dir wh'.
Proof.
  intros P. unfold dist_info_dir. apply (Permutation_map top_dir) in P.
  assert (Q : forall A (f : A -> bool) l l', Permutation l l' -> Permutation (filter f l) (filter f l')).
  { intros A f l l' X. induction X; cbn [filter]; auto.
    - destruct (f x); auto.
    - destruct (f x), (f y); auto. constructor.
    - eapply Permutation_trans; eauto. }
  apply (Q _ (has_suffix $".dist-info")) in P. clear Q. destruct (filter _ (map top_dir wh)) as [|d ds] eqn:E1, (filter _ (map top_dir wh')) as [|d' ds'] eqn:E2; auto.
  - apply Permutation_nil in P. discriminate.
  - symmetry in P. apply Permutation_nil in P. discriminate.
  - assert (X : forall a l a' l', Permutation (a :: l) (a' :: l') -> forallb (str_eqb a) l = true -> a = a' /\ forallb (str_eqb a') l' = true).
    { intros a l a' l' PP F. assert (ALL : Forall (eq a) (a :: l)).
      { constructor; auto. apply Forall_forall. intros x Ix. rewrite forallb_forall in F. apply F in Ix. now apply str_eqb_eq. }
      apply (Permutation_Forall PP) in ALL. inversion ALL as [|? ? A1 A2]; subst. split; auto. apply forallb_forall. intros x Ix. rewrite Forall_forall in A2. rewrite (A2 x Ix). apply str_eqb_refl. }
    destruct (forallb (str_eqb d) ds) eqn:F1.
    + destruct (X _ _ _ _ P F1) as [-> ->]. reflexivity.
    + destruct (forallb (str_eqb d') ds') eqn:F2; auto. symmetry in P. destruct (X _ _ _ _ P F2) as [<- F]. congruence.
Qed.
Lemma distinct_perm wh wh' : Permutation wh wh' -> distinct_names wh -> distinct_names wh'.
Proof. intros P N. unfold distinct_names in *. eapply Permutation_NoDup; [apply Permutation_map, P|exact N]. Qed.
Lemma open_perm wh wh' name : Permutation wh wh' -> distinct_names wh -> wh_open wh name = wh_open wh' name.
Proof.
  intros P N. assert (N' := distinct_perm _ _ P N). unfold wh_open at 1. destruct (find _ wh) as [f|] eqn:F.
  - apply find_some in F as [I E]. apply str_eqb_eq in E. symmetry. apply wh_open_unique; auto. eapply Permutation_in; eauto.
  - unfold wh_open. destruct (find _ wh') as [f|] eqn:F'; auto. apply find_some in F' as [I E]. apply (Permutation_in _ (Permutation_sym P)) in I.
    eapply List.find_none in F; eauto. cbv beta in F. congruence.
Qed.
Lemma forallb_ext' {A} (f g : A -> bool) l : (forall x, f x = g x) -> forallb f l = forallb g l.
Proof. intros E. induction l; cbn [forallb]; auto. now rewrite E, IHl. Qed.
Lemma forallb_perm {A} (f : A -> bool) l l' : Permutation l l' -> forallb f l = forallb f l'.
Proof. induction 1; cbn [forallb]; auto; [now rewrite IHPermutation|destruct (f x), (f y); auto|congruence]. Qed.
Lemma existsb_perm {A} (f : A -> bool) l l' : Permutation l l' -> existsb f l = existsb f l'.
Proof. induction 1; cbn [existsb]; auto; [now rewrite IHPermutation|destruct (f x), (f y); auto|congruence]. Qed.
Lemma filter_perm {A} (f : A -> bool) l l' : Permutation l l' -> Permutation (filter f l) (filter f l').
Proof.
  intros X. induction X; cbn [filter]; auto.
  - destruct (f x); auto.
  - destruct (f x), (f y); auto. constructor.
  - eapply Permutation_trans; eauto.
Qed.
Lemma integrity_perm csv digest wh wh' : Permutation wh wh' -> distinct_names wh -> integrity_check csv digest wh = integrity_check csv digest wh'.
Proof.
  intros P N. unfold integrity_check. rewrite <- (info_perm _ _ P). destruct (dist_info_dir wh) as [info|]; auto.
  unfold record_rows. rewrite <- (open_perm wh wh') by auto. destruct (wh_open wh _); auto. destruct (csv s) as [rows|]; auto. f_equal.
  - apply forallb_ext'. intros row. unfold row_ok. destruct row as [|n [|h [|sz [|]]]]; auto. f_equal. unfold check_file. now rewrite <- (open_perm wh wh').
  - apply forallb_perm. unfold files_to_check. apply filter_perm, Permutation_map, filter_perm, P.
Qed.
Lemma max_perm o o' wh wh' mx : o_now o = o_now o' -> Permutation wh wh' -> max_time o wh mx = max_time o' wh' mx.
Proof.
  intros E P. unfold max_time. destruct mx; auto. rewrite E.
  assert (X : forall acc, fold_left after_max wh acc = fold_left after_max wh' acc); [|now rewrite X].
  induction P; intros acc; cbn [fold_left]; auto; [|now rewrite IHP1].
  f_equal. unfold after_max, time_after. destruct acc as [z|], (z_modified (zf_header x)) as [a|], (z_modified (zf_header y)) as [b|]; auto;
    repeat match goal with |- context [(?u <? ?v)%Z] => destruct (Z.ltb_spec u v) end; auto; try lia; f_equal; lia.
Qed.
Lemma info_of_perm wh wh' info : Permutation wh wh' -> info_of wh' info -> info_of wh info.
Proof. intros P (S & f & cs & I & E). split; auto. exists f, cs. split; auto. eapply Permutation_in; [symmetry; exact P|exact I]. Qed.
Lemma tame_perm s wh wh' : Permutation wh wh' -> tame s wh -> tame s wh'.
Proof.
  intros P (HS & HN & NN & TM). assert (PI : forall f, In f wh' -> In f wh) by (intros f; apply Permutation_in; now symmetry).
  split; auto. split; [unfold inner_names in *; eapply Permutation_Forall; eauto|]. split.
  - intros info root IO RO f key name x I. apply (NN info root); auto. eapply info_of_perm; eauto.
  - intros info root IO RO. destruct (TM info root) as [K C]; auto; [eapply info_of_perm; eauto|]. split.
    + unfold known_keys in *. eapply Permutation_Forall; eauto.
    + unfold no_clash in *. eapply Permutation_NoDup; [apply Permutation_map; exact P|exact C].
Qed.
Lemma root_dir_perm o o' s info wh wh' : o_wheel o = o_wheel o' -> Permutation wh wh' -> distinct_names wh -> root_dir o s info wh = root_dir o' s info wh'.
Proof. intros E P N. unfold root_dir. rewrite E, <- (open_perm wh wh') by auto. reflexivity. Qed.
Lemma set_outs_iff outs : forall fs k r, NoDup (map ref_full outs) -> (get_key k (fold_left (fun fs r => set_key (ref_full r) r fs) outs fs) = Some r <->
  (In r outs /\ k = ref_full r) \/ (~ In k (map ref_full outs) /\ get_key k fs = Some r)).
Proof.
  induction outs as [|x outs IH]; intros fs k r N; cbn [fold_left].
  - cbn. intuition.
  - cbn [map] in N. inversion N as [|? ? N1 N2]; subst. rewrite IH by auto. rewrite get_set_key. cbn [map In]. destruct (str_eqb k (ref_full x)) eqn:E.
    + apply str_eqb_eq in E. subst k. split.
      * intros [[I E]|[_ E]]; [left; split; auto|]. injection E as <-. left. split; auto.
      * intros [[[->|I] E]|[F _]]; auto. exfalso. apply F. now left.
    + apply str_eqb_neq in E. split.
      * intros [[I F]|[F G]]; [left; auto|]. right. split; auto. intros [X|X]; [congruence|auto].
      * intros [[[->|I] F]|[F G]]; [congruence|auto|]. right. split; auto.
Qed.
Lemma good_perm fs fs' : Permutation fs fs' -> good_map fs -> good_map fs'.
Proof. intros P [N G]. split; [eapply Permutation_NoDup; [apply Permutation_map, P|exact N]|eapply Permutation_Forall; eauto]. Qed.
Lemma tar_entries_perm pl l l' : Permutation l l' -> same_set (tar_entries pl l) (tar_entries pl l').
Proof.
  induction 1 as [|x l l' P IH|x y l|l l' l'' P1 IH1 P2 IH2]; cbn [tar_entries same_set]; auto.
  - unfold same_set in *. destruct (tar_entry pl x); auto. destruct (tar_entries pl l), (tar_entries pl l'); auto.
  - destruct (tar_entry pl x), (tar_entry pl y), (tar_entries pl l); cbn [same_set]; auto. constructor.
  - unfold same_set in *. destruct (tar_entries pl l), (tar_entries pl l'), (tar_entries pl l''); auto; try tauto. eapply Permutation_trans; eauto.
Qed.
Lemma removelast_length {A} (l : list A) : length (removelast l) = length l - 1.
Proof. induction l as [|x l IH] using rev_ind; auto. rewrite removelast_last, app_length. cbn. lia. Qed.
Lemma below_shallow d n : clean_path n -> is_abs n = false -> below d n -> length (removelast (clean_comps d)) <= length (removelast (clean_comps n)).
Proof.
  intros C A B. pose proof (below_clean _ _ C A B) as [CD AD]. apply (below_ups d n C A) in B. unfold ups in B. apply in_map_iff in B as (p & E & I). apply prefixes_in in I as (NE & q & Q).
  assert (L : clean_list false p).
  { destruct (clean_rel n C A) as [_ L]. destruct (clean_comps n) as [|c l _] using rev_ind; [destruct p; [congruence|discriminate]|]. rewrite removelast_last in Q. subst l.
    rewrite <- app_assoc in L. clear -L. revert L. generalize (q ++ [c]) as r. intros r. induction r as [|x r IH] using rev_ind; intros L; [now rewrite app_nil_r in L|].
    rewrite app_assoc in L. apply clean_list_init in L. auto. }
  rewrite <- E, clean_comps_text by auto. rewrite Q, app_length. rewrite removelast_length. lia.
Qed.
Lemma add_all_same fuel t sched sched' fs fs' : good_map fs -> Permutation fs fs' ->
  incl (map fst fs) sched -> (forall k, In k sched -> In k (map fst fs) \/ exists k', In k' (map fst fs) /\ below k k') ->
  incl (map fst fs') sched' -> (forall k, In k sched' -> In k (map fst fs') \/ exists k', In k' (map fst fs') /\ below k k') ->
  same_set (add_all_parents fuel t sched fs) (add_all_parents fuel t sched' fs').
Proof.
  intros GM P I1 I2 I1' I2'. assert (GM' := good_perm _ _ P GM).
  assert (X : forall fs sched, good_map fs -> incl (map fst fs) sched -> (forall k, In k sched -> In k (map fst fs) \/ exists k', In k' (map fst fs) /\ below k k') ->
    Forall (fun n => clean_path n /\ is_abs n = false) sched /\ forallb (fun n => length (removelast (clean_comps n)) <? fuel) sched = forallb (fun n => length (removelast (clean_comps n)) <? fuel) (map fst fs)).
  { clear. intros fs sched [N G] I1 I2. rewrite Forall_forall in G.
    assert (GK : forall k, In k (map fst fs) -> clean_path k /\ is_abs k = false) by (intros k I; apply in_map_iff in I as ([k' r] & <- & I); apply (G _ I)).
    split; [apply Forall_forall; intros k I; destruct (I2 k I) as [J|(k' & J & B)]; auto; destruct (GK k' J); eapply below_clean; eauto|].
    apply eq_iff_eq_true. rewrite !forallb_forall. split; intros H k I; [apply H, I1, I|].
    destruct (I2 k I) as [J|(k' & J & B)]; auto. destruct (GK k' J) as [C A]. specialize (H k' J). pose proof (below_shallow _ _ C A B). apply Nat.ltb_lt in H. apply Nat.ltb_lt. lia. }
  destruct (X fs sched GM I1 I2) as [F1 F2]. destruct (X fs' sched' GM' I1' I2') as [F1' F2'].
  assert (FB : forallb (fun n => length (removelast (clean_comps n)) <? fuel) sched = forallb (fun n => length (removelast (clean_comps n)) <? fuel) sched').
  { rewrite F2, F2'. apply forallb_perm, Permutation_map, P. }
  destruct (add_all_parents fuel t sched fs) as [g|] eqn:E, (add_all_parents fuel t sched' fs') as [g'|] eqn:E'; cbn [same_set]; auto.
  - destruct (parents_spec _ _ _ _ _ GM I1 I2 E) as ([N _] & Q1 & Q2 & Q3). destruct (parents_spec _ _ _ _ _ GM' I1' I2' E') as ([N' _] & Q1' & Q2' & Q3').
    assert (PG : forall k, get_key k fs = get_key k fs') by (intros k; symmetry; apply perm_get; [apply GM|now symmetry]).
    assert (PK : forall k, In k (map fst fs) <-> In k (map fst fs')) by (intros k; split; apply Permutation_in; [apply Permutation_map, P|apply Permutation_map; now symmetry]).
    assert (GI : forall (m : vfs) k, In k (map fst m) <-> get_key k m <> None).
    { intros m k. split; [intros I Y; now apply get_key_none in Y|]. intros Y. destruct (get_key k m) as [r|] eqn:Z; [|congruence].
      apply get_key_in in Z. change k with (fst (k, r)). now apply in_map. }
    assert (ADD : forall (m h : vfs), (forall k r, get_key k m = Some r -> get_key k h = Some r) -> (forall n d, In n (map fst h) -> below d n -> In d (map fst h)) ->
       forall n k, In n (map fst m) -> below k n -> get_key k h <> None).
    { intros m h A1 A2 n k I B. apply GI. eapply A2; [|exact B]. apply GI. apply GI in I. destruct (get_key n m) eqn:Z; [|congruence]. rewrite (A1 _ _ Z). discriminate. }
    apply maps_perm; auto. intros k. destruct (get_key k g) as [r|] eqn:Gk.
    + destruct (Q2 _ _ Gk) as [Z|(Z & -> & n & In' & B)]; [symmetry; apply Q1'; now rewrite <- PG|].
      destruct (get_key k g') as [r'|] eqn:Gk'; [|exfalso; apply PK in In'; exact (ADD _ _ Q1' Q3' n k In' B Gk')].
      destruct (Q2' _ _ Gk') as [Z'|(_ & -> & _)]; auto. rewrite <- PG in Z'. congruence.
    + destruct (get_key k g') as [r'|] eqn:Gk'; auto. exfalso. destruct (Q2' _ _ Gk') as [Z'|(Z & -> & n & In' & B)].
      * rewrite <- PG in Z'. apply Q1 in Z'. congruence.
      * apply PK in In'. exact (ADD _ _ Q1 Q3 n k In' B Gk).
  - rewrite add_all_ok in E, E' by auto. rewrite FB in E. destruct (forallb _ sched'); discriminate.
  - rewrite add_all_ok in E, E' by auto. rewrite FB in E. destruct (forallb _ sched'); discriminate.
Qed.

Theorem wheel_same o o' fuel pl pl' min mx wh wh' : fair o -> fair o' -> same_tools o o' -> good_names o -> distinct_outputs o -> distinct_outputs o' ->
  sanitize pl = Some pl' -> tame (pl_scheme pl') wh -> same_hooks o o' pl' min wh -> Permutation wh wh' ->
  install_wheel o fuel pl min mx wh = install_wheel o' fuel pl min mx wh'.
Proof.
  intros FO FO' (TC & TD & TW & TN & TE & SC) GN SN SN' S TM SH P.
  unfold install_wheel. rewrite S. rewrite <- TC, <- TD.
  destruct (dist_info_dir wh) as [info|] eqn:DI.
  2:{ unfold integrity_check. rewrite <- (info_perm _ _ P), DI. reflexivity. }
  pose proof TM as (HS & HN & NN & _). assert (DN := tame_distinct _ _ _ TM (info_of_dir _ _ HN DI)).
  rewrite <- (integrity_perm _ _ wh wh') by auto. destruct (integrity_check _ _ wh); cbn [negb]; [|reflexivity].
  rewrite <- (max_perm o o' wh wh') by auto. set (t := max_time o wh mx). assert (TM' := tame_perm _ _ _ P TM). pose proof TM' as (HS' & HN' & NN' & _).
  assert (IV : match install_vfs o pl' min t wh, install_vfs o' pl' min t wh' with
               | IOk (fs, i), IOk (fs', i') => i = i' /\ Permutation fs fs' /\ good_map fs /\ clean_path i /\ is_abs i = false
               | IErr e, IErr e' => e = e'
               | _, _ => False
               end).
  { destruct (install_vfs o pl' min t wh) as [[fs0 i0]|e0| |] eqn:V0.
    1: assert (VG := vfs_good _ _ _ _ _ _ _ FO GN HS HN NN V0).
    1: assert (VI := vfs_info _ _ _ _ _ _ _ FO HS HN NN V0).
    all: rewrite install_vfs_eq in V0; rewrite ?install_vfs_eq.
    all: assert (DI' : dist_info_dir wh' = Some info) by (now rewrite <- (info_perm _ _ P)).
    all: destruct (root_dir o (pl_scheme pl') info wh) as [root|] eqn:RD;
      [|assert (RD' : root_dir o' (pl_scheme pl') info wh' = None) by (now rewrite <- (root_dir_perm o o' _ _ wh wh'));
        unfold placed in V0 |- *; rewrite DI, RD in V0; rewrite ?DI', ?RD'; congruence].
    all: assert (RD' : root_dir o' (pl_scheme pl') info wh' = Some root) by (now rewrite <- (root_dir_perm o o' _ _ wh wh')).
    all: pose proof (placed_spec o pl' min wh info root FO TM DI RD) as PS; pose proof (placed_spec o' pl' min wh' info root FO' TM' DI' RD') as PS'.
    all: rewrite (existsb_perm _ wh wh' P) in PS; destruct (existsb _ wh'); [rewrite PS in V0; rewrite ?PS'; congruence|].
    all: destruct PS as (fs & E & ND & PM), PS' as (fs' & E' & ND' & PM'); rewrite E in V0; rewrite ?E'.
    all: assert (PF : Permutation fs fs') by (
      apply maps_perm; auto; intros k;
      assert (Q : forall r, get_key k fs = Some r <-> get_key k fs' = Some r) by (
        intros r; rewrite PM, PM', TD; split; intros (f & key & I & R); exists f, key; (split; [|exact R]); eapply Permutation_in; [exact P|exact I|symmetry; exact P|exact I]);
      destruct (get_key k fs) as [r|]; [symmetry; now apply Q|]; destruct (get_key k fs') as [r|]; auto; now apply Q).
    all: assert (PP : Permutation (filter is_py (map snd (o_py o fs))) (filter is_py (map snd (o_py o' fs')))) by (
      apply filter_perm, Permutation_map; destruct FO as (_ & _ & _ & _ & FP & _), FO' as (_ & _ & _ & _ & FP' & _);
      rewrite FP, FP'; exact PF).
    all: specialize (SC t _ _ PP); unfold same_set in SC;
      destruct (o_compile o t _) as [outs|] eqn:CO; destruct (o_compile o' t (filter is_py (map snd (o_py o' fs')))) as [outs'|] eqn:CO'; try contradiction; try congruence.
    apply IOk_inj, pair_equal_spec in V0 as [V1 V2]. split; [congruence|]. subst fs0 i0. split; [|split; [exact VG|exact VI]].
    assert (N1 := SN _ _ _ CO). assert (N1' := SN' _ _ _ CO').
    apply maps_perm; [now apply set_outs_nodup|now apply set_outs_nodup|].
    intros k. assert (Q : forall r, get_key k (fold_left (fun fs r => set_key (ref_full r) r fs) outs fs) = Some r <-> get_key k (fold_left (fun fs r => set_key (ref_full r) r fs) outs' fs') = Some r).
    { intros r. rewrite !set_outs_iff by auto. rewrite (perm_get fs' fs k) by auto.
      assert (A1 : In r outs <-> In r outs') by (split; apply Permutation_in; [exact SC|now symmetry]).
      assert (A2 : In k (map ref_full outs) <-> In k (map ref_full outs')) by (split; apply Permutation_in; apply Permutation_map; [exact SC|now symmetry]).
      rewrite A1, A2. reflexivity. }
    revert Q. generalize (get_key k (fold_left (fun fs r => set_key (ref_full r) r fs) outs fs)) (get_key k (fold_left (fun fs r => set_key (ref_full r) r fs) outs' fs')).
    intros [r|] [r'|] Q; auto; [symmetry|symmetry|]; now apply Q. }
  destruct (install_vfs o pl' min t wh) as [[fs0 i0]|e0| |] eqn:IV0, (install_vfs o' pl' min t wh') as [[fs0' i0']|e0'| |]; try contradiction; [|congruence].
  destruct IV as (<- & PF & GM & IC1 & IC2). specialize (SH t fs0 fs0' i0 IV0 PF). unfold same_set in SH.
  destruct (o_hook o t fs0 i0) as [fs1|] eqn:HK, (o_hook o' t fs0' i0) as [fs1'|] eqn:HK'; try contradiction; auto.
  assert (GM1 : good_map fs1) by (destruct GN as [_ GH]; eapply GH; eauto). assert (GM1' := good_perm _ _ SH GM1).
  destruct FO as (F1 & F2 & F2' & F3 & F4 & F5 & F6), FO' as (H1 & H2 & H2' & H3 & H4 & H5 & H6).
  pose proof (add_all_same fuel t _ _ _ _ GM1 SH (F2 fs1) (F2' fs1) (H2 fs1') (H2' fs1')) as AS. unfold same_set in AS.
  destruct (add_all_parents fuel t (o_parents o fs1) fs1) as [fs2|] eqn:AP, (add_all_parents fuel t (o_parents o' fs1') fs1') as [fs2'|]; try contradiction; auto.
  destruct (parents_spec _ _ _ _ _ GM1 (F2 fs1) (F2' fs1) AP) as (GM2 & _).
  assert (PR : Permutation (map snd (o_refs o fs2)) (map snd (o_refs o' fs2'))) by (apply Permutation_map; rewrite F5, H5; exact AS).
  pose proof (tar_entries_perm pl' _ _ PR) as TS. unfold same_set in TS.
  destruct (tar_entries pl' (map snd (o_refs o fs2))) as [refs|] eqn:T1, (tar_entries pl' (map snd (o_refs o' fs2'))) as [refs'|]; try contradiction; auto.
  rewrite <- TE. assert (SL : layer_from_refs (o_encodable o) (o_sort o) refs t = layer_from_refs (o_encodable o) (o_sort o') refs' t); [|now rewrite SL].
  assert (NMF : map fr_name refs = map fst (o_refs o fs2) /\ Forall (fun r => clean_path (fr_name r)) refs).
  { destruct GM2 as [_ G]. assert (G' : Forall (fun kr => fst kr = ref_full (snd kr) /\ clean_path (fst kr) /\ is_abs (fst kr) = false) (o_refs o fs2)) by (eapply Permutation_Forall; [symmetry; apply F5|exact G]).
    clear -T1 G'. apply tar_entries_ok in T1. revert refs T1. induction (o_refs o fs2) as [|[k r] m IH]; intros refs T1; cbn [map] in T1; inversion T1 as [|? ? ? ? T T1']; subst.
    - split; [reflexivity|constructor].
    - inversion G' as [|? ? (E & C & A) G'']; subst. cbn [fst snd] in *. destruct (IH G'' _ T1') as [IH1 IH2].
      assert (FN : fr_name y = k).
      { unfold tar_entry in T. destruct (ref_header r); [|discriminate]. injection T as <-. cbn [fr_name]. rewrite <- E. exact C. }
      cbn [map fst]. split; [now rewrite FN, IH1|]. constructor; auto. now rewrite FN. }
  destruct NMF as [NM NC]. apply same_layer; auto. rewrite NM. eapply Permutation_NoDup; [apply Permutation_map; symmetry; apply F5|apply GM2].
Qed.

(** ** Termination *)
Lemma rewrite_no_loop digest pl types : forall fs, rewrite_python digest pl types fs <> ILoop.
Proof.
  induction types as [|[n k] types IH]; intros fs; cbn [rewrite_python]; [discriminate|]. destruct (str_eqb k _); auto. destruct (get_key n fs) as [r|]; [|discriminate].
  unfold rewritten. destruct (ref_content r); try discriminate. destruct (negb _); auto. destruct r; try discriminate. destruct (if str_eqb _ _ then _ else _). auto.
Qed.
Lemma spread_no_loop s data sched : forall fs types, spread s data sched fs types <> ILoop.
Proof.
  induction sched as [|n sched IH]; intros fs types; cbn [spread]; [discriminate|]. destruct (get_key n fs); auto. destruct (has_prefix _ _); auto.
  destruct (cut _ _). destruct (scheme_dir _ _); [|discriminate]. destruct (renamed _ _); [auto|discriminate].
Qed.
Theorem wheel_returns o pl pl' min mx wh : fair o -> good_names o -> sanitize pl = Some pl' ->
  inner_scheme (pl_scheme pl') -> inner_names wh -> never_nested (pl_scheme pl') wh ->
  exists n, forall fuel, n <= fuel -> install_wheel o fuel pl min mx wh <> ILoop.
Proof.
  intros FO GN S HS HN NN. unfold install_wheel. rewrite S. destruct (integrity_check _ _ _); cbn [negb]; [|exists 0; discriminate]. set (t := max_time o wh mx).
  destruct (install_vfs o pl' min t wh) as [[fs info]|e| |] eqn:IV; try (exists 0; discriminate).
  2:{ exfalso. unfold install_vfs in IV. destruct (dist_info_dir wh) as [i|]; [|discriminate]. destruct (root_dir _ _ _ _); [|discriminate].
      destruct (spread _ _ _ _ _) as [[f ty]|e| |] eqn:SP; try discriminate; [|now apply spread_no_loop in SP].
      destruct (rewrite_python _ _ _ _) eqn:RW; try discriminate; [|now apply rewrite_no_loop in RW]. destruct (o_compile _ _ _); discriminate. }
  destruct (o_hook o t fs info) as [fs1|] eqn:HK; [|exists 0; discriminate].
  assert (GM := vfs_good _ _ _ _ _ _ _ FO GN HS HN NN IV). assert (GM1 : good_map fs1) by (destruct GN as [_ GH]; destruct (vfs_info _ _ _ _ _ _ _ FO HS HN NN IV); eapply GH; eauto).
  exists (1 + (list_max (map (fun n => length (removelast (clean_comps n))) (o_parents o fs1)))). intros fuel L.
  destruct FO as (F1 & F2 & F2' & _). rewrite add_all_ok.
  2:{ apply Forall_forall. intros k I. destruct GM1 as [_ G]. rewrite Forall_forall in G.
      assert (GK : forall k, In k (map fst fs1) -> clean_path k /\ is_abs k = false) by (intros k0 I0; apply in_map_iff in I0 as ([k' r] & <- & I0); apply (G _ I0)).
      destruct (F2' fs1 k I) as [J|(k' & J & B)]; auto. destruct (GK k' J). eapply below_clean; eauto. }
  assert (X : forallb (fun n => length (removelast (clean_comps n)) <? fuel) (o_parents o fs1) = true).
  { apply forallb_forall. intros k I. apply Nat.ltb_lt. pose proof (list_max_le (map (fun n => length (removelast (clean_comps n))) (o_parents o fs1)) (list_max (map (fun n => length (removelast (clean_comps n))) (o_parents o fs1)))) as [LM _].
    specialize (LM (le_n _)). rewrite Forall_forall in LM. specialize (LM (length (removelast (clean_comps k)))).
    assert (In (length (removelast (clean_comps k))) (map (fun n => length (removelast (clean_comps n))) (o_parents o fs1))) by (apply in_map_iff; eauto). specialize (LM H). lia. }
  rewrite X. destruct (tar_entries _ _) as [refs|]; [|discriminate]. destruct (layer_from_refs _ _ _ _) eqn:LR; try discriminate.
  exfalso. unfold layer_from_refs in LR. revert LR. generalize (o_sort o ref_less refs) as m. induction m as [|x m IH]; cbn [write_refs]; [discriminate|].
  destruct (write_ref _ _ _); [|discriminate]. destruct (write_refs _ _ m); try discriminate. auto.
Qed.
Lemma abs_parents fuel t dir : forall fs, is_abs dir = true -> add_parents fuel t dir fs = None.
Proof.
  revert dir. induction fuel as [|fuel IH]; intros dir fs A; auto. cbn [add_parents]. rewrite (abs_not_dot _ A). apply IH. now rewrite dir_abs.
Qed.

(** ** Times *)
Lemma after_max_ge wh : forall acc, time_le acc (fold_left after_max wh acc) /\ forall f, In f wh -> time_le (z_modified (zf_header f)) (fold_left after_max wh acc).
Proof.
  assert (TR : forall a b c, time_le a b -> time_le b c -> time_le a c) by (intros [a|] [b|] [c|]; cbn [time_le]; try tauto; lia).
  induction wh as [|f wh IH]; intros acc; cbn [fold_left]; [split; [apply time_le_refl|intros f []]|].
  destruct (IH (after_max acc f)) as [I1 I2].
  assert (A : time_le acc (after_max acc f) /\ time_le (z_modified (zf_header f)) (after_max acc f)).
  { unfold after_max, time_after. destruct (z_modified (zf_header f)) as [x|], acc as [y|]; cbn [time_le]; auto; try lia. destruct (Z.ltb_spec y x); cbn [time_le]; lia. }
  destruct A as [A1 A2]. split; [eapply TR; eauto|]. intros g [->|I]; [eapply TR; eauto|auto].
Qed.
Theorem max_later o wh f x : In f wh -> z_modified (zf_header f) = Some x ->
  exists t, max_time o wh None = Some t /\ (x < t)%Z /\ (t mod 1000000000 = 0)%Z.
Proof.
  intros I E. unfold max_time. destruct (after_max_ge wh None) as [_ G]. specialize (G f I). rewrite E in G.
  destruct (fold_left after_max wh None) as [m|]; [|destruct G]. cbn [time_le] in G. eexists. split; [reflexivity|].
  pose proof (round_near m). split; [lia|]. unfold round_second. rewrite Z.add_comm. rewrite <- (Z.mul_1_l 1000000000) at 1.
  rewrite <- Z.mul_add_distr_r. now rewrite Z.mod_mul.
Qed.
Lemma max_whole o wh mx t : (mx = None -> (o_now o mod 1000000000 = 0)%Z) -> whole_second mx -> max_time o wh mx = Some t -> whole_second (Some t).
Proof.
  unfold max_time. destruct mx as [x|]; [intros _ W E; congruence|]. intros N _. specialize (N eq_refl). destruct (fold_left after_max wh None) as [m|].
  - intros E. injection E as <-. cbn [whole_second]. unfold round_second. rewrite Z.add_comm. rewrite <- (Z.mul_1_l 1000000000) at 1. rewrite <- Z.mul_add_distr_r. now rewrite Z.mod_mul.
  - intros E. injection E as <-. exact N.
Qed.
(** No entry is later than the maximum *)
Theorem wheel_times o fuel pl min mx wh l : fair o -> (mx = None -> (o_now o mod 1000000000 = 0)%Z) -> whole_second mx ->
  install_wheel o fuel pl min mx wh = IOk l ->
  exists t, max_time o wh mx = Some t /\ Forall (fun e => time_le (th_mtime (fst e)) (Some t)) l.
Proof.
  intros (_ & _ & _ & _ & _ & FR & FS) N W H. apply install_inv in H as (pl' & fs & info & fs1 & fs2 & refs & S & _ & _ & _ & _ & TE & LR).
  destruct (max_time o wh mx) as [t|] eqn:M.
  2:{ unfold max_time in M. destruct mx; [discriminate|]. destruct (fold_left after_max wh None); discriminate. }
  exists t. split; auto. assert (WT := max_whole _ _ _ _ N W M). apply Forall_forall. intros e I.
  eapply (not_later _ _ _ _ _ FS WT LR); exact I.
Qed.
(** Files of the archive keep their times *)
Theorem wheel_mtime o fuel pl pl' min wh l : fair o -> good_names o -> sanitize pl = Some pl' -> inner_scheme (pl_scheme pl') -> inner_names wh -> never_nested (pl_scheme pl') wh ->
  install_wheel o fuel pl min None wh = IOk l ->
  exists info root, info_of wh info /\ root_of (pl_scheme pl') root /\
  forall f key name x, In f wh -> destination (pl_scheme pl') root (data_name info) (z_name (zf_header f)) = Some (key, name) ->
    z_modified (zf_header f) = Some x -> min = None ->
    taken (pl_scheme pl') root (data_name info) wh f name \/
    In name (left_out root info) \/
    (exists outs, compiles o pl' (max_time o wh None) wh root info outs /\ In name (map ref_full outs)) \/
    (exists fs fs', hooks o pl' min (max_time o wh None) wh fs fs' /\ get_key name fs' <> get_key name fs) \/
    (exists e, In e l /\ th_name (fst e) = name /\ entry_from pl' root (data_name info) f e /\ th_mtime (fst e) = Some (round_second x)).
Proof.
  intros FO GN S HS HN NN H. destruct (wheel_alone _ _ _ _ _ _ _ _ FO GN S HS HN NN H) as (info & root & IO & RO & _ & _ & C).
  exists info, root. split; auto. split; auto. intros f key name x I D X ->. destruct (C f key name I D) as [A|[A|[A|[A|(e & Ie & N & E & M)]]]]; auto.
  right. right. right. right. exists e. repeat split; auto. rewrite M, X. destruct (max_later o _ _ _ I X) as (t & -> & L & _).
  rewrite clamp_id; [reflexivity|]. cbn [time_le]. lia.
Qed.
