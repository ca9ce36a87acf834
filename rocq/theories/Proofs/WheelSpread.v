(** Unpacking, spreading and rewriting. *)
From Coq Require Import String Ascii List Bool NArith ZArith Lia Permutation.
From Verif.Model Require Import GoStr GoPath Stat Layer ConfigParser Platform WheelFile Wheel.
From Verif.Spec Require Import PathSpec WheelSpec.
From Verif.Proofs Require Import Order GoStrFacts GoPathFacts DirFacts ConfigFacts WheelPaths.
Import ListNotations.

Local Arguments str_eqb : simpl never.
Local Arguments byte_eqb : simpl never.
Local Arguments clean_comps : simpl never.
Local Arguments has_prefix : simpl never.
Local Arguments has_suffix : simpl never.
Local Arguments path_join : simpl never.

Lemma scheme_key s key : scheme_dir s key = get_key key (key_dirs s).
Proof.
  unfold scheme_dir, key_dirs. cbn [get_key].
  repeat match goal with |- context [if ?b then _ else _] => destruct b; auto end.
Qed.
Lemma key_dir_inner s key dir : inner_scheme s -> get_key key (key_dirs s) = Some dir -> inner dir.
Proof.
  intros I G. apply get_key_in in G. unfold inner_scheme, scheme_paths in I. rewrite Forall_forall in I. apply I.
  unfold key_dirs in G. cbn [In] in *. intuition congruence.
Qed.

(** Modes of new entries *)
Definition installed_mode (f : zfile) : N :=
  if entry_is_dir f then N.lor go_dir 493 else if is_executable (zf_header f) then 493%N else 420%N.
Lemma created_mode min k f : has_suffix $"/" k = false -> ref_mode (created min k f) = installed_mode f.
Proof.
  intros S. unfold created, installed_mode, entry_is_dir. cbn [ref_mode]. unfold zip_mode, with_zname. cbn [z_name z_creator z_attrs].
  destruct (has_suffix $"/" (z_name (zf_header f))).
  - assert (E : has_suffix $"/" (k ++ $"/") = true) by (apply has_suffix_spec; now exists k). rewrite E. vm_compute. reflexivity.
  - rewrite S. destruct (is_executable (zf_header f)); vm_compute; reflexivity.
Qed.
Lemma created_dir min k f : has_suffix $"/" k = false -> ref_dir (created min k f) = entry_is_dir f.
Proof.
  intros S. unfold ref_dir. rewrite created_mode by auto. unfold installed_mode. destruct (entry_is_dir f); [reflexivity|].
  destruct (is_executable (zf_header f)); reflexivity.
Qed.
Lemma renamed_created min k k' f : has_suffix $"/" k = false -> renamed k' (created min k f) = Some (created min k' f).
Proof. intros S. unfold renamed. rewrite created_dir by auto. reflexivity. Qed.

Section spread.
  Context (s : scheme) (root data : str) (wh : list zfile) (min : option Z).
  Hypothesis HS : inner_scheme s.
  Hypothesis HR : inner root.
  Hypothesis HD : plain_comp data.
  Hypothesis HN : inner_names wh.
  Hypothesis HX : not_nested s root data wh.
  Let place f := path_join [root; z_name (zf_header f)].
  Let dest f := destination s root data (z_name (zf_header f)).
  Let ddir := join $"/" (clean_comps root ++ [data]).
  Let below k := has_prefix (ddir ++ $"/") k = true.

  Lemma file_inner f : In f wh -> inner (z_name (zf_header f)).
  Proof. intros I. unfold inner_names in HN. rewrite Forall_forall in HN. auto. Qed.
  Lemma place_text f : In f wh -> place f = join $"/" (clean_comps root ++ clean_comps (z_name (zf_header f))).
  Proof. intros I. unfold place. apply join_inner; auto. now apply file_inner. Qed.
  Lemma plain_place f : In f wh -> plain_path (clean_comps root ++ clean_comps (z_name (zf_header f))).
  Proof. intros I. apply plain_app. split; [apply HR|apply (file_inner f I)]. Qed.
  Lemma place_no_slash f : In f wh -> has_suffix $"/" (place f) = false.
  Proof. intros I. rewrite place_text by auto. apply join_no_slash_end. now apply plain_place. Qed.
  Lemma plain_ddir : plain_path (clean_comps root ++ [data]).
  Proof. apply plain_app. split; [apply HR|now constructor]. Qed.
  (** An unpacked file is below the data directory, or where it belongs *)
  Lemma place_cases f : In f wh ->
    (exists key rest, clean_comps (z_name (zf_header f)) = data :: key :: rest /\ below (place f) /\
       cut "/" (trim_prefix (ddir ++ $"/") (place f)) = (key, match rest with [] => None | _ => Some (join $"/" rest) end)) \/
    (~ below (place f) /\ dest f = Some (None, place f)).
  Proof.
    intros I. assert (F := file_inner _ I). assert (PP := plain_place f I). unfold below.
    destruct (has_prefix (ddir ++ $"/") (place f)) eqn:E.
    - left. rewrite place_text in E |- * by auto. unfold ddir in E.
      apply prefix_join in E; [|apply plain_ddir|destruct (clean_comps root); discriminate|exact PP].
      destruct E as (c & NC & E). rewrite <- app_assoc in E. apply app_inv_head in E. cbn [app] in E.
      destruct c as [|key rest]; [congruence|]. exists key, rest. split; [exact E|]. rewrite E.
      replace (clean_comps root ++ data :: key :: rest) with ((clean_comps root ++ [data]) ++ key :: rest) by (now rewrite <- app_assoc).
      split; [reflexivity|].
      unfold ddir. rewrite trim_join by (try discriminate; destruct (clean_comps root); discriminate).
      apply cut_join. rewrite E in PP. apply plain_app in PP. destruct PP as [_ PP]. now inversion PP.
    - right. split; [intros X; discriminate X|]. unfold dest, destination. rewrite place_text by auto.
      destruct (clean_comps (z_name (zf_header f))) as [|d [|key rest]] eqn:EC; auto.
      destruct (str_eqb d data) eqn:ED; auto. exfalso. apply str_eqb_eq in ED. subst d.
      rewrite place_text, EC in E by auto.
      assert (T : has_prefix (ddir ++ $"/") (join $"/" (clean_comps root ++ data :: key :: rest)) = true); [|congruence].
      apply prefix_join; [apply plain_ddir|destruct (clean_comps root); discriminate|exact PP|].
      exists (key :: rest). split; [discriminate|]. now rewrite <- app_assoc.
  Qed.
  Lemma dest_moved f key k : In f wh -> dest f = Some (Some key, k) -> ~ below k /\ has_suffix $"/" k = false /\
    exists rest dir, clean_comps (z_name (zf_header f)) = data :: key :: rest /\ get_key key (key_dirs s) = Some dir /\
      k = path_join [dir; match rest with [] => [] | _ => join $"/" rest end].
  Proof.
    intros I D. split.
    - intros B. apply has_prefix_spec in B. destruct B as [t B]. apply (HX f key k t I D). now rewrite B, <- app_assoc.
    - unfold dest, destination in D. pose proof (file_inner _ I) as (_ & _ & PF).
      destruct (clean_comps (z_name (zf_header f))) as [|d [|key' rest]] eqn:EC; try discriminate.
      destruct (str_eqb d data) eqn:ED; [|discriminate]. apply str_eqb_eq in ED. subst d.
      destruct (get_key key' (key_dirs s)) as [dir|] eqn:G; [|discriminate]. injection D as <- <-.
      assert (ID := key_dir_inner _ _ _ HS G). inversion PF as [|? ? _ PF']; subst. inversion PF' as [|? ? _ PF'']; subst.
      split; [apply join_no_slash_end, plain_app; split; [apply ID|exact PF'']|].
      exists rest, dir. split; auto. split; auto. destruct rest as [|c rest].
      + rewrite app_nil_r. symmetry. now apply join_inner_nil.
      + destruct (inner_join (c :: rest) PF'' ltac:(discriminate)) as [IJ CJ]. rewrite join_inner by auto. now rewrite CJ.
  Qed.

  (** ** Unpacking *)
  Lemma unpack_get_gen l : forall fs, (forall f, In f l -> In f wh) ->
    (forall k r, get_key k fs = Some r -> exists f, In f wh /\ k = place f /\ r = created min k f) ->
    forall k r, get_key k (fold_left (fun fs f => let name := path_join [root; z_name (zf_header f)] in set_key name (created min name f) fs) l fs) = Some r ->
      exists f, In f wh /\ k = place f /\ r = created min k f.
  Proof.
    induction l as [|f l IH]; intros fs IL H k r G; cbn [fold_left] in G; auto.
    refine (IH _ _ _ k r G); [intros; apply IL; now right|]. intros k' r' G'. rewrite get_set_key in G'.
    destruct (str_eqb k' _) eqn:E; auto. injection G' as <-. apply str_eqb_eq in E. subst k'. exists f. split; [apply IL; now left|auto].
  Qed.
  Lemma unpack_get k r : get_key k (unpack_wheel min root wh) = Some r -> exists f, In f wh /\ k = place f /\ r = created min k f.
  Proof. apply unpack_get_gen; auto. discriminate. Qed.
  Lemma unpack_nodup_gen l : forall fs, NoDup (map fst fs) -> 
    NoDup (map fst (fold_left (fun fs f => let name := path_join [root; z_name (zf_header f)] in set_key name (created min name f) fs) l fs)).
  Proof. induction l as [|f l IH]; intros fs H; cbn [fold_left]; auto. apply IH. now apply set_key_nodup. Qed.
  Lemma unpack_nodup : NoDup (map fst (unpack_wheel min root wh)).
  Proof. apply unpack_nodup_gen. constructor. Qed.

  (** ** Spreading *)
  Definition sound (fs : vfs) (types : section) : Prop :=
    (forall k r, get_key k fs = Some r ->
      (get_key k types = None /\ exists f, In f wh /\ k = place f /\ r = created min k f) \/
      (exists f key, In f wh /\ dest f = Some (Some key, k) /\ r = created min k f /\ get_key k types = Some key)) /\
    (forall k key, get_key k types = Some key -> get_key k fs <> None) /\
    NoDup (map fst fs) /\ NoDup (map fst types).

  Lemma sound_below fs types k r : sound fs types -> get_key k fs = Some r -> below k ->
    get_key k types = None /\ exists f, In f wh /\ k = place f /\ r = created min k f.
  Proof.
    intros (S & _) G B. destruct (S _ _ G) as [H|(f & key & I & D & _)]; auto. exfalso.
    destruct (dest_moved _ _ _ I D) as [X _]. auto.
  Qed.
  (** One move *)
  Lemma move_sound fs types name r key rest dir new r' : sound fs types -> get_key name fs = Some r -> below name ->
    cut "/" (trim_prefix (ddir ++ $"/") name) = (key, rest) -> scheme_dir s key = Some dir ->
    new = path_join [dir; match rest with Some rest => rest | None => [] end] -> renamed new r = Some r' ->
    (exists f, In f wh /\ name = place f /\ dest f = Some (Some key, new) /\ r' = created min new f) /\
    ~ below new /\ sound (set_key new r' (del_key name fs)) (set_key new key types).
  Proof.
    intros SD G B C K -> RN. destruct (sound_below _ _ _ _ SD G B) as (_ & f & I & -> & ->).
    destruct (place_cases f I) as [(key' & rest' & EC & _ & C')|[X _]]; [|contradiction].
    rewrite C in C'. assert (K1 : key' = key) by congruence.
    assert (R1 : rest = match rest' with [] => None | _ => Some (join $"/" rest') end) by congruence. subst key' rest. clear C'.
    rewrite scheme_key in K.
    assert (D : dest f = Some (Some key, path_join [dir; match rest' with [] => [] | _ => join $"/" rest' end])).
    { pose proof (file_inner _ I) as (_ & _ & PF). unfold dest, destination. rewrite EC, str_eqb_refl, K in *. f_equal. f_equal.
      assert (ID := key_dir_inner _ _ _ HS K). inversion PF as [|? ? _ PF']; subst. inversion PF' as [|? ? _ PF'']; subst.
      destruct rest' as [|c rest'].
      + rewrite app_nil_r. symmetry. now apply join_inner_nil.
      + destruct (inner_join (c :: rest') PF'' ltac:(discriminate)) as [IJ CJ]. rewrite join_inner by auto. now rewrite CJ. }
    assert (ER : match match rest' with [] => None | _ :: _ => Some (join $"/" rest') end with Some r => r | None => [] end
                 = match rest' with [] => [] | _ => join $"/" rest' end) by (destruct rest'; auto).
    rewrite ER in *. rewrite renamed_created in RN by (now apply place_no_slash). injection RN as <-.
    destruct (dest_moved _ _ _ I D) as (NB & _ & _).
    split; [exists f; auto|]. split; [exact NB|]. destruct SD as (S1 & S2 & S3 & S4).
    set (new := path_join _) in *. assert (NE : str_eqb new (place f) = false).
    { destruct (str_eqb new (place f)) eqn:E; auto. apply str_eqb_eq in E. exfalso. apply NB. now rewrite E. }
    split; [|split; [|split; [apply set_key_nodup, del_key_nodup; auto|apply set_key_nodup; auto]]].
    - intros k r Gk. rewrite get_set_key in Gk. rewrite get_set_key. destruct (str_eqb k new) eqn:E.
      + injection Gk as <-. apply str_eqb_eq in E. subst k. right. exists f, key. auto.
      + rewrite get_del_key in Gk. destruct (str_eqb k (place f)); [discriminate|]. auto.
    - intros k key' Gk. rewrite get_set_key in Gk. rewrite get_set_key. destruct (str_eqb k new) eqn:E; [discriminate|].
      rewrite get_del_key. destruct (str_eqb k (place f)) eqn:E2; [|eauto]. apply str_eqb_eq in E2. subst k. exfalso.
      destruct (S1 _ _ G) as [[X _]|(g & key2 & Ig & Dg & _)]; [congruence|]. destruct (dest_moved _ _ _ Ig Dg) as [X _]. auto.
  Qed.

  Lemma spread_sound sched : forall fs types fs' types', sound fs types ->
    (forall k r, get_key k fs = Some r -> below k -> In k sched) ->
    spread s ddir sched fs types = IOk (fs', types') ->
    sound fs' types' /\ forall k r, get_key k fs' = Some r -> ~ below k.
  Proof.
    induction sched as [|name sched IH]; intros fs types fs' types' SD CV E; cbn [spread] in E.
    - injection E as <- <-. split; [exact SD|]. intros k r G B. destruct (CV k r G B).
    - destruct (get_key name fs) as [r|] eqn:G.
      2:{ apply (IH fs types); auto. intros k r Gk B. destruct (CV k r Gk B) as [->|]; [congruence|auto]. }
      destruct (has_prefix (ddir ++ $"/") name) eqn:P.
      2:{ apply (IH fs types); auto. intros k r' Gk B. destruct (CV k r' Gk B) as [->|]; auto. unfold below in B. congruence. }
      destruct (cut "/" (trim_prefix (ddir ++ $"/") name)) as [key rest] eqn:C.
      destruct (scheme_dir s key) as [dir|] eqn:K; [|discriminate].
      destruct (renamed _ r) as [r'|] eqn:RN; [|discriminate].
      destruct (move_sound fs types name r key rest dir _ r' SD G P C K eq_refl RN) as (_ & NB & SD').
      apply (IH _ _ _ _ SD'); auto. intros k r0 Gk B. rewrite get_set_key in Gk. destruct (str_eqb k _) eqn:E1.
      { apply str_eqb_eq in E1. subst k. contradiction. }
      rewrite get_del_key in Gk. destruct (str_eqb k name) eqn:E2; [discriminate|].
      destruct (CV k r0 Gk B) as [->|]; auto. now rewrite str_eqb_refl in E2.
  Qed.

  Lemma unpack_sound : sound (unpack_wheel min root wh) [].
  Proof.
    split; [|split; [discriminate|split; [apply unpack_nodup|constructor]]]. intros k r G. left. split; auto. now apply unpack_get.
  Qed.

  (** Everything is where it belongs. *)
  Theorem spread_places sched fs types : incl (map fst (unpack_wheel min root wh)) sched ->
    spread s ddir sched (unpack_wheel min root wh) [] = IOk (fs, types) ->
    (forall k r, get_key k fs = Some r -> exists f, In f wh /\ dest f = Some (get_key k types, k) /\ r = created min k f) /\
    (forall k key, get_key k types = Some key -> get_key k fs <> None) /\ NoDup (map fst fs) /\ NoDup (map fst types).
  Proof.
    intros CV E. destruct (spread_sound sched _ _ fs types unpack_sound) with (2 := E) as [(S1 & S2 & S3 & S4) NB].
    { intros k r G _. apply CV. change k with (fst (k, r)). now apply in_map, get_key_in. }
    split; auto. intros k r G. destruct (S1 _ _ G) as [(T & f & I & -> & ->)|(f & key & I & D & -> & T)].
    - exists f. split; auto. split; auto. rewrite T. destruct (place_cases f I) as [(key & rest & _ & B & _)|[_ D]]; auto.
      exfalso. eapply NB; eauto.
    - exists f. rewrite T. auto.
  Qed.

  (** ** Completeness *)
  Hypothesis HK : known_keys s root data wh.
  Lemma spread_total sched : forall fs types, sound fs types -> exists fs' types', spread s ddir sched fs types = IOk (fs', types').
  Proof.
    induction sched as [|name sched IH]; intros fs types SD; cbn [spread]; eauto.
    destruct (get_key name fs) as [r|] eqn:G; [|auto].
    destruct (has_prefix (ddir ++ $"/") name) eqn:P; [|auto].
    destruct (cut "/" (trim_prefix (ddir ++ $"/") name)) as [key rest] eqn:C.
    destruct (sound_below _ _ _ _ SD G P) as (_ & f & I & EP & ER).
    destruct (place_cases f I) as [(key' & rest' & EC & _ & C')|[X _]]; [|subst name; contradiction].
    rewrite <- EP, C in C'. assert (K1 : key' = key) by congruence. subst key'.
    assert (KK : dest f <> None) by (unfold known_keys in HK; rewrite Forall_forall in HK; apply (HK f I)).
    unfold dest, destination in KK. rewrite EC, str_eqb_refl, <- scheme_key in KK.
    destruct (scheme_dir s key) as [dir|] eqn:K; [|congruence].
    set (new := path_join _). assert (RN : renamed new r = Some (created min new f)).
    { subst r name. apply renamed_created. now apply place_no_slash. }
    rewrite RN. apply IH. unfold new in *. destruct (move_sound fs types name r key _ dir _ _ SD G P C K eq_refl RN) as (_ & _ & X). exact X.
  Qed.

  Hypothesis HC : no_clash s root data wh.
  Lemma dest_inj f g k kf kg : In f wh -> In g wh -> dest f = Some (kf, k) -> dest g = Some (kg, k) -> f = g.
  Proof.
    intros If Ig Df Dg. unfold no_clash in HC. unfold dest in *.
    set (h := fun f => option_map snd (destination s root data (z_name (zf_header f)))) in *.
    assert (E : h f = h g) by (unfold h; now rewrite Df, Dg).
    clear -HC If Ig E. revert If Ig HC. generalize wh as l. induction l as [|x l IH]; intros If Ig N; [destruct If|].
    cbn [map] in N. inversion N as [|? ? N1 N2]; subst. destruct If as [->|If], Ig as [->|Ig]; auto.
    - exfalso. apply N1. rewrite E. now apply in_map.
    - exfalso. apply N1. rewrite <- E. now apply in_map.
  Qed.
  Lemma place_inj f g : In f wh -> In g wh -> place f = place g -> f = g.
  Proof.
    intros If Ig E. rewrite !place_text in E by auto. apply join_inj in E; [|now apply plain_place|now apply plain_place].
    apply app_inv_head in E. assert (KK : dest f <> None) by (unfold known_keys in HK; rewrite Forall_forall in HK; apply (HK f If)).
    destruct (dest f) as [[kf k]|] eqn:D; [|congruence]. apply (dest_inj f g k kf kf); auto.
    unfold dest, destination in D |- *. now rewrite <- E.
  Qed.
  Definition complete (fs : vfs) : Prop := forall f, In f wh ->
    get_key (place f) fs = Some (created min (place f) f) \/
    exists key k, dest f = Some (Some key, k) /\ get_key k fs = Some (created min k f).
  Lemma unpack_complete_gen l : forall fs, (forall f, In f l -> In f wh) ->
    forall g, In g wh -> (In g l \/ get_key (place g) fs = Some (created min (place g) g)) ->
    get_key (place g) (fold_left (fun fs f => let name := path_join [root; z_name (zf_header f)] in set_key name (created min name f) fs) l fs)
      = Some (created min (place g) g).
  Proof.
    induction l as [|f l IH]; intros fs IL g Ig H; cbn [fold_left]; [destruct H as [[]|]; auto|].
    apply IH; auto; [intros; apply IL; now right|]. 
    destruct H as [[->|Il]|H]; [|now left|].
    - right. rewrite get_set_key. unfold place. now rewrite str_eqb_refl.
    - right. rewrite get_set_key. destruct (str_eqb (place g) _) eqn:E; auto. apply str_eqb_eq in E.
      assert (f = g) as -> by (apply place_inj; auto; apply IL; now left). now rewrite E.
  Qed.
  Lemma unpack_complete : complete (unpack_wheel min root wh).
  Proof. intros f I. left. apply unpack_complete_gen; auto. Qed.
  Lemma spread_complete sched : forall fs types fs' types', sound fs types -> complete fs ->
    spread s ddir sched fs types = IOk (fs', types') -> complete fs'.
  Proof.
    induction sched as [|name sched IH]; intros fs types fs' types' SD CP E; cbn [spread] in E.
    - injection E as <- <-. auto.
    - destruct (get_key name fs) as [r|] eqn:G; [|now apply (IH fs types fs' types')].
      destruct (has_prefix (ddir ++ $"/") name) eqn:P; [|now apply (IH fs types fs' types')].
      destruct (cut "/" (trim_prefix (ddir ++ $"/") name)) as [key rest] eqn:C.
      destruct (scheme_dir s key) as [dir|] eqn:K; [|discriminate].
      destruct (renamed _ r) as [r'|] eqn:RN; [|discriminate].
      destruct (move_sound fs types name r key rest dir _ r' SD G P C K eq_refl RN) as ((f & I & EP & D & ER) & NB & SD').
      refine (IH _ _ fs' types' SD' _ E). set (new := path_join _) in *. intros g Ig.
      destruct (CP g Ig) as [H|(kg & k & Dg & H)].
      + destruct (str_eqb (place g) name) eqn:E1.
        * apply str_eqb_eq in E1. rewrite EP in E1. apply place_inj in E1; auto. subst g. right. exists key, new. split; auto.
          rewrite get_set_key, str_eqb_refl. now rewrite ER.
        * left. rewrite get_set_key, get_del_key, E1. destruct (str_eqb (place g) new) eqn:E2; auto. exfalso.
          apply str_eqb_eq in E2. destruct (place_cases g Ig) as [(key2 & rest2 & _ & B & _)|[_ Dg]]; [now rewrite E2 in B|].
          rewrite E2 in Dg. assert (g = f) by (eapply dest_inj; eauto). subst g. congruence.
      + right. exists kg, k. split; auto. rewrite get_set_key. destruct (str_eqb k new) eqn:E2.
        * apply str_eqb_eq in E2. subst k. assert (g = f) by (eapply dest_inj; eauto). subst g. now rewrite ER.
        * rewrite get_del_key. destruct (str_eqb k name) eqn:E3; auto. apply str_eqb_eq in E3. subst k.
          destruct (dest_moved _ _ _ Ig Dg) as [X _]. contradiction.
  Qed.
  Theorem spread_all sched fs types : incl (map fst (unpack_wheel min root wh)) sched ->
    spread s ddir sched (unpack_wheel min root wh) [] = IOk (fs, types) ->
    forall f key k, In f wh -> dest f = Some (key, k) -> get_key k fs = Some (created min k f) /\ get_key k types = key.
  Proof.
    intros CV E f key k I D.
    assert (CP := spread_complete sched _ _ _ _ unpack_sound unpack_complete E).
    destruct (spread_places sched fs types CV E) as (S1 & _).
    assert (H : get_key k fs = Some (created min k f)).
    { destruct (CP f I) as [H|(key' & k' & D' & H)]; [|rewrite D in D'; injection D' as -> <-; exact H].
      destruct (S1 _ _ H) as (g & Ig & Dg & _).
      destruct (place_cases f I) as [(key2 & rest2 & _ & B & _)|[_ Df]]; [|rewrite D in Df; injection Df as -> ->; exact H].
      exfalso. destruct (spread_sound sched _ _ fs types unpack_sound) with (2 := E) as [_ NB].
      - intros k0 r0 G _. apply CV. change k0 with (fst (k0, r0)). now apply in_map, get_key_in.
      - exact (NB _ _ H B). }
    split; auto. destruct (S1 _ _ H) as (g & Ig & Dg & _). assert (g = f) by (eapply dest_inj; eauto). subst g. rewrite D in Dg. congruence.
  Qed.
End spread.

(** ** One file that no other file takes the place of *)
Section alone.
  Context (s : scheme) (root data : str) (wh : list zfile) (min : option Z).
  Hypothesis HS : inner_scheme s.
  Hypothesis HR : inner root.
  Hypothesis HD : plain_comp data.
  Hypothesis HN : inner_names wh.
  Hypothesis HX : not_nested s root data wh.
  Let place f := path_join [root; z_name (zf_header f)].
  Let dest f := destination s root data (z_name (zf_header f)).
  Let ddir := join $"/" (clean_comps root ++ [data]).
  Let below k := has_prefix (ddir ++ $"/") k = true.
  Context (f : zfile) (key : option str) (k : str).
  Hypothesis HF : In f wh.
  Hypothesis HP : dest f = Some (key, k).
  Hypothesis HA : forall g kg, In g wh -> dest g = Some (kg, k) -> g = f.
  Lemma place_alone g : In g wh -> place g = place f -> g = f.
  Proof.
    intros Ig E. unfold place in E. rewrite !place_text with (wh := wh) in E by auto. apply join_inj in E; [|eapply plain_place; eauto|eapply plain_place; eauto].
    apply app_inv_head in E. apply (HA g key); auto. unfold dest, destination in HP |- *. now rewrite E.
  Qed.
  Definition there (fs : vfs) : Prop :=
    get_key (place f) fs = Some (created min (place f) f) \/
    exists key k, dest f = Some (Some key, k) /\ get_key k fs = Some (created min k f).
  Lemma unpack_there_gen l : forall fs, (forall g, In g l -> In g wh) -> (In f l \/ get_key (place f) fs = Some (created min (place f) f)) ->
    get_key (place f) (fold_left (fun fs f => let name := path_join [root; z_name (zf_header f)] in set_key name (created min name f) fs) l fs)
      = Some (created min (place f) f).
  Proof.
    induction l as [|g l IH]; intros fs IL H; cbn [fold_left]; [destruct H as [[]|]; auto|].
    apply IH; [intros; apply IL; now right|].
    destruct H as [[->|Il]|H]; [|now left|].
    - right. rewrite get_set_key. unfold place. now rewrite str_eqb_refl.
    - right. rewrite get_set_key. destruct (str_eqb (place f) _) eqn:E; auto. apply str_eqb_eq in E.
      assert (g = f) as -> by (apply place_alone; [apply IL; now left|now symmetry]). now rewrite E.
  Qed.
  Lemma spread_there sched : forall fs types fs' types', sound s root data wh min fs types -> there fs ->
    spread s ddir sched fs types = IOk (fs', types') -> there fs'.
  Proof.
    induction sched as [|name sched IH]; intros fs types fs' types' SD CP E; cbn [spread] in E.
    - injection E as <- <-. auto.
    - destruct (get_key name fs) as [r|] eqn:G; [|now apply (IH fs types fs' types')].
      destruct (has_prefix (ddir ++ $"/") name) eqn:P; [|now apply (IH fs types fs' types')].
      destruct (cut "/" (trim_prefix (ddir ++ $"/") name)) as [ky rest] eqn:C.
      destruct (scheme_dir s ky) as [dir|] eqn:K; [|discriminate].
      destruct (renamed _ r) as [r'|] eqn:RN; [|discriminate].
      destruct (move_sound s root data wh min HS HR HD HN HX fs types name r ky rest dir _ r' SD G P C K eq_refl RN) as ((g & I & EP & D & ER) & NB & SD').
      refine (IH _ _ fs' types' SD' _ E). set (new := path_join _) in *. fold (dest g) in D. change (name = place g) in EP.
      destruct CP as [H|(kg & k' & Dg & H)].
      + destruct (str_eqb (place f) name) eqn:E1.
        * apply str_eqb_eq in E1. rewrite EP in E1. symmetry in E1. apply place_alone in E1; auto. subst g. right. exists ky, new. split; auto.
          rewrite get_set_key, str_eqb_refl. now rewrite ER.
        * left. rewrite get_set_key, get_del_key, E1. destruct (str_eqb (place f) new) eqn:E2; auto. exfalso.
          apply str_eqb_eq in E2. destruct (place_cases s root data wh HR HD HN f HF) as [(key2 & rest2 & _ & B & _)|[_ Dg]]; [apply NB; rewrite <- E2; exact B|].
          assert (D2 : dest f = Some (None, place f)) by exact Dg. rewrite HP in D2. injection D2 as K1 K2. rewrite <- E2, <- K2 in D. assert (g = f) by (eapply HA; eauto). subst g. congruence.
      + right. exists kg, k'. split; auto. assert (k' = k) by congruence. subst k'. rewrite get_set_key. destruct (str_eqb k new) eqn:E2.
        * apply str_eqb_eq in E2. rewrite <- E2 in D. assert (g = f) by (eapply HA; eauto). subst g. rewrite E2. now rewrite ER.
        * rewrite get_del_key. destruct (str_eqb k name) eqn:E3; auto. apply str_eqb_eq in E3. subst name.
          destruct (dest_moved s root data wh HS HN HX f kg k HF Dg) as [X _]. exfalso. apply X. rewrite E3. exact P.
  Qed.
  Theorem spread_alone sched fs types : incl (map fst (unpack_wheel min root wh)) sched ->
    spread s ddir sched (unpack_wheel min root wh) [] = IOk (fs, types) -> get_key k fs = Some (created min k f) /\ get_key k types = key.
  Proof.
    intros CV E.
    assert (CP : there fs) by (refine (spread_there sched (unpack_wheel min root wh) [] fs types (unpack_sound s root data wh min) _ E); left; apply unpack_there_gen; auto).
    destruct (spread_places s root data wh min HS HR HD HN HX sched fs types CV E) as (S1 & _).
    assert (H : get_key k fs = Some (created min k f)).
    { destruct CP as [H|(key' & k' & D' & H)]; [|rewrite HP in D'; injection D' as -> <-; exact H].
      destruct (place_cases s root data wh HR HD HN f HF) as [(key2 & rest2 & _ & B & _)|[_ Df]]; [|assert (D2 : dest f = Some (None, place f)) by exact Df; rewrite HP in D2; injection D2 as -> ->; exact H].
      exfalso. destruct (spread_sound s root data wh min HS HR HD HN HX sched _ _ fs types (unpack_sound _ root data wh min)) with (2 := E) as [_ NB].
      - intros k0 r0 G _. apply CV. change k0 with (fst (k0, r0)). now apply in_map, get_key_in.
      - exact (NB _ _ H B). }
    split; auto. destruct (S1 _ _ H) as (g & Ig & Dg & _). assert (g = f) by (eapply HA; eauto). subst g. unfold dest in HP. congruence.
  Qed.
End alone.

(** ** Rewriting *)
Lemma rewrite_get digest pl types : forall fs fs', NoDup (map fst types) -> rewrite_python digest pl types fs = IOk fs' -> forall k,
  (get_key k types = Some $"scripts" -> exists r r', get_key k fs = Some r /\ rewritten digest pl r = IOk r' /\ get_key k fs' = Some r') /\
  (get_key k types <> Some $"scripts" -> get_key k fs' = get_key k fs).
Proof.
  induction types as [|[name key] types IH]; intros fs fs' N E k; cbn [rewrite_python] in E; cbn [get_key].
  - injection E as <-. split; [discriminate|auto].
  - inversion N as [|? ? N1 N2]; subst. cbn [fst] in N1. destruct (str_eqb key $"scripts") eqn:EK.
    + apply str_eqb_eq in EK. subst key. destruct (get_key name fs) as [r|] eqn:G; [|discriminate].
      destruct (rewritten digest pl r) as [r'|?| |] eqn:R; try discriminate.
      destruct (IH _ _ N2 E k) as [I1 I2]. destruct (str_eqb k name) eqn:EN.
      * apply str_eqb_eq in EN. subst k. apply get_key_none in N1. rewrite N1 in *.
        split; [|congruence]. intros _. exists r, r'. repeat split; auto. rewrite I2 by discriminate. now rewrite get_set_key, str_eqb_refl.
      * split.
        -- intros T. destruct (I1 T) as (r1 & r2 & G1 & R1 & G2). rewrite get_set_key, EN in G1. eauto.
        -- intros T. rewrite (I2 T), get_set_key, EN. reflexivity.
    + destruct (IH _ _ N2 E k) as [I1 I2]. destruct (str_eqb k name) eqn:EN; [|now split].
      apply str_eqb_eq in EN. subst k. apply get_key_none in N1. rewrite N1 in *. split; [|intros _; apply I2; discriminate].
      intros [= ->]. rewrite str_eqb_refl in EK. discriminate.
Qed.
Lemma rewrite_nodup digest pl types : forall fs fs', NoDup (map fst fs) -> rewrite_python digest pl types fs = IOk fs' -> NoDup (map fst fs').
Proof.
  induction types as [|[name key] types IH]; intros fs fs' N E; cbn [rewrite_python] in E; [injection E as <-; auto|].
  destruct (str_eqb key $"scripts"); [|eauto]. destruct (get_key name fs) as [r|]; [|discriminate].
  destruct (rewritten digest pl r); try discriminate. eapply IH; [|exact E]. now apply set_key_nodup.
Qed.
Lemma perm_get {V} (m m' : list (str * V)) k : NoDup (map fst m) -> Permutation m' m -> get_key k m' = get_key k m.
Proof.
  intros N P. assert (N' : NoDup (map fst m')) by (eapply Permutation_NoDup; [apply Permutation_sym, Permutation_map, P|exact N]).
  destruct (get_key k m) as [v|] eqn:G.
  - apply in_get_key; auto. eapply Permutation_in; [apply Permutation_sym, P|]. now apply get_key_in.
  - destruct (get_key k m') as [v|] eqn:G'; auto. apply get_key_in in G'. apply (Permutation_in _ P) in G'.
    apply (in_get_key _ _ _ N) in G'. congruence.
Qed.
Lemma perm_nodup {V} (m m' : list (str * V)) : NoDup (map fst m) -> Permutation m' m -> NoDup (map fst m').
Proof. intros N P. eapply Permutation_NoDup; [apply Permutation_sym, Permutation_map, P|exact N]. Qed.
