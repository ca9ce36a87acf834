(** Squashing a layer that was made from files. *)
From Coq Require Import String Ascii List Bool ZArith Sorted Permutation Lia.
From Verif.Model Require Import GoStr GoPath Tar Layer Dir Squash.
From Verif.Spec Require Import PathSpec SimpleAPISpec SquashSpec LayerSpec DirSpec MadeSpec.
From Verif.Proofs Require Import Order GoStrFacts GoPathFacts SimpleAPIFacts LayerFacts DirFacts SquashTree SquashLoad SquashWrite SquashSim SquashStack SquashFinal SquashMore SquashBack SquashSources.
Import ListNotations.
Local Open Scope nat_scope.
Local Arguments byte_eqb : simpl never.
Local Arguments str_eqb : simpl never.
Local Arguments clean : simpl never.

Lemma plain_clean_list p : plain_path p -> clean_list false p.
Proof. intros H. exists 0, p. repeat split; auto. Qed.
Lemma names_comps name p : names_path name p -> clean_comps name = p.
Proof. intros (N & [P _] & ->). apply clean_comps_rel; auto. now apply plain_clean_list. Qed.
Lemma names_split name p : names_path name p -> split_on slash name = p.
Proof.
  intros (N & [P _] & ->). apply split_on_join; auto. eapply Forall_impl; [|exact P]. intros c (_ & H & _). exact H.
Qed.
Lemma names_rel name p : names_path name p -> is_abs name = false.
Proof.
  intros (N & [P _] & ->). pose proof (SquashMain.text_not_abs p P) as H. destruct p; [congruence|exact H].
Qed.
Lemma pb_before p : forall q, Forall (fun k => marker_name k = false) p -> Forall (fun k => marker_name k = false) q -> parts_before p q -> before p q.
Proof.
  induction p as [|x p IH]; intros [|y q] Mp Mq H; cbn [parts_before] in H; try tauto.
  - left. reflexivity.
  - inversion Mp; inversion Mq; subst. destruct H as [H|[-> H]].
    + right. exists [], x, y, p, q. repeat split. right. split; auto. congruence.
    + apply before_cons. now apply IH.
Qed.
Lemma sorted_map_impl {A B} (R : A -> A -> Prop) (S : B -> B -> Prop) (f : B -> A) (P : B -> Prop) l :
  (forall a b, P a -> P b -> R (f a) (f b) -> S a b) -> Forall P l -> StronglySorted R (map f l) -> StronglySorted S l.
Proof.
  intros H. induction l as [|x l IH]; intros F SS; [constructor|]. inversion F; subst. cbn [map] in SS. inversion SS as [|? ? S1 F1]; subst. constructor; auto.
  rewrite Forall_forall in *. intros y I. apply H; auto. apply F1. now apply in_map.
Qed.
Lemma sorted_map_iff {A B} (R : A -> A -> Prop) (f : B -> A) l : StronglySorted R (map f l) <-> StronglySorted (fun a b => R (f a) (f b)) l.
Proof.
  induction l as [|x l IH]; cbn [map]; [split; constructor|]. split; intros H; inversion H as [|? ? H1 H2]; subst; constructor; try tauto;
    rewrite Forall_forall in *; intros y I; [|apply in_map_iff in I as (z & <- & I)]; apply H2; auto. now apply in_map.
Qed.
Lemma good_named e p : names_path (th_name (fst e)) p -> good_entry e /\ entry_path e = p /\ is_marker e = false.
Proof.
  intros N. assert (E : entry_path e = p) by now apply names_comps. split; [|split; auto].
  - split; [eapply names_rel; eauto|]. left. rewrite E. apply N.
  - unfold is_marker. rewrite E. destruct N as (N & [_ M] & _). destruct (exists_last N) as (d & k & ->). rewrite last_last.
    apply Forall_app in M as [_ M]. now inversion M.
Qed.
(** What [squash_one] asks of a layer. *)
Definition fine_layer (l : list entry) : Prop := Forall good_entry l /\ Forall (fun e => is_marker e = false) l /\
  StronglySorted before (map entry_path l) /\
  forall e e', In e l -> In e' l -> SquashSpec.below (entry_path e) (entry_path e') = true -> is_dir e = true.
Lemma squash_fine l n sort order : fine_layer l -> sorts sort -> permutes order -> squash (4 + n) sort order [l] = Ret (map respelled l).
Proof. intros (A & B & C & D). now apply squash_one. Qed.
(** *** file references *)
Section refs.
  Context (vfs : list fileref) (ND : NoDup (map fr_name vfs)) (NP : Forall (fun r => exists p, names_path (fr_name r) p) vfs)
    (DA : forall r r', In r vfs -> In r' vfs -> LayerSpec.below (fr_name r) (fr_name r') -> is_dir_ref r).
  Lemma refs_clean : Forall (fun r => clean_path (fr_name r)) vfs.
  Proof.
    eapply Forall_impl; [|exact NP]. intros r (p & N). unfold clean_path. rewrite clean_text, (names_comps _ p N), (names_rel _ p N).
    destruct N as (N & _ & ->). destruct p; [congruence|reflexivity].
  Qed.
  Theorem refs_fine encodable sort c out : sorts sort -> layer_from_refs encodable sort vfs c = LayerOk out -> fine_layer out.
  Proof.
    intros HS E. destruct (layer_in_order encodable sort vfs c out HS ND refs_clean E) as (SS & l & PM & F2).
    assert (EN : forall e, In e out -> exists r p, In r vfs /\ entry_for r e /\ names_path (th_name (fst e)) p /\ entry_path e = p).
    { intros e I. assert (X : exists r, In r l /\ entry_for r e).
      { clear - F2 I. induction F2 as [|r x l out H F IH]; [destruct I|]. destruct I as [->|I]; [exists r; split; auto; now left|].
        destruct (IH I) as (r' & I' & H'). exists r'. split; auto. now right. }
      destruct X as (r & Ir & R). assert (Iv : In r vfs) by (eapply Permutation_in; eauto). pose proof NP as NP'. rewrite Forall_forall in NP'. destruct (NP' r Iv) as (p & N).
      pose proof R as (h & _ & En & _). exists r, p. split; auto. split; auto. rewrite En. split; auto. unfold entry_path. rewrite En. now apply names_comps. }
    split; [|split; [|split]].
    - apply Forall_forall. intros e I. destruct (EN e I) as (r & p & _ & _ & N & _). now apply good_named in N.
    - apply Forall_forall. intros e I. destruct (EN e I) as (r & p & _ & _ & N & _). now apply good_named in N.
    - apply sorted_map_iff. eapply (sorted_map_impl name_parts_before _ (fun e => th_name (fst e)) (fun e => In e out)); [|now apply Forall_forall|exact SS].
      intros a b Ia Ib H. destruct (EN a Ia) as (_ & p & _ & _ & Na & ->), (EN b Ib) as (_ & q & _ & _ & Nb & ->).
      unfold name_parts_before in H. rewrite (names_split _ p Na), (names_split _ q Nb) in H. apply pb_before; auto; [apply Na|apply Nb].
    - intros e e' I I' B. destruct (EN e I) as (r & p & Ir & R & Ne & Ep), (EN e' I') as (r' & q & Ir' & R' & Ne' & Eq). rewrite Ep, Eq in B.
      apply below_spec in B as (k & s & ->). destruct R as (h & Hh & En & SB & _), R' as (h' & _ & En' & _).
      destruct (DA r r' Ir Ir') as (h1 & H1 & T1).
      + exists (join $"/" (k :: s)). left. destruct Ne as (Np & _ & Ne), Ne' as (_ & _ & Ne'). rewrite <- En, <- En', Ne, Ne'.
        apply join_app; auto. discriminate.
      + rewrite Hh in H1. injection H1 as <-. unfold is_dir. destruct SB as (T & _). rewrite <- T, T1. reflexivity.
  Qed.
  Theorem squash_refs encodable sort c out n sort' order : sorts sort -> layer_from_refs encodable sort vfs c = LayerOk out ->
    sorts sort' -> permutes order -> squash (4 + n) sort' order [out] = Ret (map respelled out).
  Proof. intros HS E. apply squash_fine. now apply (refs_fine encodable sort c). Qed.
End refs.
(** *** directories *)
Lemma prefix_above (p q : path) (d : dnode) : SquashSpec.below p q = true -> info_at d q <> None -> exists i r ch, file_at d p = Some (DDir i r ch).
Proof.
  intros B H. apply below_spec in B as (k & s & ->). unfold info_at in H.
  revert d H. induction p as [|x p IH]; intros d H.
  - cbn [app] in H. destruct d as [|i|i r ch]; cbn [file_at] in *; try congruence. eauto.
  - cbn [app] in H. destruct d as [|i|i r ch]; cbn [file_at] in *; try congruence.
    induction ch as [|[k' d'] ch IHc]; [congruence|]. destruct (str_eqb k' x); auto.
Qed.
Lemma info_file d p i : info_at d p = Some i -> file_at d p <> None.
Proof. unfold info_at. destruct (file_at d p); congruence. Qed.
Lemma disk_plain d : disk_names d -> forall p, file_at d p <> None -> plain_path p.
Proof.
  induction d as [|i|i r ch IH] using dnode_ind'; intros D p H; (destruct p as [|k p]; [constructor|]); cbn [file_at] in H; try congruence.
  inversion D as [| |? ? ? _ F C]; subst.
  assert (X : exists d', In (k, d') ch /\ file_at d' p <> None).
  { clear - H. induction ch as [|[k' d'] ch IHc]; [congruence|]. destruct (str_eqb k' k) eqn:E.
    - apply str_eqb_eq in E as ->. exists d'. split; auto. now left.
    - destruct (IHc H) as (d0 & I & H0). exists d0. split; auto. now right. }
  destruct X as (d' & I & H'). constructor.
  - rewrite Forall_forall in F. apply F. change k with (fst (k, d')). now apply in_map.
  - apply (IH k d'); auto. now apply (C k d').
Qed.
Lemma file_entries_in l files : forall before0 out e, file_entries l before0 files out -> In e out ->
  exists f1 p i f2, files = f1 ++ (p, i) :: f2 /\ file_entry l (before0 ++ f1) p i e.
Proof.
  induction files as [|[p i] files IH]; intros b [|x out] e H I; cbn [file_entries] in H; try tauto; [destruct I|].
  destruct H as [H1 H2]. destruct I as [->|I].
  - exists [], p, i, files. rewrite app_nil_r. auto.
  - destruct (IH _ _ _ H2 I) as (f1 & p' & i' & f2 & -> & FE). exists ((p, i) :: f1), p', i', f2. rewrite <- app_assoc in FE. auto.
Qed.
Lemma prefixes_in {A} (l : list A) p : In p (nonempty_prefixes l) <-> p <> [] /\ exists r, l = p ++ r.
Proof.
  revert p. induction l as [|x l IH]; intros p; cbn [nonempty_prefixes].
  - split; [intros []|]. intros [N (r & E)]. destruct p; [congruence|discriminate].
  - cbn [In]. rewrite in_map_iff. split.
    + intros [<-|(q & <- & I)]; [split; [discriminate|exists l; auto]|]. apply IH in I as [_ (r & ->)]. split; [discriminate|exists r; auto].
    + intros [N (r & E)]. destruct p as [|y p]; [congruence|]. injection E as <- E. destruct p as [|z p]; [now left|]. right. exists (z :: p). split; auto.
      apply IH. split; [discriminate|]. exists r. auto.
Qed.
Lemma prefixes_sorted (l : path) : StronglySorted before (nonempty_prefixes l).
Proof.
  induction l as [|x l IH]; cbn [nonempty_prefixes]; constructor.
  - apply sorted_map_iff. revert IH. generalize (nonempty_prefixes l). induction 1 as [|p ps S IHs F]; constructor; auto. eapply Forall_impl; [|exact F]. intros q. apply before_cons.
  - apply Forall_forall. intros p I. apply in_map_iff in I as (q & <- & I). apply prefixes_in in I as [N _]. left. destruct q as [|y q]; [congruence|]. apply (below_app [x]).
Qed.

Section dir.
  Context (root : dnode) (DN : disk_names root) (TD : true_directories root) (NM : no_markers_in root).
  Lemma file_path_of l before0 p i e : l ++ p <> [] -> real_path (l ++ p) -> file_entry l before0 p i e -> names_path (th_name (fst e)) (l ++ p).
  Proof. intros N R (E & _). split; auto. Qed.
  Theorem dir_fine encodable sort px chown c l out m : sorts sort -> real_path l ->
    match px with None => l = [] | Some px => px_name px = path_text false l end ->
    layer_from_dir encodable m sort root px chown c = LayerOk out -> fine_layer out.
  Proof.
    intros HS RL PX E.
    assert (PP : prefix_path px l).
    { destruct px as [px|]; cbn [prefix_path]; auto. rewrite PX. split; [|apply plain_clean_list, RL].
      rewrite clean_text, clean_comps_text by (apply plain_clean_list, RL). rewrite SquashMain.text_not_abs by apply RL. reflexivity. }
    destruct (dir_layer encodable m sort root px chown c l out HS DN PP E) as (files & above & rest & [SF LF] & -> & AB & FE).
    assert (AF : exists ps, Forall2 (fun p e => names_path (th_name (fst e)) p /\ is_dir e = true) ps above /\ StronglySorted before ps /\
      forall p, In p ps -> exists r, l = p ++ r).
    { destruct px as [px|].
      - exists (nonempty_prefixes l). split; [|split; [apply prefixes_sorted|intros p I; now apply prefixes_in in I]]. specialize (AB PX).
        assert (X : forall p, In p (nonempty_prefixes l) -> p <> [] /\ real_path p).
        { intros p I. apply prefixes_in in I as [N (r & Er)]. split; auto. rewrite Er in RL. now apply real_app in RL. }
        revert X. clear - AB. induction AB as [|p e ps es H _ IH]; intros X; constructor; [|apply IH; intros q I; apply X; now right].
        destruct H as (Nm & T & _). destruct (X p (or_introl eq_refl)) as [N R]. split.
        + split; auto. split; auto. rewrite Nm. destruct p; [congruence|reflexivity].
        + unfold is_dir. now rewrite T.
      - exists []. subst above. split; [constructor|]. split; [constructor|intros p []]. }
    destruct AF as (ps & AF & AS & AL).
    assert (AE : forall e, In e above -> exists p, In p ps /\ names_path (th_name (fst e)) p /\ is_dir e = true).
    { clear - AF. induction AF as [|p e ps es H _ IH]; intros x I; [destruct I|]. destruct I as [<-|I]; [exists p; split; auto; now left|].
      destruct (IH x I) as (q & Iq & R). exists q. split; auto. now right. }
    assert (AM : map entry_path above = ps).
    { clear - AF. induction AF as [|p e ps es [N _] _ IH]; [reflexivity|]. cbn [map]. apply good_named in N as (_ & -> & _). now rewrite IH. }
    assert (FP : forall p i, In (p, i) files -> p <> [] /\ real_path (l ++ p)).
    { intros p i I. apply LF in I as [N I]. split; auto. apply info_file in I. destruct RL as [R1 R2]. split; apply Forall_app; split; auto. now apply (disk_plain root). }
    assert (RE : forall e, In e rest -> exists f1 p i f2, files = f1 ++ (p, i) :: f2 /\ file_entry l f1 p i e /\ names_path (th_name (fst e)) (l ++ p)).
    { intros e I. destruct (file_entries_in l files [] rest e FE I) as (f1 & p & i & f2 & Ef & F). exists f1, p, i, f2. split; auto. split; auto.
      destruct (FP p i) as [N R]; [rewrite Ef; apply in_app_iff; right; now left|]. eapply file_path_of; eauto. destruct l, p; cbn [app]; congruence. }
    assert (RM : map entry_path rest = map (fun f => l ++ fst f) files).
    { pose proof (entries_names l files [] rest FE) as EN. transitivity (map clean_comps (map (fun e : header * str => th_name (fst e)) rest)); [now rewrite map_map|].
      rewrite EN, map_map. apply map_ext_in. intros [p i] I. cbn [fst]. destruct (FP p i I) as [N R]. apply names_comps. split; auto. destruct l, p; cbn [app]; congruence. }
    assert (RS : StronglySorted before (map entry_path rest)).
    { rewrite RM. apply sorted_map_iff. apply (sorted_map_impl parts_before _ fst (fun f => In f files)); [|now apply Forall_forall|exact SF].
      intros [p i] [q j] Ip Iq H. cbn [fst] in *. apply before_app. apply pb_before; auto; [apply FP in Ip as [_ [_ Ip]]|apply FP in Iq as [_ [_ Iq]]]; now apply Forall_app in Ip || apply Forall_app in Iq. }
    split; [|split; [|split]].
    - apply Forall_app. split; apply Forall_forall; intros e I; [apply AE in I as (p & _ & N & _)|apply RE in I as (_ & p & _ & _ & _ & _ & N)]; now apply good_named in N.
    - apply Forall_app. split; apply Forall_forall; intros e I; [apply AE in I as (p & _ & N & _)|apply RE in I as (_ & p & _ & _ & _ & _ & N)]; now apply good_named in N.
    - rewrite map_app. apply sorted_app; auto; [now rewrite AM|]. intros x y Ix Iy. rewrite AM in Ix. rewrite RM in Iy. apply AL in Ix as (r & ->).
      apply in_map_iff in Iy as ([p i] & <- & I). cbn [fst]. apply FP in I as [N _]. left. apply below_spec. rewrite <- app_assoc. destruct r as [|k r], p as [|k' p]; try congruence; cbn [app]; eauto.
    - intros e e' I I' B. apply in_app_iff in I as [I|I]; [now apply AE in I as (_ & _ & _ & D)|].
      apply RE in I as (f1 & p & i & f2 & Ef & F & N). apply good_named in N as (_ & Ep & _). rewrite Ep in B.
      assert (IP : In (p, i) files) by (rewrite Ef; apply in_app_iff; right; now left).
      apply in_app_iff in I' as [I'|I'].
      + exfalso. apply AE in I' as (q & Iq & N & _). apply good_named in N as (_ & Eq & _). rewrite Eq in B. apply AL in Iq as (r & ->).
        apply below_spec in B as (k & s & B). apply FP in IP as [Np _]. apply (f_equal (@length _)) in B. rewrite !app_length in B. cbn [length] in B. lia.
      + apply RE in I' as (g1 & q & j & g2 & Eg & _ & N). apply good_named in N as (_ & Eq & _). rewrite Eq in B.
        assert (IQ : In (q, j) files) by (rewrite Eg; apply in_app_iff; right; now left). apply LF in IQ as [_ IQ].
        assert (B' : SquashSpec.below p q = true).
        { apply below_spec in B as (k & s & B). rewrite <- app_assoc in B. apply app_inv_head in B as ->. apply below_spec. eauto. }
        destruct (prefix_above p q root B') as (i' & r & ch & H); [congruence|].
        apply LF in IP as [_ IP]. assert (i' = i) as -> by (unfold info_at in IP; rewrite H in IP; cbn [info_of] in IP; congruence).
        destruct (TD p i r ch H) as [(h & Hh & T) U]. destruct F as (_ & h' & Hh' & _ & [(b1 & q' & j' & b2 & Eb & Ej & _)|(_ & Ty & _)]).
        * exfalso. assert (Iq' : In (q', j') files) by (rewrite Ef, Eb; rewrite <- app_assoc; apply in_app_iff; right; now left).
          apply LF in Iq' as [_ Iq']. specialize (U q' j' Iq' Ej). subst q'.
          rewrite Ef, Eb, map_app, map_app in SF. cbn [map fst] in SF. clear - SF. rewrite <- app_assoc in SF.
          induction (map fst b1) as [|z zs IH]; [|inversion SF; auto]. cbn [app] in SF. inversion SF as [|? ? _ F]; subst. rewrite Forall_forall in F.
          apply (pb_irrefl p). apply F. apply in_app_iff. right. now left.
        * rewrite Hh in Hh'. injection Hh' as <-. unfold is_dir. now rewrite Ty, T.
  Qed.
  Theorem squash_dir encodable sort px chown c l out n m sort' order : sorts sort -> real_path l ->
    match px with None => l = [] | Some px => px_name px = path_text false l end ->
    layer_from_dir encodable m sort root px chown c = LayerOk out ->
    sorts sort' -> permutes order -> squash (4 + n) sort' order [out] = Ret (map respelled out).
  Proof. intros HS RL PX E. apply squash_fine. now apply (dir_fine encodable sort px chown c l out m). Qed.
End dir.

(** *** through links *)
Theorem squash_sources_links n sort order layers out : sorts sort -> permutes order ->
  Forall (Forall good_entry) layers -> Forall (Forall proper_link) layers -> squash n sort order layers = Ret out ->
  exists layers', plain_stack layers' /\ all_at_target empty_root (all_entries layers) (all_entries layers') /\
  forall e, In e out -> (exists l e0, In l layers' /\ In e0 l /\ entry_path e = entry_path e0 /\ same_file e e0) \/
    (exists a, entry_path e = a ++ [$".wh..wh..opq"] /\ empty_file e /\ turned (all_entries layers') a).
Proof.
  intros HS HO G P E. destruct (squash_back n sort order layers out G P E) as (ls & PL & A & Q). exists ls. split; auto. split; auto.
  intros e I. destruct (squash_sources 0 sort order ls out e HS HO PL) as [(l & e0 & X)|(a & X1 & X2 & X3 & X4)]; auto.
  - left. exists l, e0. exact X.
  - right. exists a. repeat split; auto.
Qed.

(** *** C32 through links *)
Lemma unpack_from fs e p n : unpack_entry fs e p = Some n -> n <> FDir None -> fs p = Some n \/ (is_marker e = false /\ entry_path e = p /\ node_of e = n).
Proof.
  intros E N. unfold unpack_entry in E. set (q := entry_path e) in *.
  assert (M : mkdirs fs (removelast q) p = Some n -> fs p = Some n).
  { unfold mkdirs. destruct (at_or_below p (removelast q)); auto. destruct (fs p) as [[m|h c]|]; auto; intros [= <-]; now destruct N. }
  unfold is_marker. fold q. destruct (marker_name (last q [])); [left; destruct (str_eqb _ _); unfold remove_below, remove in E; [destruct (SquashSpec.below _ p)|destruct (at_or_below _ p)]; try discriminate; auto|].
  unfold node_of. destruct (is_dir e); unfold put_node in E; destruct (path_dec p q) as [->|].
  - right. split; auto. split; auto. congruence.
  - left. auto.
  - right. split; auto. split; auto. congruence.
  - left. unfold remove_below in E. destruct (SquashSpec.below q p); [discriminate|auto].
Qed.
Lemma unpack_all_from es : forall fs p n, fold_left unpack_entry es fs p = Some n -> n <> FDir None ->
  fs p = Some n \/ exists e, In e es /\ is_marker e = false /\ entry_path e = p /\ node_of e = n.
Proof.
  induction es as [|e es IH]; intros fs p n E N; auto. cbn [fold_left] in E. destruct (IH _ _ _ E N) as [X|(e' & I & X)]; [|right; exists e'; split; auto; now right].
  destruct (unpack_from fs e p n X N) as [Y|Y]; auto. right. exists e. split; [now left|auto].
Qed.
Theorem squash_wins_links n sort order layers out : sorts sort -> permutes order ->
  Forall (Forall good_entry) layers -> Forall (Forall proper_link) layers -> squash n sort order layers = Ret out ->
  exists es, all_at_target empty_root (all_entries layers) es /\
  (forall es1 e es2, es = es1 ++ e :: es2 -> is_marker e = false -> (forall e', In e' es2 -> ~ overrides e' (entry_path e) (is_dir e)) ->
     (exists e', In e' out /\ entry_path e' = entry_path e /\ anon (fst e') = anon (fst e) /\ (is_dir e = false -> snd e' = snd e)) /\
     unpack empty_root [out] (entry_path e) = Some (node_of e)) /\
  (forall es1 w es2 p, es = es1 ++ w :: es2 -> marks w p -> real_path p -> (forall e, In e es2 -> at_or_below p (entry_path e) = false) ->
     unpack empty_root [out] p = None).
Proof.
  intros HS HO G P E. destruct (squash_every n sort order layers out HS HO G P E) as (ls & PL & A & S). exists (all_entries ls). split; auto.
  assert (B : blank empty_root) by (intros [|k q] N; [congruence|reflexivity]). assert (BR : exists m, empty_root [] = Some (FDir m)) by (exists None; reflexivity).
  assert (GE : forall e, In e (all_entries ls) -> good_entry e).
  { destruct PL as [PL _]. intros e I. apply in_all in I as (l & Il & I). rewrite Forall_forall in PL. apply PL in Il. rewrite Forall_forall in Il. auto. }
  split.
  - intros es1 e es2 X M H. assert (Ge : good_entry e) by (apply GE; rewrite X; apply in_app_iff; right; now left).
    assert (R : real_path (entry_path e)).
    { destruct Ge as [_ [R|(d & k & Y & _ & _ & _ & K)]]; auto. exfalso. unfold is_marker in M. rewrite Y, last_last in M. destruct K as [->|(x & -> & _)]; [discriminate|]. rewrite wh_marker in M. discriminate. }
    assert (SV : unpack empty_root ls (entry_path e) = Some (node_of e)).
    { rewrite unpack_all, X, fold_left_app. cbn [fold_left]. apply keeps_all; [now apply puts|]. intros e' I. replace (dirn (node_of e)) with (is_dir e) by (unfold node_of; now destruct (is_dir e)). auto. }
    destruct (S empty_root BR (or_introl B) _ R) as [Ag _]. rewrite SV in Ag. apply (fun A => agree_node _ _ (or_intror A) (node_of_some e)) in Ag. split; auto.
    rewrite unpack_all in Ag. destruct (unpack_all_from _ _ _ _ Ag (node_of_some e)) as [Y|(e' & I & M' & Y & Z)].
    + exfalso. unfold empty_root in Y. destruct (entry_path e); [|discriminate]. injection Y as Y. now apply (node_of_some e).
    + apply in_all in I as (l & [<-|[]] & I). exists e'. split; auto. split; auto. unfold node_of in Z. destruct (is_dir e'), (is_dir e); try discriminate; split; congruence.
  - intros es1 w es2 p X M R H. destruct (S empty_root BR (or_introl B) p R) as [Ag _].
    assert (N : unpack empty_root ls p = None).
    { rewrite unpack_all, X, fold_left_app. cbn [fold_left]. apply stays_out_all; auto. apply marked; auto. apply GE. rewrite X. apply in_app_iff. right. now left. }
    rewrite N in Ag. destruct (unpack empty_root [out] p); [destruct Ag|auto].
Qed.
