(** Where the files of any wheel are installed. *)
From Coq Require Import String Ascii List Bool NArith ZArith Lia Permutation.
From Verif.Model Require Import GoStr GoPath Tar Stat Layer ConfigParser Platform WheelFile Wheel.
From Verif.Spec Require Import PathSpec SimpleAPISpec LayerSpec DirSpec WheelSpec WheelAnySpec LandsSpec.
From Verif.Proofs Require Import Order GoStrFacts GoPathFacts DirFacts LayerFacts ConfigFacts WheelPaths WheelSpread WheelFacts WheelSame WheelAny.
Import ListNotations.
Local Open Scope nat_scope.
Local Arguments str_eqb : simpl never.
Local Arguments byte_eqb : simpl never.
Local Arguments has_prefix : simpl never.
Local Arguments has_suffix : simpl never.
Local Arguments clean : simpl never.
Local Arguments path_join : simpl never.

Lemma cut_spec c s a b : cut c s = (a, b) -> ~ In c a /\ s = a ++ match b with Some x => c :: x | None => [] end.
Proof.
  revert a b. induction s as [|x s IH]; intros a b; cbn [cut].
  - intros E. injection E as <- <-. split; [intros []|reflexivity].
  - destruct (byte_eqb c x) eqn:B.
    + intros E. injection E as <- <-. apply byte_eqb_eq in B. subst x. split; [intros []|reflexivity].
    + destruct (cut c s) as [a0 b0] eqn:C. intros E. injection E as <- <-. destruct (IH _ _ eq_refl) as [N ->]. split; [|reflexivity].
      intros [->|I]; [now rewrite byte_eqb_refl in B|auto].
Qed.
Lemma scheme_dir_key s key : scheme_dir s key = get_key key (key_dirs s).
Proof. unfold scheme_dir, key_dirs. cbn [get_key]. repeat (destruct (str_eqb key _); [reflexivity|]). reflexivity. Qed.

Section lands.
  Context (s : scheme) (root data : str) (wh : list zfile) (min : option Z).
  Definition unix_of (f : zfile) : N :=
    if entry_is_dir f then N.lor ModeFmtDir 493 else if is_executable (zf_header f) then N.lor ModeFmtRegular 493 else N.lor ModeFmtRegular 420.
  (** unpacked, and perhaps moved, with the name [k] *)
  Definition there (key : option str) (k : str) (r : vref) : Prop :=
    exists f h, In f wh /\ lands s root data (z_name (zf_header f)) key k /\ r = ZipRef h (zf_content f) /\ z_modified h = time_in min f /\
      z_creator h = 768%N /\ z_attrs h = zip_raw (mkZipAttr (unix_of f) 0 0) /\ (z_name h = k \/ z_name h = k ++ $"/").
  Definition all_there (fs : vfs) (types : section) : Prop := forall k r, get_key k fs = Some r -> there (get_key k types) k r.
  Lemma unpack_there : NoDup (map fst (unpack_wheel min root wh)) /\ all_there (unpack_wheel min root wh) [].
  Proof.
    unfold unpack_wheel. assert (X : forall l fs, incl l wh -> NoDup (map fst fs) -> all_there fs [] ->
      let fs' := fold_left (fun fs f => let name := path_join [root; z_name (zf_header f)] in set_key name (created min name f) fs) l fs in
      NoDup (map fst fs') /\ all_there fs' []).
    { induction l as [|f l IH]; intros fs IC N A; [split; assumption|]. cbn [fold_left]. apply IH; [intros x Ix; apply IC; now right|now apply set_key_nodup|].
      intros k r G. cbv zeta in G. rewrite get_set_key in G. destruct (str_eqb k _) eqn:E; [|now apply A].
      apply str_eqb_eq in E. subst k. injection G as <-. destruct (created_name min (path_join [root; z_name (zf_header f)]) f) as (h & C & NM & CR & _ & AT).
      exists f, h. split; [apply IC; now left|]. split; [constructor|]. split; [exact C|].
      split; [unfold created in C; injection C as <-; reflexivity|]. split; [exact CR|]. split; [exact AT|]. rewrite NM. destruct (entry_is_dir f); auto. }
    apply X; [apply incl_refl|constructor|]. intros k r G. discriminate.
  Qed.
  Lemma spread_there sched : forall fs types fs' types', NoDup (map fst fs) -> NoDup (map fst types) -> all_there fs types ->
    spread s data sched fs types = IOk (fs', types') -> NoDup (map fst fs') /\ NoDup (map fst types') /\ all_there fs' types'.
  Proof.
    induction sched as [|name sched IH]; intros fs types fs' types' N1 N2 A; cbn [spread].
    - intros E. injection E as <- <-. auto.
    - destruct (get_key name fs) as [r|] eqn:G; [|now apply IH]. destruct (has_prefix _ _) eqn:HP; [|now apply IH].
      apply has_prefix_spec in HP as (t & ->). rewrite trim_prefix_app. destruct (cut "/"%char t) as [key rest] eqn:C. apply cut_spec in C as [NK ->].
      rewrite scheme_dir_key. destruct (get_key key (key_dirs s)) as [dir|] eqn:D; [|discriminate]. destruct (renamed _ r) as [r'|] eqn:R; [|discriminate].
      set (new := path_join [dir; match rest with Some rest => rest | None => [] end]) in *.
      apply IH; [now apply set_key_nodup, del_key_nodup|now apply set_key_nodup|].
      intros k x Gx. rewrite get_set_key in Gx. rewrite get_set_key. destruct (str_eqb k new) eqn:E.
      + apply str_eqb_eq in E. subst k. injection Gx as <-. destruct (A _ _ G) as (f & h & I & L & -> & T & CR & AT & _).
        cbn [renamed] in R. injection R as <-. exists f. eexists. split; [exact I|]. split.
        { rewrite <- app_assoc in L.
          replace new with (path_join [dir; skipn 1 (match rest with Some x => "/"%char :: x | None => [] end)]) by (unfold new; destruct rest; reflexivity).
          eapply moved; [exact L|exact NK| |exact D]. destruct rest as [x|]; [right; now exists x|now left]. }
        split; [reflexivity|]. split; [exact T|]. split; [exact CR|]. split; [exact AT|]. unfold with_zname. cbn [z_name]. destruct (ref_dir _); auto.
      + rewrite get_del_key in Gx. match type of Gx with (if ?b then _ else _) = _ => destruct b; [discriminate|] end. now apply A.
  Qed.
End lands.

(** ** What becomes of it *)
Definition made digest (pl : platform) (root data : str) (wh : list zfile) (min : option Z) (k : str) (r : vref) : Prop :=
  exists key r0, there (pl_scheme pl) root data wh min key k r0 /\ if is_script key then rewritten digest pl r0 = IOk r else r = r0.
Lemma made_shape digest pl root data wh min k r : made digest pl root data wh min k r ->
  exists f key h u, In f wh /\ lands (pl_scheme pl) root data (z_name (zf_header f)) key k /\ (z_name h = k \/ z_name h = k ++ $"/") /\
     match r with MemRef _ => False | _ => True end /\ ref_mode r = zip_mode h /\ z_creator h = 768%N /\ z_attrs h = zip_raw (mkZipAttr u 0 0) /\
     ref_full r = clean (z_name h) /\ ref_mtime r = time_in min f /\
     (forall t ok, zf_content f = Bytes t ok -> ref_content r = Bytes (if is_script key then shebang_line (pl_console pl) (pl_graphical pl) t else t) ok /\
        u = if is_script key && has_prefix $"#!python" t then N.lor (unix_of f) 73 else unix_of f) /\
     (forall x ok, ref_content r = Bytes x ok -> exists t, zf_content f = Bytes t ok).
Proof.
  intros (key & r0 & TH & RW). destruct TH as (f & h0 & If & LA & E0 & TM0 & CR0 & AT0 & NM0).
  destruct (is_script key) eqn:SK.
  - destruct (rewritten_text _ _ _ _ RW) as (text & ok & C1 & C2 & FU & MT & U & P). rewrite E0 in C1, FU, MT. cbn [ref_content ref_full ref_mtime] in C1, FU, MT.
    destruct (has_prefix $"#!python" text) eqn:HP.
    + destruct (P eq_refl) as (h & c & EE & h' & c' & -> & ATT & CR & NM & _). assert (h0 = h) by congruence. subst h.
      exists f, key, h', (N.lor (unix_of f) 73). split; [exact If|]. split; [exact LA|]. split; [now rewrite NM|]. split; [exact Logic.I|]. split; [reflexivity|]. split; [congruence|]. split.
      { rewrite ATT, AT0. unfold unix_of. destruct (entry_is_dir f); [|destruct (is_executable _)]; vm_compute; reflexivity. }
      split; [reflexivity|]. split; [rewrite MT; exact TM0|]. split.
      * intros t ok' C. rewrite C in C1. injection C1 as -> ->. rewrite SK, HP. split; [exact C2|reflexivity].
      * intros x ok' C. rewrite C2 in C. injection C as _ <-. eauto.
    + pose proof (U eq_refl) as UU. subst r0. exists f, key, h0, (unix_of f). rewrite UU in C2 |- *. split; [exact If|]. split; [exact LA|]. split; [exact NM0|]. split; [exact Logic.I|]. split; [reflexivity|].
      split; [exact CR0|]. split; [exact AT0|]. split; [reflexivity|]. split; [exact TM0|]. split.
      * intros t ok' C. rewrite C in C1. injection C1 as -> ->. rewrite SK, HP. split; [exact C2|reflexivity].
      * intros x ok' C. cbn [ref_content] in C. eauto.
  - subst r r0. exists f, key, h0, (unix_of f). split; [exact If|]. split; [exact LA|]. split; [exact NM0|]. split; [exact Logic.I|]. split; [reflexivity|]. split; [exact CR0|]. split; [exact AT0|].
    split; [reflexivity|]. split; [exact TM0|]. rewrite SK. split; [intros t ok C; split; [exact C|reflexivity]|]. intros x ok C. cbn [ref_content] in C. eauto.
Qed.
Lemma clean_slash k : k <> [] -> clean (k ++ $"/") = clean k.
Proof.
  intros N. rewrite !clean_text. assert (A : is_abs (k ++ $"/") = is_abs k) by (destruct k; [contradiction|reflexivity]). rewrite A. f_equal.
  unfold clean_comps. rewrite A. change $"/" with [slash]. rewrite split_on_app_gen, fold_left_app. reflexivity.
Qed.
Lemma vfs_made o pl min t wh fs ip : fair o -> install_vfs o pl min t wh = IOk (fs, ip) ->
  exists info root, dist_info_dir wh = Some info /\ root_dir o (pl_scheme pl) info wh = Some root /\
  forall k r, In (k, r) fs -> (made (o_digest o) pl root (data_dir root info) wh min k r /\ ~ In k (omitted root info)) \/
    exists outs, compiles_any o pl t wh root info outs /\ In r outs.
Proof.
  intros (_ & _ & _ & F3 & F4 & _) H. unfold install_vfs in H. destruct (dist_info_dir wh) as [info|]; [|discriminate].
  destruct (root_dir o (pl_scheme pl) info wh) as [root|] eqn:RD; [|discriminate]. exists info, root. split; [reflexivity|]. split; [exact RD|]. cbv zeta in H.
  destruct (spread _ _ _ _ _) as [[fs1 types]|?| |] eqn:SP; try discriminate.
  destruct (rewrite_python _ _ _ _) as [fs2|?| |] eqn:RW; try discriminate.
  set (fs3 := del_key (data_dir root info) (del_key (path_join [root; info; $"RECORD.p7s"]) (del_key (path_join [root; info; $"RECORD.jws"]) (del_key (path_join [root; info; $"RECORD"]) fs2)))) in H.
  destruct (o_compile o t _) as [outs|] eqn:CO; [|discriminate]. apply IOk_inj, pair_equal_spec in H as [<- _].
  destruct (unpack_there (pl_scheme pl) root (data_dir root info) wh min) as [U1 U2].
  assert (N0 : NoDup (map fst (@nil (str * str)))) by constructor. destruct (spread_there _ _ _ _ _ _ _ _ _ _ U1 N0 U2 SP) as (N1 & N2 & A).
  assert (N' : NoDup (map fst (o_types o types))) by (apply (perm_nodup types); auto).
  assert (RN := rewrite_nodup _ _ _ _ _ N1 RW).
  assert (N3 : NoDup (map fst fs3)) by (unfold fs3; now repeat apply del_key_nodup).
  assert (MD : forall k r, get_key k fs3 = Some r -> made (o_digest o) pl root (data_dir root info) wh min k r /\ ~ In k (omitted root info)).
  { intros k r G. unfold fs3 in G. rewrite !get_del_key in G. repeat (match type of G with (if ?b then _ else _) = _ => destruct b eqn:?; [discriminate|] end).
    split.
    2:{ intros J. unfold omitted in J. cbn [map In] in J. unfold data_dir in *.
        repeat (destruct J as [J|J]; [match goal with E : str_eqb k ?x = false |- _ => change (x = k) in J; rewrite J, str_eqb_refl in E; discriminate end|]). destruct J. }
    destruct (rewrite_get _ _ _ _ _ N' RW k) as [R1 R2]. rewrite (perm_get types) in R1, R2 by auto.
    destruct (get_key k types) as [key|] eqn:T.
    - destruct (str_eqb key $"scripts") eqn:EK.
      + apply str_eqb_eq in EK. subst key. destruct (R1 eq_refl) as (r1 & r2 & G1 & RR & G2). exists (Some $"scripts"), r1. split; [rewrite <- T; now apply A|].
        cbn [is_script]. rewrite str_eqb_refl. congruence.
      + rewrite R2 in G by (intros E; injection E as ->; now rewrite str_eqb_refl in EK). exists (Some key), r. split; [rewrite <- T; now apply A|].
        cbn [is_script]. now rewrite EK.
    - rewrite R2 in G by discriminate. exists None, r. split; [rewrite <- T; now apply A|]. reflexivity. }
  intros k r I. apply in_get_key in I; [|now apply set_outs_nodup]. apply set_outs_get in I as [[I _]|G]; [right|left; now apply MD].
  exists outs. split; [|exact I]. eexists. split; [exact CO|]. apply Forall_forall. intros x J. apply filter_In in J as [J PY]. split; [exact PY|].
  apply in_map_iff in J as ([k' r'] & E & J). cbn [snd] in E. subst r'. apply (Permutation_in _ (F4 fs3)) in J. apply in_get_key in J; auto.
  destruct (MD _ _ J) as [M O]. destruct (made_shape _ _ _ _ _ _ _ _ M) as (f & key & h & u & If & LA & NM & _ & _ & _ & _ & FU & _ & CT & _).
  exists f, key, k'. split; [exact If|]. split; [exact LA|]. split.
  - rewrite FU. destruct NM as [NM|NM]; rewrite NM; auto. apply clean_slash. intros ->. unfold is_py in PY. rewrite FU, NM in PY.
    vm_compute in PY. discriminate.
  - split; [exact O|]. intros text ok C. exact (proj1 (CT _ _ C)).
Qed.
Lemma dir_metadata wh info : dist_info_dir wh = Some info -> metadata_of wh info.
Proof.
  intros H. pose proof (info_in _ _ H) as (S & f & I & E). split; auto. split; [exists f; split; [exact I|]; rewrite <- E; reflexivity|].
  intros g J K. unfold dist_info_dir in H. destruct (filter _ _) as [|d ds] eqn:F; [discriminate|]. destruct (forallb (str_eqb d) ds) eqn:A; [|discriminate]. injection H as ->.
  assert (X : In (top_dir g) (info :: ds)) by (rewrite <- F; apply filter_In; split; [now apply in_map|exact K]).
  destruct X as [X|X]; [exact (eq_sym X)|]. rewrite forallb_forall in A. apply A in X. apply str_eqb_eq in X. exact (eq_sym X).
Qed.
Lemma plain_mode h u : z_creator h = 768%N -> z_attrs h = zip_raw (mkZipAttr u 0 0) ->
  In u [N.lor ModeFmtDir 493; N.lor ModeFmtRegular 493; N.lor ModeFmtRegular 420] ->
  zip_mode h = let m := (if N.eqb u (N.lor ModeFmtDir 493) then N.lor go_dir 493 else if N.eqb u (N.lor ModeFmtRegular 493) then 493 else 420)%N in
               if has_suffix $"/" (z_name h) then N.lor m go_dir else m.
Proof.
  intros C A I. unfold zip_mode. rewrite C, A. destruct I as [<-|[<-|[<-|[]]]]; destruct (has_suffix _ _); vm_compute; reflexivity.
Qed.
Theorem wheel_lands o fuel pl pl' min mx wh l : fair o -> sanitize pl = Some pl' -> install_wheel o fuel pl min mx wh = IOk l ->
  exists info root, metadata_of wh info /\ root_of (pl_scheme pl') root /\
  Forall (fun e => th_type (fst e) = TypeReg -> tools_made o pl' min (max_time o wh mx) wh root info e \/
    exists f key name, In f wh /\ lands (pl_scheme pl') root (path_join [root; data_name info]) (z_name (zf_header f)) key name /\
      th_name (fst e) = clean name /\ ~ In name (omitted root info) /\ file_from pl' key f e /\
      th_mtime (fst e) = option_map round_second (clamp (max_time o wh mx) (match min with Some _ => min | None => z_modified (zf_header f) end))) l.
Proof.
  intros FO S H. pose proof FO as (_ & _ & _ & _ & _ & FR & FS). apply install_inv in H as (pl2 & fs & ip & fs1 & fs2 & refs & S2 & IC & IV & HK & AP & TE & LR).
  assert (pl2 = pl') by congruence. subst pl2.
  destruct (vfs_made _ _ _ _ _ _ _ FO IV) as (info & root & DI & RD & MD). exists info, root. split; [now apply dir_metadata|]. split; [exact (root_dir_in _ _ _ _ _ RD)|].
  apply Forall_forall. intros e I TR.
  destruct (layer_refs _ _ _ _ _ _ FS (FR fs2) TE LR) as [L1 _]. destruct (L1 e I) as (k & r & fr & Ir & T & W).
  destruct (all_parents _ _ _ _ _ _ _ AP Ir) as [J|[d ->]].
  2:{ destruct (mem_entry _ _ _ _ _ _ T W) as (_ & A & _). rewrite A in TR. discriminate. }
  assert (D : {In (k, r) fs} + {~ In (k, r) fs}) by (apply in_dec; decide equality; [apply vref_dec|apply list_eq_dec, ascii_dec]).
  destruct D as [D|D].
  2:{ left. right. exists fs, fs1, k, r. split; [exists ip; auto|]. split; [exact J|]. split; [exact D|]. eapply ref_entry; eauto. }
  destruct (MD k r D) as [[M OM]|(outs & C & Io)].
  2:{ left. left. exists outs, r. split; [exact C|]. split; [exact Io|]. eapply ref_entry; eauto. }
  right. destruct (made_shape _ _ _ _ _ _ _ _ M) as (f & key & h & u & If & LA & NM0 & NMem & RM & CR & AT & FU & MT & CT & CI).
  unfold tar_entry in T. destruct (ref_header r) as [hd|] eqn:RH; [|discriminate]. injection T as <-.
  assert (FH : file_info_header (ref_mode r) (ref_size r) (ref_mtime r) None = Some hd) by (unfold ref_header in RH; destruct r; [exact RH|exact RH|destruct NMem]).
  destruct (written_fields _ _ _ _ W eq_refl) as (EN & TY & SZ & MO & _ & _ & _ & _ & CC). cbn [fr_name fr_content th_type th_size th_mode owned with_name] in EN, TY, SZ, MO, CC.
  assert (TRH : th_type hd = TypeReg) by congruence. rewrite TRH in CC. change (byte_eqb TypeReg TypeReg) with true in CC. cbv iota in CC. destruct CC as [CC CS].
  destruct (CI _ _ CC) as [text C]. destruct (CT _ _ C) as [C2 EU]. rewrite C2 in CC. injection CC as CC.
  assert (IU' : In u [N.lor ModeFmtDir 493; N.lor ModeFmtRegular 493; N.lor ModeFmtRegular 420]).
  { rewrite EU. unfold unix_of. destruct (_ && _), (entry_is_dir f), (is_executable (zf_header f)); clear; vm_compute; tauto. }
  assert (HT : header_type (ref_mode r) = Some TypeReg /\ th_mode hd = Z.of_N (header_mode (ref_mode r)) /\ th_format hd = 0%Z /\ th_mtime hd = ref_mtime r).
  { unfold file_info_header in FH. destruct (header_type (ref_mode r)); [|discriminate]. injection FH as <-. cbn [th_type] in TRH. subst. repeat split; reflexivity. }
  destruct HT as (HT & HM & FM & HTM). rewrite RM, (plain_mode h u CR AT IU') in HT, HM.
  assert (NS : has_suffix $"/" (z_name h) = false).
  { destruct (has_suffix _ _); auto. exfalso. clear - HT IU'. destruct IU' as [<-|[<-|[<-|[]]]]; vm_compute in HT; discriminate. }
  rewrite NS in HT, HM. cbv zeta in HT, HM.
  assert (NN : z_name h = k).
  { destruct NM0 as [E|E]; auto. rewrite E in NS. exfalso. unfold has_suffix in NS. rewrite rev_app_distr in NS. cbn in NS. discriminate. }
  exists f, key, k. split; [exact If|]. split; [exact LA|]. split; [rewrite EN, FU, clean_idem; now rewrite NN|]. split; [exact OM|]. split.
  - assert (ED : entry_is_dir f = false).
    { destruct (entry_is_dir f) eqn:ED; auto. exfalso. unfold unix_of in EU. rewrite ED in EU. destruct (_ && _) in EU; subst u; vm_compute in HT; discriminate. }
    exists text. split; [exact C|]. split; [exact ED|]. split; [auto|]. split; [congruence|]. rewrite MO, HM. unfold unix_of in EU. rewrite ED in EU. rewrite <- executable_same.
    destruct (is_executable (zf_header f)), (is_script key && has_prefix $"#!python" text); subst u; vm_compute; reflexivity.
  - destruct W as [_ (h2 & H2 & E)]. cbn [fr_header fr_name] in H2, E. injection H2 as <-. rewrite E.
    unfold tar_written. cbn [th_format clamp_header with_times with_name owned]. rewrite FM. cbn. rewrite HTM, MT. reflexivity.
Qed.
Theorem wheel_lands_times o fuel pl pl' wh l : fair o -> sanitize pl = Some pl' -> install_wheel o fuel pl None None wh = IOk l ->
  exists info root, metadata_of wh info /\ root_of (pl_scheme pl') root /\
  Forall (fun e => th_type (fst e) = TypeReg -> tools_made o pl' None (max_time o wh None) wh root info e \/
    exists f key name, In f wh /\ lands (pl_scheme pl') root (path_join [root; data_name info]) (z_name (zf_header f)) key name /\
      th_name (fst e) = clean name /\ file_from pl' key f e /\
      forall x, z_modified (zf_header f) = Some x -> th_mtime (fst e) = Some (round_second x)) l.
Proof.
  intros FO S H. destruct (wheel_lands _ _ _ _ _ _ _ _ FO S H) as (info & root & M & R & A). exists info, root. split; auto. split; auto.
  rewrite Forall_forall in *. intros e I T. destruct (A e I T) as [B|(f & key & n & If & L & N & _ & F & MT)]; [now left|]. right. exists f, key, n. split; auto. split; auto. split; auto. split; auto.
  intros x X. rewrite MT, X. destruct (max_later o _ _ _ If X) as (t & -> & LE & _). rewrite clamp_id; [reflexivity|]. cbn [time_le]. lia.
Qed.
Theorem wheel_lands_scripts o fuel pl pl' min mx wh l : fair o -> sanitize pl = Some pl' -> install_wheel o fuel pl min mx wh = IOk l ->
  exists info root, metadata_of wh info /\ root_of (pl_scheme pl') root /\
  Forall (fun e => th_type (fst e) = TypeReg -> tools_made o pl' min (max_time o wh mx) wh root info e \/
    exists f key name text, In f wh /\ lands (pl_scheme pl') root (path_join [root; data_name info]) (z_name (zf_header f)) key name /\
      th_name (fst e) = clean name /\ zf_content f = Bytes text true /\ th_size (fst e) = Z.of_nat (length (snd e)) /\
      if is_script key then snd e = shebang_line (pl_console pl') (pl_graphical pl') text /\ (has_prefix $"#!python" text = true -> th_mode (fst e) = 493%Z)
      else snd e = text) l.
Proof.
  intros FO S H. destruct (wheel_lands _ _ _ _ _ _ _ _ FO S H) as (info & root & M & R & A). exists info, root. split; auto. split; auto.
  rewrite Forall_forall in *. intros e I T. destruct (A e I T) as [B|(f & key & n & If & L & N & _ & (text & C & _ & B & Z & MO) & _)]; [now left|]. right. exists f, key, n, text.
  do 5 (split; [assumption|]). destruct (is_script key); auto. split; auto. intros HP. rewrite MO, HP. cbn [andb]. now rewrite orb_true_r.
Qed.
