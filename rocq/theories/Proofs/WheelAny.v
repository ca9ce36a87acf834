(** Installing any wheel: where the regular files of the layer come from. *)
From Coq Require Import String Ascii List Bool NArith ZArith Lia Permutation.
From Verif.Model Require Import GoStr GoPath Tar Stat Layer ConfigParser Platform WheelFile Wheel.
From Verif.Spec Require Import PathSpec SimpleAPISpec LayerSpec DirSpec WheelSpec WheelAnySpec.
From Verif.Proofs Require Import Order GoStrFacts GoPathFacts DirFacts LayerFacts ConfigFacts WheelPaths WheelSpread WheelFacts WheelSame.
Import ListNotations.
Local Open Scope nat_scope.
Local Arguments str_eqb : simpl never.
Local Arguments byte_eqb : simpl never.
Local Arguments has_prefix : simpl never.
Local Arguments clean : simpl never.

Lemma in_set_key {V} k (v : V) m k' v' : In (k', v') (set_key k v m) -> v' = v \/ In (k', v') m.
Proof.
  induction m as [|[k0 v0] m IH]; cbn [set_key].
  - intros [E|[]]. left. congruence.
  - destruct (str_eqb k k0); intros [E|I]; [left; congruence|right; now right|right; left; exact E|]. destruct (IH I); auto. right. now right.
Qed.
Lemma in_del_key {V} k (m : list (str * V)) x : In x (del_key k m) -> In x m.
Proof. induction m as [|[k0 v0] m IH]; cbn [del_key]; auto. destruct (str_eqb k k0); [right; auto|]. intros [E|I]; [now left|right; auto]. Qed.
Lemma get_in {V} k (m : list (str * V)) v : get_key k m = Some v -> exists k', In (k', v) m.
Proof.
  induction m as [|[k0 v0] m IH]; cbn [get_key]; [discriminate|]. destruct (str_eqb k k0).
  - intros E. injection E as ->. exists k0. now left.
  - intros E. destruct (IH E) as [k' I]. exists k'. now right.
Qed.

Section any.
  Context (wh : list zfile) (pl : platform) (min : option Z).
  Definition time_in (f : zfile) : option Z := match min with Some _ => min | None => z_modified (zf_header f) end.
  (** attributes of regular files and directories, with 0644 or 0755 *)
  Definition plain_attrs (h : zheader) : Prop := z_creator h = 768%N /\
    exists u, In u [N.lor ModeFmtDir 493; N.lor ModeFmtRegular 493; N.lor ModeFmtRegular 420] /\ z_attrs h = zip_raw (mkZipAttr u 0 0).
  (** unpacked, and perhaps moved *)
  Definition raw (r : vref) : Prop := exists f h, In f wh /\ r = ZipRef h (zf_content f) /\ z_modified h = time_in f /\ plain_attrs h.
  (** or rewritten *)
  Definition stems (r : vref) : Prop := raw r \/
    exists f text ok h d n, In f wh /\ zf_content f = Bytes text ok /\ z_modified h = time_in f /\ plain_attrs h /\
      r = RecRef h (Bytes (shebang_line (pl_console pl) (pl_graphical pl) text) ok) d n.
  Definition all (P : vref -> Prop) (fs : vfs) : Prop := forall k r, In (k, r) fs -> P r.
  Lemma all_set P k r fs : all P fs -> P r -> all P (set_key k r fs).
  Proof. intros A H k' r' I. apply in_set_key in I as [-> |I]; eauto. Qed.
  Lemma all_del P k fs : all P fs -> all P (del_key k fs).
  Proof. intros A k' r' I. apply in_del_key in I. eauto. Qed.
  Lemma all_get P k r fs : all P fs -> get_key k fs = Some r -> P r.
  Proof. intros A G. apply get_in in G as [k' I]. eauto. Qed.
  Lemma unpack_raw dst : all raw (unpack_wheel min dst wh).
  Proof.
    unfold unpack_wheel. assert (X : forall l fs, incl l wh -> all raw fs ->
      all raw (fold_left (fun fs f => let name := path_join [dst; z_name (zf_header f)] in set_key name (created min name f) fs) l fs)).
    { induction l as [|f l IH]; intros fs IC A; [exact A|]. cbn [fold_left]. apply IH; [intros x Ix; apply IC; now right|].
      apply all_set; auto. exists f. eexists. split; [apply IC; now left|]. split; [reflexivity|]. split; [reflexivity|]. split; [reflexivity|].
      eexists. split; [|reflexivity]. destruct (has_suffix _ _); [now left|]. destruct (is_executable _); [right; now left|right; right; now left]. }
    apply X; [apply incl_refl|]. intros k r [].
  Qed.
  Lemma spread_raw s data sched : forall fs types fs' types', all raw fs -> spread s data sched fs types = IOk (fs', types') -> all raw fs'.
  Proof.
    induction sched as [|name sched IH]; intros fs types fs' types' A; cbn [spread].
    - intros E. injection E as <- _. exact A.
    - destruct (get_key name fs) as [r|] eqn:G; [|now apply IH]. destruct (has_prefix _ _); [|now apply IH]. destruct (cut _ _) as [key rest].
      destruct (scheme_dir s key) as [dir|]; [|discriminate]. destruct (renamed _ r) as [r'|] eqn:R; [|discriminate]. apply IH.
      apply all_set; [now apply all_del|]. destruct (all_get _ _ _ _ A G) as (f & h & I & -> & T & PA). cbn [renamed] in R. injection R as <-.
      exists f. eexists. split; [exact I|]. split; [reflexivity|]. split; [exact T|exact PA].
  Qed.
  Lemma rewritten_stems digest r r' : stems r -> rewritten digest pl r = IOk r' -> stems r'.
  Proof.
    intros A R. destruct (rewritten_text _ _ _ _ R) as (text & ok & C1 & C2 & _ & MT & U & P). destruct (has_prefix $"#!python" text) eqn:HP.
    - destruct (P eq_refl) as (h & c & -> & h' & c' & -> & ATT & CR & _). destruct A as [(f & h0 & I & E & T & PC & u & IU & PU)|(f & t0 & ok0 & h0 & d & n & _ & _ & _ & _ & E)]; [|discriminate].
      injection E as -> ->. cbn [ref_content ref_mtime] in *. right. exists f, text, ok, h'. do 2 eexists. split; auto. split; auto. split; [congruence|]. split; [|now rewrite C2].
      split; [congruence|]. rewrite ATT, PU. destruct IU as [<-|[<-|[<-|[]]]]; [exists (N.lor ModeFmtDir 493)|exists (N.lor ModeFmtRegular 493)|exists (N.lor ModeFmtRegular 493)]; (split; [cbn [In]; tauto|vm_compute; reflexivity]).
    - now rewrite U.
  Qed.
  Lemma rewrite_stems digest types : forall fs fs', all stems fs -> rewrite_python digest pl types fs = IOk fs' -> all stems fs'.
  Proof.
    induction types as [|[name key] types IH]; intros fs fs' A; cbn [rewrite_python].
    - intros E. injection E as <-. exact A.
    - destruct (str_eqb key _); [|now apply IH]. destruct (get_key name fs) as [r|] eqn:G; [|discriminate]. destruct (rewritten digest pl r) as [r'|?| |] eqn:R; try discriminate.
      apply IH. apply all_set; auto. eapply rewritten_stems; [|exact R]. now apply (all_get _ name _ fs).
  Qed.
  Lemma outs_all (P : vref -> Prop) outs : forall fs, all P fs -> (forall r, In r outs -> P r) -> all P (fold_left (fun fs r => set_key (ref_full r) r fs) outs fs).
  Proof.
    induction outs as [|r outs IH]; intros fs A H; [exact A|]. cbn [fold_left]. apply IH; [|intros x I; apply H; now right]. apply all_set; auto. apply H. now left.
  Qed.
  Lemma vfs_all o t fs info : install_vfs o pl min t wh = IOk (fs, info) ->
    all (fun r => stems r \/ exists refs outs, o_compile o t refs = Some outs /\ Forall (fun x => has_suffix $".py" (path_base (ref_full x)) = true) refs /\ In r outs) fs.
  Proof.
    unfold install_vfs. destruct (dist_info_dir wh) as [inf|]; [|discriminate]. destruct (root_dir o (pl_scheme pl) inf wh) as [dst|]; [|discriminate]. cbv zeta.
    destruct (spread _ _ _ _ _) as [[fs0 types]|?| |] eqn:S; try discriminate. destruct (rewrite_python _ _ _ _) as [fs1|?| |] eqn:R; try discriminate.
    destruct (o_compile _ _ _) as [outs|] eqn:C; [|discriminate]. intros E. injection E as <- _. apply outs_all.
    2:{ intros r I. right. do 2 eexists. split; [exact C|]. split; [|exact I]. apply Forall_forall. intros x J. now apply filter_In in J as [_ J]. }
    assert (A : all stems fs1).
    { eapply rewrite_stems; [|exact R]. intros k r I. left. revert k r I. eapply spread_raw; [apply unpack_raw|exact S]. }
    do 4 apply all_del. intros k r I. left. eauto.
  Qed.
  Lemma parents_all fuel t : forall dir fs fs' k r, add_parents fuel t dir fs = Some fs' -> In (k, r) fs' -> In (k, r) fs \/ exists d, r = mem_dir d 493 t.
  Proof.
    induction fuel as [|fuel IH]; intros dir fs fs' k r; cbn [add_parents]; [discriminate|]. destruct (str_eqb dir dot).
    - intros E I. injection E as <-. auto.
    - intros E I. destruct (IH _ _ _ _ _ E I) as [J|J]; auto. destruct (get_key dir fs); auto. apply in_set_key in J as [-> |J]; eauto.
  Qed.
  Lemma all_parents fuel t sched : forall fs fs' k r, add_all_parents fuel t sched fs = Some fs' -> In (k, r) fs' -> In (k, r) fs \/ exists d, r = mem_dir d 493 t.
  Proof.
    induction sched as [|name sched IH]; intros fs fs' k r; cbn [add_all_parents].
    - intros E I. injection E as <-. auto.
    - destruct (add_parents _ _ _ _) as [fs1|] eqn:P; [|discriminate]. intros E I. destruct (IH _ _ _ _ E I) as [J|J]; auto. eapply parents_all; eauto.
  Qed.
End any.

Theorem wheel_any o fuel pl pl' min mx wh l : fair o -> sanitize pl = Some pl' -> install_wheel o fuel pl min mx wh = IOk l ->
  Forall (fun e =>
    (th_type (fst e) = TypeDir /\ (th_mode (fst e) = 493%Z \/ th_mode (fst e) = 420%Z) /\ snd e = []) \/
    by_tools o pl' min (max_time o wh mx) wh e \/
    (exists f text, In f wh /\ zf_content f = Bytes text true /\ th_type (fst e) = TypeReg /\
       (snd e = text \/ snd e = shebang_line (pl_console pl') (pl_graphical pl') text) /\ (th_mode (fst e) = 420%Z \/ th_mode (fst e) = 493%Z) /\
       th_mtime (fst e) = option_map round_second (clamp (max_time o wh mx) (match min with Some _ => min | None => z_modified (zf_header f) end)))) l.
Proof.
  intros FO S H. pose proof FO as (_ & _ & _ & _ & _ & FR & FS). apply install_inv in H as (pl2 & fs & ip & fs1 & fs2 & refs & S2 & IC & IV & HK & AP & TE & LR).
  assert (pl2 = pl') by congruence. subst pl2. apply Forall_forall. intros e I.
  destruct (layer_refs _ _ _ _ _ _ FS (FR fs2) TE LR) as [L1 _]. destruct (L1 e I) as (k & r & fr & Ir & T & W).
  destruct (all_parents _ _ _ _ _ _ _ AP Ir) as [J|[d ->]].
  2:{ left. destruct (mem_entry _ _ _ _ _ _ T W) as (_ & A & M & B). auto. }
  assert (D : {In (k, r) fs} + {~ In (k, r) fs}) by (apply in_dec; decide equality; [apply vref_dec|apply list_eq_dec, ascii_dec]).
  destruct D as [D|D].
  2:{ right. left. right. exists fs, fs1, k, r. split; [exists ip; auto|]. split; [exact J|]. split; [exact D|]. eapply ref_entry; eauto. }
  destruct (vfs_all _ _ _ _ _ _ _ IV k r D) as [ST|(rs & outs & C & FP & Io)].
  2:{ right. left. left. exists rs, outs, r. split; [exact C|]. split; [exact FP|]. split; [exact Io|]. eapply ref_entry; eauto. }
  assert (X : exists f h, In f wh /\ ref_mtime r = time_in min f /\ (exists z, plain_attrs z /\ ref_mode r = zip_mode z) /\
     ref_header r = Some h /\ file_info_header (ref_mode r) (ref_size r) (ref_mtime r) None = Some h /\
     (forall s, ref_content r = Bytes s true -> exists text, zf_content f = Bytes text true /\ (s = text \/ s = shebang_line (pl_console pl') (pl_graphical pl') text))).
  { unfold tar_entry in T. destruct (ref_header r) as [h|] eqn:RH; [|discriminate].
    destruct ST as [(f & h0 & If & -> & TM & PA)|(f & text & ok & h0 & dd & n & If & Z & TM & PA & ->)]; exists f, h; (split; [exact If|]); (split; [exact TM|]); (split; [exists h0; split; [exact PA|reflexivity]|]);
      (split; [reflexivity|]); (split; [exact RH|]); cbn [ref_content]; intros s E.
    - rewrite E. eauto.
    - injection E as E1 E2. subst ok s. eauto. }
  destruct X as (f & h & If & TM & (z & PA & ZM) & RH & FH & CC). unfold tar_entry in T. rewrite RH in T. injection T as <-.
  destruct (written_fields _ _ _ _ W eq_refl) as (_ & TY & _ & MO & _ & _ & _ & _ & CT). cbn [fr_content th_type th_mode owned with_name] in TY, MO, CT.
  assert (TM' : (th_type h = TypeReg \/ th_type h = TypeDir) /\ (th_mode h = 420%Z \/ th_mode h = 493%Z)).
  { rewrite ZM in FH. destruct PA as (CR & u & IU & AU). unfold zip_mode in FH. rewrite AU, CR in FH. clear - FH IU.
    assert (Y : forall a b c m, file_info_header m a b None = Some h -> m = c -> th_type h = match header_type c with Some t => t | None => th_type h end /\ th_mode h = Z.of_N (header_mode c)).
    { intros a b c m E <-. unfold file_info_header in E. destruct (header_type m); [|discriminate]. injection E as <-. split; reflexivity. }
    destruct IU as [<-|[<-|[<-|[]]]]; destruct (has_suffix _ _); eapply Y in FH; try (vm_compute; reflexivity); destruct FH as [-> ->]; vm_compute; tauto. }
  assert (MT : th_mtime (fst e) = option_map round_second (clamp (max_time o wh mx) (time_in min f))).
  { destruct W as [_ (h2 & H2 & E)]. cbn [fr_header fr_name] in H2, E. injection H2 as <-. rewrite E.
    assert (FM : th_format h = 0%Z /\ th_mtime h = ref_mtime r).
    { unfold file_info_header in FH. destruct (header_type (ref_mode r)); [|discriminate]. injection FH as <-. split; reflexivity. }
    destruct FM as [FM MM]. unfold tar_written. cbn [th_format clamp_header with_times with_name owned]. rewrite FM. cbn. rewrite MM, TM. reflexivity. }
  destruct (byte_eqb (th_type h) TypeReg) eqn:B.
  - apply byte_eqb_eq in B. destruct CT as [CT _]. destruct (CC _ CT) as (text & Z & TX). right. right. exists f, text. split; auto. split; auto. split; [congruence|]. split; auto. split; [rewrite MO; tauto|exact MT].
  - left. destruct TM' as [[E|E] M]; [rewrite E in B; discriminate|]. split; [congruence|]. split; [rewrite MO; tauto|auto].
Qed.
Theorem wheel_plain o fuel pl pl' min mx wh l : fair o -> sanitize pl = Some pl' -> install_wheel o fuel pl min mx wh = IOk l ->
  Forall (fun e => by_tools o pl' min (max_time o wh mx) wh e \/
    (th_mode (fst e) = 493%Z \/ th_mode (fst e) = 420%Z) /\ th_link (fst e) = [] /\ th_devmajor (fst e) = 0%Z /\ th_devminor (fst e) = 0%Z /\
    ((th_type (fst e) = TypeDir /\ snd e = []) \/
     (th_type (fst e) = TypeReg /\ exists f, In f wh /\ bytes_of pl' f e))) l.
Proof.
  intros FO S H. pose proof (wheel_any _ _ _ _ _ _ _ _ FO S H) as A. pose proof (wheel_devices _ _ _ _ _ _ _ FO H) as D.
  rewrite Forall_forall in *. intros e I. destruct (D e I) as (D1 & D2 & _ & D3).
  destruct (A e I) as [(T & M & C)|[C|(f & text & If & Z & T & TX & M & _)]].
  - right. split; [exact M|]. split; [apply D3; rewrite T; discriminate|]. auto.
  - now left.
  - right. split; [tauto|]. split; [apply D3; rewrite T; discriminate|]. split; auto. split; auto. right. split; auto. exists f. split; auto. exists text. auto.
Qed.
Theorem wheel_times_any o fuel pl pl' wh l : fair o -> sanitize pl = Some pl' -> install_wheel o fuel pl None None wh = IOk l ->
  Forall (fun e => th_type (fst e) = TypeReg -> by_tools o pl' None (max_time o wh None) wh e \/
    exists f, In f wh /\ bytes_of pl' f e /\ forall x, z_modified (zf_header f) = Some x -> th_mtime (fst e) = Some (round_second x)) l.
Proof.
  intros FO S H. pose proof (wheel_any _ _ _ _ _ _ _ _ FO S H) as A. rewrite Forall_forall in *. intros e I T0.
  destruct (A e I) as [(T & _)|[C|(f & text & If & Z & T & TX & M & MT)]].
  - rewrite T in T0. discriminate.
  - now left.
  - right. exists f. split; auto. split; [exists text; auto|]. intros x X. rewrite MT, X. destruct (max_later o _ _ _ If X) as (t & -> & L & _).
    rewrite clamp_id; [reflexivity|]. cbn [time_le]. lia.
Qed.
