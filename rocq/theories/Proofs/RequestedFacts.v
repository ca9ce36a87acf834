(** The REQUESTED file is written, installed and recorded. *)
From Coq Require Import String Ascii List Bool ZArith NArith Lia Permutation Sorted.
From Verif.Model Require Import GoStr GoPath Pep440 Tar Stat Layer ConfigParser Platform WheelFile Wheel DirectURL Record LayerWheel.
From Verif.Spec Require Import PathSpec SimpleAPISpec LayerSpec WheelSpec RecordSpec DirectURLSpec WheelExamples RecordExamples RequestedSpec.
From Verif.Proofs Require Import GoStrFacts GoPathFacts Order DirFacts LayerFacts ConfigFacts SquashLoad DirectURLFacts WheelPaths WheelSpread WheelFacts WheelSame RecordFacts LayerWheelFacts.
Import ListNotations.
Local Open Scope nat_scope.

Lemma plain_REQUESTED : plain_comp $"REQUESTED". Proof. now apply plain_byb. Qed.
#[local] Hint Resolve plain_REQUESTED plain_RECORD plain_INSTALLER plain_URL : core.
Definition marked (comment : str) : str := match comment with [] => [] | _ => comment ++ [nl] end.
Lemma marked_ok comment : marker comment (marked comment).
Proof. destruct comment as [|c s]; [left; auto|]. right. split; [discriminate|reflexivity]. Qed.
Lemma requested_is comment t fs info : requested_hook comment t fs info = Some (put info $"REQUESTED" t (marked comment) fs).
Proof. reflexivity. Qed.
Lemma requested_keeps comment t fs info : hook_input fs info -> hook_input (put info $"REQUESTED" t (marked comment) fs) info.
Proof.
  intros (I & C & G & P & R). assert (IA : is_abs info = false) by apply I. split; auto. split; auto. split; [now apply put_good|]. split; [apply put_plain; auto; apply G|].
  rewrite put_get by auto. rewrite in_info_neq by (auto; discriminate). exact R.
Qed.
Theorem requested_ok comment t fs info : hook_input fs info ->
  exists fs', requested_hook comment t fs info = Some fs' /\ hook_input fs' info /\
    (exists text, marker comment text /\ plain_file (in_info info $"REQUESTED") t text fs') /\
    (forall k, k <> in_info info $"REQUESTED" -> get_key k fs' = get_key k fs).
Proof.
  intros H. rewrite requested_is. eexists. split; [reflexivity|]. split; [now apply requested_keeps|]. destruct H as (I & _). split.
  - exists (marked comment). split; [apply marked_ok|]. eexists. rewrite put_get, str_eqb_refl by auto. split; [reflexivity|]. repeat split.
  - intros k K. rewrite put_get by auto. apply str_eqb_neq in K. now rewrite K.
Qed.
Lemma info_neq info m n : inner info -> plain_comp m -> plain_comp n -> m <> n -> in_info info m <> in_info info n.
Proof. intros I M N D E. now apply in_info_inj in E. Qed.
(** What [record_hook] leaves of the file *)
Lemma record_requested space digest range sort algo installer url comment t fs info fs' :
  (forall m, Permutation (range m) m) -> sorts sort -> hook_input fs info ->
  record_hook space digest range sort algo installer url t (put info $"REQUESTED" t (marked comment) fs) info = Some fs' ->
  get_key (in_info info $"REQUESTED") fs' = Some (mem_reg (in_info info $"REQUESTED") 420 t (marked comment)).
Proof.
  intros HR HS H E. destruct (record_ok _ _ _ _ _ _ _ _ _ _ _ HR HS (requested_keeps comment t fs info H) E) as (_ & _ & _ & O). destruct H as (I & _).
  rewrite O; [|apply info_neq; auto; discriminate|apply info_neq; auto; discriminate|right; apply info_neq; auto; discriminate]. now rewrite put_get, str_eqb_refl by auto.
Qed.
Lemma join_last (l : list str) z : exists u, join $"/" (l ++ [z]) = u ++ z.
Proof.
  induction l as [|x l (u & IH)]; [now exists []|]. cbn [app]. destruct (l ++ [z]) as [|y k] eqn:E; [now destruct l|]. exists (x ++ $"/" ++ u).
  change (join $"/" (x :: y :: k)) with (x ++ $"/" ++ join $"/" (y :: k)). rewrite IH, <- !app_assoc. reflexivity.
Qed.
Lemma not_pyc info name base : inner info -> clean_comps ($"/" ++ base) = removelast (clean_comps info) -> names base name (in_info info $"REQUESTED") -> has_suffix $".pyc" name = false.
Proof.
  intros I B (L & C & A & _). destruct (has_suffix $".pyc" name) eqn:X; auto. exfalso. apply has_suffix_spec in X as (x & EX).
  destruct (in_info_inner info $"REQUESTED" I plain_REQUESTED) as [(_ & _ & PQ) CQ]. apply leads_follow in L; auto. rewrite CQ in PQ. unfold in_info in L. rewrite clean_comps_abs in L by exact PQ.
  rewrite B in L. destruct (exists_last (proj1 (proj2 I))) as (ds & d & E). rewrite E, removelast_last, <- app_assoc in L. rewrite E in PQ.
  destruct (clean_comps_list name) as (n & ps & Eo & Pp & _). rewrite Eo, follow_up, follow_plain in L; auto.
  2:{ apply plain_app in PQ as [PQ _]. now apply plain_app in PQ as [PQ _]. }
  destruct ps as [|q ps _] using rev_ind.
  - rewrite app_nil_r in L. assert (F := firstn_le_length (length ds - n) ds). rewrite L in F. rewrite app_length in F. cbn in F. lia.
  - rewrite app_assoc in L. change ([d] ++ [$"REQUESTED"]) with ([d] ++ [$"REQUESTED"]) in L. rewrite app_assoc in L. apply app_inj_tail in L as [_ ->].
    unfold clean_path in C. unfold clean in C. rewrite A in C. rewrite Eo, app_assoc in C. destruct (join_last (repeat dotdot n ++ ps) $"REQUESTED") as (u & J).
    assert (N : name = u ++ $"REQUESTED").
    { rewrite J in C. rewrite <- C at 1. destruct (u ++ $"REQUESTED") eqn:Z; [now destruct u|reflexivity]. }
    rewrite EX in N. apply (f_equal (@rev _)) in N. rewrite !rev_app_distr in N. cbn in N. discriminate.
Qed.
(** With recording afterwards, RECORD has a row for the file, with its digest and size. *)
Theorem requested_recorded space digest range sort algo installer url comment t fs info fs' :
  (forall m, Permutation (range m) m) -> sorts sort -> hook_input fs info ->
  run_hooks [requested_hook comment; record_hook space digest range sort algo installer url] t fs info = Some fs' ->
  exists text record rows name, marker comment text /\ plain_file (in_info info $"REQUESTED") t text fs' /\
    plain_file (in_info info $"RECORD") t record fs' /\ rfc4180 record = Some (map (map crlf) rows) /\
    names (parent info) name (in_info info $"REQUESTED") /\
    only_row rows (parent info) (in_info info $"REQUESTED") [name; hash_used algo ++ $"=" ++ digest (hash_used algo) text; itoa (Z.of_nat (length text))].
Proof.
  intros HR HS H E. rewrite run_two, requested_is in E. assert (G := record_requested _ _ _ _ _ _ _ _ _ _ _ _ HR HS H E).
  destruct (record_ok _ _ _ _ _ _ _ _ _ _ _ HR HS (requested_keeps comment t fs info H) E) as ((record & rows & PR & CSV & _ & _ & R3 & _) & _).
  destruct H as (I & C & _). exists (marked comment), record, rows.
  destruct (R3 _ _ (conj G (conj eq_refl (info_neq info _ _ I plain_REQUESTED plain_RECORD ltac:(discriminate))))) as (row & IR & (name & hash & size & -> & N & D) & U).
  exists name. split; [apply marked_ok|]. split; [eexists; split; [exact G|repeat split]|]. split; auto. split; auto. split; auto.
  cbn [mem_reg ref_full] in N. change (ref_full _) with (in_info info $"REQUESTED") in N.
  assert (B : clean_comps ($"/" ++ parent info) = removelast (clean_comps info)).
  { unfold parent. apply clean_comps_abs. destruct (info_split _ I C) as (ds & d & P & EC & _). rewrite EC, removelast_last. now apply plain_app in P as [P _]. }
  cbn [mem_reg] in D. rewrite (not_pyc _ _ _ I B N) in D. destruct D as (text & ok & CT & -> & ->). cbn in CT. injection CT as <- _. split; auto.
Qed.
(** Regular files of a hook are in the layer. *)
Lemma installed_mem o fuel pl min mx wh l : fair o -> install_wheel o fuel pl min mx wh = IOk l ->
  exists pl' fs info fs1, sanitize pl = Some pl' /\ install_vfs o pl' min (max_time o wh mx) wh = IOk (fs, info) /\ o_hook o (max_time o wh mx) fs info = Some fs1 /\
  (good_map fs1 -> forall k t text, get_key k fs1 = Some (mem_reg k 420 t text) -> exists e, In e l /\ th_name (fst e) = k /\ th_type (fst e) = TypeReg /\ th_mode (fst e) = 420%Z /\ snd e = text).
Proof.
  intros FO H. apply install_inv in H as (pl' & fs & ip & fs1 & fs2 & refs & S2 & IC & IV & HKo & AP & TE & LR). exists pl', fs, ip, fs1. split; auto. split; auto. split; auto.
  intros GM1 k t text G. destruct FO as (F1 & F2 & F2' & F3 & F4 & F5 & F6). destruct (parents_spec _ _ _ _ _ GM1 (F2 fs1) (F2' fs1) AP) as (GM2 & Q1 & _).
  destruct (layer_refs _ _ _ _ _ _ F6 (F5 fs2) TE LR) as [_ L2]. apply Q1 in G as G2. rewrite good_iff in GM2. destruct (proj2 GM2 _ _ G2) as (E & C & _).
  apply get_key_in in G2. destruct (L2 _ _ G2) as (fr & e & Ie & T & W). exists e. split; auto. unfold tar_entry in T. destruct (ref_header (mem_reg k 420 t text)) as [h|] eqn:Hh; [|discriminate].
  apply (f_equal (fun x => match x with Some y => (th_type y, th_mode y) | None => (th_type h, th_mode h) end)) in Hh. assert (TH : TypeReg = th_type h) by exact (f_equal fst Hh). assert (MH : 420%Z = th_mode h) by exact (f_equal snd Hh). apply some_eq in T. subst fr.
  destruct (written_fields _ _ _ _ W eq_refl) as (NM & TY & SZ & MO & _ & _ & _ & _ & CT). cbn [fr_name fr_content th_type th_size th_mode owned with_name] in NM, TY, SZ, MO, CT.
  rewrite <- TH in *. split; [rewrite NM; exact C|]. split; auto. split; [now rewrite MO|]. destruct CT as [CT _]. cbn in CT. congruence.
Qed.
Theorem requested_installed o space range sort algo installer url comment fuel pl pl' min mx wh l :
  fair o -> pyc_outputs o -> (forall m, Permutation (range m) m) -> sorts sort ->
  (forall t fs info, o_hook o t fs info = run_hooks [requested_hook comment; record_hook space (o_digest o) range sort algo installer url] t fs info) ->
  sanitize pl = Some pl' -> inner_scheme (pl_scheme pl') -> inner_names wh -> never_nested (pl_scheme pl') wh ->
  install_wheel o fuel pl min mx wh = IOk l ->
  exists info root, info_of wh info /\ root_of (pl_scheme pl') root /\
  let base := join $"/" (clean_comps root) in
  exists e e0 rows row, In e l /\ th_name (fst e) = join $"/" (clean_comps root ++ [info; $"REQUESTED"]) /\ th_type (fst e) = TypeReg /\ th_mode (fst e) = 420%Z /\ marker comment (snd e) /\
  In e0 l /\ th_name (fst e0) = join $"/" (clean_comps root ++ [info; $"RECORD"]) /\ th_type (fst e0) = TypeReg /\ rfc4180 (snd e0) = Some (map (map crlf) rows) /\
  only_row rows base (th_name (fst e)) row /\ right_row (o_digest o) (hash_used algo) base e row.
Proof.
  intros FO PO HR HSo HK SA HS HN NN H. destruct (installed_mem _ _ _ _ _ _ _ FO H) as (pl2 & fs & ip & fs1 & SA2 & IV & HKo & M). assert (pl2 = pl') by congruence. subst pl2.
  destruct (vfs_places _ _ _ _ _ _ _ FO HS HN NN IV) as (info & root & IO & RO & RD & DI & EI & ND & PL). assert (HI := vfs_input _ _ _ _ _ _ _ FO PO HS HN NN IV).
  rewrite HK in HKo. set (t := max_time o wh mx) in *. assert (HKo' := HKo). rewrite run_two, requested_is in HKo'.
  destruct (requested_recorded _ _ _ _ _ _ _ _ _ _ _ _ HR HSo HI HKo) as (text & record & rows & name & MK & PF & PR & CSV & N & OR).
  assert (GQ := record_requested _ _ _ _ _ _ _ _ _ _ _ _ HR HSo HI HKo'). assert (HI2 := requested_keeps comment t fs ip HI). destruct HI as (II & CI & _). 
  assert (GM1 : good_map fs1) by (eapply record_keeps; [exact HKo'|exact CI|apply II|apply HI2]).
  destruct (root_inner _ _ _ _ _ HS RD) as (_ & NR0 & PR0). destruct (info_plain _ _ HN DI) as [PI _].
  assert (PIP : plain_path (clean_comps root ++ [info])) by (apply Forall_app; split; auto).
  destruct (inner_join _ PIP (snoc_ne _ _)) as [_ CC]. rewrite <- EI in CC.
  assert (EB : parent ip = join $"/" (clean_comps root)) by (unfold parent; now rewrite CC, removelast_last).
  assert (ER : forall n, in_info ip n = join $"/" (clean_comps root ++ [info; n])) by (intros n; unfold in_info; now rewrite CC, <- app_assoc).
  destruct (M GM1 _ _ _ GQ) as (e & Ie & Ne & Te & Me & Ce).
  assert (GR : get_key (in_info ip $"RECORD") fs1 = Some (mem_reg (in_info ip $"RECORD") 420 t record)).
  { destruct PR as (r0 & Gr & _ & _ & _ & _ & Cr). rewrite hook_is in HKo'. cbv zeta in HKo'. destruct (negb _); [discriminate|]. destruct (all_rows _ _ _ _) as [rows'|]; [|discriminate]. apply some_eq in HKo'. rewrite <- HKo' in Gr |- *. rewrite put_get in Gr |- * by auto.
    rewrite str_eqb_refl in *. apply some_eq in Gr. subst r0. cbn [mem_reg ref_content m_content] in Cr. injection Cr as ->. reflexivity. }
  destruct (M GM1 _ _ _ GR) as (e0 & Ie0 & Ne0 & Te0 & _ & Ce0).
  assert (TX : text = marked comment). { destruct PF as (r & G & _ & _ & _ & _ & C). rewrite GQ in G. injection G as <-. cbn in C. congruence. }
  exists info, root. split; auto. split; auto. cbv zeta. exists e, e0, rows, [name; hash_used algo ++ $"=" ++ o_digest o (hash_used algo) text; itoa (Z.of_nat (length text))].
  rewrite Ne, Ne0, Ce, Ce0, <- EB, !ER. rewrite ER in N, OR. split; auto. split; auto. split; auto. split; auto. split; [apply marked_ok|]. split; auto. split; auto. split; auto. split; auto. split; auto.
  exists name. rewrite Ce, Ne, ER. eexists _, _. split; [reflexivity|]. split; auto.
  rewrite (not_pyc ip name (parent ip)); auto; [rewrite TX; auto| |now rewrite ER]. rewrite EB, clean_comps_abs by auto. now rewrite CC, removelast_last.
Qed.
