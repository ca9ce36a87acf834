(** An image and its squashed layer, also with links to the root directory: Open does the same at every depth of recursion. *)
From Coq Require Import String Ascii List Bool ZArith Lia Permutation Sorted.
From Verif.Model Require Import GoStr GoPath Tar Squash VfsFS.
From Verif.Spec Require Import PathSpec SquashSpec SimpleAPISpec VfsFSSpec LookPathSpec OverlaySpec SquashOpenSpec DanglingSpec.
From Verif.Proofs Require Import Order GoStrFacts GoPathFacts SquashTree SquashLoad SquashSim SquashStack SquashWf SquashInv SquashFinal SquashMore SquashLinks SquashCheck SquashHard SquashCreate SquashBack VfsFSFacts VfsImage LookPathFacts VfsThrough NamesThrough VfsDangling SquashOpen.
Import ListNotations.
Local Open Scope nat_scope.

Definition text_comps (l : str) : list str := split_on slash (if is_abs (clean l) then skipn 1 (clean l) else clean l).
Lemma quiet_text l : unmarked (clean_comps l) -> unmarked (text_comps l).
Proof.
  intros Q. unfold text_comps. pose proof (clean_comps_list l) as C. pose proof (clean_list_no_slash _ _ C) as NS. rewrite clean_text, is_abs_text by exact C.
  destruct (is_abs l).
  - change (unmarked (split_on slash (join $"/" (clean_comps l)))). rewrite split_on_join_nil by exact NS. destruct (clean_comps l); [repeat constructor|exact Q].
  - destruct (clean_comps l) as [|c cs]; [repeat constructor|]. change (unmarked (split_on slash (join [slash] (c :: cs)))). rewrite split_on_join; [exact Q|discriminate|exact NS].
Qed.

Section sim.
  Context (t u : tree) (SB : sub (view_of t) (view_of u)).
  Context (QL : forall q h, unmarked q -> header_at t q = Some h -> th_type h = TypeSymlink -> unmarked (clean_comps (th_link h))).
  Lemma quiet_same q : unmarked q -> na (view_of u q) = na (view_of t q).
  Proof.
    intros Q. destruct (SB q) as [H|[_ H]]; auto. exfalso. apply redv_mark in H as (d & k & -> & M & _). apply Forall_app in Q as [_ Q]. inversion Q; congruence.
  Qed.
  Lemma quiet_hdr q : unmarked q -> option_map anon (header_at t q) = option_map anon (header_at u q).
  Proof. intros Q. rewrite !header_view. symmetry. apply na_hdr. now apply quiet_same. Qed.
  Lemma quiet_link q : unmarked q -> Squash.link_of (header_at t q) = Squash.link_of (header_at u q).
  Proof. intros Q. apply na_link. now apply quiet_hdr. Qed.
  Lemma quiet_nd q : unmarked q -> non_dir (header_at t q) = non_dir (header_at u q).
  Proof. intros Q. apply na_non_dir. now apply quiet_hdr. Qed.
  Lemma quiet_sub q : unmarked q -> match subtree t q, subtree u q with Some _, Some _ | None, None => True | _, _ => False end.
  Proof. intros Q. pose proof (quiet_same q Q) as H. unfold view_of in H. destruct (subtree t q), (subtree u q); cbn in H; auto; discriminate. Qed.
  Lemma quiet_body q : unmarked q -> option_map t_body (subtree t q) = option_map t_body (subtree u q).
  Proof. intros Q. pose proof (quiet_same q Q) as H. unfold view_of in H. destruct (subtree t q), (subtree u q); cbn in H |- *; congruence. Qed.
  Lemma quiet_target q l : unmarked q -> Squash.link_of (header_at t q) = Some l -> unmarked (text_comps l).
  Proof.
    intros Q L. apply quiet_text. unfold Squash.link_of in L. destruct (header_at t q) as [h|] eqn:H; [|discriminate]. destruct (byte_eqb (th_type h) TypeSymlink) eqn:T; [|discriminate].
    injection L as <-. apply byte_eqb_eq in T. eapply QL; eauto.
  Qed.
  Definition both (a b : run (tree * pos)) : Prop :=
    match a, b with
    | Ret (t1, p), Ret (u1, q) => t1 = t /\ u1 = u /\ p = q /\ unmarked p
    | Fail x, Fail y => x = y
    | OutOfFuel, OutOfFuel => True
    | _, _ => False
    end.
  Lemma both_bind a b k k' : both a b -> (forall p, unmarked p -> both (k (t, p)) (k' (u, p))) -> both (bind a k) (bind b k').
  Proof. intros H K. destruct a as [[t1 p]| |], b as [[u1 q]| |]; cbn [both bind] in *; try contradiction; auto. destruct H as (-> & -> & -> & Q). now apply K. Qed.
  Lemma quiet_parent p : unmarked p -> unmarked (parent p).
  Proof. intros Q. unfold parent. destruct p as [|x p _] using rev_ind; [constructor|]. rewrite removelast_last. now apply Forall_app in Q. Qed.
  Lemma get_both n :
    (forall f key follow, unmarked f -> marker_name key = false -> both (get n t f key false follow) (get n u f key false follow)) /\
    (forall f stack, unmarked f -> both (resolve n t f false stack) (resolve n u f false stack)) /\
    (forall f l follow, unmarked f -> unmarked (text_comps l) -> both (fs_get n t f l false follow) (fs_get n u f l false follow)).
  Proof.
    induction n as [|n (IG & IR & IF)]; [repeat split; intros; exact Logic.I|]. split; [|split].
    - intros f key follow Q M. cbn [get].
      assert (FIN : forall p, unmarked p -> both (if follow then resolve n (fst (t, p)) (snd (t, p)) false [] else Ret (t, p)) (if follow then resolve n (fst (u, p)) (snd (u, p)) false [] else Ret (u, p))).
      { intros p Qp. destruct follow; [now apply IR|]. cbn [both]. auto. }
      destruct (str_eqb key $".."); [apply FIN; now apply quiet_parent|]. destruct (str_eqb key $"."); [now apply FIN|].
      apply both_bind.
      + rewrite <- (quiet_link f Q). destruct (Squash.link_of (header_at t f)) as [l|] eqn:L; [|cbn [both]; auto]. apply IF; [now apply quiet_parent|now apply (quiet_target f)].
      + intros p Qp. rewrite <- (quiet_nd p Qp). destruct (non_dir (header_at t p)); [reflexivity|]. cbn [bind].
        assert (Qk : unmarked (p ++ [key])) by (apply Forall_app; split; auto). pose proof (quiet_sub _ Qk) as S. destruct (subtree t (p ++ [key])), (subtree u (p ++ [key])); try contradiction; [now apply FIN|reflexivity].
    - intros f stack Q. cbn [resolve]. rewrite <- (quiet_link f Q). destruct (Squash.link_of (header_at t f)) as [l|] eqn:L; [|cbn [both]; auto].
      destruct (existsb _ stack); [reflexivity|]. apply both_bind; [apply IF; [now apply quiet_parent|now apply (quiet_target f)]|]. intros p Qp. now apply IR.
    - intros f l follow Q QT. rewrite !fs_get_S. change (unmarked (text_comps l)) in QT. unfold text_comps in QT. revert QT. generalize (split_on slash (if is_abs (clean l) then skipn 1 (clean l) else clean l)) as comps.
      assert (QD : unmarked (if is_abs (clean l) then [] else f)) by (destruct (is_abs (clean l)); [constructor|exact Q]). revert QD. generalize (if is_abs (clean l) then [] else f) as d.
      intros d QD comps. revert d QD. induction comps as [|c comps IH]; intros d QD QT; [cbn [crawl both]; auto|]. inversion QT as [|? ? Mc QT']; subst.
      destruct comps as [|c' comps]; [cbn [crawl]; now apply IG|]. cbn [crawl]. apply both_bind; [now apply IG|]. intros p Qp. now apply IH.
  Qed.
  Lemma open_both utf8 n name : unmarked (text_comps name) ->
    open utf8 n t name = open utf8 n u name /\ forall q e, open utf8 n t name = Ret (q, e) -> unmarked q /\ unmarked e.
  Proof.
    intros Q. unfold open. destruct (valid_path utf8 name); cbn [negb]; [|split; [reflexivity|discriminate]].
    pose proof (proj2 (proj2 (get_both n)) [] name false ltac:(constructor) Q) as B. destruct (fs_get n t [] name false false) as [[t1 p]| |], (fs_get n u [] name false false) as [[u1 q]| |]; cbn [both bind] in *; try contradiction; try (split; [congruence|discriminate]).
    destruct B as (-> & -> & -> & Qp). pose proof (proj1 (get_both n) q dot true Qp ltac:(reflexivity)) as B.
    destruct (get n t q dot false true) as [[t1 p]| |], (get n u q dot false true) as [[u1 p']| |]; cbn [both bind] in *; try contradiction; try (split; [congruence|discriminate]).
    destruct B as (-> & -> & -> & Qe). split; auto. intros a b E. now injection E as <- <-.
  Qed.
End sim.
Lemma links_unmarked layers t : plain_stack layers -> load_layers 4 false layers = Ret t ->
  (forall p h c, unpack empty_root layers p = Some (FFile h c) -> th_type h = TypeSymlink -> unmarked (clean_comps (th_link h))) ->
  forall q h, unmarked q -> header_at t q = Some h -> th_type h = TypeSymlink -> unmarked (clean_comps (th_link h)).
Proof.
  intros P E K q h Q H T. destruct (load_image layers P) as (t0 & L & AG & WT & WV & LF & NK). assert (t0 = t) as -> by (rewrite L in E by lia; congruence).
  assert (V : exists b, view_of t q = Some (Some h, b)). { rewrite header_view in H. unfold hdr_of in H. destruct (view_of t q) as [[o b]|]; [|discriminate]. cbn [fst] in H. subst o. eauto. }
  destruct V as [b V]. assert (R : real_path q).
  { destruct (w_shape _ WV _ _ V) as [R|[(d & k & X & _ & KK) _]]; auto. exfalso. subst q. apply Forall_app in Q as [_ Q]. inversion Q as [|? ? M _]; subst.
    destruct KK as [->|(x & -> & _)]; [discriminate|]. rewrite wh_marker in M. discriminate. }
  destruct (unpack empty_root layers q) as [[m|h' c]|] eqn:F.
  - destruct (conv_dir _ t (image_real layers P) AG q m F) as [_ D]. rewrite H in D. cbn [non_dir] in D. rewrite T in D. discriminate.
  - destruct (conv_file _ t (image_real layers P) AG q h' c F) as (h2 & V2 & A). assert (h2 = h) as -> by congruence. subst h'. apply (K q (anon h) c F). exact T.
  - exfalso. apply (view_there layers t AG q R); congruence.
Qed.
Theorem squash_opens_any n sort order layers layers' out : sorts sort -> permutes order -> Forall (Forall in_root) layers -> plain_stack layers' ->
  (forall p h c, unpack empty_root layers' p = Some (FFile h c) -> th_type h = TypeSymlink -> unmarked (clean_comps (th_link h))) ->
  all_at_target empty_root (all_entries layers) (all_entries layers') -> squash n sort order layers = Ret out ->
  exists N t t', (forall k, N <= k -> load_layers k false layers = Ret t /\ load_layers k false [out] = Ret t') /\
    forall utf8 k name, unmarked (clean_comps name) -> open utf8 k t name = open utf8 k t' name /\
      (forall q e, open utf8 k t name = Ret (q, e) -> alike_stat (stat t q e) (stat t' q e)) /\
      forall ord ord' f f' h, open_file utf8 k ord t name = Ret f -> open_file utf8 k ord' t' name = Ret f' ->
        hd_header f = Some h -> th_type h <> TypeDir -> (th_size h <= Z.of_nat (length (hd_body f)))%Z ->
        exists content, forall srt programs c, (reachable srt f programs c -> reads_file content false (c_log c)) /\ (reachable srt f' programs c -> reads_file content false (c_log c)).
Proof.
  intros HS HO I P K A E. destruct (through_out n sort order layers layers' out HS HO I P A E) as [m E'].
  destruct (load_links layers layers' I P A) as (N1 & t & t2 & S & H). destruct (squash_plain m sort order layers' out E' P) as (t1 & L1 & WT & WV & LF & Eo).
  assert (t1 = t2) as ->.
  { destruct (H (N1 + (4 + m)) ltac:(lia)) as [_ H2]. rewrite (more_fuel_load (4 + m) (N1 + (4 + m)) false layers' (Ret t1) L1) in H2; [congruence|discriminate|lia]. }
  destruct (reload_sub sort order HS HO t2 WT WV LF 0) as (t' & L' & _ & _ & _ & SB & _). rewrite <- Eo in L'.
  destruct (load_image layers' P) as (t0 & L0 & _). assert (L4 : load_layers 4 false layers' = Ret t2).
  { rewrite L0 by lia. rewrite L0 in L1 by lia. exact L1. }
  pose proof (links_unmarked layers' t2 P L4 K) as QL. exists (N1 + 4), t, t'. split.
  { intros k LE. split; [apply H; lia|]. apply (more_fuel_load 4 k false [out] (Ret t') L'); [discriminate|lia]. }
  intros utf8 k name Q. rewrite (open_strip utf8 k t t2 name S). destruct (open_both t2 t' SB QL utf8 k name (quiet_text name Q)) as [O OQ]. split; [exact O|split].
  2:{ intros ord ord' f f' h X Y HH T SZ. unfold open_file in X, Y. rewrite (open_strip utf8 k t t2 name S) in X. rewrite <- O in Y. destruct (open utf8 k t2 name) as [[q e]| |] eqn:OO; try discriminate. cbn [bind] in X, Y.
      destruct (OQ q e eq_refl) as [_ Qe]. unfold handle_at in X, Y.
      destruct (build k t e (ord (keys_at t e)) []) as [b| |]; cbn [bind] in X; try discriminate. destruct (build k t' e (ord' (keys_at t' e)) []) as [b'| |]; cbn [bind] in Y; try discriminate.
      pose proof (quiet_hdr t2 t' SB e Qe) as He. rewrite <- (header_same t t2 e S) in He. pose proof (quiet_body t2 t' SB e Qe) as Be. rewrite <- (body_same t t2 e S) in Be.
      assert (F : f = mkHandle (header_at t e) (match subtree t e with Some s => t_body s | None => [] end) b) by congruence.
      assert (F' : f' = mkHandle (header_at t' e) (match subtree t' e with Some s => t_body s | None => [] end) b') by congruence. clear X Y.
      assert (BB : hd_body f' = hd_body f). { subst f f'. cbn [hd_body]. destruct (subtree t e), (subtree t' e); cbn [option_map] in Be; congruence. }
      assert (HH0 : header_at t e = Some h) by (subst f; exact HH). rewrite HH0 in He. cbn [option_map] in He.
      destruct (header_at t' e) as [h'|] eqn:HH1; [|discriminate]. cbn [option_map] in He. assert (Z : anon h' = anon h) by congruence.
      exists (hd_body f). intros srt programs c. split; intros R.
      - apply (reads_file_any srt f programs c h R); auto.
      - rewrite <- BB. apply (reads_file_any srt f' programs c h' R).
        + subst f'. reflexivity.
        + change (th_type h') with (th_type (anon h')). rewrite Z. exact T.
        + rewrite BB. change (th_size h') with (th_size (anon h')). rewrite Z. exact SZ. }
  intros q e X. destruct (OQ q e X) as [Qq Qe]. pose proof (quiet_hdr t2 t' SB q Qq) as Hq. pose proof (quiet_hdr t2 t' SB e Qe) as He. rewrite <- (header_same t t2 q S) in Hq. rewrite <- (header_same t t2 e S) in He.
  unfold alike_stat, stat. destruct (header_at t e) as [a|], (header_at t' e) as [a'|]; cbn [option_map] in He; try discriminate; auto.
  destruct (header_at t q) as [b|], (header_at t' q) as [b'|]; cbn [option_map] in Hq; try discriminate; auto. assert (Z : anon a = anon a') by congruence. exact Z.
Qed.
Lemma links_checked layers : forallb (forallb (fun e => negb (is_link e) || forallb (fun x => negb (marker_name x)) (clean_comps (th_link (fst e))))) layers = true ->
  forall p h c, unpack empty_root layers p = Some (FFile h c) -> th_type h = TypeSymlink -> unmarked (clean_comps (th_link h)).
Proof.
  intros L. apply fine_layers.
  - apply Forall_forall. intros l I. rewrite forallb_forall in L. specialize (L l I). rewrite forallb_forall in L. apply Forall_forall. intros e J K. specialize (L e J). rewrite K in L. cbn [negb orb] in L.
    rewrite forallb_forall in L. apply Forall_forall. intros x X. specialize (L x X). now apply negb_true_iff in L.
  - intros p h c E. unfold empty_root in E. destruct p; discriminate.
Qed.

(** *** listings *)
Lemma build_gets n t d keys : forall acc r, build n t d keys acc = Ret (r, None) -> forall k, In k keys -> marker_name k = false -> exists x, get n t (d ++ [k]) dot false true = Ret x.
Proof.
  induction keys as [|k keys IH]; [intros acc r B k' []|]. intros acc r B k' [<-|J] M; cbn [build] in B; change (has_prefix wh_prefix k) with (marker_name k) in B.
  - rewrite M in B. destruct (get n t (d ++ [k]) dot false true); try discriminate. eauto.
  - destruct (marker_name k); [now apply (IH acc r B)|]. destruct (get n t (d ++ [k]) dot false true); try discriminate. eapply IH; eauto.
Qed.
Lemma gets_build n t d keys : (forall k, In k keys -> marker_name k = false -> exists x, get n t (d ++ [k]) dot false true = Ret x) ->
  forall acc, build n t d keys acc = Ret (acc ++ map (shown t d) (filter (fun k => negb (marker_name k)) keys), None).
Proof.
  induction keys as [|k keys IH]; intros G acc; cbn [build filter map]; [now rewrite app_nil_r|]. change (has_prefix wh_prefix k) with (marker_name k).
  assert (G' : forall k', In k' keys -> marker_name k' = false -> exists x, get n t (d ++ [k']) dot false true = Ret x) by (intros k' J; apply G; now right).
  destruct (marker_name k) eqn:M; cbn [negb map]; [now apply IH|]. destruct (G k (or_introl eq_refl) M) as [x ->]. fold (shown t d k). etransitivity; [apply (IH G')|]. now rewrite <- app_assoc.
Qed.
Lemma keys_once t d : wf any ok_key t -> NoDup (keys_at t d).
Proof.
  intros WT. unfold keys_at. destruct (subtree t d) as [s|] eqn:S; [|constructor]. apply (wf_sub _ _ t d s WT) in S. now apply wf_parts in S.
Qed.
Lemma sorted_shown srt t d ks : sorts srt -> NoDup ks -> (forall k, In k ks -> fst (shown t d k) = k) ->
  let l := srt (fun i j => str_ltb (fst i) (fst j)) (map (shown t d) ks) in
  StronglySorted (fun a b => str_compare a b = Lt) (map fst l) /\ (forall x, In x (map fst l) <-> In x ks) /\ forall x h, In (x, h) l -> h = header_at t (d ++ [x]).
Proof.
  intros HS ND N l. set (lt := fun i j : dirent => str_ltb (fst i) (fst j)) in *. destruct (HS lt (map (shown t d) ks)) as [PM ST]. fold l in PM, ST.
  assert (F : map fst (map (shown t d) ks) = ks) by (rewrite map_map; rewrite <- (map_id ks) at 2; now apply map_ext_in).
  assert (SW : strict_weak lt (map (shown t d) ks)).
  { split.
    - intros a b _ _ L. apply str_ltb_lt in L. destruct (str_ltb (fst b) (fst a)) eqn:L'; auto. apply str_ltb_lt in L'. rewrite (ok_anti _ str_compare_ok), L in L'. discriminate.
    - intros a b c _ _ _ L. apply str_ltb_lt in L. unfold lt. rewrite !str_ltb_lt. destruct (str_compare (fst a) (fst c)) eqn:C; auto.
      + apply str_compare_eq in C. right. now rewrite <- C.
      + right. eapply (Order.ok_lt _ str_compare_ok); [|exact L]. now rewrite (ok_anti _ str_compare_ok), C. }
  specialize (ST SW). split; [|split].
  - apply sorted_names. apply sorted_strict; [|exact ST]. eapply Permutation_NoDup; [apply Permutation_map, Permutation_sym, PM|]. now rewrite F.
  - intros x. transitivity (In x (map fst (map (shown t d) ks))); [|now rewrite F]. split; apply Permutation_in; [|apply Permutation_sym]; now apply Permutation_map.
  - intros x h J. apply (Permutation_in _ PM) in J. apply in_map_iff in J as (k & X & J). pose proof (N k J) as Nk. rewrite X in Nk. cbn [fst] in Nk. subst k.
    unfold shown in X. destruct (header_at t (d ++ [x])); congruence.
Qed.
Theorem squash_lists_any n sort order layers layers' out : sorts sort -> permutes order -> Forall (Forall in_root) layers -> plain_stack layers' ->
  (forall p h c, unpack empty_root layers' p = Some (FFile h c) -> th_type h = TypeSymlink -> unmarked (clean_comps (th_link h))) ->
  all_at_target empty_root (all_entries layers) (all_entries layers') -> squash n sort order layers = Ret out ->
  exists N t t', (forall k, N <= k -> load_layers k false layers = Ret t /\ load_layers k false [out] = Ret t') /\
    forall srt ord ord' utf8 k name f acc, sorts srt -> (forall l, Permutation (ord l) l) -> (forall l, Permutation (ord' l) l) -> unmarked (clean_comps name) ->
      open_file utf8 k ord t name = Ret f -> non_dir (hd_header f) = false -> hd_built f = (acc, None) ->
      exists f' l l', open_file utf8 k ord' t' name = Ret f' /\ map fst l' = map fst l /\
        (forall x h h', In (x, h) l -> In (x, h') l' -> option_map anon h = option_map anon h') /\
        (forall programs c, reachable srt f programs c -> reads_dir l false (c_log c)) /\ (forall programs c, reachable srt f' programs c -> reads_dir l' false (c_log c)).
Proof.
  intros HS HO I P K A E. destruct (through_out n sort order layers layers' out HS HO I P A E) as [m E'].
  destruct (squashed_same m sort order layers' out HS HO P E') as [PO _].
  assert (IR : Forall (Forall in_root) [out]) by (constructor; [apply Forall_forall; intros z Z; exact (proj1 (squash_in_root (4 + m) sort order layers' out HS HO E' z Z))|constructor]).
  assert (AT : all_at_target empty_root (all_entries [out]) (all_entries [out])) by (apply aat_same, good_all, PO).
  destruct (load_links layers layers' I P A) as (N1 & t & t2 & S & H). destruct (squash_plain m sort order layers' out E' P) as (t1 & L1 & WT & WV & LF & Eo).
  assert (t1 = t2) as ->.
  { destruct (H (N1 + (4 + m)) ltac:(lia)) as [_ H2]. rewrite (more_fuel_load (4 + m) (N1 + (4 + m)) false layers' (Ret t1) L1) in H2; [congruence|discriminate|lia]. }
  destruct (reload_sub sort order HS HO t2 WT WV LF 0) as (t' & L' & WT' & _ & _ & SB & _). rewrite <- Eo in L'.
  destruct (load_image layers' P) as (t0 & L0 & _). assert (L4 : load_layers 4 false layers' = Ret t2).
  { rewrite L0 by lia. rewrite L0 in L1 by lia. exact L1. }
  pose proof (links_unmarked layers' t2 P L4 K) as QL.
  pose proof (loaded_keyed layers layers' I P A _ _ (proj1 (H N1 ltac:(lia)))) as KT. pose proof (loaded_keyed [out] [out] IR PO AT _ _ L') as KT'.
  exists (N1 + 4), t, t'. split.
  { intros k LE. split; [apply H; lia|]. apply (more_fuel_load 4 k false [out] (Ret t') L'); [discriminate|lia]. }
  intros srt ord ord' utf8 k name f acc HS' PO1 PO2 Q X ND HB. destruct (open_both t2 t' SB QL utf8 k name (quiet_text name Q)) as [O OQ].
  unfold open_file in X. rewrite (open_strip utf8 k t t2 name S) in X. destruct (open utf8 k t2 name) as [[q e]| |] eqn:OO; try discriminate. cbn [bind] in X. destruct (OQ q e eq_refl) as [_ Qe].
  unfold handle_at in X. destruct (build k t e (ord (keys_at t e)) []) as [b| |] eqn:B; cbn [bind] in X; try discriminate.
  assert (F : f = mkHandle (header_at t e) (match subtree t e with Some s => t_body s | None => [] end) b) by congruence. clear X.
  assert (b = (acc, None)) as -> by (subst f; exact HB).
  pose proof (build_gets k t e _ _ _ B) as G. pose proof (gets_build k t e _ G []) as B2. rewrite B in B2. cbn [app] in B2.
  set (ks := filter (fun k => negb (marker_name k)) (ord (keys_at t e))) in *. set (ks' := filter (fun k => negb (marker_name k)) (ord' (keys_at t' e))).
  assert (AC : acc = map (shown t e) ks) by congruence.
  assert (Qk : forall x, marker_name x = false -> unmarked (e ++ [x])) by (intros x M; apply Forall_app; split; auto).
  assert (KK : forall x, marker_name x = false -> (In x (keys_at t e) <-> In x (keys_at t' e))).
  { intros x M. rewrite (keys_same t t2 e S), !keys_view. pose proof (quiet_sub t2 t' SB _ (Qk x M)) as Z. unfold view_of. destruct (subtree t2 (e ++ [x])), (subtree t' (e ++ [x])); try contradiction; cbn [option_map]; split; congruence. }
  assert (IN : forall x, In x ks <-> In x ks').
  { intros x. unfold ks, ks'. rewrite !filter_In. split; intros [J M]; split; auto.
    - apply (Permutation_in _ (Permutation_sym (PO2 _))). apply KK; [now apply negb_true_iff|]. now apply (Permutation_in _ (PO1 _)).
    - apply (Permutation_in _ (Permutation_sym (PO1 _))). apply KK; [now apply negb_true_iff|]. now apply (Permutation_in _ (PO2 _)). }
  assert (G' : forall x, In x (ord' (keys_at t' e)) -> marker_name x = false -> exists y, get k t' (e ++ [x]) dot false true = Ret y).
  { intros x J M. assert (J' : In x (ord (keys_at t e))) by (apply (Permutation_in _ (Permutation_sym (PO1 _))), KK; auto; now apply (Permutation_in _ (PO2 _))).
    destruct (G x J' M) as [y Y]. pose proof (get_same k t t2 (e ++ [x]) dot false true S) as Z. pose proof (proj1 (get_both t2 t' SB QL k) (e ++ [x]) dot true (Qk x M) ltac:(reflexivity)) as Z'. rewrite Y in Z.
    destruct (get k t2 (e ++ [x]) dot false true) as [[? ?]| |]; try contradiction.
    destruct (get k t' (e ++ [x]) dot false true) as [[? ?]| |]; cbn [both] in Z'; try contradiction. eauto. }
  pose proof (gets_build k t' e _ G' []) as B'. cbn [app] in B'. fold ks' in B'.
  assert (NM : forall x, In x ks -> fst (shown t e x) = x).
  { intros x J. unfold shown. destruct (header_at t (e ++ [x])) as [h|] eqn:X; [|reflexivity]. cbn [fst]. apply (proj2 (KT e x h X)). intros ->. apply filter_In in J as [_ J]. discriminate J. }
  assert (NM' : forall x, In x ks' -> fst (shown t' e x) = x).
  { intros x J. unfold shown. destruct (header_at t' (e ++ [x])) as [h|] eqn:X; [|reflexivity]. cbn [fst]. apply (proj2 (KT' e x h X)). intros ->. apply filter_In in J as [_ J]. discriminate J. }
  assert (ON : NoDup ks). { apply NoDup_filter. eapply Permutation_NoDup; [apply Permutation_sym, PO1|]. rewrite (keys_same t t2 e S). now apply keys_once. }
  assert (ON' : NoDup ks'). { apply NoDup_filter. eapply Permutation_NoDup; [apply Permutation_sym, PO2|]. now apply keys_once. }
  destruct (sorted_shown srt t e ks HS' ON NM) as (S1 & S2 & S3). destruct (sorted_shown srt t' e ks' HS' ON' NM') as (S1' & S2' & S3').
  exists (mkHandle (header_at t' e) (match subtree t' e with Some s => t_body s | None => [] end) (map (shown t' e) ks', None)), (srt (fun i j => str_ltb (fst i) (fst j)) (map (shown t e) ks)), (srt (fun i j => str_ltb (fst i) (fst j)) (map (shown t' e) ks')).
  split; [|split; [|split; [|split]]].
  - unfold open_file. rewrite <- O. cbn [bind]. unfold handle_at. rewrite B'. reflexivity.
  - apply sorted_eq; auto. intros x. rewrite S2, S2'. symmetry. apply IN.
  - intros x h h' J J'. rewrite (S3 x h J), (S3' x h' J'). rewrite (header_same t t2 _ S). apply (quiet_hdr t2 t' SB). apply Qk.
    apply (in_map fst), S2 in J. apply filter_In in J as [_ J]. now apply negb_true_iff.
  - intros programs c R. apply (reads_dir_any srt f programs c (map (shown t e) ks) R ND). congruence.
  - intros programs c R. apply (reads_dir_any srt _ programs c (map (shown t' e) ks') R); [|reflexivity]. cbn [hd_header]. rewrite <- (quiet_nd t2 t' SB e Qe).
    rewrite <- (na_non_dir _ _ (header_same t t2 e S)). subst f. exact ND.
Qed.
Theorem squash_fails_any n sort order layers layers' out : sorts sort -> permutes order -> Forall (Forall in_root) layers -> plain_stack layers' ->
  (forall p h c, unpack empty_root layers' p = Some (FFile h c) -> th_type h = TypeSymlink -> unmarked (clean_comps (th_link h))) ->
  all_at_target empty_root (all_entries layers) (all_entries layers') -> squash n sort order layers = Ret out ->
  exists N t t', (forall k, N <= k -> load_layers k false layers = Ret t /\ load_layers k false [out] = Ret t') /\
    forall srt ord ord' utf8 k name f f' acc er, (forall l, Permutation (ord l) l) -> (forall l, Permutation (ord' l) l) -> unmarked (clean_comps name) ->
      open_file utf8 k ord t name = Ret f -> open_file utf8 k ord' t' name = Ret f' -> non_dir (hd_header f) = false -> hd_built f = (acc, Some er) ->
      exists er' l l', (forall programs c, reachable srt f programs c -> fails_first er l false (c_log c)) /\ (forall programs c, reachable srt f' programs c -> fails_first er' l' false (c_log c)).
Proof.
  intros HS HO I P K A E. destruct (through_out n sort order layers layers' out HS HO I P A E) as [m E'].
  destruct (load_links layers layers' I P A) as (N1 & t & t2 & S & H). destruct (squash_plain m sort order layers' out E' P) as (t1 & L1 & WT & WV & LF & Eo).
  assert (t1 = t2) as ->.
  { destruct (H (N1 + (4 + m)) ltac:(lia)) as [_ H2]. rewrite (more_fuel_load (4 + m) (N1 + (4 + m)) false layers' (Ret t1) L1) in H2; [congruence|discriminate|lia]. }
  destruct (reload_sub sort order HS HO t2 WT WV LF 0) as (t' & L' & _ & _ & _ & SB & _). rewrite <- Eo in L'.
  destruct (load_image layers' P) as (t0 & L0 & _). assert (L4 : load_layers 4 false layers' = Ret t2).
  { rewrite L0 by lia. rewrite L0 in L1 by lia. exact L1. }
  pose proof (links_unmarked layers' t2 P L4 K) as QL. exists (N1 + 4), t, t'. split.
  { intros k LE. split; [apply H; lia|]. apply (more_fuel_load 4 k false [out] (Ret t') L'); [discriminate|lia]. }
  intros srt ord ord' utf8 k name f f' acc er PO1 PO2 Q X Y ND HB. destruct (open_both t2 t' SB QL utf8 k name (quiet_text name Q)) as [O OQ].
  unfold open_file in X, Y. rewrite (open_strip utf8 k t t2 name S) in X. rewrite <- O in Y. destruct (open utf8 k t2 name) as [[q e]| |] eqn:OO; try discriminate. cbn [bind] in X, Y. destruct (OQ q e eq_refl) as [_ Qe].
  unfold handle_at in X, Y. destruct (build k t e (ord (keys_at t e)) []) as [b| |] eqn:B; cbn [bind] in X; try discriminate.
  destruct (build k t' e (ord' (keys_at t' e)) []) as [[acc' r']| |] eqn:B'; cbn [bind] in Y; try discriminate.
  assert (F : f = mkHandle (header_at t e) (match subtree t e with Some s => t_body s | None => [] end) b) by congruence.
  assert (F' : f' = mkHandle (header_at t' e) (match subtree t' e with Some s => t_body s | None => [] end) (acc', r')) by congruence. clear X Y.
  assert (b = (acc, Some er)) as -> by (subst f; exact HB).
  assert (ND' : non_dir (hd_header f') = false).
  { subst f f'. cbn [hd_header] in *. rewrite <- (quiet_nd t2 t' SB e Qe), <- (na_non_dir _ _ (header_same t t2 e S)). exact ND. }
  destruct r' as [er'|].
  - exists er', acc, acc'. split; intros programs c R.
    + now apply (fails_any srt f programs c acc er R ND).
    + apply (fails_any srt f' programs c acc' er' R ND'). subst f'. reflexivity.
  - exfalso. pose proof (build_gets k t' e _ _ _ B') as G'.
    assert (G : forall x, In x (ord (keys_at t e)) -> marker_name x = false -> exists y, get k t (e ++ [x]) dot false true = Ret y).
    { intros x J M. assert (Qk : unmarked (e ++ [x])) by (apply Forall_app; split; auto). apply (Permutation_in _ (PO1 _)) in J. rewrite (keys_same t t2 e S), keys_view in J.
      assert (J' : In x (ord' (keys_at t' e))).
      { apply (Permutation_in _ (Permutation_sym (PO2 _))). apply keys_view. pose proof (quiet_sub t2 t' SB _ Qk) as Z. unfold view_of in *. destruct (subtree t2 (e ++ [x])), (subtree t' (e ++ [x])); try contradiction; cbn [option_map] in *; congruence. }
      destruct (G' x J' M) as [y Y]. pose proof (get_same k t t2 (e ++ [x]) dot false true S) as Z. pose proof (proj1 (get_both t2 t' SB QL k) (e ++ [x]) dot true Qk ltac:(reflexivity)) as Z'. rewrite Y in Z'.
      destruct (get k t2 (e ++ [x]) dot false true) as [[? ?]| |]; cbn [both] in Z'; try (destruct y; contradiction).
      destruct (get k t (e ++ [x]) dot false true) as [[? ?]| |]; try contradiction. eauto. }
    rewrite (gets_build k t e _ G []) in B. discriminate.
Qed.
