(** An image and its squashed layer: what Load, Open, Read and ReadDir give. *)
From Coq Require Import String Ascii List Bool ZArith Lia Permutation Sorted.
From Verif.Model Require Import GoStr GoPath Tar Squash VfsFS.
From Verif.Spec Require Import PathSpec SquashSpec SimpleAPISpec VfsFSSpec TripSpec LookPathSpec OverlaySpec SquashOpenSpec DanglingSpec.
From Verif.Proofs Require Import Order GoStrFacts SquashTree SquashLoad SquashSim SquashStack SquashWf SquashInv SquashFinal SquashMore SquashLinks SquashCheck SquashHard SquashCreate SquashBack SquashSources VfsFSFacts VfsImage VfsBack VfsTrips LookPathFacts VfsThrough NamesThrough VfsDangling.
Import ListNotations.
Local Open Scope nat_scope.

(** *** file systems with the same nodes *)
Definition same_nodes (a b : fsys) : Prop := forall p,
  match a p, b p with
  | None, None => True
  | Some (FDir _), Some (FDir _) => True
  | Some (FFile h c), Some (FFile h' c') => h = h' /\ c = c'
  | _, _ => False
  end.
Lemma nodes_sym a b : same_nodes a b -> same_nodes b a.
Proof. intros H p. specialize (H p). destruct (a p) as [[]|], (b p) as [[]|]; auto. destruct H. auto. Qed.
Section same.
  Context (a b : fsys) (H : same_nodes a b).
  Lemma n_dir p m : a p = Some (FDir m) -> exists m', b p = Some (FDir m').
  Proof. intros E. specialize (H p). rewrite E in H. destruct (b p) as [[]|]; try contradiction. eauto. Qed.
  Lemma n_file p h c : a p = Some (FFile h c) -> b p = Some (FFile h c).
  Proof. intros E. specialize (H p). rewrite E in H. destruct (b p) as [[]|]; try contradiction. now destruct H as [-> ->]. Qed.
  Lemma n_some p : a p <> None -> b p <> None.
  Proof. specialize (H p). destruct (a p) as [[]|], (b p) as [[]|]; try contradiction; congruence. Qed.
  Lemma n_none p : a p = None -> b p = None.
  Proof. specialize (H p). destruct (a p) as [[]|], (b p) as [[]|]; try contradiction; congruence. Qed.
  Scheme follows_mut' := Induction for follows Sort Prop with walks_mut' := Induction for walks Sort Prop.
  Combined Scheme follows_walks_ind' from follows_mut', walks_mut'.
  Lemma n_walks : (forall p d, follows a p d -> follows b p d) /\ (forall d cs q, walks a d cs q -> walks b d cs q).
  Proof.
    apply (follows_walks_ind' a (fun p d _ => follows b p d) (fun d cs q _ => walks b d cs q)).
    - intros p m E. destruct (n_dir p m E). eapply follows_dir; eauto.
    - intros p h c q d E T _ W _ F. eapply follows_link; eauto using n_file.
    - intros d. apply walks_nil.
    - intros d cs q _ W. now apply walks_up.
    - intros d m c E P F. destruct (n_dir d m E). eapply walks_last; eauto using n_some.
    - intros d m c cs d' q E P _ F N _ W. destruct (n_dir d m E). eapply walks_down; eauto.
  Qed.
  Lemma n_ends p q : ends a p q -> ends b p q.
  Proof.
    induction 1 as [p m E|p h c E T|p h c q r E T W _ IH].
    - destruct (n_dir p m E). eapply ends_dir; eauto.
    - eapply ends_file; eauto using n_file.
    - eapply ends_link; eauto using n_file. now apply n_walks.
  Qed.
  Lemma n_hops p q : hops a p q -> hops b p q.
  Proof. intros (h & c & E & T & W). exists h, c. split; [now apply n_file|]. split; auto. now apply n_walks. Qed.
  Lemma n_trips : (forall d cs e, trips a d cs e -> trips b d cs e) /\ (forall p e, strays a p e -> strays b p e).
  Proof.
    apply (trips_strays_ind a (fun d cs e _ => trips b d cs e) (fun p e _ => strays b p e)).
    - intros d cs e _ T. now apply trips_up.
    - intros d m c cs E P F. destruct (n_dir d m E). eapply trips_missing; eauto using n_none.
    - intros d m c cs q h bd E P N EN F. destruct (n_dir d m E). eapply trips_file; eauto using n_file, n_ends.
    - intros d m c cs e E P N _ S. destruct (n_dir d m E). eapply trips_link; eauto.
    - intros d m c cs d' e E P F N _ T. destruct (n_dir d m E). eapply trips_down; eauto. now apply n_walks.
    - intros p h c e E T _ X. eapply strays_text; eauto using n_file.
    - intros p q e HO _ S. eapply strays_on; eauto using n_hops.
    - intros p links I R. eapply strays_ring; eauto. intros x Ix. destruct (R x Ix) as (y & Iy & Hy). exists y. eauto using n_hops.
  Qed.
  Lemma n_nowhere p e : leads_nowhere a p e -> leads_nowhere b p e.
  Proof. intros [T|(q & W & S)]; [left; now apply n_trips|right; exists q; split; [now apply n_walks|now apply n_trips]]. Qed.
End same.

(** *** what comes out of squashing *)
Lemma squashed_same n sort order layers out : sorts sort -> permutes order -> plain_stack layers -> squash (4 + n) sort order layers = Ret out ->
  plain_stack [out] /\ same_nodes (unpack empty_root layers) (unpack empty_root [out]).
Proof.
  intros HS HO P E. destruct (squash_plain n sort order layers out E P) as (t & _ & WT & WV & LF & Eo).
  assert (PO : plain_stack [out]) by (rewrite Eo; now apply out_plain). split; [exact PO|].
  destruct (squash_preserves n sort order layers HS HO P) as (out' & E' & S). rewrite E in E'. injection E' as <-.
  intros p. destruct (unpack empty_root layers p) as [x|] eqn:F.
  - pose proof (image_real layers P p ltac:(congruence)) as RP. destruct (S empty_root) with (p := p) as [A _]; auto; [exists None; reflexivity|left; intros [|k q] N; [congruence|reflexivity]|].
    rewrite F in A. destruct x as [m|h c], (unpack empty_root [out] p) as [[]|]; cbn [agree] in A; auto.
  - destruct (unpack empty_root [out] p) as [y|] eqn:G; [|exact Logic.I].
    pose proof (image_real [out] PO p ltac:(congruence)) as RP. destruct (S empty_root) with (p := p) as [A _]; auto; [exists None; reflexivity|left; intros [|k q] N; [congruence|reflexivity]|].
    rewrite F, G in A. now destruct y.
Qed.
(** The squashed layer has headers for the same directories. *)
Lemma squashed_headers n sort order layers layers' out : sorts sort -> permutes order -> Forall (Forall in_root) layers -> plain_stack layers' ->
  all_at_target empty_root (all_entries layers) (all_entries layers') -> squash (4 + n) sort order layers' = Ret out ->
  exists N t t', (forall k, N <= k -> load_layers k false layers = Ret t /\ load_layers k false [out] = Ret t') /\
    forall p, real_path p -> option_map anon (header_at t p) = option_map anon (header_at t' p).
Proof.
  intros HS HO I P A E. destruct (load_links layers layers' I P A) as (N1 & t & t2 & S & H). destruct (squash_plain n sort order layers' out E P) as (t1 & L1 & WT & WV & LF & Eo).
  assert (t1 = t2) as ->.
  { destruct (H (N1 + (4 + n)) ltac:(lia)) as [_ H2]. rewrite (more_fuel_load (4 + n) (N1 + (4 + n)) false layers' (Ret t1) L1) in H2; [congruence|discriminate|lia]. }
  destruct (reload_sub sort order HS HO t2 WT WV LF 0) as (t' & L' & _ & _ & _ & SB & _). rewrite <- Eo in L'. exists (N1 + 4), t, t'. split.
  - intros k LE. split; [apply H; lia|]. apply (more_fuel_load 4 k false [out] (Ret t') L'); [discriminate|lia].
  - intros p RP. rewrite (header_same t t2 p S), !header_view. symmetry. apply na_hdr. now apply (sub_real _ _ p SB).
Qed.
Lemma squashed_no_root n sort order layers out : sorts sort -> permutes order -> squash n sort order layers = Ret out ->
  Forall (Forall (fun e => ~ links_to_root e)) layers -> Forall (Forall (fun e => ~ links_to_root e)) [out].
Proof.
  intros HS HO E NR. constructor; [|constructor]. apply Forall_forall. intros e I [L C]. destruct (squash_from n sort order layers out e HS HO E I) as [(l & e0 & Il & Ie & A & _)|[A _]].
  - rewrite Forall_forall in NR. specialize (NR l Il). rewrite Forall_forall in NR. apply (NR e0 Ie). unfold links_to_root, is_link in *.
    change (th_type (fst e0)) with (th_type (anon (fst e0))). change (th_link (fst e0)) with (th_link (anon (fst e0))). rewrite <- A. auto.
  - unfold is_link in L. change (th_type (fst e)) with (th_type (anon (fst e))) in L. rewrite A in L. discriminate.
Qed.
Lemma squashed_handled n sort order layers out : sorts sort -> permutes order -> handled layers -> squash (4 + n) sort order layers = Ret out -> handled [out].
Proof.
  intros HS HO (P & NR & (m & D) & K) E. destruct (squashed_same n sort order layers out HS HO P E) as [PO S]. split; [exact PO|]. split; [eapply squashed_no_root; eauto|]. split; [eapply n_dir; eauto|].
  intros p h c F. apply (K p h c). eapply n_file; [apply nodes_sym, S|exact F].
Qed.

(** *** Open *)
Lemma opens_spec utf8 layers p r : handled layers -> plain_path p -> askable utf8 p -> r <> OutOfFuel ->
  (opens utf8 layers p r <-> match r with Ret (q, e) => walks (unpack empty_root layers) [] p q /\ ends (unpack empty_root layers) q e | Fail x => leads_nowhere (unpack empty_root layers) p x | OutOfFuel => False end).
Proof.
  intros H PP AK NF. pose proof H as (P & NR & _). pose proof AK as [U M]. split.
  - intros (N & t & O). destruct (O N ltac:(lia)) as [L OP]. destruct r as [[q e]|x|]; [|eapply image_why; eauto|congruence]. eapply open_only; eauto.
  - destruct r as [[q e]|x|]; [intros [W E]| |contradiction].
    + destruct (image_open layers P NR utf8 p q e PP U W E) as (N & t & O). exists N, t. intros n LE. destruct (O n LE) as (A & B & _). auto.
    + intros S. destruct (image_nowhere layers utf8 p x H PP AK S) as (N & t & O). exists N, t. exact O.
Qed.
Lemma opens_through utf8 layers layers' p r : Forall (Forall in_root) layers -> plain_stack layers' -> all_at_target empty_root (all_entries layers) (all_entries layers') ->
  opens utf8 layers p r <-> opens utf8 layers' p r.
Proof.
  intros I P A. destruct (open_same layers layers' I P A) as (N & t & t' & L & O). split; intros (M & u & H).
  - exists (N + M), t'. intros n LE. split; [apply L; lia|]. destruct (H n ltac:(lia)) as [H1 H2]. destruct (L n ltac:(lia)) as [L1 _]. rewrite H1 in L1. injection L1 as ->. now rewrite <- O.
  - exists (N + M), t. intros n LE. split; [apply L; lia|]. destruct (H n ltac:(lia)) as [H1 H2]. destruct (L n ltac:(lia)) as [_ L1]. rewrite H1 in L1. injection L1 as ->. now rewrite O.
Qed.
Lemma through_out n sort order layers layers' out : sorts sort -> permutes order -> Forall (Forall in_root) layers -> plain_stack layers' ->
  all_at_target empty_root (all_entries layers) (all_entries layers') -> squash n sort order layers = Ret out -> exists m, squash (4 + m) sort order layers' = Ret out.
Proof.
  intros HS HO I P A E. destruct (squash_links sort order layers layers' I P A) as [N H]. exists (N + n). rewrite <- H by lia. apply (more_fuel n (4 + (N + n))); [exact E|discriminate|lia].
Qed.
Theorem squash_opens n sort order layers layers' out utf8 p r : sorts sort -> permutes order -> Forall (Forall in_root) layers -> handled layers' ->
  all_at_target empty_root (all_entries layers) (all_entries layers') -> squash n sort order layers = Ret out ->
  plain_path p -> askable utf8 p -> r <> OutOfFuel -> (opens utf8 layers p r <-> opens utf8 [out] p r).
Proof.
  intros HS HO I H A E PP AK NF. pose proof H as (P & _). destruct (through_out n sort order layers layers' out HS HO I P A E) as [m E'].
  rewrite (opens_through utf8 layers layers' p r I P A). rewrite (opens_spec utf8 layers' p r H PP AK NF), (opens_spec utf8 [out] p r (squashed_handled m sort order layers' out HS HO H E') PP AK NF).
  destruct (squashed_same m sort order layers' out HS HO P E') as [_ S]. pose proof (nodes_sym _ _ S) as S'. destruct r as [[q e]|x|]; [|split; apply n_nowhere; auto|tauto].
  split; intros [W EN]; (split; [eapply (n_walks _ _); eauto|eapply (n_ends _ _); eauto]).
Qed.
Theorem squash_reads n sort order layers layers' out p q e h c : sorts sort -> permutes order -> Forall (Forall in_root) layers -> handled layers' ->
  all_at_target empty_root (all_entries layers) (all_entries layers') -> squash n sort order layers = Ret out -> plain_path p ->
  walks (unpack empty_root layers') [] p q -> ends (unpack empty_root layers') q e -> unpack empty_root layers' e = Some (FFile h c) -> (th_size h <= Z.of_nat (length c))%Z ->
  reads_back layers (open_name p) c /\ reads_back [out] (open_name p) c.
Proof.
  intros HS HO I H A E PP W EN F SZ. pose proof H as (P & NR & _). destruct (through_out n sort order layers layers' out HS HO I P A E) as [m E'].
  destruct (squashed_same m sort order layers' out HS HO P E') as [PO S]. destruct (squashed_handled m sort order layers' out HS HO H E') as (_ & NRO & _).
  split; intros srt ord utf8 PO' U.
  - apply (through_file layers layers' I P A NR srt ord utf8 p q e h c); auto.
  - destruct (image_file [out] PO NRO srt ord PO' utf8 p q e h c) as (N & t & f & X & Y); auto; [eapply (n_walks _ _ S); eauto|eapply (n_ends _ _ S); eauto|eapply (n_file _ _ S); eauto|]. eauto.
Qed.

Theorem squash_stats n sort order layers layers' out utf8 p q e : sorts sort -> permutes order -> Forall (Forall in_root) layers -> handled layers' ->
  all_at_target empty_root (all_entries layers) (all_entries layers') -> squash n sort order layers = Ret out -> plain_path p -> utf8 (open_name p) = true ->
  walks (unpack empty_root layers') [] p q -> ends (unpack empty_root layers') q e ->
  exists N t t', (forall k, N <= k -> load_layers k false layers = Ret t /\ open utf8 k t (open_name p) = Ret (q, e) /\
      load_layers k false [out] = Ret t' /\ open utf8 k t' (open_name p) = Ret (q, e)) /\ same_stat q (stat t q e) (stat t' q e).
Proof.
  intros HS HO I H A E PP U W EN. pose proof H as (P & NR & _). destruct (through_out n sort order layers layers' out HS HO I P A E) as [k E'].
  destruct (squashed_same k sort order layers' out HS HO P E') as [PO S]. destruct (squashed_handled k sort order layers' out HS HO H E') as (_ & NRO & _).
  destruct (through_stat layers layers' I P A NR utf8 p q e PP U W EN) as (N1 & t & L1).
  destruct (image_open [out] PO NRO utf8 p q e PP U) as (N2 & t' & L2); [eapply (n_walks _ _ S); eauto|eapply (n_ends _ _ S); eauto|].
  destruct (squashed_headers k sort order layers layers' out HS HO I P A E') as (N3 & t0 & t0' & L3 & HD).
  assert (t0 = t) as -> by (destruct (L1 (N1 + N3) ltac:(lia)); destruct (L3 (N1 + N3) ltac:(lia)); congruence).
  assert (t0' = t') as -> by (destruct (L2 (N2 + N3) ltac:(lia)); destruct (L3 (N2 + N3) ltac:(lia)); congruence).
  exists (N1 + N2), t, t'. split; [intros x LE; destruct (L1 x ltac:(lia)) as (B1 & B2 & _); destruct (L2 x ltac:(lia)) as (B3 & B4 & _); auto|].
  destruct (L1 N1 ltac:(lia)) as (_ & _ & T1). destruct (L2 N2 ltac:(lia)) as (_ & _ & T2).
  assert (RE : real_path e). { apply (image_real layers' P). clear - EN. induction EN; congruence. }
  specialize (HD e RE). unfold stat_tells in T1, T2. unfold same_stat.
  destruct (stat t q e) as [x|h|] eqn:X; [| |contradiction]; (destruct (stat t' q e) as [x'|h'|] eqn:X'; [| |contradiction]); unfold stat in X, X';
    (destruct (header_at t e) as [h0|], (header_at t' e) as [h0'|]; cbn [option_map] in HD; try discriminate).
  all: try discriminate; try (destruct (header_at t q); discriminate); try (destruct (header_at t' q); discriminate).
  - congruence.
  - destruct (header_at t q); [|discriminate]. destruct (header_at t' q); [|discriminate]. assert (Z : anon h0 = anon h0') by congruence. assert (Y : h = with_name h0 (th_name h1)) by congruence. assert (Y' : h' = with_name h0' (th_name h2)) by congruence.
    split; [rewrite Y, Y'; exact Z|]. intros NQ. split; [now apply T1|now apply T2].
Qed.

(** *** ReadDir *)
Lemma sorted_eq (l : list str) : forall l', StronglySorted (fun a b => str_compare a b = Lt) l -> StronglySorted (fun a b => str_compare a b = Lt) l' -> (forall x, In x l <-> In x l') -> l = l'.
Proof.
  assert (IR : forall x, str_compare x x <> Lt) by (intros x X; rewrite (ok_refl _ str_compare_ok) in X; discriminate).
  induction l as [|a l IH]; intros [|b l'] S S' E; [reflexivity|destruct (proj2 (E b)); now left|destruct (proj1 (E a)); now left|].
  inversion S as [|? ? S1 F]; inversion S' as [|? ? S2 F']; subst. rewrite Forall_forall in F, F'.
  assert (a = b) as ->.
  { destruct (proj1 (E a) (or_introl eq_refl)) as [X|X]; [auto|]. destruct (proj2 (E b) (or_introl eq_refl)) as [Y|Y]; [auto|]. apply F' in X. apply F in Y. rewrite (ok_anti _ str_compare_ok), X in Y. discriminate. }
  f_equal. apply IH; auto. intros x. split; intros X.
  - destruct (proj1 (E x) (or_intror X)) as [<-|Y]; [exfalso; now apply (IR b), F|exact Y].
  - destruct (proj2 (E x) (or_intror X)) as [<-|Y]; [exfalso; now apply (IR b), F'|exact Y].
Qed.
Lemma sorted_names (l : list dirent) : StronglySorted (fun a b => str_compare (fst a) (fst b) = Lt) l -> StronglySorted (fun a b => str_compare a b = Lt) (map fst l).
Proof. induction 1 as [|a l S IH F]; cbn [map]; constructor; auto. apply Forall_forall. intros x I. apply in_map_iff in I as (y & <- & I). rewrite Forall_forall in F. now apply F. Qed.
Lemma listing_names fs gs e l l' : same_nodes fs gs -> listing fs e l -> listing gs e l' -> map fst l = map fst l'.
Proof.
  intros S (A & B & C) (A' & B' & C'). apply sorted_eq; [now apply sorted_names|now apply sorted_names|]. intros x. split; intros I; apply in_map_iff in I as ([y h] & X & I); cbn [fst] in X; subst y.
  - apply B in I as (n & F & _). assert (G : gs (e ++ [x]) <> None) by (apply (n_some fs gs S); congruence). destruct (gs (e ++ [x])) as [n'|] eqn:G'; [|congruence]. destruct (C' x n' G') as [h' I']. apply in_map_iff. now exists (x, h').
  - apply B' in I as (n & F & _). assert (G : fs (e ++ [x]) <> None) by (apply (n_some gs fs (nodes_sym _ _ S)); congruence). destruct (fs (e ++ [x])) as [n'|] eqn:G'; [|congruence]. destruct (C x n' G') as [h' I']. apply in_map_iff. now exists (x, h').
Qed.
Theorem squash_lists n sort order layers layers' out srt ord utf8 p q e m : sorts sort -> permutes order -> Forall (Forall in_root) layers -> handled layers' ->
  all_at_target empty_root (all_entries layers) (all_entries layers') -> squash n sort order layers = Ret out -> sorts srt -> (forall l, Permutation (ord l) l) -> plain_path p -> utf8 (open_name p) = true ->
  walks (unpack empty_root layers') [] p q -> ends (unpack empty_root layers') q e -> unpack empty_root layers' e = Some (FDir m) ->
  (forall x, unpack empty_root layers' (e ++ [x]) <> None -> exists r, ends (unpack empty_root layers') (e ++ [x]) r) ->
  exists N t f l t' f' l', (forall k, N <= k -> load_layers k false layers = Ret t /\ open_file utf8 k ord t (open_name p) = Ret f /\
      load_layers k false [out] = Ret t' /\ open_file utf8 k ord t' (open_name p) = Ret f') /\
    listing (unpack empty_root layers') e l /\ map fst l' = map fst l /\
    (forall x h h', In (x, h) l -> In (x, h') l' -> option_map anon h = option_map anon h') /\
    (forall programs c, reachable srt f programs c -> reads_dir l false (c_log c)) /\ (forall programs c, reachable srt f' programs c -> reads_dir l' false (c_log c)).
Proof.
  intros HS HO I H A E HS' PO' PP U W EN F RS. pose proof H as (P & NR & _). destruct (through_out n sort order layers layers' out HS HO I P A E) as [k E'].
  destruct (squashed_same k sort order layers' out HS HO P E') as [PO S]. destruct (squashed_handled k sort order layers' out HS HO H E') as (_ & NRO & _).
  destruct (through_dir_headers layers layers' I P A NR srt ord utf8 p q e m) as (N1 & t & f & l & L1 & LI & LH & R1); auto. destruct (n_dir _ _ S e m F) as [m' F'].
  destruct (squashed_headers k sort order layers layers' out HS HO I P A E') as (N3 & t0 & t0' & L3 & HD).
  assert (IR : Forall (Forall in_root) [out]) by (constructor; [apply Forall_forall; intros z Z; exact (proj1 (squash_in_root (4 + k) sort order layers' out HS HO E' z Z))|constructor]).
  assert (AT : all_at_target empty_root (all_entries [out]) (all_entries [out])) by (apply aat_same, good_all, PO).
  destruct (through_dir_headers [out] [out] IR PO AT NRO srt ord utf8 p q e m') as (N2 & t' & f' & l' & L2 & LI' & LH' & R2); auto.
  - eapply (n_walks _ _ S); eauto.
  - eapply (n_ends _ _ S); eauto.
  - intros x X. destruct (RS x) as [r R]; [eapply (n_some _ _ (nodes_sym _ _ S)); eauto|]. exists r. eapply (n_ends _ _ S); eauto.
  - assert (t0 = t) as -> by (destruct (L1 (N1 + N3) ltac:(lia)); destruct (L3 (N1 + N3) ltac:(lia)); congruence).
    assert (t0' = t') as -> by (destruct (L2 (N2 + N3) ltac:(lia)); destruct (L3 (N2 + N3) ltac:(lia)); congruence).
    exists (N1 + N2), t, f, l, t', f', l'. split; [|split; [exact LI|split; [symmetry; eapply listing_names; eauto|split; [|auto]]]].
    + intros x LE. destruct (L1 x ltac:(lia)). destruct (L2 x ltac:(lia)). auto.
    + intros x h h' J J'. rewrite (LH x h J), (LH' x h' J'). apply HD. apply (image_real layers' P). destruct LI as (_ & LI & _). destruct (LI x h J) as (nd & G & _). congruence.
Qed.
Theorem squash_dangles n sort order layers layers' out srt ord utf8 p q e m x er : sorts sort -> permutes order -> Forall (Forall in_root) layers -> handled layers' ->
  all_at_target empty_root (all_entries layers) (all_entries layers') -> squash n sort order layers = Ret out -> (forall l, Permutation (ord l) l) -> plain_path p -> utf8 (open_name p) = true ->
  walks (unpack empty_root layers') [] p q -> ends (unpack empty_root layers') q e -> unpack empty_root layers' e = Some (FDir m) ->
  (forall y, unpack empty_root layers' (e ++ [y]) <> None -> (exists r, ends (unpack empty_root layers') (e ++ [y]) r) \/ (exists a, strays (unpack empty_root layers') (e ++ [y]) a)) ->
  unpack empty_root layers' (e ++ [x]) <> None -> strays (unpack empty_root layers') (e ++ [x]) er ->
  exists N t f y a l t' f' y' a' l', (forall k, N <= k -> load_layers k false layers = Ret t /\ open_file utf8 k ord t (open_name p) = Ret f /\
      load_layers k false [out] = Ret t' /\ open_file utf8 k ord t' (open_name p) = Ret f') /\
    strays (unpack empty_root layers') (e ++ [y]) a /\ some_entries (unpack empty_root layers') e l /\
    strays (unpack empty_root layers') (e ++ [y']) a' /\ some_entries (unpack empty_root [out]) e l' /\
    (forall programs c, reachable srt f programs c -> fails_first a l false (c_log c)) /\ (forall programs c, reachable srt f' programs c -> fails_first a' l' false (c_log c)).
Proof.
  intros HS HO I H A E PO' PP U W EN F RS FX SX. pose proof H as (P & _). destruct (through_out n sort order layers layers' out HS HO I P A E) as [k E'].
  destruct (squashed_same k sort order layers' out HS HO P E') as [PO S]. pose proof (squashed_handled k sort order layers' out HS HO H E') as H'. pose proof (nodes_sym _ _ S) as S'.
  destruct (through_dangling layers layers' srt ord utf8 p q e m x er) as (N1 & t & f & y & a & l & L1 & _ & SY & SE & R1); auto. destruct (n_dir _ _ S e m F) as [m' F'].
  destruct (image_dangling [out] srt ord utf8 p q e m' x er) as (N2 & t' & f' & y' & a' & l' & L2 & _ & SY' & SE' & R2); auto.
  - eapply (n_walks _ _ S); eauto.
  - eapply (n_ends _ _ S); eauto.
  - intros z Z. destruct (RS z) as [[r R]|[b R]]; [eapply (n_some _ _ S'); eauto|left; exists r; eapply (n_ends _ _ S); eauto|right; exists b; now apply (n_trips _ _ S)].
  - eapply (n_some _ _ S); eauto.
  - now apply (n_trips _ _ S).
  - exists (N1 + N2), t, f, y, a, l, t', f', y', a', l'. split; [|split; [auto|split; [auto|split; [now apply (n_trips _ _ S')|auto]]]].
    intros z LE. destruct (L1 z ltac:(lia)). destruct (L2 z ltac:(lia)). auto.
Qed.
