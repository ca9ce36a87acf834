(** What the specifier operators match, and Select. *)
From Coq Require Import String Ascii List Bool ZArith NArith Lia.
From Verif.Model Require Import GoStr Regex Pep440 Specifier Pep345.
From Verif.Spec Require Import Pep440Spec VersionGrammar SpecifierSpec.
From Verif.Proofs Require Import Order GoStrFacts RegexFacts Pep440Cmp Pep440Parse Pep440Sound SpecifierParse.
Import ListNotations.
Open Scope Z_scope.
Local Arguments Z.compare : simpl never.
Local Arguments N.ltb : simpl never.
Local Arguments N.pow : simpl never.
Local Arguments Z.pow : simpl never.

(** ** Release comparison *)
Lemma cmp_release_from_zero a b : Forall int64_ok a -> Forall int64_ok b -> forall fuel i,
  cmp_release_from a b i fuel = 0 <->
  (forall j, (i <= j < i + fuel)%nat -> nth j a 0 = nth j b 0).
Proof.
  intros Ha Hb. induction fuel as [|k IH]; intros i; cbn [cmp_release_from].
  - split; auto. intros _ j Hj. lia.
  - unfold release_segment. pose proof (nth_int64 a i Ha) as Ra. pose proof (nth_int64 b i Hb) as Rb.
    unfold int64_ok in *. rewrite wrap64_small by lia.
    destruct (Z.eqb_spec (nth i a 0 - nth i b 0) 0) as [E|E].
    + rewrite IH. split; intros H j Hj; [|apply H; lia].
      destruct (Nat.eq_dec j i) as [->|]; [lia|]. apply H. lia.
    + split; [lia|]. intros H. exfalso. apply E. rewrite (H i); lia.
Qed.
Lemma cmp_release_zero a b : Forall int64_ok (release a) -> Forall int64_ok (release b) ->
  cmp_release a b = 0 <-> same_release (release a) (release b).
Proof.
  intros Ha Hb. unfold cmp_release. rewrite cmp_release_from_zero by auto. unfold same_release. split.
  - intros H i. destruct (le_lt_dec (max (length (release a)) (length (release b))) i).
    + rewrite !nth_overflow by lia. reflexivity.
    + apply H. lia.
  - auto.
Qed.
Lemma nth_firstn_z (l : list Z) n i : nth i (firstn n l) 0 = if (i <? n)%nat then nth i l 0 else 0.
Proof.
  revert n i. induction l as [|x l IH]; intros n i.
  - rewrite firstn_nil. destruct i, (_ <? n)%nat; reflexivity.
  - destruct n; [destruct i; reflexivity|]. destruct i; [reflexivity|]. cbn [firstn nth].
    rewrite IH. reflexivity.
Qed.
Lemma Forall_firstn' {A} (P : A -> Prop) n l : Forall P l -> Forall P (firstn n l).
Proof. intros H. revert n. induction H; intros [|n]; simpl; auto. Qed.

(** Same base in terms of the sort key. *)
Lemma public_cmp_release a b : ranged_public a -> ranged_public b ->
  cmp_list Z.compare (strip_zeros (release a)) (strip_zeros (release b)) = Eq <->
  same_release (release a) (release b).
Proof.
  intros Ha Hb. rewrite <- cmp_release_sign, sign_zero by auto.
  destruct Ha as (_ & _ & Ha & _), Hb as (_ & _ & Hb & _). now apply cmp_release_zero.
Qed.

(** ** Prefix match *)
Lemma cmp_epoch_zero a b : int64_ok (epoch a) -> int64_ok (epoch b) -> cmp_epoch a b = 0 <-> epoch a = epoch b.
Proof. unfold int64_ok, cmp_epoch. intros. rewrite wrap64_small; lia. Qed.
Lemma pre_order_eq l m : letter_rank l <> None -> letter_rank m <> None ->
  (pre_order l = pre_order m <-> letter_rank l = letter_rank m).
Proof.
  intros Hl Hm. destruct (pre_order_rank l Hl) as [E1 _], (pre_order_rank m Hm) as [E2 _].
  rewrite E1, E2. unfold rank. destruct (letter_rank l), (letter_rank m); try congruence.
  split; [intros; f_equal; lia|]. intros E; injection E as ->. reflexivity.
Qed.
Lemma cmp_postrelease_zero a b : (forall n, post a = Some n -> int64_ok n) ->
  (forall n, post b = Some n -> int64_ok n) ->
  (cmp_postrelease a b = 0 <-> post a = post b).
Proof.
  intros Ha Hb. unfold cmp_postrelease, int64_ok, wrap64 in *.
  destruct (post a) as [x|]; [pose proof (Ha x eq_refl)|];
    (destruct (post b) as [y|]; [pose proof (Hb y eq_refl)|]); simpl opt_default;
    rewrite wrap_zero by lia; split; intros; try congruence; try lia; try (f_equal; lia).
  injection H1 as ->. lia.
Qed.

(** [ranged] except for the non-emptiness of the release: what matching needs. *)
Definition matchable (v : version) : Prop :=
  int64_ok (epoch (pub v)) /\ Forall int64_ok (release (pub v)) /\
  (forall l n, pre (pub v) = Some (l, n) -> letter_rank l <> None /\ int64_ok n) /\
  (forall n, post (pub v) = Some n -> int64_ok n).
Lemma ranged_matchable v : ranged_version v -> matchable v.
Proof.
  intros [(H1 & H2 & H3 & H4 & H5 & H6) _]. unfold matchable. auto.
Qed.
Lemma wf_ranged v : wf_version v -> ranged_version v.
Proof.
  intros [[H _] Hl]. split; auto. eapply Forall_impl; [|exact Hl]. intros [i|]; simpl; unfold int32_ok; lia || auto.
Qed.
Lemma wf_matchable v : wf_version v -> matchable v.
Proof. intros. now apply ranged_matchable, wf_ranged. Qed.
Lemma parsed_ranged s v : parse_version s = Some v -> ranged_version v.
Proof.
  intros H. apply parse_result in H as (H1 & _ & H3). split; auto.
  eapply Forall_impl; [|exact H3]. intros [i|s0]; simpl; auto.
Qed.

Theorem match_prefix_spec p v : matchable p -> matchable v ->
  match_prefix p v = true <-> prefix_agrees p v.
Proof.
  intros (P1 & P2 & P3 & P4) (V1 & V2 & V3 & V4). unfold match_prefix, prefix_agrees.
  destruct (Z.eqb_spec (cmp_epoch (pub p) (pub v)) 0) as [E|E]; rewrite cmp_epoch_zero in E by auto;
    cbn [negb]; [|split; [discriminate|intros [? _]; contradiction]].
  destruct (post (pub p)) as [po|] eqn:Epo; cbn [is_some].
  - cbn [Z.eqb andb]. change (2 =? 0) with false. cbn [andb]. cbv iota.
    assert (G : (if negb (cmp_release (pub p) (pub v) =? 0) then false
       else if negb (Bool.eqb (is_some (pre (pub v))) (is_some (pre (pub p)))) then false
       else if match pre (pub p), pre (pub v) with
            | Some (sl, sn), Some (vl, vn) => negb (pre_order vl =? pre_order sl) || negb (vn =? sn)
            | _, _ => false end then false
       else if 2 =? 1 then true
       else if negb (cmp_postrelease (pub p) (pub v) =? 0) then false else true) = true <->
       same_release (release (pub p)) (release (pub v)) /\ same_pre (pre (pub p)) (pre (pub v)) /\
       post (pub v) = Some po).
    { change (2 =? 1) with false. cbv iota.
      rewrite <- cmp_release_zero by auto.
      destruct (Z.eqb_spec (cmp_release (pub p) (pub v)) 0) as [R|R]; cbn [negb]; [|split; [discriminate|tauto]].
      assert (Q : (if negb (cmp_postrelease (pub p) (pub v) =? 0) then false else true) = true <->
                  post (pub v) = Some po).
      { destruct (Z.eqb_spec (cmp_postrelease (pub p) (pub v)) 0) as [S|S];
          rewrite cmp_postrelease_zero in S by (rewrite ?Epo; auto); rewrite Epo in S; cbn [negb];
          split; congruence. }
      unfold same_pre. destruct (pre (pub p)) as [[sl sn]|] eqn:Ep, (pre (pub v)) as [[vl vn]|] eqn:Ev;
        cbn [is_some Bool.eqb negb]; try (split; [discriminate|tauto]); [|tauto].
      destruct (P3 sl sn eq_refl) as [Lp _], (V3 vl vn eq_refl) as [Lv _].
      destruct (Z.eqb_spec (pre_order vl) (pre_order sl)) as [O|O]; rewrite pre_order_eq in O by auto;
        cbn [negb orb]; [|split; [discriminate|intros (_ & [? _] & _); congruence]].
      destruct (Z.eqb_spec vn sn) as [N|N]; cbn [negb]; [|split; [discriminate|intros (_ & [_ ?] & _); congruence]].
      rewrite Q. intuition congruence. }
    rewrite G. destruct (pre (pub p)); tauto.
  - destruct (pre (pub p)) as [[sl sn]|] eqn:Ep; cbn [is_some].
    + change (1 =? 0) with false. change (1 =? 1) with true. cbn [andb]. cbv iota.
      rewrite <- cmp_release_zero by auto.
      destruct (Z.eqb_spec (cmp_release (pub p) (pub v)) 0) as [R|R]; cbn [negb]; [|split; [discriminate|tauto]].
      unfold same_pre. destruct (pre (pub v)) as [[vl vn]|] eqn:Ev;
        cbn [is_some Bool.eqb negb]; [|split; [discriminate|tauto]].
      destruct (P3 sl sn eq_refl) as [Lp _], (V3 vl vn eq_refl) as [Lv _].
      destruct (Z.eqb_spec (pre_order vl) (pre_order sl)) as [O|O]; rewrite pre_order_eq in O by auto;
        cbn [negb orb]; [|split; [discriminate|intros (_ & _ & ? & _); congruence]].
      destruct (Z.eqb_spec vn sn) as [N|N]; cbn [negb]; [|split; [discriminate|intros (_ & _ & _ & ?); congruence]].
      intuition congruence.
    + change (0 =? 0) with true. cbn [andb].
      set (v' := if (_ <? _)%nat then _ else _).
      assert (Rv : Forall int64_ok (release v')).
      { unfold v'. destruct (_ <? _)%nat; auto. now apply Forall_firstn'. }
      assert (H : cmp_release (pub p) v' = 0 <-> (forall i, (i < length (release (pub p)))%nat ->
        nth i (release (pub v)) 0 = nth i (release (pub p)) 0)).
      { rewrite cmp_release_zero by auto. unfold same_release, v'.
        destruct (Nat.ltb_spec (length (release (pub p))) (length (release (pub v)))) as [L|L].
        - cbn [set_release release]. split.
          + intros H i Hi. rewrite H, nth_firstn_z. apply Nat.ltb_lt in Hi. now rewrite Hi.
          + intros H i. rewrite nth_firstn_z. destruct (Nat.ltb_spec i (length (release (pub p)))).
            * now rewrite H.
            * now rewrite nth_overflow.
        - split; [intros; auto|]. intros H i. destruct (le_lt_dec (length (release (pub p))) i).
          + rewrite !nth_overflow by lia. reflexivity.
          + now rewrite H. }
      destruct (Z.eqb_spec (cmp_release (pub p) v') 0) as [R|R]; cbn [negb]; rewrite H in R.
      * tauto.
      * split; [discriminate|tauto].
Qed.

(** ** Strict match *)
Theorem match_strict_spec V v : ranged_version V -> ranged_version v ->
  match_strict V v = true <-> strictly_equal V v.
Proof.
  intros HV Hv. unfold match_strict, strictly_equal. destruct (local V) eqn:E.
  - rewrite Z.eqb_eq, public_cmp_zero by apply HV || apply Hv. reflexivity.
  - rewrite Z.eqb_eq, cmp_zero by auto. reflexivity.
Qed.

(** ** Ordered comparisons *)
Lemma compare_le_local a b : local a = [] ->
  (pep440_compare a b <> Gt <-> public_compare (pub a) (pub b) <> Gt).
Proof.
  intros E. unfold pep440_compare. rewrite E. destruct (public_compare (pub a) (pub b)); simpl; try tauto.
  destruct (local b); simpl; split; congruence.
Qed.
Lemma public_compare_anti a b : public_compare b a = CompOpp (public_compare a b).
Proof. apply public_compare_ok. Qed.
Lemma pep440_compare_anti a b : pep440_compare b a = CompOpp (pep440_compare a b).
Proof. apply pep440_compare_ok. Qed.

Theorem match_ge_spec V v : wf_version V -> wf_version v -> local V = [] ->
  match_ge V v = true <-> at_least V v.
Proof.
  intros HV Hv E. unfold match_ge, at_least. rewrite Z.leb_le, <- sign_npos, cmp_sign by auto.
  rewrite compare_le_local by auto. rewrite (public_compare_anti (pub V)).
  destruct (public_compare (pub V) (pub v)); simpl; split; congruence.
Qed.
Lemma match_le_compare V v : wf_version V -> wf_version v ->
  match_le V v = true <-> pep440_compare v V <> Gt.
Proof.
  intros HV Hv. unfold match_le. rewrite Z.leb_le. rewrite (pep440_compare_anti V), <- cmp_sign by auto.
  unfold sign. destruct (Z.compare_spec (cmp V v) 0); simpl; split; try congruence; lia.
Qed.
(** "<=": right except for local versions of V itself *)
Theorem match_le_spec V v : wf_version V -> wf_version v -> local V = [] -> local v = [] ->
  match_le V v = true <-> at_most V v.
Proof.
  intros HV Hv E E'. rewrite match_le_compare by auto. unfold at_most. now rewrite compare_le_local.
Qed.
Theorem match_le_sound V v : wf_version V -> wf_version v -> match_le V v = true -> at_most V v.
Proof.
  intros HV Hv. rewrite match_le_compare by auto. unfold at_most, pep440_compare.
  destruct (public_compare (pub v) (pub V)); simpl; congruence.
Qed.
Lemma match_lt_compare V v : wf_version V -> wf_version v ->
  match_lt V v = true <-> pep440_compare v V = Lt.
Proof.
  intros HV Hv. unfold match_lt. rewrite Z.ltb_lt. rewrite (pep440_compare_anti V), <- cmp_sign by auto.
  unfold sign. destruct (Z.compare_spec (cmp V v) 0); simpl; split; try congruence; lia.
Qed.
Lemma match_gt_compare V v : wf_version V -> wf_version v ->
  match_gt V v = true <-> pep440_compare v V = Gt.
Proof.
  intros HV Hv. unfold match_gt. rewrite Z.ltb_lt. rewrite (pep440_compare_anti V), <- cmp_sign by auto.
  unfold sign. destruct (Z.compare_spec (cmp V v) 0); simpl; split; try congruence; lia.
Qed.
Theorem match_lt_spec V v : wf_version V -> wf_version v ->
  (below V v -> match_lt V v = true) /\
  (match_lt V v = true -> ~ same_base v V -> below V v) /\
  (match_lt V v = true -> ~ pre_or_dev v \/ pre_or_dev V -> below V v).
Proof. intros HV Hv. rewrite match_lt_compare by auto. unfold below. tauto. Qed.
Theorem match_gt_spec V v : wf_version V -> wf_version v ->
  (above V v -> match_gt V v = true) /\
  (match_gt V v = true -> ~ same_base v V -> above V v) /\
  (match_gt V v = true -> local v = [] -> ~ is_post v \/ is_post V -> above V v).
Proof. intros HV Hv. rewrite match_gt_compare by auto. unfold above. tauto. Qed.

Theorem ordered_exact V v : wf_version V -> wf_version v ->
  (match_ge V v = true <-> pep440_compare v V <> Lt) /\ (match_le V v = true <-> pep440_compare v V <> Gt) /\
  (match_gt V v = true <-> pep440_compare v V = Gt) /\ (match_lt V v = true <-> pep440_compare v V = Lt).
Proof.
  intros HV Hv. split; [|auto using match_le_compare, match_gt_compare, match_lt_compare].
  unfold match_ge. rewrite Z.leb_le. rewrite (pep440_compare_anti V), <- cmp_sign by auto.
  unfold sign. destruct (Z.compare_spec (cmp V v) 0); simpl; split; try congruence; lia.
Qed.

(** ** Compatible release *)
Lemma removelast_firstn_z (l : list Z) : removelast l = firstn (length l - 1) l.
Proof.
  destruct l as [|x l] using rev_ind; [reflexivity|]. rewrite removelast_last, app_length. simpl.
  rewrite Nat.add_sub. now rewrite firstn_app_exact.
Qed.
Theorem match_compatible_spec V v : wf_version V -> wf_version v -> local V = [] ->
  match_compatible V v = true <-> at_least V v /\ prefix_agrees (series V) v.
Proof.
  intros HV Hv E. unfold match_compatible. rewrite andb_true_iff, match_ge_spec by auto.
  replace (compatible_prefix V) with (series V).
  - rewrite match_prefix_spec; [tauto| |now apply wf_matchable].
    pose proof (wf_matchable V HV) as (H1 & H2 & _). unfold matchable, series; simpl.
    split; auto. split; [now apply Forall_firstn'|]. split; intros; discriminate.
  - unfold series, compatible_prefix. rewrite removelast_firstn_z, E. reflexivity.
Qed.

(** ** Conjunction *)
Theorem match_specifier_spec cs v : match_specifier cs v = true <-> (forall c, In c cs -> match_clause c v = true).
Proof.
  induction cs as [|c cs IH]; simpl.
  - split; [intros _ c Hc; contradiction|reflexivity].
  - destruct (match_clause c v) eqn:E; cbn [negb].
    + rewrite IH. split; intros H; [intros d [<-|Hd]; auto|auto].
    + split; [discriminate|]. intros H. rewrite <- E. apply H. auto.
Qed.
Theorem match_specifier_same cs ds v : (forall c, In c cs <-> In c ds) ->
  match_specifier cs v = match_specifier ds v.
Proof.
  intros H. apply eq_true_iff_eq. rewrite !match_specifier_spec. split; intros G c Hc; apply G, H, Hc.
Qed.
Theorem match_specifier_app cs ds v :
  match_specifier (cs ++ ds) v = match_specifier cs v && match_specifier ds v.
Proof.
  apply eq_true_iff_eq. rewrite andb_true_iff, !match_specifier_spec. setoid_rewrite in_app_iff.
  split; [intros H; split; intros; apply H; auto|]. intros [H1 H2] c [?|?]; auto.
Qed.

(** ** == and != of the same text *)
Lemma parse_version_bad s : forallb version_byte s = false -> parse_version s = None.
Proof.
  intros H. destruct (parse_version s) eqn:E; auto. apply parse_bytes in E. congruence.
Qed.
Lemma trim_right_no_comma s : forallb (fun c => negb (byte_eqb c ",")) s = true ->
  forallb (fun c => negb (byte_eqb c ",")) (trim_right is_space s) = true.
Proof.
  destruct (trim_right_prefix is_space s) as (p & E & _). rewrite E at 1. rewrite forallb_app, andb_true_iff. tauto.
Qed.
Lemma parse_specifier_single p s : head_not is_space p -> p <> [] -> trim_right is_space p = p ->
  forallb (fun c => negb (byte_eqb c ",")) p = true ->
  forallb (fun c => negb (byte_eqb c ",")) s = true ->
  parse_specifier (p ++ s) =
  match parse_clause (p ++ trim_right is_space s) with Ok c => Ok [c] | Err => Err | Panic => Panic end.
Proof.
  intros H1 H2 H3 H4 H5. unfold parse_specifier.
  rewrite fields_func_one; [|destruct p; [congruence|discriminate]|now rewrite forallb_app, H4, H5].
  cbn [parse_clauses]. rewrite trim_space_prefix by auto.
  destruct (p ++ trim_right is_space s) eqn:E; [destruct p; [congruence|discriminate]|].
  now destruct (parse_clause (a :: l)).
Qed.
Theorem exclude_complement s v :
  forallb (fun c => negb (byte_eqb c ",")) s = true ->
  match parse_specifier ($"==" ++ s), parse_specifier ($"!=" ++ s) with
  | Ok cs, Ok ds => match_specifier ds v = negb (match_specifier cs v)
  | Err, Err => True
  | _, _ => False
  end.
Proof.
  intros H. rewrite !parse_specifier_single by (try exact I; try reflexivity; auto; discriminate).
  set (t := trim_right is_space s). unfold parse_clause.
  rewrite !trim_space_prefix by (try exact I; try reflexivity; auto; discriminate).
  unfold t. rewrite trim_right_idem. fold t. unfold clause_operator.
  change ($"==" ++ t) with ("=" :: "=" :: t)%char. change ($"!=" ++ t) with ("!" :: "=" :: t)%char.
  change (has_prefix $"~=" ("=" :: "=" :: t)%char) with false.
  change (has_prefix $"==" ("=" :: "=" :: t)%char) with true.
  change (has_prefix $"~=" ("!" :: "=" :: t)%char) with false.
  change (has_prefix $"==" ("!" :: "=" :: t)%char) with false.
  change (has_prefix $"!=" ("!" :: "=" :: t)%char) with true. cbn [andb].
  change (has_prefix $"===" ("=" :: "=" :: t)%char) with (has_prefix $"=" t).
  destruct (has_prefix $"=" t) eqn:E; cbn [negb].
  - change (has_prefix $"!=" ("=" :: "=" :: t)%char) with false.
    change (has_prefix $"<=" ("=" :: "=" :: t)%char) with false.
    change (has_prefix $">=" ("=" :: "=" :: t)%char) with false.
    change (has_prefix $"<" ("=" :: "=" :: t)%char) with false.
    change (has_prefix $">" ("=" :: "=" :: t)%char) with false. cbv iota.
    apply has_prefix_spec in E as (u & E). rewrite E. unfold eq_variant. rewrite slice2.
    assert (B : forall w, parse_version ("="%char :: w) = None) by (intros; apply parse_version_bad; reflexivity).
    destruct (has_suffix $".*" ($"=" ++ u)) eqn:S.
    + unfold trim_suffix. rewrite S.
      destruct (length ($"=" ++ u) - length $".*")%nat eqn:L.
      * cbn [firstn]. exact I.
      * cbn [app list_ascii_of_string firstn]. now rewrite B.
    + cbn [app list_ascii_of_string]. now rewrite B.
  - unfold eq_variant. rewrite !slice2. destruct (has_suffix $".*" t).
    + destruct (parse_version (trim_suffix $".*" t)) as [w|]; auto.
      destruct (_ <? 1)%nat; auto. destruct (_ && _); auto. destruct (_ && _); auto.
      all: cbn [match_specifier match_clause c_op c_ver]; now destruct (match_prefix w v).
    + destruct (parse_version t) as [w|]; auto.
      destruct (_ <? 1)%nat; auto. rewrite !andb_false_r.
      cbn [match_specifier match_clause c_op c_ver]. now destruct (match_strict w v).
Qed.

(** ** Select *)
Definition excluded_by (excl : option (version -> bool)) (c : version) : bool :=
  match excl with None => true | Some allow => negb (allow c) end.
Lemma select_loop_folds spec excl choices b be :
  select_loop spec excl choices b be =
  match fold_left better (filter (fun c => match_specifier spec c && excluded_by excl c) choices) b with
  | Some x => Some x
  | None => fold_left better (filter (fun c => match_specifier spec c && negb (excluded_by excl c)) choices) be
  end.
Proof.
  revert b be. induction choices as [|c l IH]; intros b be; cbn [select_loop filter].
  - now destruct b.
  - destruct (match_specifier spec c); cbn [andb]; auto. fold (excluded_by excl c).
    destruct (excluded_by excl c); cbn [negb fold_left]; apply IH.
Qed.
Lemma better_spec l : Forall wf_version l -> forall b, (forall x, b = Some x -> wf_version x) ->
  match fold_left better l b with
  | None => l = [] /\ b = None
  | Some r => (In r l \/ b = Some r) /\ (forall x, In x l -> cmp x r <= 0) /\
              (forall x, b = Some x -> cmp x r <= 0)
  end.
Proof.
  induction 1 as [|c l Hc Hl IH]; intros b Hb; cbn [fold_left].
  - destruct b as [r|]; auto. split; auto. split; [intros x []|]. intros x E. injection E as <-.
    rewrite cmp_refl; [lia|auto].
  - assert (B : exists d, better b c = Some d /\ wf_version d /\ (d = c \/ b = Some d) /\ cmp c d <= 0 /\
                 (forall x, b = Some x -> cmp x d <= 0)).
    { unfold better. destruct b as [x|].
      - specialize (Hb x eq_refl). destruct (Z.ltb_spec (cmp x c) 0) as [Lt|Ge].
        + exists c. split; auto. split; auto. split; auto. rewrite cmp_refl by auto. split; [lia|].
          intros y E. injection E as <-. lia.
        + exists x. split; auto. split; auto. split; auto. split.
          * rewrite <- sign_npos. rewrite (cmp_antisym x c) by auto. unfold sign.
            destruct (Z.compare_spec (cmp x c) 0); simpl; congruence || lia.
          * intros y E. injection E as <-. rewrite cmp_refl by auto. lia.
      - exists c. split; auto. split; auto. split; auto. rewrite cmp_refl by auto. split; [lia|discriminate]. }
    destruct B as (d & -> & Hd & Hin & Hcd & Hbd).
    assert (Hd' : forall x, Some d = Some x -> wf_version x) by (intros x E; injection E as <-; auto).
    specialize (IH (Some d) Hd'). destruct (fold_left better l (Some d)) as [r|].
    + destruct IH as (I1 & I2 & I3). pose proof (I3 d eq_refl) as Hdr.
      assert (Hr : wf_version r).
      { destruct I1 as [I1|I1]; [rewrite Forall_forall in Hl; auto|injection I1 as <-; auto]. }
      split; [|split].
      * destruct I1 as [I1|I1]; [left; now right|]. injection I1 as <-.
        destruct Hin as [->|]; [left; now left|auto].
      * intros x [<-|Hx]; auto. eapply cmp_le_trans; [..|exact Hdr]; auto.
      * intros x E. eapply cmp_le_trans; [..|exact Hdr]; auto.
    + destruct IH; discriminate.
Qed.
Lemma better_none l : fold_left better l None = None -> l = [].
Proof.
  destruct l as [|c l]; auto. cbn [fold_left better]. 
  enough (G : forall l c, fold_left better l (Some c) <> None) by (intros H; now apply G in H).
  clear. induction l as [|d l IH]; intros c; cbn [fold_left better]; [discriminate|].
  destruct (cmp c d <? 0); apply IH.
Qed.
Lemma Forall_filter {A} (P : A -> Prop) f l : Forall P l -> Forall P (filter f l).
Proof. rewrite !Forall_forall. intros H x Hx. apply filter_In in Hx as [Hx _]. auto. Qed.

Theorem select_none spec choices excl :
  select spec choices excl = None <-> (forall c, In c choices -> match_specifier spec c = false).
Proof.
  unfold select. rewrite select_loop_folds. split.
  - intros H c Hc. destruct (match_specifier spec c) eqn:M; auto.
    destruct (fold_left better (filter (fun c => match_specifier spec c && excluded_by excl c) choices) None) eqn:E;
      [discriminate|].
    apply better_none in E, H.
    destruct (excluded_by excl c) eqn:X.
    + assert (I : In c []) by (rewrite <- E; apply filter_In; now rewrite M, X). contradiction.
    + assert (I : In c []) by (rewrite <- H; apply filter_In; now rewrite M, X). contradiction.
  - intros H. assert (F : forall f, filter (fun c => match_specifier spec c && f c) choices = []).
    { intros f. induction choices as [|c l IH]; auto. cbn [filter]. rewrite H by now left. cbn [andb].
      apply IH. intros; apply H. now right. }
    now rewrite !F.
Qed.
Theorem select_some spec choices excl r : Forall wf_version choices ->
  select spec choices excl = Some r ->
  In r choices /\ match_specifier spec r = true /\
  (forall c, In c choices -> match_specifier spec c = true ->
     excluded_by excl c = excluded_by excl r -> cmp c r <= 0) /\
  (excluded_by excl r = false -> forall c, In c choices -> match_specifier spec c = true ->
     excluded_by excl c = false).
Proof.
  intros W H. unfold select in H. rewrite select_loop_folds in H.
  set (P := filter (fun c => match_specifier spec c && excluded_by excl c) choices) in *.
  set (Q := filter (fun c => match_specifier spec c && negb (excluded_by excl c)) choices) in *.
  pose proof (better_spec P (Forall_filter _ _ _ W) None ltac:(discriminate)) as BP.
  pose proof (better_spec Q (Forall_filter _ _ _ W) None ltac:(discriminate)) as BQ.
  destruct (fold_left better P None) as [x|].
  - injection H as ->. destruct BP as ([I|I] & M & _); [|discriminate]. apply filter_In in I as [I1 I2].
    apply andb_true_iff in I2 as [I2 I3]. split; auto. split; auto. rewrite I3. split; [|discriminate].
    intros c Hc Mc Xc. apply M. apply filter_In. now rewrite Mc, Xc.
  - rewrite H in BQ. destruct BQ as ([I|I] & M & _); [|discriminate]. apply filter_In in I as [I1 I2].
    apply andb_true_iff in I2 as [I2 I3]. apply negb_true_iff in I3. split; auto. split; auto. rewrite I3. split.
    + intros c Hc Mc Xc. apply M. apply filter_In. now rewrite Mc, Xc.
    + intros _ c Hc Mc. destruct (excluded_by excl c) eqn:X; auto. destruct BP as [BP _].
      assert (J : In c []) by (rewrite <- BP; apply filter_In; now rewrite Mc, X). contradiction.
Qed.

(** ** Forms used by the property file *)
Lemma no_comma_forallb s : ~ In ","%char s -> forallb (fun c => negb (byte_eqb c ",")) s = true.
Proof.
  intros H. apply forallb_forall. intros x Hx. apply negb_true_iff, byte_eqb_neq. intros ->. contradiction.
Qed.
Theorem exclude_text s v : ~ In ","%char s ->
  match parse_specifier ($"==" ++ s), parse_specifier ($"!=" ++ s) with
  | Ok cs, Ok ds => match_specifier ds v = negb (match_specifier cs v)
  | Err, Err => True
  | _, _ => False
  end.
Proof. intros H. now apply exclude_complement, no_comma_forallb. Qed.
Theorem clause_strict V v : ranged_version V -> ranged_version v ->
  (match_clause {| c_op := OpStrictMatch; c_ver := V |} v = true <-> strictly_equal V v) /\
  (match_clause {| c_op := OpStrictExclude; c_ver := V |} v = true <-> ~ strictly_equal V v).
Proof.
  intros HV Hv. unfold match_clause. cbn [c_op c_ver]. pose proof (match_strict_spec V v HV Hv) as E.
  rewrite negb_true_iff. destruct (match_strict V v); intuition congruence.
Qed.
Theorem clause_prefix V v : ranged_version V -> ranged_version v ->
  (match_clause {| c_op := OpPrefixMatch; c_ver := V |} v = true <-> prefix_agrees V v) /\
  (match_clause {| c_op := OpPrefixExclude; c_ver := V |} v = true <-> ~ prefix_agrees V v).
Proof.
  intros HV Hv. unfold match_clause. cbn [c_op c_ver].
  pose proof (match_prefix_spec V v (ranged_matchable V HV) (ranged_matchable v Hv)) as E.
  rewrite negb_true_iff. destruct (match_prefix V v); intuition congruence.
Qed.
Theorem clause_compatible V v :
  match_clause {| c_op := OpCompatible; c_ver := V |} v =
  match_clause {| c_op := OpGE; c_ver := V |} v && match_clause {| c_op := OpPrefixMatch; c_ver := series V |} v.
Proof.
  unfold match_clause. cbn [c_op c_ver]. unfold match_compatible. f_equal.
  unfold match_prefix, series, compatible_prefix. cbn [pub epoch release pre post dev].
  now rewrite removelast_firstn_z.
Qed.
Theorem clause_compatible_min s cs c : parse_specifier s = Ok cs -> In c cs -> c_op c = OpCompatible ->
  (2 <= length (release (pub (c_ver c))))%nat /\ local (c_ver c) = [].
Proof.
  intros H Hc E. destruct (parse_specifier_ok s cs H c Hc) as [P _]. rewrite E in P. unfold permitted in P.
  apply andb_true_iff in P as [P1 P2]. apply Nat.leb_le in P1. split; auto. now destruct (local (c_ver c)).
Qed.
Theorem select_max_nil spec choices r : Forall wf_version choices -> select spec choices None = Some r ->
  In r choices /\ match_specifier spec r = true /\
  (forall c, In c choices -> match_specifier spec c = true -> cmp c r <= 0).
Proof.
  intros W H. destruct (select_some spec choices None r W H) as (H1 & H2 & H3 & _). auto.
Qed.
Theorem select_classes spec choices allow r : Forall wf_version choices ->
  select spec choices (Some allow) = Some r ->
  In r choices /\ match_specifier spec r = true /\
  (forall c, In c choices -> match_specifier spec c = true -> allow c = allow r -> cmp c r <= 0) /\
  (allow r = true -> forall c, In c choices -> match_specifier spec c = true -> allow c = true).
Proof.
  intros W H. destruct (select_some spec choices (Some allow) r W H) as (H1 & H2 & H3 & H4). unfold excluded_by in *.
  split; auto. split; auto. split.
  - intros c Hc Mc E. apply H3; auto. now rewrite E.
  - intros E c Hc Mc. apply negb_false_iff, H4; auto. now rewrite E.
Qed.
Lemma allow_multi_spec m v : allow_multi m v = true <-> (forall e, In e m -> e v = true).
Proof.
  induction m as [|e m IH]; simpl.
  - split; [intros _ e He; contradiction|reflexivity].
  - destruct (e v) eqn:E; cbn [negb].
    + rewrite IH. split; intros H; [intros d [<-|Hd]; auto|auto].
    + split; [discriminate|]. intros H. rewrite <- E. apply H. auto.
Qed.
Lemma allow_no_prereleases_spec l v : Forall ranged_version l -> ranged_version v ->
  (allow_no_prereleases l v = true <-> ~ pre_or_dev v \/ exists x, In x l /\ pep440_compare x v = Eq).
Proof.
  intros Hl Hv. unfold allow_no_prereleases.
  assert (P : is_prerelease (pub v) = true <-> pre_or_dev v).
  { unfold is_prerelease, pre_or_dev. destruct (pre (pub v)), (dev (pub v)); simpl; intuition congruence. }
  assert (L : listed l v = true <-> exists x, In x l /\ pep440_compare x v = Eq).
  { induction Hl as [|y l Hy Hl IH]; simpl.
    - split; [discriminate|]. intros (x & [] & _).
    - pose proof (cmp_zero y v Hy Hv) as Z. destruct (Z.eqb_spec (cmp y v) 0) as [E|E].
      + split; [|reflexivity]. intros _. exists y. split; auto. tauto.
      + rewrite IH. split; intros (x & H1 & H2); exists x; split; auto. destruct H1 as [<-|]; auto. tauto. }
  destruct (is_prerelease (pub v)); cbn [negb]; [rewrite L|]; intuition congruence.
Qed.

(** ** Witnesses *)
Definition ver_of (s : str) : version :=
  match parse_version s with Some v => v | None => {| pub := mkPublic 0 [] None None None; local := [] |} end.
Lemma wf_check v : 
  (0 <=? epoch (pub v)) && (epoch (pub v) <? 2 ^ 63) &&
  negb (match release (pub v) with [] => true | _ => false end) &&
  forallb (fun z => (0 <=? z) && (z <? 2 ^ 63)) (release (pub v)) &&
  (match pre (pub v) with Some (l, n) => is_some (letter_rank l) && (0 <=? n) && (n <? 2 ^ 63) | None => true end) &&
  (match post (pub v) with Some n => (0 <=? n) && (n <? 2 ^ 63 - 1) | None => true end) &&
  (match dev (pub v) with Some n => (0 <=? n) && (n <? 2 ^ 63) | None => true end) &&
  forallb (fun s => match s with SInt i => (0 <=? i) && (i <? 2 ^ 31) | SStr _ => true end) (local v) = true ->
  wf_version v.
Proof.
  rewrite !andb_true_iff, !Z.leb_le, !Z.ltb_lt. intros (((((((H1 & H2) & H3) & H4) & H5) & H6) & H7) & H8).
  split; [split; [split; [|split; [|split; [|split; [|split]]]]|]|].
  - split; auto.
  - destruct (release (pub v)); discriminate.
  - apply Forall_forall. intros z Hz. rewrite forallb_forall in H4. specialize (H4 z Hz).
    rewrite andb_true_iff, Z.leb_le, Z.ltb_lt in H4. exact H4.
  - intros l n E. rewrite E in H5. rewrite !andb_true_iff, Z.leb_le, Z.ltb_lt in H5. destruct H5 as [[H5 ?] ?].
    split; [|split; auto]. destruct (letter_rank l); discriminate.
  - intros n E. rewrite E in H6. rewrite andb_true_iff, Z.leb_le, Z.ltb_lt in H6. unfold int64_ok. lia.
  - intros n E. rewrite E in H7. rewrite andb_true_iff, Z.leb_le, Z.ltb_lt in H7. unfold int64_ok. lia.
  - intros E. rewrite E in H6. rewrite andb_true_iff, Z.leb_le, Z.ltb_lt in H6. lia.
  - apply Forall_forall. intros [i|s] Hs; cbn [wf_seg]; auto. rewrite forallb_forall in H8. specialize (H8 _ Hs).
    rewrite andb_true_iff, Z.leb_le, Z.ltb_lt in H8. exact H8.
Qed.
Lemma lt_text_wrong :
  parse_version $"2.0" <> None /\ parse_specifier $"<2.0" = Err /\
  parse_specifier $"<12.0" = parse_specifier $"< 2.0" /\ parse_specifier $"< 2.0" <> Err /\
  parse_specifier $"<" = Panic.
Proof. repeat split; vm_compute; congruence. Qed.
Lemma le_local_wrong : exists V v, parse_version $"1.0" = Some V /\ parse_version $"1.0+local" = Some v /\
  at_most V v /\ match_clause {| c_op := OpLE; c_ver := V |} v = false.
Proof.
  exists (ver_of $"1.0"), (ver_of $"1.0+local"). split; [reflexivity|]. split; [reflexivity|].
  split; vm_compute; congruence.
Qed.
Lemma lt_pre_wrong : exists V v, parse_version $"1.0" = Some V /\ parse_version $"1.0rc1" = Some v /\
  ~ below V v /\ match_clause {| c_op := OpLT; c_ver := V |} v = true.
Proof.
  exists (ver_of $"1.0"), (ver_of $"1.0rc1"). split; [reflexivity|]. split; [reflexivity|].
  split; [|reflexivity]. intros [_ H]. apply H. split; [left; vm_compute; congruence|].
  split; [intros [H'|H']; apply H'; reflexivity|]. split; [reflexivity|]. now vm_compute.
Qed.
Lemma gt_post_wrong : exists V v w, parse_version $"1.0" = Some V /\ parse_version $"1.0.post1" = Some v /\
  parse_version $"1.0+local" = Some w /\
  ~ above V v /\ match_clause {| c_op := OpGT; c_ver := V |} v = true /\
  ~ above V w /\ match_clause {| c_op := OpGT; c_ver := V |} w = true.
Proof.
  exists (ver_of $"1.0"), (ver_of $"1.0.post1"), (ver_of $"1.0+local").
  split; [reflexivity|]. split; [reflexivity|]. split; [reflexivity|]. split; [|split; [reflexivity|split; [|reflexivity]]].
  - intros (_ & H & _). apply H. split; [vm_compute; congruence|].
    split; [intros H'; apply H'; reflexivity|]. split; [reflexivity|]. now vm_compute.
  - intros (_ & _ & H). apply H. split; [vm_compute; congruence|]. split; [reflexivity|]. now vm_compute.
Qed.
Lemma string_drops_star : exists cs ds v, parse_specifier $"==1.0.*" = Ok cs /\
  parse_specifier (specifier_string cs) = Ok ds /\ match_specifier cs v = true /\ match_specifier ds v = false.
Proof.
  exists [mkClause OpPrefixMatch (ver_of $"1.0")], [mkClause OpStrictMatch (ver_of $"1.0")], (ver_of $"1.0.5").
  repeat split; vm_compute; reflexivity.
Qed.
Lemma string_lt_unparsable : exists cs, parse_specifier $"< 2.0" = Ok cs /\ parse_specifier (specifier_string cs) = Err.
Proof. exists [mkClause OpLT (ver_of $"2.0")]. split; vm_compute; reflexivity. Qed.
Lemma select_prefers_excluded : exists spec final prere,
  parse_specifier $">=1.0" = Ok spec /\ parse_version $"1.5" = Some final /\ parse_version $"2.0a1" = Some prere /\
  allow_no_prereleases [] final = true /\ allow_no_prereleases [] prere = false /\
  match_specifier spec final = true /\
  select spec [final; prere] (Some (allow_no_prereleases [])) = Some prere.
Proof.
  exists [mkClause OpGE (ver_of $"1.0")], (ver_of $"1.5"), (ver_of $"2.0a1").
  repeat split; vm_compute; reflexivity.
Qed.
