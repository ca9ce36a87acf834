(** The comparison functions of the model realise the PEP 440 key order. *)
From Coq Require Import String Ascii List Bool ZArith NArith Lia.
From Verif.Model Require Import GoStr Pep440.
From Verif.Spec Require Import Pep440Spec.
From Verif.Proofs Require Import Order.
Import ListNotations.
Open Scope Z_scope.
Local Arguments Z.compare : simpl never.
Local Arguments Z.eqb : simpl never.
Local Arguments Z.pow : simpl never.

Lemma wrap_small bits z : 0 < bits ->
  - 2 ^ (bits - 1) <= z < 2 ^ (bits - 1) -> wrap bits z = z.
Proof.
  intros Hb Hz. unfold wrap.
  assert (E : 2 ^ bits = 2 * 2 ^ (bits - 1)).
  { rewrite <- Z.pow_succ_r by lia. f_equal. lia. }
  rewrite Z.mod_small; lia.
Qed.
Lemma wrap64_small z : - 2 ^ 63 <= z < 2 ^ 63 -> wrap64 z = z.
Proof. intros H. apply wrap_small; [lia | exact H]. Qed.
Lemma wrap32_small z : - 2 ^ 31 <= z < 2 ^ 31 -> wrap32 z = z.
Proof. intros H. apply wrap_small; [lia | exact H]. Qed.

Lemma sign_sub x y : sign (x - y) = (x ?= y).
Proof.
  unfold sign. destruct (Z.compare_spec x y); destruct (Z.compare_spec (x - y) 0); auto; lia.
Qed.
Lemma sign_wrap64 x y : 0 <= x < 2 ^ 63 -> 0 <= y < 2 ^ 63 -> sign (wrap64 (x - y)) = (x ?= y).
Proof. intros. rewrite wrap64_small by lia. apply sign_sub. Qed.
Lemma sign_wrap64' x y : -1 <= x < 2 ^ 63 - 1 -> -1 <= y < 2 ^ 63 - 1 -> sign (wrap64 (x - y)) = (x ?= y).
Proof. intros. rewrite wrap64_small by lia. apply sign_sub. Qed.
Lemma sign_wrap32 x y : int32_ok x -> int32_ok y -> sign (wrap32 (x - y)) = (x ?= y).
Proof. unfold int32_ok. intros. rewrite wrap32_small by lia. apply sign_sub. Qed.

Lemma sign_orelse d e : sign (orelse d e) = lex (sign d) (sign e).
Proof.
  unfold orelse, sign. destruct (Z.eqb_spec d 0) as [->|H]; auto.
  destruct (Z.compare_spec d 0); auto; lia.
Qed.
Lemma sign_zero z : sign z = Eq <-> z = 0.
Proof. unfold sign. apply Z.compare_eq_iff. Qed.

Ltac zcmp := repeat match goal with
  | |- context [?x ?= ?y] => destruct (Z.compare_spec x y)
  end.

(** Release segments *)
Fixpoint padcmp0 (b : list Z) : comparison :=   (* 0,0,0.. against b *)
  match b with [] => Eq | y :: b' => lex (0 ?= y) (padcmp0 b') end.
Fixpoint padcmp (a b : list Z) : comparison :=
  match a, b with
  | [], _ => padcmp0 b
  | x :: a', [] => lex (x ?= 0) (padcmp a' [])
  | x :: a', y :: b' => lex (x ?= y) (padcmp a' b')
  end.

Lemma nonneg_int64 l : Forall int64_ok l -> Forall (fun z => 0 <= z) l.
Proof. apply Forall_impl. unfold int64_ok. lia. Qed.

Lemma strip_zeros_cons x r :
  strip_zeros (x :: r) = match strip_zeros r with [] => if x =? 0 then [] else [x] | r'' => x :: r'' end.
Proof. reflexivity. Qed.

Lemma strip_padcmp0 b : Forall (fun z => 0 <= z) b ->
  padcmp0 b = match strip_zeros b with [] => Eq | _ => Lt end.
Proof.
  induction 1 as [|y b Hy Hb IH]; simpl; auto.
  rewrite IH. destruct (Z.compare_spec 0 y) as [<-|H|H]; try lia; simpl.
  - now destruct (strip_zeros b).
  - destruct (Z.eqb_spec y 0); [lia|]. now destruct (strip_zeros b).
Qed.

Lemma strip_padcmp a b : Forall (fun z => 0 <= z) a -> Forall (fun z => 0 <= z) b ->
  cmp_list Z.compare (strip_zeros a) (strip_zeros b) = padcmp a b.
Proof.
  intros Ha. revert b. induction Ha as [|x a Hx Ha IH]; intros b Hb.
  - simpl padcmp. rewrite strip_padcmp0 by auto. simpl strip_zeros. now destruct (strip_zeros b).
  - destruct b as [|y b].
    + specialize (IH [] (Forall_nil _)). simpl padcmp. rewrite <- IH.
      rewrite strip_zeros_cons. simpl (strip_zeros []).
      destruct (strip_zeros a) as [|z r] eqn:E; simpl.
      * destruct (Z.eqb_spec x 0) as [->|Hn]; auto. simpl.
        destruct (Z.compare_spec x 0); auto; lia.
      * destruct (Z.compare_spec x 0); auto; lia.
    + inversion Hb as [|? ? Hy Hb']; subst. specialize (IH b Hb'). simpl padcmp. rewrite <- IH.
      rewrite !strip_zeros_cons.
      destruct (strip_zeros a) as [|z r] eqn:E; destruct (strip_zeros b) as [|w t] eqn:F; simpl.
      * destruct (Z.eqb_spec x 0) as [Hn|Hn], (Z.eqb_spec y 0) as [Hm|Hm]; simpl;
          zcmp; simpl; auto; lia.
      * destruct (Z.eqb_spec x 0) as [Hn|Hn]; simpl; zcmp; simpl; auto; lia.
      * destruct (Z.eqb_spec y 0) as [Hm|Hm]; simpl; zcmp; simpl; auto; lia.
      * auto.
Qed.

Lemma nth_int64 l n : Forall int64_ok l -> int64_ok (nth n l 0).
Proof.
  intros H. destruct (le_lt_dec (length l) n).
  - rewrite nth_overflow by auto. unfold int64_ok. lia.
  - rewrite Forall_forall in H. apply H. now apply nth_In.
Qed.

Lemma padcmp0_skipn b i :
  padcmp0 (skipn i b) =
  if (length b <=? i)%nat then Eq else lex (0 ?= nth i b 0) (padcmp0 (skipn (S i) b)).
Proof.
  revert i. induction b as [|y b IH]; intros [|i]; auto.
  cbn [skipn length nth Nat.leb]. apply IH.
Qed.
Lemma padcmp_r_skipn a i :
  padcmp (skipn i a) [] =
  if (length a <=? i)%nat then Eq else lex (nth i a 0 ?= 0) (padcmp (skipn (S i) a) []).
Proof.
  revert i. induction a as [|y b IH]; intros [|i]; auto.
  cbn [skipn length nth Nat.leb]. apply IH.
Qed.
Lemma padcmp_skipn a b i :
  padcmp (skipn i a) (skipn i b) =
  if (max (length a) (length b) <=? i)%nat then Eq
  else lex (nth i a 0 ?= nth i b 0) (padcmp (skipn (S i) a) (skipn (S i) b)).
Proof.
  revert b i. induction a as [|x a IH]; intros b i.
  - rewrite !skipn_nil. change (padcmp [] (skipn i b)) with (padcmp0 (skipn i b)).
    change (padcmp [] (skipn (S i) b)) with (padcmp0 (skipn (S i) b)).
    rewrite padcmp0_skipn. simpl length. rewrite Nat.max_0_l. now destruct i.
  - destruct b as [|y b].
    + rewrite !skipn_nil. rewrite padcmp_r_skipn. rewrite Nat.max_0_r. destruct i; auto.
    + destruct i; auto. cbn [skipn length nth Nat.leb Nat.max]. apply IH.
Qed.

Lemma cmp_release_from_sign a b fuel : Forall int64_ok a -> Forall int64_ok b -> forall i,
  (max (length a) (length b) <= i + fuel)%nat ->
  sign (cmp_release_from a b i fuel) = padcmp (skipn i a) (skipn i b).
Proof.
  intros Ha Hb. induction fuel as [|k IH]; intros i Hi; rewrite padcmp_skipn.
  - simpl. destruct (Nat.leb_spec (max (length a) (length b)) i); auto. lia.
  - simpl cmp_release_from. unfold release_segment.
    destruct (nth_int64 a i Ha), (nth_int64 b i Hb).
    fold (orelse (wrap64 (nth i a 0 - nth i b 0)) (cmp_release_from a b (S i) k)).
    rewrite sign_orelse, sign_wrap64, IH by lia.
    destruct (Nat.leb_spec (max (length a) (length b)) i); auto.
    rewrite !nth_overflow, !skipn_all2 by lia. reflexivity.
Qed.

Lemma cmp_release_sign a b : ranged_public a -> ranged_public b ->
  sign (cmp_release a b) = cmp_list Z.compare (strip_zeros (release a)) (strip_zeros (release b)).
Proof.
  intros (_ & _ & Ha & _) (_ & _ & Hb & _). unfold cmp_release.
  rewrite cmp_release_from_sign by (auto; lia).
  rewrite strip_padcmp by (apply nonneg_int64; auto). reflexivity.
Qed.

(** Pre, post, dev *)
Lemma pre_order_rank l : letter_rank l <> None -> pre_order l = rank l - 3 /\ 0 <= rank l <= 2.
Proof.
  unfold pre_order, rank, letter_rank.
  destruct (str_eqb l $"a"), (str_eqb l $"alpha"), (str_eqb l $"b"), (str_eqb l $"beta"),
    (str_eqb l $"rc"), (str_eqb l $"c"), (str_eqb l $"pre"), (str_eqb l $"preview");
    simpl; intros; try (split; lia); congruence.
Qed.

Lemma pre_rank_ok v : ranged_public v ->
  let '(l, n) := pre_rank v in -4 <= l <= 0 /\ int64_ok n.
Proof.
  intros (_ & _ & _ & H & _). unfold pre_rank.
  destruct (pre v) as [[l n]|].
  - destruct (H l n eq_refl) as [H1 H2]. destruct (pre_order_rank l H1). split; auto. lia.
  - destruct (is_some (dev v) && negb (is_some (post v))); unfold int64_ok; lia.
Qed.

Lemma cmp_prerelease_sign a b : ranged_public a -> ranged_public b ->
  sign (cmp_prerelease a b) = cmp_ext (cmp_pair Z.compare Z.compare) (pre_key a) (pre_key b).
Proof.
  intros Ha Hb. unfold cmp_prerelease.
  pose proof (pre_rank_ok a Ha) as Ra. pose proof (pre_rank_ok b Hb) as Rb.
  destruct (pre_rank a) as [al an] eqn:Ea, (pre_rank b) as [bl bn] eqn:Eb.
  destruct Ra as [Ra1 Ra2], Rb as [Rb1 Rb2].
  unfold int64_ok in *.
  assert (E : sign (if negb (al =? bl) then wrap64 (al - bl) else wrap64 (an - bn))
              = lex (al ?= bl) (an ?= bn)).
  { destruct (Z.eqb_spec al bl) as [->|Hn]; simpl negb; cbv iota.
    - rewrite Z.compare_refl. rewrite sign_wrap64 by lia. reflexivity.
    - rewrite wrap64_small by lia. rewrite sign_sub.
      destruct (Z.compare_spec al bl); auto. lia. }
  rewrite E. clear E.
  destruct Ha as (_ & _ & _ & Ha & _), Hb as (_ & _ & _ & Hb & _).
  unfold pre_rank, pre_key in *.
  destruct (pre a) as [[l1 n1]|], (pre b) as [[l2 n2]|].
  - destruct (Ha l1 n1 eq_refl) as [L1 _], (Hb l2 n2 eq_refl) as [L2 _].
    destruct (pre_order_rank l1 L1) as [P1 _], (pre_order_rank l2 L2) as [P2 _].
    injection Ea as <- <-. injection Eb as <- <-. rewrite P1, P2. simpl. unfold cmp_pair. simpl.
    f_equal. destruct (Z.compare_spec (rank l1) (rank l2)), (Z.compare_spec (rank l1 - 3) (rank l2 - 3)); auto; lia.
  - destruct (Ha l1 n1 eq_refl) as [L1 _]. destruct (pre_order_rank l1 L1) as [P1 Q1].
    injection Ea as <- <-.
    destruct (post b), (dev b); simpl in Eb; injection Eb as <- <-; simpl; rewrite P1;
      match goal with |- lex (?x ?= ?y) _ = _ => destruct (Z.compare_spec x y) end; simpl; auto; lia.
  - destruct (Hb l2 n2 eq_refl) as [L1 _]. destruct (pre_order_rank l2 L1) as [P1 Q1].
    injection Eb as <- <-.
    destruct (post a), (dev a); simpl in Ea; injection Ea as <- <-; rewrite P1;
      match goal with |- lex (?x ?= ?y) _ = _ => destruct (Z.compare_spec x y) end; simpl; auto; lia.
  - destruct (post a), (dev a), (post b), (dev b); simpl in Ea, Eb;
      injection Ea as <- <-; injection Eb as <- <-; reflexivity.
Qed.

Lemma cmp_postrelease_sign a b : wf_public a -> wf_public b ->
  sign (cmp_postrelease a b) = cmp_ext Z.compare (post_key a) (post_key b).
Proof.
  intros ((_ & _ & _ & _ & Ha & _) & Na) ((_ & _ & _ & _ & Hb & _) & Nb).
  unfold cmp_postrelease, post_key.
  assert (Ra : -1 <= opt_default (-1) (post a) < 2 ^ 63 - 1).
  { destruct (post a) as [x|]; simpl opt_default; [|lia].
    pose proof (Ha x eq_refl). unfold int64_ok in *. assert (x <> 2 ^ 63 - 1) by congruence. lia. }
  assert (Rb : -1 <= opt_default (-1) (post b) < 2 ^ 63 - 1).
  { destruct (post b) as [x|]; simpl opt_default; [|lia].
    pose proof (Hb x eq_refl). unfold int64_ok in *. assert (x <> 2 ^ 63 - 1) by congruence. lia. }
  rewrite sign_wrap64' by auto.
  destruct (post a) as [x|], (post b) as [y|]; simpl opt_default in *; simpl cmp_ext; auto.
  - pose proof (Ha x eq_refl). unfold int64_ok in *. destruct (Z.compare_spec x (-1)); auto; lia.
  - pose proof (Hb y eq_refl). unfold int64_ok in *. destruct (Z.compare_spec (-1) y); auto; lia.
Qed.

Lemma cmp_devrelease_sign a b : ranged_public a -> ranged_public b ->
  sign (cmp_devrelease a b) = cmp_ext Z.compare (dev_key a) (dev_key b).
Proof.
  intros (_ & _ & _ & _ & _ & Ha) (_ & _ & _ & _ & _ & Hb). unfold cmp_devrelease, dev_key.
  destruct (dev a) as [x|], (dev b) as [y|]; simpl; auto.
  pose proof (Ha x eq_refl). pose proof (Hb y eq_refl). unfold int64_ok in *.
  apply sign_wrap64; lia.
Qed.

Lemma public_cmp_sign a b : wf_public a -> wf_public b ->
  sign (public_cmp a b) = public_compare a b.
Proof.
  intros Ha Hb. unfold public_cmp, public_compare. rewrite !sign_orelse.
  rewrite cmp_release_sign, cmp_prerelease_sign, cmp_postrelease_sign, cmp_devrelease_sign
    by (auto; apply Ha || apply Hb).
  f_equal. unfold cmp_epoch. destruct Ha as [[Ha _] _], Hb as [[Hb _] _]. unfold int64_ok in *.
  apply sign_wrap64; lia.
Qed.

(** Local segments *)
Lemma cmp_local_segment_sign x y : wf_seg x -> wf_seg y ->
  sign (cmp_local_segment (Some x) (Some y)) =
  cmp_pair (cmp_ext Z.compare) str_compare (seg_key x) (seg_key y).
Proof.
  destruct x as [x|x], y as [y|y]; intros Hx Hy; unfold cmp_local_segment; cbn [wf_seg] in *; auto.
  - rewrite sign_wrap32 by auto. unfold cmp_pair. simpl. now destruct (x ?= y).
  - simpl. unfold cmp_pair. simpl. unfold str_ltb. pose proof (ok_anti _ str_compare_ok x y) as E.
    destruct (str_compare x y); rewrite ?E; reflexivity.
Qed.

Lemma cmp_local_sign a b : Forall wf_seg a -> Forall wf_seg b ->
  sign (cmp_local a b) =
  cmp_list (cmp_pair (cmp_ext Z.compare) str_compare) (map seg_key a) (map seg_key b).
Proof.
  intros Ha. revert b. induction Ha as [|x a Hx Ha IH]; intros b Hb.
  - destruct b; reflexivity.
  - destruct b as [|y b].
    + now destruct x.
    + inversion Hb; subst. cbn [cmp_local tl map cmp_list].
      fold (orelse (cmp_local_segment (Some x) (Some y)) (cmp_local a b)).
      rewrite sign_orelse, cmp_local_segment_sign, IH by auto. reflexivity.
Qed.

Theorem cmp_sign a b : wf_version a -> wf_version b -> sign (cmp a b) = pep440_compare a b.
Proof.
  intros [Ha La] [Hb Lb]. unfold cmp, pep440_compare.
  rewrite sign_orelse, public_cmp_sign, cmp_local_sign by auto. f_equal.
  destruct (local a), (local b); reflexivity.
Qed.

(** The key order is a total preorder. *)
(** Equality: no exclusion of extreme values needed. *)
Lemma wrap_zero bits z : 0 < bits -> - 2 ^ bits < z < 2 ^ bits -> wrap bits z = 0 <-> z = 0.
Proof.
  intros Hb Hz. unfold wrap. set (h := 2 ^ (bits - 1)). assert (E : 2 ^ bits = 2 * h).
  { unfold h. rewrite <- (Z.pow_succ_r 2 (bits - 1)) by lia. f_equal. lia. }
  rewrite E in *. assert (0 < h) by (unfold h; apply Z.pow_pos_nonneg; lia). split.
  - intros H1. assert (M : (z + h) mod (2 * h) = h) by lia.
    pose proof (Z_div_mod_eq_full (z + h) (2 * h)) as D. rewrite M in D.
    assert (z = 2 * h * ((z + h) / (2 * h))) by lia.
    assert ((z + h) / (2 * h) = 0) by nia. nia.
  - intros ->. rewrite Z.add_0_l, Z.mod_small; lia.
Qed.
Lemma post_zero a b : ranged_public a -> ranged_public b ->
  (cmp_postrelease a b = 0 <-> post a = post b).
Proof.
  intros (_ & _ & _ & _ & Ha & _) (_ & _ & _ & _ & Hb & _). unfold cmp_postrelease, wrap64, int64_ok in *.
  destruct (post a) as [x|]; [pose proof (Ha x eq_refl)|];
    (destruct (post b) as [y|]; [pose proof (Hb y eq_refl)|]); simpl opt_default;
    rewrite wrap_zero by lia; split; intros E; try congruence; try lia; try (f_equal; lia).
  injection E as ->. lia.
Qed.
Lemma orelse_zero d e : orelse d e = 0 <-> d = 0 /\ e = 0.
Proof. unfold orelse. destruct (Z.eqb_spec d 0); intuition. Qed.
Lemma post_key_eq a b : cmp_ext Z.compare (post_key a) (post_key b) = Eq <-> post a = post b.
Proof.
  unfold post_key. destruct (post a), (post b); simpl; rewrite ?Z.compare_eq_iff; intuition congruence.
Qed.
Lemma public_cmp_zero a b : ranged_public a -> ranged_public b ->
  (public_cmp a b = 0 <-> public_compare a b = Eq).
Proof.
  intros Ha Hb. unfold public_cmp, public_compare. rewrite !orelse_zero, !lex_eq, post_key_eq, <- post_zero by auto.
  rewrite <- cmp_release_sign, <- cmp_prerelease_sign, <- cmp_devrelease_sign, !sign_zero by auto.
  rewrite Z.compare_eq_iff. unfold cmp_epoch, wrap64. destruct Ha as [Ha _], Hb as [Hb _]. unfold int64_ok in *.
  rewrite wrap_zero by lia. intuition lia.
Qed.
Lemma cmp_local_zero a b : Forall ranged_seg a -> Forall ranged_seg b ->
  (cmp_local a b = 0 <-> cmp_list (cmp_pair (cmp_ext Z.compare) str_compare) (map seg_key a) (map seg_key b) = Eq).
Proof.
  intros Ha. revert b. induction Ha as [|x a Hx Ha IH]; intros b Hb.
  - destruct b; simpl; split; congruence.
  - destruct b as [|y b].
    + destruct x; simpl; split; congruence.
    + inversion Hb as [|? ? Hy Hb' Eq1]; subst. cbn [cmp_local tl map cmp_list].
      fold (orelse (cmp_local_segment (Some x) (Some y)) (cmp_local a b)).
      rewrite orelse_zero, lex_eq, IH by auto.
      enough (E : cmp_local_segment (Some x) (Some y) = 0 <->
        cmp_pair (cmp_ext Z.compare) str_compare (seg_key x) (seg_key y) = Eq) by tauto.
      destruct x as [x|x], y as [y|y]; cbn [ranged_seg] in *.
      * unfold cmp_local_segment, cmp_pair, wrap32. rewrite wrap_zero by lia. simpl.
        rewrite lex_eq, Z.compare_eq_iff. intuition lia.
      * simpl. split; discriminate.
      * simpl. split; discriminate.
      * rewrite <- sign_zero, cmp_local_segment_sign by exact I. reflexivity.
Qed.
Theorem cmp_zero a b : ranged_version a -> ranged_version b -> (cmp a b = 0 <-> pep440_compare a b = Eq).
Proof.
  intros [Ha La] [Hb Lb]. unfold cmp, pep440_compare. rewrite orelse_zero, lex_eq, public_cmp_zero, cmp_local_zero by auto.
  destruct (local a), (local b); simpl; intuition congruence.
Qed.

Lemma public_compare_ok : cmp_ok public_compare.
Proof.
  unfold public_compare. repeat apply cmp_lex_ok.
  - exact (cmp_map_ok epoch _ Z_compare_ok).
  - exact (cmp_map_ok (fun v => strip_zeros (release v)) _ (cmp_list_ok _ Z_compare_ok)).
  - exact (cmp_map_ok pre_key _ (cmp_ext_ok _ (cmp_pair_ok _ _ Z_compare_ok Z_compare_ok))).
  - exact (cmp_map_ok post_key _ (cmp_ext_ok _ Z_compare_ok)).
  - exact (cmp_map_ok dev_key _ (cmp_ext_ok _ Z_compare_ok)).
Qed.
Lemma pep440_compare_ok : cmp_ok pep440_compare.
Proof.
  unfold pep440_compare. apply cmp_lex_ok.
  - exact (cmp_map_ok pub _ public_compare_ok).
  - exact (cmp_map_ok (fun v => local_key (local v)) _ (cmp_ext_ok _ (cmp_list_ok _
      (cmp_pair_ok _ _ (cmp_ext_ok _ Z_compare_ok) str_compare_ok)))).
Qed.

Lemma sign_neg z : sign z = Lt <-> z < 0.  Proof. apply Z.compare_lt_iff. Qed.
Lemma sign_pos z : sign z = Gt <-> 0 < z.  Proof. unfold sign. rewrite Z.compare_gt_iff. lia. Qed.
Lemma sign_npos z : sign z <> Gt <-> z <= 0.
Proof. unfold sign. rewrite Z.compare_gt_iff. lia. Qed.

Lemma cmp_antisym a b : wf_version a -> wf_version b -> sign (cmp b a) = CompOpp (sign (cmp a b)).
Proof. intros. rewrite !cmp_sign by auto. apply pep440_compare_ok. Qed.
Lemma cmp_refl a : wf_version a -> cmp a a = 0.
Proof. intros. apply sign_zero. rewrite cmp_sign by auto. apply ok_refl, pep440_compare_ok. Qed.
Lemma cmp_le_trans a b c : wf_version a -> wf_version b -> wf_version c ->
  cmp a b <= 0 -> cmp b c <= 0 -> cmp a c <= 0.
Proof.
  intros Ha Hb Hc. rewrite <- !sign_npos, !cmp_sign by auto.
  apply ok_le_trans, pep440_compare_ok.
Qed.
Lemma cmp_eq_subst a b c : wf_version a -> wf_version b -> wf_version c ->
  cmp a b = 0 -> sign (cmp a c) = sign (cmp b c).
Proof.
  intros Ha Hb Hc. rewrite <- sign_zero, !cmp_sign by auto. apply pep440_compare_ok.
Qed.

Lemma sign_sgn z : Z.sgn z = match sign z with Lt => -1 | Eq => 0 | Gt => 1 end.
Proof. destruct z; reflexivity. Qed.
Lemma cmp_antisym_sgn a b : wf_version a -> wf_version b -> Z.sgn (cmp b a) = - Z.sgn (cmp a b).
Proof. intros. rewrite !sign_sgn, (cmp_antisym a b) by auto. now destruct (sign (cmp a b)). Qed.
Lemma cmp_eq_subst_sgn a b c : wf_version a -> wf_version b -> wf_version c ->
  cmp a b = 0 -> Z.sgn (cmp a c) = Z.sgn (cmp b c).
Proof. intros. rewrite !sign_sgn. now rewrite (cmp_eq_subst a b c). Qed.

Lemma strip_zeros_app r n : strip_zeros (r ++ repeat 0 n) = strip_zeros r.
Proof.
  induction r as [|x r IH]; simpl.
  - induction n as [|n IH]; simpl; auto. now rewrite IH.
  - now rewrite IH.
Qed.
Lemma repeat_int64 n : Forall int64_ok (repeat 0 n).
Proof. induction n; constructor; auto. unfold int64_ok. lia. Qed.

Lemma trailing_zeros v w n :
  let v' := {| pub := {| epoch := epoch (pub v); release := release (pub v) ++ repeat 0 n;
                         pre := pre (pub v); post := post (pub v); dev := dev (pub v) |};
               local := local v |} in
  wf_version v -> wf_version w ->
  cmp v' v = 0 /\ cmp v v' = 0 /\ Z.sgn (cmp v' w) = Z.sgn (cmp v w).
Proof.
  intros v' Hv Hw.
  assert (Hv' : wf_version v').
  { destruct Hv as [[(H1 & H2 & H3 & H4) H5] H6].
    split; [split; [|exact H5]|exact H6]. unfold ranged_public. simpl.
    split; [exact H1|]. split.
    - intros E. apply app_eq_nil in E. tauto.
    - split; [|exact H4]. apply Forall_app. split; auto. apply repeat_int64. }
  assert (E : forall u, pep440_compare v' u = pep440_compare v u).
  { intros u. unfold pep440_compare, public_compare, pre_key, post_key, dev_key, v'. simpl.
    now rewrite strip_zeros_app. }
  assert (E0 : cmp v' v = 0).
  { apply sign_zero. rewrite cmp_sign, E by auto. apply ok_refl, pep440_compare_ok. }
  repeat split; auto.
  - apply sign_zero. rewrite (cmp_antisym v' v) by auto. apply sign_zero in E0. now rewrite E0.
  - rewrite !sign_sgn, !cmp_sign by auto. now rewrite E.
Qed.

(** Witnesses *)
Lemma cmp_local_wraps : exists a b,
  parse_version $"1+2147483648" = Some a /\ parse_version $"1+0" = Some b /\
  cmp a b < 0 /\ cmp b a < 0.
Proof. eexists _, _. repeat split; vm_compute; reflexivity. Qed.
Lemma cmp_local_huge : exists a b,
  parse_version $"1+9223372036854775808" = Some a /\ parse_version $"1+1" = Some b /\ cmp a b < 0.
Proof. eexists _, _. repeat split; vm_compute; reflexivity. Qed.
Lemma cmp_post_wraps : exists a b c,
  parse_version $"1" = Some a /\ parse_version $"1.post9223372036854775807" = Some b /\
  parse_version $"1.post0" = Some c /\
  cmp b a < 0 /\ cmp a c < 0 /\ 0 < cmp b c.
Proof. eexists _, _, _. repeat split; vm_compute; reflexivity. Qed.

Lemma wf_version_examples : exists a b c,
  parse_version $"2!1.0.dev3" = Some a /\ parse_version $"v1.0-RC.1.post7+ubuntu.14" = Some b /\
  parse_version $"1.0.0" = Some c /\ wf_version a /\ wf_version b /\ wf_version c /\
  cmp b a < 0 /\ cmp b c < 0.
Proof.
  eexists _, _, _. split; [vm_compute; reflexivity|]. split; [vm_compute; reflexivity|].
  split; [vm_compute; reflexivity|].
  unfold wf_version, wf_public, ranged_public, wf_seg, int64_ok, int32_ok. simpl.
  split; [|split; [|split; [|split; vm_compute; reflexivity]]];
    (repeat split; try discriminate; try congruence; try lia;
     repeat (constructor; simpl; try lia);
     intros; repeat match goal with H : Some _ = Some _ |- _ => injection H as <- end;
     try match goal with H : Some _ = Some _ |- _ => injection H end; intros; subst;
     try lia; try (vm_compute; congruence); try congruence).
Qed.
