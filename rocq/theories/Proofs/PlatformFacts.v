(** VersionInfo.PEP440 *)
From Coq Require Import String Ascii List Bool ZArith Lia.
From Verif.Model Require Import GoStr Pep440 Platform.
From Verif.Spec Require Import PlatformSpec.
From Verif.Proofs Require Import GoStrFacts.
Import ListNotations.
Local Open Scope Z_scope.

Lemma wrap64_small z : - 2 ^ 62 < z < 2 ^ 62 -> wrap64 z = z.
Proof. intros H. unfold wrap64, wrap. change (2 ^ 64) with (4 * 2 ^ 62). change (2 ^ (64 - 1)) with (2 * 2 ^ 62).
  rewrite Z.mod_small by lia. lia.
Qed.
Lemma sub_compare x y : (x - y ?= 0) = (x ?= y).
Proof. destruct (Z.compare_spec x y); [apply Z.compare_eq_iff|apply Z.compare_lt_iff|apply Z.compare_gt_iff]; lia. Qed.
Lemma orelse_compare d e c : (d ?= 0) = c -> (orelse d e ?= 0) = match c with Eq => e ?= 0 | c => c end.
Proof.
  intros <-. unfold orelse. destruct (Z.eqb_spec d 0) as [->|N]; [reflexivity|].
  destruct (Z.compare_spec d 0); auto. contradiction.
Qed.

Theorem vi_order a b pa pb ra rb : small_info a -> small_info b -> vi_pep440 a = Some pa -> vi_pep440 b = Some pb ->
  level_rank (vi_level a) = Some ra -> level_rank (vi_level b) = Some rb ->
  Z.compare (public_cmp pa pb) 0 =
  tuple_compare [vi_major a; vi_minor a; vi_micro a; ra] [vi_major b; vi_minor b; vi_micro b; rb].
Proof.
  intros (A1 & A2 & A3) (B1 & B2 & B3) Pa Pb Ra Rb. unfold small in *.
  assert (E : exists la lb, pre_rank pa = (la, 0) /\ pre_rank pb = (lb, 0) /\ la = ra - 3 /\ lb = rb - 3 /\
     epoch pa = 0 /\ epoch pb = 0 /\ release pa = [vi_major a; vi_minor a; vi_micro a] /\
     release pb = [vi_major b; vi_minor b; vi_micro b] /\ post pa = None /\ post pb = None /\ dev pa = None /\ dev pb = None /\
     0 <= ra <= 3 /\ 0 <= rb <= 3).
  { unfold vi_pep440, level_rank in *.
    destruct (str_eqb (vi_level a) $"alpha"), (str_eqb (vi_level a) $"beta"), (str_eqb (vi_level a) $"candidate"),
      (str_eqb (vi_level a) $"final"); try discriminate; injection Pa as <-; injection Ra as <-;
    destruct (str_eqb (vi_level b) $"alpha"), (str_eqb (vi_level b) $"beta"), (str_eqb (vi_level b) $"candidate"),
      (str_eqb (vi_level b) $"final"); try discriminate; injection Pb as <-; injection Rb as <-;
    (eexists; eexists; cbn; repeat split; lia). }
  destruct E as (la & lb & Ea & Eb & -> & -> & X1 & X2 & X3 & X4 & X5 & X6 & X7 & X8 & X9 & X10).
  unfold public_cmp.
  unfold cmp_epoch. rewrite X1, X2. change (wrap64 (0 - 0)) with 0.
  change (orelse 0 ?e) with e.
  unfold cmp_postrelease, cmp_devrelease. rewrite X5, X6, X7, X8. cbn [opt_default].
  change (wrap64 (-1 - -1)) with 0. change (orelse 0 0) with 0.
  unfold cmp_prerelease. rewrite Ea, Eb.
  unfold cmp_release. rewrite X3, X4. cbn [length max cmp_release_from release_segment nth].
  unfold release_segment. cbn [nth].
  rewrite !wrap64_small by lia.
  cbn [tuple_compare].
  assert (L : forall (t e : Z), (if t =? 0 then e else t) = orelse t e) by (intros; unfold orelse; destruct (t =? 0); auto).
  rewrite !L.
  rewrite (orelse_compare _ _ _ eq_refl).
  rewrite (orelse_compare _ _ _ (sub_compare _ _)).
  destruct (vi_major a ?= vi_major b); auto.
  rewrite (orelse_compare _ _ _ (sub_compare _ _)).
  destruct (vi_minor a ?= vi_minor b); auto.
  rewrite (orelse_compare _ _ _ (sub_compare _ _)).
  destruct (vi_micro a ?= vi_micro b); auto.
  change (0 ?= 0) with Eq. cbn iota.
  rewrite (orelse_compare _ 0 _ eq_refl).
  destruct (Z.eqb_spec (ra - 3) (rb - 3)) as [Q|Q].
  - assert (ra = rb) by lia. subst rb. rewrite (Z.compare_refl ra). cbn [negb]. reflexivity.
  - cbn [negb]. replace (ra - 3 - (rb - 3)) with (ra - rb) by lia.
    rewrite sub_compare. destruct (ra ?= rb); auto.
Qed.
Theorem vi_accepts v : (exists p, vi_pep440 v = Some p) <-> (exists r, level_rank (vi_level v) = Some r).
Proof.
  unfold vi_pep440, level_rank.
  destruct (str_eqb (vi_level v) $"alpha"), (str_eqb (vi_level v) $"beta"), (str_eqb (vi_level v) $"candidate"),
      (str_eqb (vi_level v) $"final"); split; intros [x H]; try discriminate; eauto.
Qed.
Theorem vi_serial_lost v s : vi_pep440 (mkVI (vi_major v) (vi_minor v) (vi_micro v) (vi_level v) s) = vi_pep440 v.
Proof. reflexivity. Qed.
