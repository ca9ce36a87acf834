(** File modes and attributes. *)
From Coq Require Import String Ascii List Bool NArith Lia.
From Verif.Model Require Import GoStr Stat.
From Verif.Spec Require Import StatSpec.
From Verif.Proofs Require Import Order GoStrFacts.
Import ListNotations.
Open Scope N_scope.

(** *** all numbers below a bound *)
Definition all_below (n : nat) (f : N -> bool) : bool := forallb f (map N.of_nat (seq 0 n)).
Lemma all_below_ok n f : all_below n f = true -> forall m, m < N.of_nat n -> f m = true.
Proof.
  unfold all_below. intros H m L. rewrite forallb_forall in H. apply H. apply in_map_iff. exists (N.to_nat m). rewrite N2Nat.id. split; auto. apply in_seq. lia.
Qed.
Fixpoint below_pow (k : nat) (f : N -> bool) : bool :=
  match k with O => f 0 | S k => below_pow k (fun m => f (2 * m)) && below_pow k (fun m => f (2 * m + 1)) end.
Lemma below_pow_ok k : forall f, below_pow k f = true -> forall m, m < 2 ^ N.of_nat k -> f m = true.
Proof.
  induction k as [|k IH]; intros f H m L; cbn [below_pow] in H.
  - change (2 ^ N.of_nat 0) with 1 in L. replace m with 0 by lia. exact H.
  - apply andb_true_iff in H as [H1 H2]. rewrite Nat2N.inj_succ, N.pow_succ_r' in L. destruct (N.Even_or_Odd m) as [[q ->]|[q ->]].
    + apply (IH _ H1). lia.
    + apply (IH _ H2). lia.
Qed.
Lemma mode_string_ok m : m < 2 ^ 16 -> mode_string m = ls_text m.
Proof.
  intros L. assert (H : below_pow 16 (fun m => str_eqb (mode_string m) (ls_text m)) = true) by (vm_compute; reflexivity).
  apply (below_pow_ok 16 _ H) in L. now apply str_eqb_eq in L.
Qed.
Definition forall_bool (f : bool -> bool) : bool := f true && f false.
Lemma forall_bool_ok f b : forall_bool f = true -> f b = true.
Proof. unfold forall_bool. intros H. apply andb_true_iff in H as [H1 H2]. destruct b; auto. Qed.
Definition check4 (f : bool -> bool -> bool -> N -> bool) : bool :=
  forall_bool (fun a => forall_bool (fun b => forall_bool (fun c => below_pow 9 (f a b c)))).
Lemma check4_ok f : check4 f = true -> forall a b c perm, perm < 512 -> f a b c perm = true.
Proof.
  unfold check4. intros H a b c perm L. apply (forall_bool_ok _ a) in H. cbv beta in H. apply (forall_bool_ok _ b) in H. cbv beta in H. apply (forall_bool_ok _ c) in H. cbv beta in H.
  now apply (below_pow_ok 9 _ H).
Qed.
Lemma to_go_ok t a b c perm : perm < 512 -> to_go (unix_mode (unix_type t) a b c perm) = go_mode (sum_bits (go_type_bits t)) a b c perm.
Proof.
  intros L. apply N.eqb_eq. revert a b c perm L. apply (check4_ok (fun a b c perm => to_go (unix_mode (unix_type t) a b c perm) =? go_mode (sum_bits (go_type_bits t)) a b c perm)).
  destruct t; vm_compute; reflexivity.
Qed.
Lemma from_go_ok t a b c perm : perm < 512 -> mode_from_go (go_mode (sum_bits (go_type_bits t)) a b c perm) = unix_mode (unix_type t) a b c perm.
Proof.
  intros L. apply N.eqb_eq. revert a b c perm L. apply (check4_ok (fun a b c perm => mode_from_go (go_mode (sum_bits (go_type_bits t)) a b c perm) =? unix_mode (unix_type t) a b c perm)).
  destruct t; vm_compute; reflexivity.
Qed.
(** Every 16-bit mode has this form. *)
Lemma mode_split m : m < 2 ^ 16 -> exists t a b c perm, t < 16 /\ perm < 512 /\ m = unix_mode t a b c perm.
Proof.
  intros L. exists (m / 4096), (N.testbit m 11), (N.testbit m 10), (N.testbit m 9), (m mod 512).
  split; [apply N.div_lt_upper_bound; [lia|exact L]|]. split; [now apply N.mod_lt|].
  assert (H : below_pow 16 (fun m => m =? unix_mode (m / 4096) (N.testbit m 11) (N.testbit m 10) (N.testbit m 9) (m mod 512)) = true) by (vm_compute; reflexivity).
  apply (below_pow_ok 16 _ H) in L. now apply N.eqb_eq in L.
Qed.
Lemma other_types t a b c perm : t < 16 -> (forall u, t <> unix_type u) -> perm < 512 ->
  to_go (unix_mode t a b c perm) = go_mode (2 ^ 19) a b c perm /\ mode_from_go (to_go (unix_mode t a b c perm)) = unix_mode 0 a b c perm.
Proof.
  intros T U L.
  assert (K : forall t, In t [0; 3; 5; 7; 9; 11; 13; 14; 15] -> check4 (fun a b c perm => (to_go (unix_mode t a b c perm) =? go_mode (2 ^ 19) a b c perm) && (mode_from_go (to_go (unix_mode t a b c perm)) =? unix_mode 0 a b c perm)) = true).
  { intros x I. repeat (destruct I as [<-|I]; [vm_compute; reflexivity|]). destruct I. }
  assert (I : In t [0; 3; 5; 7; 9; 11; 13; 14; 15]).
  { assert (A : forall n, (n < 16)%nat -> t = N.of_nat n -> In t [0; 3; 5; 7; 9; 11; 13; 14; 15]).
    { intros n Ln E. pose proof (U Fifo). pose proof (U CharDev). pose proof (U Dir). pose proof (U BlockDev). pose proof (U Regular). pose proof (U Symlink). pose proof (U Socket). cbn [unix_type] in *.
      clear U K L. do 16 (destruct n as [|n]; [cbn in E; subst t; cbn; intuition congruence|]). lia. }
    apply (A (N.to_nat t)); [lia|now rewrite N2Nat.id]. }
  specialize (K t I). pose proof (check4_ok _ K a b c perm L) as Q. cbv beta in Q. apply andb_true_iff in Q as [Q1 Q2]. split; now apply N.eqb_eq.
Qed.
Lemma type_tests m : m < 2 ^ 16 -> (is_dir m = true <-> m / 4096 = unix_type Dir) /\ (is_regular m = true <-> m / 4096 = unix_type Regular).
Proof.
  intros L. assert (H : below_pow 16 (fun m => Bool.eqb (is_dir m) (m / 4096 =? 4) && Bool.eqb (is_regular m) (m / 4096 =? 8)) = true) by (vm_compute; reflexivity).
  apply (below_pow_ok 16 _ H) in L. apply andb_true_iff in L as [L1 L2]. apply Bool.eqb_prop in L1, L2. rewrite L1, L2. split; apply N.eqb_eq.
Qed.
(** *** external attributes *)
Lemma truncate_bits k x i : N.testbit (truncate k x) i = N.testbit x i && (i <? k).
Proof. unfold truncate. rewrite N.land_spec. f_equal. destruct (i <? k) eqn:E; [apply N.ones_spec_low; now apply N.ltb_lt|apply N.ones_spec_high; now apply N.ltb_ge]. Qed.
Lemma small_bits k x i : x < 2 ^ k -> k <= i -> N.testbit x i = false.
Proof. intros L Li. rewrite <- (N.mod_small x (2 ^ k) L). apply N.mod_pow2_bits_high. exact Li. Qed.
Theorem raw_parse raw : raw < 2 ^ 32 -> zip_raw (zip_parse raw) = raw.
Proof.
  intros L. apply N.bits_inj. intros i. unfold zip_raw, zip_parse. cbn [za_unix za_unused za_dos]. rewrite !N.lor_spec, !truncate_bits.
  destruct (N.ltb_spec i 8).
  - rewrite !N.shiftl_spec_low by lia. replace (i <? 32) with true by (symmetry; apply N.ltb_lt; lia). cbn. now rewrite andb_true_r.
  - rewrite (N.shiftl_spec_high' _ 8) by lia. rewrite truncate_bits, N.shiftr_spec'. replace (i - 8 + 8) with i by lia. rewrite andb_false_r, orb_false_r. destruct (N.ltb_spec i 16).
    + rewrite N.shiftl_spec_low by lia. replace (i - 8 <? 8) with true by (symmetry; apply N.ltb_lt; lia). replace (i <? 32) with true by (symmetry; apply N.ltb_lt; lia). cbn. now rewrite !andb_true_r.
    + rewrite (N.shiftl_spec_high' _ 16) by lia. rewrite truncate_bits, N.shiftr_spec'. replace (i - 16 + 16) with i by lia. replace (i - 8 <? 8) with false by (symmetry; apply N.ltb_ge; lia). rewrite andb_false_r, orb_false_r.
      destruct (N.ltb_spec i 32).
      * replace (i - 16 <? 16) with true by (symmetry; apply N.ltb_lt; lia). now rewrite !andb_true_r.
      * rewrite andb_false_r. symmetry. now apply (small_bits 32).
Qed.
Theorem parse_raw a : za_unix a < 2 ^ 16 -> za_unused a < 2 ^ 8 -> za_dos a < 2 ^ 8 -> zip_parse (zip_raw a) = a /\ zip_raw a < 2 ^ 32.
Proof.
  destruct a as [u x d]. cbn [za_unix za_unused za_dos]. intros U X D.
  assert (B : forall i, N.testbit (zip_raw (mkZipAttr u x d)) i = if i <? 8 then N.testbit d i else if i <? 16 then N.testbit x (i - 8) else if i <? 32 then N.testbit u (i - 16) else false).
  { intros i. unfold zip_raw. cbn [za_unix za_unused za_dos]. rewrite !N.lor_spec, !truncate_bits. destruct (N.ltb_spec i 8).
    - rewrite !N.shiftl_spec_low by lia. reflexivity.
    - rewrite (small_bits 8 d) by auto. rewrite orb_false_r, (N.shiftl_spec_high' x 8) by lia. destruct (N.ltb_spec i 16).
      + rewrite N.shiftl_spec_low by lia. replace (i <? 32) with true by (symmetry; apply N.ltb_lt; lia). cbn. now rewrite !andb_true_r.
      + rewrite (N.shiftl_spec_high' u 16) by lia. rewrite (small_bits 8 x) by (auto; lia). cbn [andb]. rewrite orb_false_r. destruct (i <? 32); [now rewrite andb_true_r|now rewrite andb_false_r]. }
  split.
  - unfold zip_parse. f_equal; apply N.bits_inj; intros i; rewrite truncate_bits, ?N.shiftr_spec', B.
    + replace (i + 16 <? 8) with false by (symmetry; apply N.ltb_ge; lia). replace (i + 16 <? 16) with false by (symmetry; apply N.ltb_ge; lia). replace (i + 16 - 16) with i by lia.
      destruct (N.ltb_spec i 16); [replace (i + 16 <? 32) with true by (symmetry; apply N.ltb_lt; lia); now rewrite andb_true_r|]. rewrite andb_false_r. symmetry. now apply (small_bits 16).
    + replace (i + 8 <? 8) with false by (symmetry; apply N.ltb_ge; lia). replace (i + 8 - 8) with i by lia.
      destruct (N.ltb_spec i 8); [replace (i + 8 <? 16) with true by (symmetry; apply N.ltb_lt; lia); now rewrite andb_true_r|]. rewrite andb_false_r. symmetry. now apply (small_bits 8).
    + destruct (N.ltb_spec i 8); [now rewrite andb_true_r|]. rewrite andb_false_r. symmetry. now apply (small_bits 8).
  - destruct (N.eq_dec (zip_raw (mkZipAttr u x d)) 0) as [->|Z]; [reflexivity|]. apply N.log2_lt_pow2; [lia|]. apply N.nle_gt. intros L. pose proof (N.bit_log2 _ Z) as T. rewrite B in T.
    replace (N.log2 (zip_raw (mkZipAttr u x d)) <? 8) with false in T by (symmetry; apply N.ltb_ge; lia).
    replace (N.log2 (zip_raw (mkZipAttr u x d)) <? 16) with false in T by (symmetry; apply N.ltb_ge; lia).
    replace (N.log2 (zip_raw (mkZipAttr u x d)) <? 32) with false in T by (symmetry; apply N.ltb_ge; lia). discriminate.
Qed.
Theorem to_dos_bits fa i : N.testbit (to_dos fa) i = N.testbit fa i && existsb (N.eqb i) [0; 1; 2; 4; 5].
Proof.
  unfold to_dos. rewrite truncate_bits, N.land_spec, <- andb_assoc. f_equal. destruct (N.ltb_spec i 8).
  - assert (H' : below_pow 3 (fun i => Bool.eqb (N.testbit 55 i && true) (existsb (N.eqb i) [0; 1; 2; 4; 5])) = true) by (vm_compute; reflexivity).
    apply Bool.eqb_prop. apply (below_pow_ok 3 _ H'). exact H.
  - rewrite andb_false_r. symmetry. cbn [existsb]. repeat (replace (i =? _) with false by (symmetry; apply N.eqb_neq; lia)). reflexivity.
Qed.
Lemma unix_mode_parts t a b c perm : perm < 512 -> unix_mode t a b c perm / 4096 = t /\ unix_mode t a b c perm mod 4096 = unix_mode 0 a b c perm.
Proof.
  intros L. assert (R : unix_mode 0 a b c perm < 4096) by (unfold unix_mode, flag; destruct a, b, c; lia).
  assert (E : unix_mode t a b c perm = t * 4096 + unix_mode 0 a b c perm) by (unfold unix_mode, flag; destruct a, b, c; lia).
  rewrite E. split; [rewrite N.div_add_l by lia; rewrite N.div_small by exact R; lia|]. rewrite N.add_comm, N.mod_add by lia. now apply N.mod_small.
Qed.
Theorem round_trip m : m < 2 ^ 16 -> (exists t, m / 4096 = unix_type t) -> mode_from_go (to_go m) = m.
Proof.
  intros L (t & T). destruct (mode_split m L) as (u & a & b & c & perm & Lu & Lp & ->). destruct (unix_mode_parts u a b c perm Lp) as [D _]. rewrite D in T. subst u.
  now rewrite to_go_ok, from_go_ok.
Qed.
Theorem permissions_kept m : m < 2 ^ 16 -> mode_from_go (to_go m) mod 4096 = m mod 4096.
Proof.
  intros L. destruct (mode_split m L) as (u & a & b & c & perm & Lu & Lp & ->).
  assert (D : (exists t, u = unix_type t) \/ forall t, u <> unix_type t).
  { destruct (in_dec N.eq_dec u (map unix_type all_types)) as [I|I].
    - left. apply in_map_iff in I as (t & <- & _). eauto.
    - right. intros t ->. apply I. apply in_map. destruct t; cbn; auto 10. }
  destruct D as [(t & ->)|D]; [now rewrite to_go_ok, from_go_ok|]. destruct (other_types u a b c perm Lu D Lp) as [_ ->].
  destruct (unix_mode_parts u a b c perm Lp) as [_ ->]. now destruct (unix_mode_parts 0 a b c perm Lp) as [_ ->].
Qed.
Theorem other_round_trip m : m < 2 ^ 16 -> (forall t, m / 4096 <> unix_type t) -> mode_from_go (to_go m) / 4096 = 0 /\ N.testbit (to_go m) 19 = true.
Proof.
  intros L T. destruct (mode_split m L) as (u & a & b & c & perm & Lu & Lp & ->). destruct (unix_mode_parts u a b c perm Lp) as [D _].
  destruct (other_types u a b c perm Lu) as [E ->]; auto. { intros t. rewrite <- D. apply T. } split; [now apply unix_mode_parts|]. rewrite E.
  apply (check4_ok (fun a b c perm => N.testbit (go_mode (2 ^ 19) a b c perm) 19)); auto.
Qed.
