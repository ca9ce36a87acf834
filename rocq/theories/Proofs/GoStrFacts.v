(** Facts on the string functions. *)
From Coq Require Import String Ascii List Bool ZArith NArith Lia.
From Verif.Model Require Import GoStr.
From Verif.Proofs Require Import Order.
Import ListNotations.

(** *** prefixes *)
Lemma has_prefix_spec p s : has_prefix p s = true <-> exists t, s = p ++ t.
Proof.
  revert s. induction p as [|x p IH]; intros s; simpl.
  - split; eauto.
  - destruct s as [|y s].
    + split; [congruence|]. intros [t H]. discriminate.
    + rewrite andb_true_iff, byte_eqb_eq, IH. split.
      * intros [-> [t ->]]. eauto.
      * intros [t H]. injection H as -> ->. eauto.
Qed.
Lemma has_prefix_app p s : has_prefix p (p ++ s) = true.
Proof. apply has_prefix_spec. eauto. Qed.
Lemma has_suffix_spec p s : has_suffix p s = true <-> exists t, s = t ++ p.
Proof.
  unfold has_suffix. rewrite has_prefix_spec. split.
  - intros [t H]. exists (rev t). rewrite <- (rev_involutive s), H, rev_app_distr.
    now rewrite rev_involutive.
  - intros [t ->]. exists (rev t). apply rev_app_distr.
Qed.
Lemma skipn_app_exact {A} (p s : list A) : skipn (length p) (p ++ s) = s.
Proof. rewrite skipn_app, skipn_all, Nat.sub_diag. reflexivity. Qed.
Lemma firstn_app_exact {A} (p s : list A) : firstn (length p) (p ++ s) = p.
Proof. rewrite firstn_app, firstn_all, Nat.sub_diag. simpl. apply app_nil_r. Qed.
Lemma firstn_consumed {A} (p s : list A) : firstn (length (p ++ s) - length s) (p ++ s) = p.
Proof.
  rewrite app_length. replace (length p + length s - length s)%nat with (length p) by lia.
  apply firstn_app_exact.
Qed.
Lemma trim_prefix_app p s : trim_prefix p (p ++ s) = s.
Proof. unfold trim_prefix. rewrite has_prefix_app. apply skipn_app_exact. Qed.
Lemma trim_suffix_app p s : trim_suffix p (s ++ p) = s.
Proof.
  unfold trim_suffix. replace (has_suffix p (s ++ p)) with true
    by (symmetry; apply has_suffix_spec; eauto).
  rewrite app_length. replace (length s + length p - length p)%nat with (length s) by lia.
  apply firstn_app_exact.
Qed.

Lemma in_set_spec set c : in_set set c = true <-> In c set.
Proof.
  unfold in_set. rewrite existsb_exists. split.
  - intros (x & H & E). apply byte_eqb_eq in E. now subst.
  - intros H. exists c. split; auto. apply byte_eqb_refl.
Qed.

(** *** split and join *)
Lemma split_on_nonempty c s : split_on c s <> [].
Proof.
  induction s as [|x s IH]; simpl; [congruence|].
  destruct (byte_eqb c x); [congruence|]. destruct (split_on c s); congruence.
Qed.
Lemma split_on_none c s : ~ In c s -> split_on c s = [s].
Proof.
  induction s as [|x s IH]; simpl; auto. intros H.
  destruct (byte_eqb c x) eqn:E.
  - apply byte_eqb_eq in E. subst. tauto.
  - rewrite IH; tauto.
Qed.
Lemma split_on_app c a b : ~ In c a -> split_on c (a ++ c :: b) = a :: split_on c b.
Proof.
  induction a as [|x a IH]; simpl; intros H.
  - now rewrite byte_eqb_refl.
  - destruct (byte_eqb c x) eqn:E.
    + apply byte_eqb_eq in E. subst. tauto.
    + rewrite IH by tauto. reflexivity.
Qed.
Lemma split_on_join c l : l <> [] -> Forall (fun s => ~ In c s) l ->
  split_on c (join [c] l) = l.
Proof.
  intros Hn H. induction H as [|x l Hx Hl IH]; [congruence|].
  destruct l as [|y l].
  - simpl. now apply split_on_none.
  - change (join [c] (x :: y :: l)) with (x ++ c :: join [c] (y :: l)).
    rewrite split_on_app by auto. rewrite IH by congruence. reflexivity.
Qed.
Lemma join_split_on c s : join [c] (split_on c s) = s.
Proof.
  induction s as [|x s IH]; simpl; auto.
  destruct (byte_eqb c x) eqn:E.
  - apply byte_eqb_eq in E. subst x.
    destruct (split_on c s) as [|h t] eqn:F; [now apply split_on_nonempty in F|].
    change (join [c] ([] :: h :: t)) with (c :: join [c] (h :: t)). now rewrite IH.
  - destruct (split_on c s) as [|h t] eqn:F; [now apply split_on_nonempty in F|].
    destruct t as [|h' t].
    + simpl in *. now subst.
    + change (join [c] ((x :: h) :: h' :: t)) with (x :: h ++ [c] ++ join [c] (h' :: t)).
      change (join [c] (h :: h' :: t)) with (h ++ [c] ++ join [c] (h' :: t)) in IH. now rewrite IH.
Qed.
Lemma split_on_no_sep c s : Forall (fun t => ~ In c t) (split_on c s).
Proof.
  induction s as [|x s IH]; simpl.
  - constructor; auto.
  - destruct (byte_eqb c x) eqn:E.
    + constructor; auto.
    + destruct (split_on c s) as [|h t]; constructor; auto.
      * apply byte_eqb_neq in E. simpl. intuition congruence.
      * inversion IH; subst. apply byte_eqb_neq in E. simpl. intuition congruence.
      * now inversion IH.
Qed.

Lemma cut_none c s : ~ In c s -> cut c s = (s, None).
Proof.
  induction s as [|x s IH]; simpl; auto. intros H.
  destruct (byte_eqb c x) eqn:E.
  - apply byte_eqb_eq in E. subst. tauto.
  - rewrite IH by tauto. reflexivity.
Qed.
Lemma cut_app c a b : ~ In c a -> cut c (a ++ c :: b) = (a, Some b).
Proof.
  induction a as [|x a IH]; simpl; intros H.
  - now rewrite byte_eqb_refl.
  - destruct (byte_eqb c x) eqn:E.
    + apply byte_eqb_eq in E. subst. tauto.
    + rewrite IH by tauto. reflexivity.
Qed.

(** *** FieldsFunc *)
Lemma fields_aux_run f w s cur : forallb (fun c => negb (f c)) w = true ->
  fields_aux f (w ++ s) cur = fields_aux f s (rev w ++ cur).
Proof.
  revert cur. induction w as [|x w IH]; intros cur; simpl; auto.
  rewrite andb_true_iff, negb_true_iff. intros [H1 H2]. rewrite H1, IH by auto.
  f_equal. now rewrite <- app_assoc.
Qed.
(** A separator-joined list of non-empty separator-free words splits back. *)
Lemma fields_func_words f w l :
  w <> [] -> forallb (fun c => negb (f c)) w = true ->
  Forall (fun p => f (fst p) = true /\ snd p <> [] /\
                   forallb (fun c => negb (f c)) (snd p) = true) l ->
  fields_func f (w ++ concat (map (fun p => fst p :: snd p) l)) = w :: map snd l.
Proof.
  unfold fields_func. revert w. induction l as [|[c v] l IH]; intros w Hw Hf Hl.
  - simpl. rewrite app_nil_r. rewrite <- (app_nil_r w) at 1. rewrite fields_aux_run by auto.
    rewrite app_nil_r. simpl. destruct (rev w) eqn:E.
    + apply (f_equal (@rev ascii)) in E. rewrite rev_involutive in E. simpl in E. congruence.
    + rewrite <- E. now rewrite rev_involutive.
  - inversion Hl as [|? ? (H1 & H2 & H3) Hl']; subst. simpl in H1, H2, H3.
    rewrite fields_aux_run by auto. rewrite app_nil_r. cbn [map concat fst snd app fields_aux].
    rewrite H1. destruct (rev w) eqn:E.
    + apply (f_equal (@rev ascii)) in E. rewrite rev_involutive in E. simpl in E. congruence.
    + rewrite <- E, rev_involutive. f_equal. apply IH; auto.
Qed.

(** *** decimal *)
Lemma digit_char_spec d : (d < 10)%N ->
  is_digit (digit_char d) = true /\ digit_val (digit_char d) = d.
Proof.
  intros H. assert (E : code (digit_char d) = (48 + d)%N).
  { unfold code, digit_char. apply N_ascii_embedding. lia. }
  unfold is_digit, digit_val. rewrite E. split.
  - apply andb_true_iff. split; apply N.leb_le; lia.
  - lia.
Qed.

Lemma dec_val_from_app acc a b : dec_val_from acc (a ++ b) = dec_val_from (dec_val_from acc a) b.
Proof. unfold dec_val_from. apply fold_left_app. Qed.

Lemma dec_aux_spec fuel n acc : (0 < fuel)%nat -> (n < 2 ^ N.of_nat fuel)%N ->
  exists ds, dec_aux fuel n acc = ds ++ acc /\ ds <> [] /\ forallb is_digit ds = true /\
             dec_val ds = n.
Proof.
  revert n acc. induction fuel as [|k IH]; intros n acc Hf Hn; [lia|].
  cbn [dec_aux]. pose proof (N.mod_lt n 10 ltac:(lia)) as Hm.
  destruct (digit_char_spec _ Hm) as [D1 D2].
  pose proof (N.div_mod n 10 ltac:(lia)) as Hdm.
  destruct (N.eqb_spec (n / 10) 0) as [E|E].
  - exists [digit_char (n mod 10)]. simpl. rewrite D1. repeat split; try congruence.
    unfold dec_val, dec_val_from. cbn [fold_left]. rewrite D2. lia.
  - assert (Hk : (0 < k)%nat).
    { destruct k; [|lia]. exfalso. apply E. apply N.div_small.
      change (N.of_nat 1) with 1%N in Hn. lia. }
    assert (Hb : (n / 10 < 2 ^ N.of_nat k)%N).
    { apply N.div_lt_upper_bound; [lia|].
      replace (N.of_nat (S k)) with (N.succ (N.of_nat k)) in Hn by lia.
      rewrite N.pow_succ_r' in Hn. lia. }
    destruct (IH (n / 10)%N (digit_char (n mod 10) :: acc) Hk Hb) as (ds & H1 & H2 & H3 & H4).
    exists (ds ++ [digit_char (n mod 10)]). rewrite H1. repeat split.
    + now rewrite <- app_assoc.
    + now destruct ds.
    + rewrite forallb_app, H3. simpl. now rewrite D1.
    + unfold dec_val in *. rewrite dec_val_from_app, H4. unfold dec_val_from. cbn [fold_left].
      rewrite D2. lia.
Qed.

Lemma size_nat_bound n : (n < 2 ^ N.of_nat (S (N.size_nat n)))%N.
Proof.
  assert (H : (n < 2 ^ N.size n)%N).
  { destruct n as [|p]; [reflexivity|]. apply N.size_gt. }
  replace (N.size n) with (N.of_nat (N.size_nat n)) in H.
  - replace (N.of_nat (S (N.size_nat n))) with (N.succ (N.of_nat (N.size_nat n))) by lia.
    rewrite N.pow_succ_r'. lia.
  - clear H. destruct n as [|p]; auto. simpl N.size_nat. simpl N.size.
    induction p as [p IH|p IH|]; cbn [Pos.size_nat Pos.size]; auto;
      rewrite Nat2N.inj_succ, IH; reflexivity.
Qed.

Lemma dec_spec n : dec n <> [] /\ forallb is_digit (dec n) = true /\ dec_val (dec n) = n.
Proof.
  unfold dec. destruct (dec_aux_spec (S (N.size_nat n)) n [] ltac:(lia) (size_nat_bound n))
    as (ds & H1 & H2 & H3 & H4).
  rewrite H1, app_nil_r. auto.
Qed.
Lemma dec_all_digits n : all_digits (dec n) = true.
Proof. destruct (dec_spec n) as (H1 & H2 & _). unfold all_digits. now destruct (dec n). Qed.

Lemma is_digit_not c d : is_digit c = true -> is_digit d = false -> c <> d.
Proof. congruence. Qed.

Lemma atoi_digits s : all_digits s = true ->
  atoi s = if (dec_val s <? 2 ^ 63)%N then Some (Z.of_N (dec_val s)) else None.
Proof.
  intros H. unfold atoi.
  assert (E : (match s with
               | "-"%char :: d => (true, d) | "+"%char :: d => (false, d) | _ => (false, s)
               end) = (false, s)).
  { destruct s as [|c s]; auto. simpl in H. apply andb_true_iff in H as [H _].
    destruct c as [[] [] [] [] [] [] [] []]; try reflexivity; discriminate. }
  rewrite E, H. unfold min_int64, max_int64.
  destruct (N.ltb_spec (dec_val s) (2 ^ 63)) as [L|L].
  - replace ((- 2 ^ 63 <=? Z.of_N (dec_val s))%Z && (Z.of_N (dec_val s) <=? 2 ^ 63 - 1)%Z) with true; auto.
    symmetry. apply andb_true_iff. rewrite !Z.leb_le. lia.
  - replace (Z.of_N (dec_val s) <=? 2 ^ 63 - 1)%Z with false; [now rewrite andb_false_r|].
    symmetry. apply Z.leb_gt. lia.
Qed.

Lemma itoa_nonneg z : (0 <= z)%Z -> itoa z = dec (Z.to_N z).
Proof. intros. unfold itoa. destruct (Z.ltb_spec z 0); auto. lia. Qed.

Lemma atoi_itoa z : (0 <= z < 2 ^ 63)%Z -> atoi (itoa z) = Some z.
Proof.
  intros H. rewrite itoa_nonneg by lia. rewrite atoi_digits by apply dec_all_digits.
  destruct (dec_spec (Z.to_N z)) as (_ & _ & E). rewrite E.
  destruct (N.ltb_spec (Z.to_N z) (2 ^ 63)); [|lia]. f_equal. lia.
Qed.
Lemma itoa_digits z : (0 <= z)%Z -> all_digits (itoa z) = true.
Proof. intros. rewrite itoa_nonneg by auto. apply dec_all_digits. Qed.
Lemma itoa_inj x y : (0 <= x)%Z -> (0 <= y)%Z -> itoa x = itoa y -> x = y.
Proof.
  intros Hx Hy E. rewrite !itoa_nonneg in E by auto.
  destruct (dec_spec (Z.to_N x)) as (_ & _ & E1), (dec_spec (Z.to_N y)) as (_ & _ & E2).
  rewrite E in E1. lia.
Qed.

Lemma all_digits_spec s : all_digits s = true <-> s <> [] /\ forallb is_digit s = true.
Proof. unfold all_digits. destruct s; intuition congruence. Qed.

(** *** case *)
Lemma lower_digit c : is_digit c = true -> lower c = c.
Proof.
  unfold is_digit, lower. rewrite andb_true_iff, !N.leb_le. intros [H1 H2].
  destruct ((65 <=? code c)%N && (code c <=? 90)%N) eqn:E; auto.
  apply andb_true_iff in E. rewrite !N.leb_le in E. lia.
Qed.
Lemma to_lower_digits s : forallb is_digit s = true -> to_lower s = s.
Proof.
  induction s as [|c s IH]; simpl; auto. rewrite andb_true_iff. intros [H1 H2].
  rewrite lower_digit, IH by auto. reflexivity.
Qed.
Lemma lower_lower c : lower (lower c) = lower c.
Proof. destruct c as [[] [] [] [] [] [] [] []]; reflexivity. Qed.
Lemma to_lower_idem s : to_lower (to_lower s) = to_lower s.
Proof. induction s; simpl; auto. now rewrite lower_lower, IHs. Qed.
Lemma to_lower_app a b : to_lower (a ++ b) = to_lower a ++ to_lower b.
Proof. apply map_app. Qed.
Lemma to_lower_length a : length (to_lower a) = length a.
Proof. apply map_length. Qed.
