(** Paths of files in a wheel. *)
From Coq Require Import String Ascii List Bool NArith ZArith Lia.
From Verif.Model Require Import GoStr GoPath ConfigParser Platform WheelFile Wheel.
From Verif.Spec Require Import PathSpec WheelSpec.
From Verif.Proofs Require Import Order GoStrFacts GoPathFacts DirFacts ConfigFacts.
Import ListNotations.

Local Arguments str_eqb : simpl never.
Local Arguments byte_eqb : simpl never.
Local Arguments clean_comps : simpl never.
Local Arguments has_prefix : simpl never.

Lemma plain_app a b : plain_path (a ++ b) <-> plain_path a /\ plain_path b.
Proof. apply Forall_app. Qed.
Lemma join_nil_iff l : plain_path l -> join $"/" l = [] -> l = [].
Proof.
  intros H E. destruct l as [|c l]; auto. inversion H as [|? ? (Hc & _) _]; subst. destruct c as [|x c]; [congruence|].
  rewrite join_ne_nil in E. discriminate.
Qed.
Lemma join_inj a b : plain_path a -> plain_path b -> join $"/" a = join $"/" b -> a = b.
Proof.
  intros A B E. destruct a as [|x a]; [symmetry in E; apply join_nil_iff in E; auto|].
  destruct b as [|y b]; [apply join_nil_iff in E; auto|].
  change $"/" with [slash] in E.
  rewrite <- (split_on_join slash (x :: a)), <- (split_on_join slash (y :: b)), E; auto; try discriminate;
    apply (clean_list_no_slash true), plain_clean; auto.
Qed.
Lemma inner_ne p : inner p -> p <> [].
Proof. intros (_ & H & _) ->. apply H. reflexivity. Qed.
(** Joining two inner paths *)
Lemma join_inner p q : inner p -> inner q -> path_join [p; q] = join $"/" (clean_comps p ++ clean_comps q).
Proof.
  intros P Q. assert (P' := inner_ne _ P). assert (Q' := inner_ne _ Q). destruct P as (A & NP & PP), Q as (B & NQ & PQ).
  rewrite join2, clean_text, is_abs_app, clean_comps_app, A by auto.
  assert (E : fold_left (clean_step false) (split_on slash q) (rev (clean_comps p)) = rev (clean_comps p ++ clean_comps q)).
  { assert (CQ : clean_comps q = rev (fold_left (clean_step false) (split_on slash q) [])) by (unfold clean_comps; now rewrite B).
    rewrite CQ in *. clear CQ A B NQ Q' P' NP.
    assert (G : forall l st, Forall (fun c => ~ In slash c) l -> plain_path (rev (fold_left (clean_step false) l st)) ->
      forall pre, fold_left (clean_step false) l (st ++ pre) = fold_left (clean_step false) l st ++ pre).
    2:{ pose proof (G _ [] (split_on_no_sep slash q) PQ (rev (clean_comps p))) as GG. cbn [app] in GG. rewrite GG. now rewrite rev_app_distr, rev_involutive. }
    assert (M : forall l st, Forall (fun c => ~ In slash c) l -> plain_path (rev (fold_left (clean_step false) l st)) ->
       ~ In dotdot st).
    { induction l as [|c l IH]; intros st NS HP HI; cbn [fold_left] in HP.
      - apply in_rev in HI. unfold plain_path in HP. rewrite Forall_forall in HP. destruct (HP _ HI) as (_ & _ & _ & X). congruence.
      - inversion NS as [|? ? N1 N2]; subst. apply (IH _ N2 HP). unfold clean_step.
        destruct (str_eqb c []); auto. destruct (str_eqb c dot); auto. destruct (str_eqb c dotdot); [|now right].
        destruct st as [|top rest]; [destruct HI|]. destruct (str_eqb top dotdot) eqn:ET; [now left|].
        destruct HI as [->|HI]; [|exact HI]. rewrite (str_eqb_refl dotdot) in ET. discriminate. }
    induction l as [|c l IH]; intros st NS HP pre; cbn [fold_left] in HP |- *; auto.
    inversion NS as [|? ? N1 N2]; subst. rewrite <- (IH _ N2 HP pre). f_equal.
    unfold clean_step. destruct (str_eqb c []); auto. destruct (str_eqb c dot); auto. destruct (str_eqb c dotdot) eqn:EC; auto.
    destruct st as [|top rest].
    - exfalso. apply (M _ _ N2 HP). unfold clean_step. apply str_eqb_eq in EC. subst c. now left.
    - cbn [app]. destruct (str_eqb top dotdot); reflexivity. }
  rewrite E, rev_involutive. unfold path_text. destruct (clean_comps p); [congruence|]. reflexivity.
Qed.
Lemma join_inner_nil p : inner p -> path_join [p; []] = join $"/" (clean_comps p).
Proof.
  intros P. rewrite join_empty_r by (now apply inner_ne). destruct P as (A & N & _). rewrite clean_text, A.
  unfold path_text. destruct (clean_comps p); congruence.
Qed.
Lemma inner_join cs : plain_path cs -> cs <> [] -> inner (join $"/" cs) /\ clean_comps (join $"/" cs) = cs.
Proof.
  intros P N. assert (E : clean_comps (join $"/" cs) = cs) by (apply clean_comps_rel; auto; now apply plain_clean).
  split; auto. unfold inner. rewrite E. split; auto. apply (join_head_not_slash true). now apply plain_clean.
Qed.
Lemma inner_comp c : plain_comp c -> inner c /\ clean_comps c = [c].
Proof. intros P. apply (inner_join [c]); [now constructor|discriminate]. Qed.
Lemma clean_inner p : inner p -> clean p = join $"/" (clean_comps p).
Proof. intros (A & N & _). rewrite clean_text, A. unfold path_text. destruct (clean_comps p); congruence. Qed.

(** Being below a directory *)
Lemma prefix_join a b : plain_path a -> a <> [] -> plain_path b ->
  has_prefix (join $"/" a ++ $"/") (join $"/" b) = true <-> exists c, c <> [] /\ b = a ++ c.
Proof.
  intros A N B. split.
  - intros H. apply has_prefix_spec in H. destruct H as [t E].
    assert (S1 : split_on slash (join $"/" b) = a ++ split_on slash t).
    { rewrite E. rewrite <- app_assoc. change ($"/" ++ t) with (slash :: t). rewrite split_on_app_gen.
      change $"/" with [slash]. rewrite split_on_join; auto. apply (clean_list_no_slash true), plain_clean; auto. }
    destruct b as [|x b].
    { cbn in S1. destruct a as [|y a]; [congruence|]. inversion A as [|? ? (Y & _) _]; subst. cbn in S1. injection S1 as S1 _. congruence. }
    change $"/" with [slash] in S1. rewrite split_on_join in S1; [|discriminate|apply (clean_list_no_slash true), plain_clean; auto].
    exists (split_on slash t). split; [apply split_on_nonempty|auto].
  - intros (c & NC & ->). rewrite join_app by auto. rewrite app_assoc. apply has_prefix_app.
Qed.
Lemma trim_join a c : a <> [] -> c <> [] -> trim_prefix (join $"/" a ++ $"/") (join $"/" (a ++ c)) = join $"/" c.
Proof. intros A C. rewrite join_app by auto. rewrite app_assoc. apply trim_prefix_app. Qed.
Lemma cut_join c l : plain_path (c :: l) ->
  cut "/" (join $"/" (c :: l)) = (c, match l with [] => None | _ => Some (join $"/" l) end).
Proof.
  intros H. inversion H as [|? ? (_ & S & _) P]; subst. destruct l as [|d l].
  - apply cut_none. exact S.
  - change (join $"/" (c :: d :: l)) with (c ++ "/"%char :: join $"/" (d :: l)). now apply cut_app.
Qed.
Lemma join_no_slash_end cs : plain_path cs -> has_suffix $"/" (join $"/" cs) = false.
Proof.
  intros P. destruct (has_suffix $"/" (join $"/" cs)) eqn:E; auto. apply has_suffix_spec in E. destruct E as [t E].
  destruct cs as [|x cs]; [destruct t; discriminate|].
  assert (S1 : split_on slash (join $"/" (x :: cs)) = x :: cs).
  { apply split_on_join; [discriminate|]. apply (clean_list_no_slash true), plain_clean; auto. }
  rewrite E in S1. change (t ++ $"/") with (t ++ slash :: []) in S1. rewrite split_on_app_gen in S1. cbn [split_on] in S1.
  assert (I : In [] (x :: cs)) by (rewrite <- S1; apply in_or_app; right; now left).
  unfold plain_path in P. rewrite Forall_forall in P. destruct (P _ I) as (X & _). congruence.
Qed.

(** ** Maps *)
Lemma get_del_key {V} k k' (m : list (str * V)) : get_key k (del_key k' m) = if str_eqb k k' then None else get_key k m.
Proof.
  induction m as [|[x v] m IH]; cbn [del_key get_key].
  - now destruct (str_eqb k k').
  - destruct (str_eqb k' x) eqn:E1; cbn [get_key]; rewrite IH.
    + apply str_eqb_eq in E1. subst x. now destruct (str_eqb k k').
    + destruct (str_eqb k k') eqn:E2; auto. apply str_eqb_eq in E2. subst k'. now rewrite E1.
Qed.
Lemma get_key_in {V} k (v : V) m : get_key k m = Some v -> In (k, v) m.
Proof.
  induction m as [|[x w] m IH]; cbn; [discriminate|]. destruct (str_eqb k x) eqn:E.
  - intros [= ->]. apply str_eqb_eq in E. subst. now left.
  - intros H. right. auto.
Qed.
Lemma in_get_key {V} k (v : V) m : NoDup (map fst m) -> In (k, v) m -> get_key k m = Some v.
Proof.
  induction m as [|[x w] m IH]; cbn; [intros _ []|]. intros N [E|I].
  - injection E as -> ->. now rewrite str_eqb_refl.
  - inversion N as [|? ? N1 N2]; subst. destruct (str_eqb k x) eqn:E; auto. apply str_eqb_eq in E. subst x. exfalso. apply N1.
    change k with (fst (k, v)). now apply in_map.
Qed.
Lemma set_key_keys {V} k (v : V) m x : In x (map fst (set_key k v m)) <-> x = k \/ In x (map fst m).
Proof.
  assert (G : forall y (l : list (str * V)), In y (map fst l) <-> get_key y l <> None).
  { intros y l. split; [intros H E; now apply get_key_none in E|]. intros H. destruct (in_dec (list_eq_dec ascii_dec) y (map fst l)); auto.
    exfalso. apply H. now apply get_key_none. }
  rewrite !G, get_set_key. destruct (str_eqb x k) eqn:E.
  - apply str_eqb_eq in E. subst. split; [now left|discriminate].
  - split; [now right|intros [->|H]; auto]. rewrite str_eqb_refl in E. discriminate.
Qed.
Lemma set_key_nodup {V} k (v : V) m : NoDup (map fst m) -> NoDup (map fst (set_key k v m)).
Proof.
  induction m as [|[x w] m IH]; cbn [set_key map]; intros N.
  - constructor; [intros []|constructor].
  - inversion N as [|? ? N1 N2]; subst. destruct (str_eqb k x) eqn:E; cbn [map fst].
    + exact N.
    + constructor; [|auto]. intros I. apply set_key_keys in I. destruct I as [->|I]; auto. rewrite str_eqb_refl in E. discriminate.
Qed.
Lemma del_key_keys {V} k (m : list (str * V)) x : In x (map fst (del_key k m)) -> In x (map fst m).
Proof.
  induction m as [|[y w] m IH]; cbn [del_key map]; auto. destruct (str_eqb k y); cbn; intros H; [now right; auto|]. destruct H; auto.
Qed.
Lemma del_key_nodup {V} k (m : list (str * V)) : NoDup (map fst m) -> NoDup (map fst (del_key k m)).
Proof.
  induction m as [|[x w] m IH]; cbn [del_key map]; auto. intros N. inversion N as [|? ? N1 N2]; subst.
  destruct (str_eqb k x); auto. cbn. constructor; auto. intros I. apply N1. now apply del_key_keys in I.
Qed.
