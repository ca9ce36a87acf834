(** Kinds of versions (C94). *)
From Coq Require Import String Ascii List Bool ZArith NArith Lia.
From Verif.Model Require Import GoStr Pep440 Specifier.
From Verif.Spec Require Import Pep440Spec KindSpec.
From Verif.Proofs Require Import GoStrFacts Order Pep440Cmp Pep440Sound.
Import ListNotations.
Local Open Scope Z_scope.

Definition numeral_char (c : ascii) : Prop := In c (list_ascii_of_string "0123456789").
Lemma digit_char c : is_digit c = true <-> numeral_char c.
Proof.
  unfold numeral_char. split.
  - destruct c as [[] [] [] [] [] [] [] []]; vm_compute; intros H; try discriminate H; repeat (first [left; reflexivity | right]).
  - intros H. repeat (destruct H as [<-|H]; [reflexivity|]). destruct H.
Qed.
Lemma itoa_chars z : (0 <= z) -> Forall numeral_char (itoa z).
Proof.
  intros Z. assert (D := itoa_digits z Z). unfold all_digits in D. destruct (itoa z) as [|x l]; [constructor|]. apply Forall_forall. intros c I. apply digit_char. rewrite forallb_forall in D. auto.
Qed.
Lemma join_chars (Q : ascii -> Prop) l : Q "."%char -> Forall (Forall Q) l -> Forall Q (join $"." l).
Proof.
  intros D F. induction F as [|x l X F IH]; [constructor|]. destruct l as [|y l]; [exact X|]. change (join $"." (x :: y :: l)) with (x ++ $"." ++ join $"." (y :: l)).
  apply Forall_app. split; auto. apply Forall_app. split; auto. now constructor.
Qed.
Section kinds.
  Context (v : version) (H : parsed v).
  Lemma R : ranged_public (pub v). Proof using H. exact (proj1 H). Qed.
  Lemma epoch_text (Q : ascii -> Prop) : (forall c, numeral_char c -> Q c) -> Q "!"%char -> Forall Q (if 0 <? epoch (pub v) then itoa (epoch (pub v)) ++ $"!" else []).
  Proof.
    intros N B. destruct (0 <? epoch (pub v)); [|constructor]. apply Forall_app. split; [eapply Forall_impl; [exact N|]|now constructor]. apply itoa_chars. exact (proj1 (proj1 R)).
  Qed.
  Lemma release_text (Q : ascii -> Prop) : (forall c, numeral_char c -> Q c) -> Q "."%char -> Forall Q (join $"." (map itoa (release (pub v)))).
  Proof.
    intros N B. apply join_chars; auto. apply Forall_map. destruct R as (_ & _ & RR & _). eapply Forall_impl; [|exact RR]. intros z Z. eapply Forall_impl; [exact N|]. apply itoa_chars. exact (proj1 Z).
  Qed.
  Definition relc (c : ascii) : Prop := In c (list_ascii_of_string "0123456789.!").
  Lemma num_relc c : numeral_char c -> relc c.
  Proof. unfold numeral_char, relc. intros I. cbn in *. tauto. Qed.
  Lemma not_relc c (s : str) : existsb (Ascii.eqb c) (list_ascii_of_string "0123456789.!") = false -> In c s -> ~ Forall relc s.
  Proof.
    intros N I F. rewrite Forall_forall in F. specialize (F c I). assert (X : existsb (Ascii.eqb c) (list_ascii_of_string "0123456789.!") = true); [|congruence].
    apply existsb_exists. exists c. split; auto. apply Ascii.eqb_refl.
  Qed.
  Lemma final_spelled : is_final v = true <-> release_only (version_string v).
  Proof.
    unfold release_only. change (fun c => In c (list_ascii_of_string "0123456789.!")) with relc. unfold version_string, public_string. rewrite !Forall_app.
    assert (E : Forall relc (if 0 <? epoch (pub v) then itoa (epoch (pub v)) ++ $"!" else [])) by (apply epoch_text; [exact num_relc|unfold relc; cbn; tauto]).
    assert (L : Forall relc (join $"." (map itoa (release (pub v))))) by (apply release_text; [exact num_relc|unfold relc; cbn; tauto]).
    assert (Q : forall l n, pre (pub v) = Some (l, n) -> ~ Forall relc (l ++ itoa n)).
    { intros l n X. destruct (proj1 (proj2 H) _ _ X) as [-> | [-> | ->]].
      - apply (not_relc "a"%char); [reflexivity|now left].
      - apply (not_relc "b"%char); [reflexivity|now left].
      - apply (not_relc "r"%char); [reflexivity|now left]. }
    assert (Q2 : forall n, ~ Forall relc ($".post" ++ itoa n)) by (intros n; apply (not_relc "p"%char); [reflexivity|right; now left]).
    assert (Q3 : forall n, ~ Forall relc ($".dev" ++ itoa n)) by (intros n; apply (not_relc "d"%char); [reflexivity|right; now left]).
    assert (Q4 : forall x l, ~ Forall relc (local_string $"+" (x :: l))) by (intros x l; apply (not_relc "+"%char); [reflexivity|now left]).
    unfold is_final, public_is_final. destruct (pre (pub v)) as [[l n]|]; [split; [discriminate|]; intros ((_ & _ & X & _) & _); now apply Q in X|].
    destruct (post (pub v)) as [n|]; [split; [discriminate|]; intros ((_ & _ & _ & X & _) & _); now apply Q2 in X|].
    destruct (dev (pub v)) as [n|]; [split; [discriminate|]; intros ((_ & _ & _ & _ & X) & _); now apply Q3 in X|].
    destruct (local v) as [|x l]; [|split; [discriminate|]; intros (_ & X); now apply Q4 in X].
    split; [|reflexivity]. intros _. repeat split; auto; constructor.
  Qed.
  Definition noabcd (c : ascii) : Prop := ~ In c (list_ascii_of_string "abcd").
  Lemma num_noabcd c : numeral_char c -> noabcd c.
  Proof. unfold numeral_char, noabcd. intros I X. cbn in I. repeat (destruct I as [<-|I]; [cbn in X; intuition discriminate|]). destruct I. Qed.
  Lemma no_abcd s : Forall noabcd s -> ~ abcd s.
  Proof. intros F X. apply Exists_exists in X as (c & I & X). rewrite Forall_forall in F. now apply (F c). Qed.
  Lemma has_abcd c (s : str) : In c (list_ascii_of_string "abcd") -> In c s -> abcd s.
  Proof. intros A I. apply Exists_exists. eauto. Qed.
  Lemma pre_spelled : is_prerelease (pub v) = true <-> abcd (public_string (pub v)).
  Proof.
    assert (E : Forall noabcd (if 0 <? epoch (pub v) then itoa (epoch (pub v)) ++ $"!" else [])) by (apply epoch_text; [exact num_noabcd|unfold noabcd; cbn; intuition discriminate]).
    assert (L : Forall noabcd (join $"." (map itoa (release (pub v))))) by (apply release_text; [exact num_noabcd|unfold noabcd; cbn; intuition discriminate]).
    assert (PO : Forall noabcd match post (pub v) with Some n => $".post" ++ itoa n | None => [] end).
    { destruct (post (pub v)) as [n|] eqn:X; [|constructor]. apply Forall_app. split; [repeat (constructor; [unfold noabcd; cbn; intuition discriminate|]); constructor|]. eapply Forall_impl; [exact num_noabcd|].
      apply itoa_chars. destruct R as (_ & _ & _ & _ & RP & _). now apply (RP n). }
    unfold is_prerelease, public_string. split.
    - destruct (pre (pub v)) as [[l n]|] eqn:X.
      + intros _. destruct (proj1 (proj2 H) _ _ X) as [-> | [-> | ->]].
        * apply (has_abcd "a"%char); [cbn; tauto|]. rewrite !in_app_iff. right; right; left. left. cbn. tauto.
        * apply (has_abcd "b"%char); [cbn; tauto|]. rewrite !in_app_iff. right; right; left. left. cbn. tauto.
        * apply (has_abcd "c"%char); [cbn; tauto|]. rewrite !in_app_iff. right; right; left. left. cbn. tauto.
      + destruct (dev (pub v)) as [n|]; [|discriminate]. intros _. apply (has_abcd "d"%char); [cbn; tauto|]. rewrite !in_app_iff. do 4 right. left. cbn. tauto.
    - intros A. destruct (pre (pub v)) as [[l n]|]; [reflexivity|]. destruct (dev (pub v)) as [n|]; [reflexivity|]. exfalso. revert A. apply no_abcd. rewrite !Forall_app. repeat split; auto.
  Qed.
  Lemma numbers_spelled : numbered (version_string v) (release (pub v)) /\
    major (pub v) = nth 0 (release (pub v)) 0 /\ minor (pub v) = nth 1 (release (pub v)) 0 /\ micro (pub v) = nth 2 (release (pub v)) 0.
  Proof.
    split.
    - exists (if 0 <? epoch (pub v) then itoa (epoch (pub v)) ++ $"!" else []). eexists. split; [unfold version_string, public_string; rewrite <- !app_assoc; reflexivity|].
      split; [destruct (0 <? epoch (pub v)); eauto|]. split; [exact (proj1 (proj2 R))|]. intros c x T.
      assert (Z : forall c', existsb (Ascii.eqb c') (list_ascii_of_string "0123456789") = false -> ~ In c' (list_ascii_of_string "0123456789")).
      { intros c' N I. assert (X : existsb (Ascii.eqb c') (list_ascii_of_string "0123456789") = true) by (apply existsb_exists; exists c'; split; [auto|apply Ascii.eqb_refl]). congruence. }
      destruct (pre (pub v)) as [[l n]|] eqn:X.
      + destruct (proj1 (proj2 H) _ _ X) as [-> | [-> | ->]]; destruct T as [T|T]; try discriminate T; apply (f_equal (@hd_error _)) in T; cbn in T; injection T as <-; now apply Z.
      + destruct (post (pub v)) as [n|]; [destruct T as [T|T]; apply (f_equal (fun s => (hd_error s, hd_error (tl s)))) in T; cbn in T; injection T; intros; subst; now apply Z|].
        destruct (dev (pub v)) as [n|]; [destruct T as [T|T]; apply (f_equal (fun s => (hd_error s, hd_error (tl s)))) in T; cbn in T; injection T; intros; subst; now apply Z|].
        destruct (local v) as [|y l]; cbn [app] in T; [destruct T; discriminate|]. destruct T as [T|T]; [apply (f_equal (@hd_error _)) in T; cbn in T; injection T as <-; now apply Z|discriminate T].
    - repeat split.
  Qed.
  Lemma pre_before : is_prerelease (pub v) = true -> cmp v (released v) < 0.
  Proof.
    intros P. assert (W : forall x, wrap64 (x - x) = 0) by (intros x; rewrite Z.sub_diag; reflexivity).
    assert (RR : forall r i n, cmp_release_from r r i n = 0) by (intros r i n; revert i; induction n as [|n IH]; intros i; [reflexivity|]; cbn [cmp_release_from]; now rewrite W; apply IH).
    unfold cmp, public_cmp, cmp_epoch, cmp_release, cmp_postrelease, cmp_devrelease, cmp_prerelease, pre_rank. cbn [released pub epoch release pre post dev]. rewrite !W, RR. unfold is_prerelease in P.
    destruct (pre (pub v)) as [[l n]|] eqn:X.
    - destruct (proj1 (proj2 H) _ _ X) as [-> | [-> | ->]]; reflexivity.
    - destruct (dev (pub v)) as [n|]; [|discriminate]. cbn [is_some andb]. destruct (post (pub v)); reflexivity.
  Qed.
End kinds.
(** For every spelling *)
Theorem kinds s v : parse_version s = Some v ->
  (is_final v = true <-> release_only (version_string v)) /\
  (is_prerelease (pub v) = true <-> abcd (public_string (pub v))) /\
  (exists l, numbered (version_string v) l /\ major (pub v) = nth 0 l 0 /\ minor (pub v) = nth 1 l 0 /\ micro (pub v) = nth 2 l 0) /\
  (is_prerelease (pub v) = true -> cmp v (released v) < 0).
Proof.
  intros E. apply parse_result in E. split; [now apply final_spelled|]. split; [now apply pre_spelled|]. split; [exists (release (pub v)); now apply numbers_spelled|]. now apply pre_before.
Qed.
(** Allowing everything is having no policy. *)
Theorem select_all spec choices : select spec choices (Some allow_all) = select spec choices None.
Proof.
  unfold select. generalize (@None version) at 2 3. intros o. enough (G : forall b, select_loop spec (Some allow_all) choices None b = select_loop spec None choices b None) by apply G.
  induction choices as [|c l IH]; intros b; [destruct b; reflexivity|]. cbn [select_loop]. destruct (match_specifier spec c); [|apply IH]. cbn [allow_all negb]. apply IH.
Qed.
