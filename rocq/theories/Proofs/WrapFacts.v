(** Proofs about word wrapping (C59). *)
From Coq Require Import String Ascii List Bool ZArith Lia.
From Verif.Model Require Import GoStr Wrap.
From Verif.Spec Require Import WrapSpec.
From Verif.Proofs Require Import GoStrFacts.
Import ListNotations.
Local Open Scope nat_scope.

Lemma blank_white c : blank c = true <-> white c.
Proof.
  unfold blank, white, byte_eqb, newline. rewrite !orb_true_iff, !Ascii.eqb_eq. tauto.
Qed.
Lemma whiteb_white c : whiteb c = true <-> white c.
Proof. exact (blank_white c). Qed.
Lemma last_index_some p s k : last_index p s = Some k -> exists t c u, s = t ++ c :: u /\ length t = k /\ p c = true.
Proof.
  revert k. induction s as [|x s IH]; intros k H; cbn [last_index] in H; [discriminate|]. destruct (last_index p s) as [j|] eqn:E.
  - injection H as <-. destruct (IH _ eq_refl) as (t & c & u & -> & L & P). exists (x :: t), c, u. cbn. auto.
  - destruct (p x) eqn:P; [|discriminate]. injection H as <-. exists [], x, s. auto.
Qed.
Lemma last_index_max p s k x u : last_index p s = k -> s = x ++ u -> match k with None => Forall (fun c => p c = false) u | Some k => k < length x -> Forall (fun c => p c = false) u end.
Proof.
  intros <-. revert x u. induction s as [|c s IH]; intros x u E; cbn [last_index].
  - symmetry in E. apply app_eq_nil in E as [-> ->]. constructor.
  - destruct x as [|y x].
    + cbn [app] in E. subst u. specialize (IH [] s eq_refl). destruct (last_index p s) as [j|]; [intros L; cbn in L; lia|].
      destruct (p c) eqn:P; [intros L; cbn in L; lia|]. constructor; auto.
    + injection E as <- ->. specialize (IH x u eq_refl). destruct (last_index p (x ++ u)) as [j|].
      * intros L. apply IH. cbn in L. lia.
      * destruct (p c); auto.
Qed.
Lemma wrap_n_spec i slop s t s' : wrap_n i slop s = (t, s') ->
  (t = s /\ s' = [] /\ (length s < i + slop \/ exists x u y, s = x ++ u ++ y /\ length (x ++ u) = i /\ length x <= 1 /\ Forall (fun c => ~ white c) u)) \/
  (exists c, white c /\ s = t ++ c :: s' /\ t <> [] /\ length t < i /\ slop <= length s').
Proof.
  unfold wrap_n. destruct (length s <? i + slop) eqn:L.
  - intros H. injection H as <- <-. left. apply Nat.ltb_lt in L. auto.
  - apply Nat.ltb_ge in L. assert (LI : length (firstn i s) = i) by (rewrite firstn_length; lia).
    assert (CUT : forall p k, p = blank \/ p = is_nl -> last_index p (firstn i s) = Some (S k) ->
              exists c, white c /\ s = firstn (S k) s ++ c :: skipn (S (S k)) s /\ firstn (S k) s <> [] /\ length (firstn (S k) s) < i /\ slop <= length (skipn (S (S k)) s)).
    { intros p k Hp E. destruct (last_index_some _ _ _ E) as (a & c & u & Eq & La & Pc). exists c.
      assert (W : white c). { destruct Hp as [-> | ->]; [now apply blank_white|]. apply Ascii.eqb_eq in Pc. subst c. unfold white. auto. }
      assert (Es : s = a ++ c :: u ++ skipn i s). { rewrite <- (firstn_skipn i s) at 1. rewrite Eq, <- app_assoc. reflexivity. }
      assert (F : firstn (S k) s = a). { rewrite Es, <- La, firstn_app, Nat.sub_diag, firstn_all. cbn [firstn]. now rewrite app_nil_r. }
      assert (G : skipn (S (S k)) s = u ++ skipn i s). { rewrite Es at 1. rewrite <- La. replace (S (length a)) with (length (a ++ [c])) by (rewrite app_length; cbn; lia).
        change (c :: u ++ skipn i s) with ([c] ++ (u ++ skipn i s)). rewrite app_assoc, skipn_app, skipn_all, Nat.sub_diag. reflexivity. }
      rewrite F, G. split; auto. split; auto. split; [intros ->; cbn in La; lia|]. split; [rewrite <- LI, Eq, app_length; cbn; lia|]. rewrite app_length, skipn_length. lia. }
    assert (NONE : match last_index blank (firstn i s) with None | Some O => True | _ => False end ->
              exists x u y, s = x ++ u ++ y /\ length (x ++ u) = i /\ length x <= 1 /\ Forall (fun c => ~ white c) u).
    { intros N. exists (firstn 1 (firstn i s)), (skipn 1 (firstn i s)), (skipn i s). rewrite app_assoc, firstn_skipn, firstn_skipn. split; auto. split; auto. split; [apply firstn_le_length|].
      pose proof (last_index_max blank (firstn i s) _ (firstn 1 (firstn i s)) (skipn 1 (firstn i s)) eq_refl (eq_sym (firstn_skipn _ _))) as M.
      assert (M' : Forall (fun c => blank c = false) (skipn 1 (firstn i s))).
      { destruct (last_index blank (firstn i s)) as [[|k]|]; auto; [|contradiction]. destruct (firstn i s) as [|c r]; [constructor|]. apply M. cbn. lia. }
      eapply Forall_impl; [|exact M']. intros c B W. apply blank_white in W. congruence. }
    destruct (last_index blank (firstn i s)) as [[|w]|] eqn:B; try (intros H; injection H as <- <-; left; split; [reflexivity|]; split; [reflexivity|]; right; now apply NONE).
    destruct (last_index is_nl (firstn i s)) as [[|k]|] eqn:N; try (intros H; injection H as <- <-; right; apply (CUT blank w); auto).
    destruct (S k <? S w); intros H; injection H as <- <-; right; [apply (CUT is_nl k)|apply (CUT blank w)]; auto.
Qed.

(** ** Reflowing *)
Lemma flow_app k s o s' o' : reflow k s o -> reflow k s' o' -> reflow k (s ++ s') (o ++ o').
Proof. intros H H'. induction H; auto; cbn [app]; [constructor; auto|]. rewrite <- app_assoc. constructor; auto. Qed.
Lemma flow_replace k s : reflow k s (replace_nl (new_line k) s).
Proof.
  induction s as [|c s IH]; [constructor|]. unfold replace_nl. cbn [map concat]. destruct (is_nl c) eqn:E.
  - apply Ascii.eqb_eq in E. subst c. cbn [new_line app]. unfold spaces. apply flow_break; auto. unfold white. auto.
  - cbn [app]. constructor; auto. intros ->. discriminate.
Qed.
Lemma rest_flow fuel i width slop : 0 < slop -> forall r s, length s <= fuel ->
  exists out, wrap_rest fuel i width slop r s = Some out /\ (s = [] -> out = r) /\ (s <> [] -> exists o, out = r ++ new_line i ++ o /\ reflow i s o).
Proof.
  intros HS. induction fuel as [|fuel IH]; intros r s L.
  - destruct s; [|cbn in L; lia]. exists r. cbn. split; [reflexivity|split; [auto|congruence]].
  - destruct s as [|c s]; [exists r; cbn; split; [reflexivity|split; [auto|congruence]]|]. cbn [wrap_rest]. destruct (wrap_n width slop (c :: s)) as [t s'] eqn:W.
    apply wrap_n_spec in W as [(-> & -> & _)|(d & Wd & E & NT & Lt & Ls)].
    + destruct (IH (r ++ new_line i ++ replace_nl (new_line i) (c :: s)) []) as (out & -> & O & _); [cbn; lia|]. exists out. rewrite (O eq_refl). split; auto. split; [discriminate|]. intros _. eexists. split; [reflexivity|]. apply flow_replace.
    + destruct (IH (r ++ new_line i ++ replace_nl (new_line i) t) s') as (out & -> & O1 & O2).
      { rewrite E, app_length in L. cbn in L. destruct t; [congruence|]. cbn in L. lia. }
      exists out. split; auto. split; [discriminate|]. intros _. rewrite E. destruct s' as [|x s'']; [cbn in Ls; lia|].
      destruct O2 as (o & -> & F); [discriminate|]. exists (replace_nl (new_line i) t ++ new_line i ++ o). split; [now rewrite <- !app_assoc|].
      apply flow_app; [apply flow_replace|]. unfold new_line, spaces. apply flow_break; auto.
Qed.
(** How the arguments are read: the indent, the width, and whether the text begins on a new line *)
Definition layout (i w : Z) : Z * Z * bool := if (w - i <? 24)%Z then (16%Z, (w - 16)%Z, true) else (i, (w - i)%Z, false).
Theorem wrap_flow i w s : (0 <= i)%Z -> exists out k o, wrap_at i w s = Some out /\ reflow k s o /\
  (k = Z.to_nat i \/ k = 16 /\ (w < i + 24)%Z) /\ (out = o \/ out = new_line 16 ++ o /\ k = 16 /\ (w < i + 24)%Z).
Proof.
  intros I. unfold wrap_at. destruct (w =? 0)%Z.
  - destruct (i <? 0)%Z eqn:N; [lia|]. eexists _, _, _. split; [reflexivity|]. split; [apply flow_replace|]. auto.
  - assert (MAIN : forall k width r, (24 <= width)%Z -> exists out o,
        (let '(l, s) := wrap_n (Z.to_nat width - 5) 5 s in wrap_rest (length s) k (Z.to_nat width - 5) 5 (r ++ replace_nl (new_line k) l) s) = Some out /\ reflow k s o /\ out = r ++ o).
    { intros k width r HW. destruct (wrap_n (Z.to_nat width - 5) 5 s) as [l s'] eqn:W. destruct (rest_flow (length s') k (Z.to_nat width - 5) 5 ltac:(lia) (r ++ replace_nl (new_line k) l) s' (le_n _)) as (out & -> & O1 & O2).
      apply wrap_n_spec in W as [(-> & -> & _)|(d & Wd & E & NT & Lt & Ls)].
      - exists out. rewrite (O1 eq_refl). eexists. split; [reflexivity|]. split; [apply flow_replace|reflexivity].
      - destruct s' as [|x s'']; [cbn in Ls; lia|]. destruct O2 as (o & -> & F); [discriminate|]. eexists _, (replace_nl (new_line k) l ++ new_line k ++ o). split; [reflexivity|].
        split; [|now rewrite <- !app_assoc]. rewrite E. apply flow_app; [apply flow_replace|]. unfold new_line, spaces. apply flow_break; auto. }
    destruct (w - i <? 24)%Z eqn:N.
    + destruct (w - 16 <? 24)%Z eqn:N2.
      * eexists _, 16, _. split; [reflexivity|]. split; [apply flow_replace|]. split; [right; split; [auto|lia]|auto].
      * destruct (MAIN 16 (w - 16)%Z (new_line 16)) as (out & o & M & F & E); [lia|]. exists out, 16, o. change (Z.to_nat 16) with 16. split; [exact M|]. split; auto. split; [right; split; [auto|lia]|right; split; [auto|split; [auto|lia]]].
    + destruct (w - i <? 24)%Z eqn:N2; [discriminate|]. destruct (i <? 0)%Z eqn:N3; [lia|].
      destruct (MAIN (Z.to_nat i) (w - i)%Z []) as (out & o & M & F & E); [lia|]. exists out, (Z.to_nat i), o. split; [exact M|]. split; auto.
Qed.
Theorem wrap_panics i w s : wrap_at i w s = None <-> (i < 0 /\ (w = 0 \/ 24 <= w - i))%Z.
Proof.
  destruct (Z.ltb_spec i 0) as [L|L].
  - unfold wrap_at. rewrite (proj2 (Z.ltb_lt _ _) L). destruct (Z.eqb_spec w 0) as [->|NW]; [(split; [intros _; lia|auto])|]. destruct (Z.ltb_spec (w - i) 24) as [N|N].
    + destruct (Z.ltb_spec (w - 16) 24) as [N2|N2]; [|lia]. split; [discriminate|lia].
    + destruct (Z.ltb_spec (w - i) 24) as [N2|N2]; [lia|]. rewrite (proj2 (Z.ltb_lt _ _) L). split; [intros _; lia|auto].
  - destruct (wrap_flow i w s L) as (out & k & o & -> & _). split; [discriminate|lia].
Qed.

(** ** Words *)
Lemma words_blank x : forall c w s, white c -> words_from w (x ++ c :: s) = words_from w x ++ words s.
Proof.
  induction x as [|d x IH]; intros c w s W.
  - cbn [app words_from]. rewrite (proj2 (whiteb_white c) W). reflexivity.
  - cbn [app words_from]. destruct (whiteb d); rewrite IH by auto; auto. now rewrite app_assoc.
Qed.
Lemma words_spaces k s : words (repeat " "%char k ++ s) = words s.
Proof. induction k; auto. Qed.
Lemma flow_words_from k s o : reflow k s o -> forall w, words_from w o = words_from w s.
Proof.
  induction 1 as [|c s o N F IH|c s o W F IH]; intros w; auto.
  - cbn [words_from]. destruct (whiteb c); now rewrite !IH.
  - cbn [words_from]. rewrite (proj2 (whiteb_white c) W). replace (whiteb "010") with true by reflexivity. f_equal. fold (words (repeat " "%char k ++ o)). rewrite words_spaces. apply IH.
Qed.
Theorem wrap_words i w s out : wrap_at i w s = Some out -> words out = words s.
Proof.
  intros H. destruct (Z.ltb_spec i 0) as [L|L].
  - (* no wrapping *) unfold wrap_at in H. rewrite (proj2 (Z.ltb_lt _ _) L) in H. destruct (w =? 0)%Z; [discriminate|]. destruct (w - i <? 24)%Z eqn:N.
    + destruct (Z.ltb_spec (w - 16) 24) as [N2|N2]; [|lia]. injection H as <-. apply flow_words_from with (k := 16). apply flow_replace.
    + destruct (w - i <? 24)%Z; [discriminate|]. rewrite (proj2 (Z.ltb_lt _ _) L) in H. discriminate.
  - destruct (wrap_flow i w s L) as (out' & k & o & E & F & _ & [-> |(-> & _)]); rewrite E in H; injection H as <-.
    + now apply flow_words_from with (k := k).
    + transitivity (words (repeat " "%char 16 ++ o)); [reflexivity|]. rewrite words_spaces. now apply flow_words_from with (k := k).
Qed.

(** ** Widths *)
Lemma lines_nl s t : lines (s ++ "010"%char :: t) = lines s ++ lines t.
Proof.
  unfold lines. induction s as [|c s IH]; [reflexivity|]. cbn [app]. cbn [split_on]. rewrite IH. destruct (byte_eqb "010" c); [reflexivity|]. destruct (split_on "010" s) as [|l ls] eqn:E; [|reflexivity]. exfalso. now apply split_on_nonempty in E.
Qed.
Lemma lines_cons s : exists l ls, lines s = l :: ls.
Proof. unfold lines. destruct (split_on "010" s) as [|l ls] eqn:E; [exfalso; now apply split_on_nonempty in E|eauto]. Qed.
Lemma lines_spaces k s l ls : lines s = l :: ls -> lines (spaces k ++ s) = (spaces k ++ l) :: ls.
Proof. intros E. induction k as [|k IH]; [exact E|]. cbn [spaces repeat app]. unfold lines in *. cbn [split_on]. fold (spaces k). now rewrite IH. Qed.
Lemma lines_replace k t l ls : lines t = l :: ls -> lines (replace_nl (new_line k) t) = l :: map (app (spaces k)) ls.
Proof.
  revert l ls. induction t as [|c t IH]; intros l ls E.
  - injection E as <- <-. reflexivity.
  - destruct (lines_cons t) as (l' & ls' & E'). specialize (IH _ _ E'). unfold replace_nl in *. cbn [map concat]. unfold lines in E. cbn [split_on] in E. fold (lines t) in E. rewrite E' in E.
    unfold is_nl at 1. unfold byte_eqb in E. unfold byte_eqb. rewrite Ascii.eqb_sym in E. unfold newline at 1. destruct (Ascii.eqb_spec c "010") as [->|NE].
    + injection E as <- <-. unfold new_line at 1. cbn [app]. change newline with "010"%char. change ("010"%char :: spaces k ++ ?x) with ([] ++ "010"%char :: spaces k ++ x). rewrite lines_nl.
      rewrite (lines_spaces _ _ _ _ IH). reflexivity.
    + injection E as <- <-. cbn [app]. unfold lines in *. cbn [split_on]. unfold byte_eqb. destruct (Ascii.eqb_spec "010" c) as [X|_]; [congruence|now rewrite IH].
Qed.
Lemma lines_short s : Forall (fun l => length l <= length s) (lines s).
Proof.
  unfold lines. induction s as [|c s IH]; cbn [split_on]; [repeat constructor|]. destruct (byte_eqb "010" c).
  - constructor; [cbn; lia|]. eapply Forall_impl; [|exact IH]. cbn. lia.
  - destruct (split_on "010" s) as [|l ls]; [constructor; [cbn; lia|constructor]|]. inversion IH as [|? ? A B]; subst. constructor; [cbn; lia|]. eapply Forall_impl; [|exact B]. cbn. lia.
Qed.
Definition fit (a b : nat) (out : str) : Prop :=
  match lines out with [] => True | l :: ls => length l <= a /\ Forall (fun l => length l <= b) ls end.
Lemma fit_replace k n t : length t <= n -> fit n (k + n) (replace_nl (new_line k) t).
Proof.
  intros L. unfold fit. destruct (lines_cons t) as (l & ls & E). rewrite (lines_replace _ _ _ _ E). assert (F := lines_short t). rewrite E in F. inversion F as [|? ? A B]; subst. split; [lia|].
  apply Forall_map. eapply Forall_impl; [|exact B]. intros x X. cbn beta in *. unfold spaces. rewrite app_length, repeat_length. lia.
Qed.
Lemma fit_break k a n r x : fit a (k + n) r -> fit n (k + n) x -> fit a (k + n) (r ++ new_line k ++ x).
Proof.
  unfold fit, new_line. intros A B. cbn [app]. change newline with "010"%char. rewrite lines_nl. destruct (lines_cons r) as (l & ls & E). rewrite E in *. cbn [app]. destruct A as [A1 A2]. split; auto.
  apply Forall_app. split; auto. destruct (lines_cons x) as (m & ms & E'). rewrite (lines_spaces _ _ _ _ E'). rewrite E' in B. destruct B as [B1 B2]. constructor; auto. unfold spaces. rewrite app_length, repeat_length. lia.
Qed.
Lemma word_run u : Forall (fun c => ~ white c) u -> forall w y, w <> [] \/ u <> [] -> exists x, In x (words_from w (u ++ y)) /\ length w + length u <= length x.
Proof.
  induction 1 as [|c u N F IH]; intros w y NE.
  - cbn [app length]. assert (NW : w <> []) by tauto. clear NE. revert w NW. induction y as [|d y IH]; intros w NW; cbn [words_from].
    + destruct w; [congruence|]. eexists. split; [left; reflexivity|]. rewrite rev_length. cbn. lia.
    + destruct (whiteb d).
      * destruct w as [|e w]; [congruence|]. exists (rev (e :: w)). split; [now left|]. rewrite rev_length. lia.
      * destruct (IH (d :: w)) as (x & I & L); [discriminate|]. exists x. split; auto. cbn in L. lia.
  - cbn [app words_from]. destruct (whiteb c) eqn:W; [apply whiteb_white in W; contradiction|]. destruct (IH (c :: w) y) as (x & I & L); [left; discriminate|]. exists x. split; auto. cbn in *. lia.
Qed.
Lemma long_word x u y : Forall (fun c => ~ white c) u -> u <> [] -> length x <= 1 -> exists w, In w (words (x ++ u ++ y)) /\ length u <= length w.
Proof.
  intros F NU L. destruct x as [|c [|d x]]; [| |cbn in L; lia].
  - destruct (word_run u F [] y) as (w & I & Lw); [auto|]. exists w. auto.
  - cbn [app words]. unfold words. cbn [words_from]. destruct (whiteb c).
    + destruct (word_run u F [] y) as (w & I & Lw); [auto|]. exists w. auto.
    + destruct (word_run u F [c] y) as (w & I & Lw); [auto|]. exists w. split; auto. cbn in Lw. lia.
Qed.
Definition small (n : nat) (s : str) : Prop := Forall (fun w => length w < n) (words s).
Lemma small_split n t c s : white c -> small n (t ++ c :: s) -> small n s.
Proof. intros W H. unfold small, words in *. rewrite words_blank in H by auto. now apply Forall_app in H as [_ H]. Qed.
Lemma wrap_n_short i slop s t s' : 2 <= i -> small (i - 1) s -> wrap_n i slop s = (t, s') ->
  length t < i + slop /\ (s' = [] \/ exists c, white c /\ s = t ++ c :: s').
Proof.
  intros I S W. apply wrap_n_spec in W as [(-> & -> & [L|(x & u & y & E & Lu & Lx & F)])|(c & Wc & E & _ & L & _)].
  - auto.
  - exfalso. rewrite app_length in Lu. destruct (long_word x u y F) as (w & Iw & Lw); [intros ->; cbn in Lu; lia|auto|]. rewrite <- E in Iw. unfold small in S. rewrite Forall_forall in S. specialize (S _ Iw). lia.
  - split; [lia|]. right. eauto.
Qed.
Lemma rest_fit i width slop a fuel : 2 <= width -> forall r s, small (width - 1) s -> length s <= fuel -> fit a (i + (width + slop)) r ->
  forall out, wrap_rest fuel i width slop r s = Some out -> fit a (i + (width + slop)) out.
Proof.
  intros HW. induction fuel as [|fuel IH]; intros r s S L F out H.
  - destruct s; [|cbn in L; lia]. injection H as <-. auto.
  - destruct s as [|c s]; [injection H as <-; auto|]. cbn [wrap_rest] in H. destruct (wrap_n width slop (c :: s)) as [t s'] eqn:W.
    destruct (wrap_n_short _ _ _ _ _ HW S W) as [Lt K]. apply (IH _ s') in H; auto.
    + destruct K as [->|(d & Wd & E)]; [constructor|]. rewrite E in S. eapply small_split; eauto.
    + destruct K as [->|(d & Wd & E)]; [cbn; lia|]. rewrite E, app_length in L. cbn in L. lia.
    + apply fit_break; auto. apply fit_replace. lia.
Qed.
Lemma small_of n m s : short_words (Z.of_nat n) s -> n <= m -> small m s.
Proof. intros H L. eapply Forall_impl; [|exact H]. intros w X. cbn beta in *. lia. Qed.
Lemma fit_fits a b out : fit a b out -> fits (Z.of_nat a) (Z.of_nat b) out.
Proof. unfold fit, fits. destruct (lines out) as [|l ls]; auto. intros [A B]. split; [lia|]. eapply Forall_impl; [|exact B]. cbn beta. lia. Qed.
Theorem wrap_width i w s out : (0 <= i)%Z -> (24 <= w - i)%Z -> short_words (w - i - 6) s -> wrap_at i w s = Some out -> fits (w - i) w out.
Proof.
  intros I W S H. unfold wrap_at in H. destruct (Z.eqb_spec w 0) as [->|NW]; [lia|]. destruct (Z.ltb_spec (w - i) 24) as [N|N]; [lia|]. destruct (Z.ltb_spec (w - i) 24); [lia|]. destruct (Z.ltb_spec i 0); [lia|].
  set (W0 := Z.to_nat (w - i) - 5) in *. destruct (wrap_n W0 5 s) as [l s'] eqn:E. assert (S' : small (W0 - 1) s) by (eapply small_of with (n := W0 - 1); [|lia]; replace (Z.of_nat (W0 - 1)) with (w - i - 6)%Z by lia; exact S).
  destruct (wrap_n_short W0 5 s l s' ltac:(lia) S' E) as [Ll K].
  replace (w - i)%Z with (Z.of_nat (W0 + 5)) by lia. replace w with (Z.of_nat (Z.to_nat i + (W0 + 5))) by lia. apply fit_fits.
  apply (rest_fit _ W0 5 _ (length s')) with (r := [] ++ replace_nl (new_line (Z.to_nat i)) l) (s := s'); auto; [lia| |].
  - destruct K as [->|(d & Wd & X)]; [constructor|]. rewrite X in S'. eapply small_split; eauto.
  - apply fit_replace. lia.
Qed.
Theorem wrap_width_block i w s out : (w - i < 24)%Z -> (40 <= w)%Z -> short_words (w - 22) s -> wrap_at i w s = Some out -> fits 0 w out.
Proof.
  intros I W S H. unfold wrap_at in H. destruct (Z.eqb_spec w 0) as [->|NW]; [lia|]. destruct (Z.ltb_spec (w - i) 24) as [N|N]; [|lia]. destruct (Z.ltb_spec (w - 16) 24); [lia|]. change (16 <? 0)%Z with false in H. cbv iota zeta in H.
  set (W0 := Z.to_nat (w - 16) - 5) in *. destruct (wrap_n W0 5 s) as [l s'] eqn:E. assert (S' : small (W0 - 1) s) by (eapply small_of with (n := W0 - 1); [|lia]; replace (Z.of_nat (W0 - 1)) with (w - 22)%Z by lia; exact S).
  destruct (wrap_n_short W0 5 s l s' ltac:(lia) S' E) as [Ll K].
  replace 0%Z with (Z.of_nat 0) by lia. replace w with (Z.of_nat (16 + (W0 + 5))) by lia. apply fit_fits.
  apply (rest_fit 16 W0 5 0 (length s')) with (r := new_line 16 ++ replace_nl (new_line 16) l) (s := s'); auto; [lia| |].
  - destruct K as [->|(d & Wd & X)]; [constructor|]. rewrite X in S'. eapply small_split; eauto.
  - apply (fit_break 16 0 (W0 + 5) [] (replace_nl (new_line 16) l)); [split; [cbn; lia|constructor]|]. apply fit_replace. lia.
Qed.
(** A long word: everything after it is on the same line *)
Lemma last_index_none p s : Forall (fun c => p c = false) s -> last_index p s = None.
Proof. induction 1 as [|c s P F IH]; cbn [last_index]; auto. now rewrite IH, P. Qed.
Lemma lines_one s : ~ In "010"%char s -> lines s = [s].
Proof. apply split_on_none. Qed.
Theorem wrap_overlong w rest : (24 <= w)%Z -> ~ In "010"%char rest -> let s := repeat "a"%char (Z.to_nat w) ++ " "%char :: rest in
  wrap_text w s = Some s /\ lines s = [s] /\ (w < Z.of_nat (length s))%Z.
Proof.
  intros W NR s. assert (LA : length (repeat "a"%char (Z.to_nat w)) = Z.to_nat w) by apply repeat_length.
  assert (NN : ~ In "010"%char s). { intros I. apply in_app_or in I as [I|[I|I]]; [apply repeat_spec in I|..]; try discriminate. contradiction. }
  assert (RN : forall k x, ~ In "010"%char x -> replace_nl k x = x).
  { intros k x. unfold replace_nl. induction x as [|c x IH]; intros N; [reflexivity|]. cbn [map concat]. destruct (is_nl c) eqn:E; [apply Ascii.eqb_eq in E; subst c; exfalso; apply N; now left|]. cbn [app]. rewrite IH; auto. intros X. apply N. now right. }
  split; [|split; [now apply lines_one|unfold s; rewrite app_length, LA; cbn [length]; lia]].
  unfold wrap_text, wrap_at. destruct (Z.eqb_spec w 0); [lia|]. destruct (Z.ltb_spec (w - 0) 24); [lia|]. destruct (Z.ltb_spec (w - 0) 24); [lia|]. change (0 <? 0)%Z with false. cbv iota zeta.
  assert (E : wrap_n (Z.to_nat (w - 0) - 5) 5 s = (s, [])).
  { unfold wrap_n. destruct (_ <? _); auto. rewrite last_index_none; auto. unfold s. rewrite firstn_app. replace (Z.to_nat (w - 0) - 5 - length (repeat "a"%char (Z.to_nat w))) with 0 by lia. cbn [firstn]. rewrite app_nil_r.
    apply Forall_forall. intros c I. assert (J : In c (repeat "a"%char (Z.to_nat w))) by (rewrite <- (firstn_skipn (Z.to_nat (w - 0) - 5)); apply in_or_app; now left). apply repeat_spec in J. now subst. }
  rewrite E. cbn [wrap_rest length app]. now rewrite RN.
Qed.

Theorem wrap_text_ok w s : exists out k o, wrap_text w s = Some out /\ words out = words s /\ reflow k s o /\
  (out = o /\ k = 0 \/ (w < 24)%Z) /\ ((24 <= w)%Z -> short_words (w - 6) s -> fits w w out).
Proof.
  unfold wrap_text. destruct (wrap_flow 0 w s ltac:(lia)) as (out & k & o & E & F & K & O). exists out, k, o. split; [exact E|]. split; [exact (wrap_words _ _ _ _ E)|]. split; [exact F|]. split.
  - destruct (Z.ltb_spec w 24) as [L|L]; auto. left. destruct K as [-> | [_ K]]; [|lia]. destruct O as [-> | (_ & _ & O)]; [auto|lia].
  - intros L SW. replace w with (w - 0)%Z at 1 by lia. eapply wrap_width; [lia|lia| |exact E]. now replace (w - 0 - 6)%Z with (w - 6)%Z by lia.
Qed.
