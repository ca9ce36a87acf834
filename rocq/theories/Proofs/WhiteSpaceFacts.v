(** Trimming removes exactly the white space of Unicode at both ends. *)
From Coq Require Import String Ascii List Bool NArith Arith Lia.
From Verif.Model Require Import GoStr UniSpace.
From Verif.Spec Require Import WhiteSpaceSpec.
From Verif.Proofs Require Import Order GoStrFacts.
Import ListNotations.
Local Open Scope nat_scope.

(** ** Sequences of words of which none is a beginning of another *)
Inductive star (L : list str) : str -> Prop :=
| star_nil : star L []
| star_cons w s : In w L -> star L s -> star L (w ++ s).
Lemma star_app L a b : star L a -> star L b -> star L (a ++ b).
Proof. induction 1 as [|w s Hw Hs IH]; intros B; [exact B|]. rewrite <- app_assoc. apply star_cons; auto. Qed.
Lemma star_one L w : In w L -> star L w.
Proof. intros H. rewrite <- (app_nil_r w). apply star_cons; [exact H|apply star_nil]. Qed.
Lemma star_rev L s : star L s -> star (map (@rev ascii) L) (rev s).
Proof.
  induction 1 as [|w s Hw Hs IH]; [apply star_nil|]. rewrite rev_app_distr. apply star_app; [exact IH|]. apply star_one. now apply in_map.
Qed.
Definition free (L : list str) : bool :=
  forallb (fun w => negb (str_eqb w []) && forallb (fun w' => str_eqb w w' || negb (has_prefix w w')) L) L.
Lemma app_split {A} (a b x y : list A) : a ++ x = b ++ y -> (exists c, b = a ++ c /\ x = c ++ y) \/ (exists c, a = b ++ c /\ y = c ++ x).
Proof.
  revert b. induction a as [|u a IH]; intros [|v b] E; cbn in E.
  - left. exists []. auto.
  - left. exists (v :: b). auto.
  - right. exists (u :: a). auto.
  - injection E as -> E. destruct (IH b E) as [(c & -> & H) | (c & -> & H)]; [left|right]; exists c; auto.
Qed.
Lemma free_eq L w w' x y : free L = true -> In w L -> In w' L -> w ++ x = w' ++ y -> w = w'.
Proof.
  unfold free. rewrite forallb_forall. intros F H H' E.
  assert (G : forall u v, In u L -> In v L -> forall c, v = u ++ c -> u = v).
  { intros u v Hu Hv c ->. specialize (F u Hu). apply andb_true_iff in F as [_ F]. rewrite forallb_forall in F. specialize (F _ Hv).
    rewrite has_prefix_app, orb_false_r in F. now apply str_eqb_eq in F. }
  destruct (app_split _ _ _ _ E) as [(c & Ec & _) | (c & Ec & _)]; [now apply (G w w' H H' c)|symmetry; now apply (G w' w H' H c)].
Qed.
Lemma free_nonempty L w : free L = true -> In w L -> w <> [].
Proof.
  unfold free. rewrite forallb_forall. intros F H ->. specialize (F _ H). now rewrite str_eqb_refl in F.
Qed.
Definition stops (L : list str) (r : str) : Prop := forall w x, In w L -> r <> w ++ x.
Lemma star_unique L a : free L = true -> star L a -> forall a' r r', star L a' -> stops L r -> stops L r' -> a ++ r = a' ++ r' -> r = r'.
Proof.
  intros F. induction 1 as [|w s Hw Hs IH]; intros a' r r' A' S S' E.
  - destruct A' as [|w s Hw Hs]; [exact E|]. exfalso. apply (S w (s ++ r') Hw). now rewrite app_assoc.
  - destruct A' as [|w' s' Hw' Hs']; [exfalso; apply (S' w (s ++ r) Hw); cbn in E; now rewrite <- E, app_assoc|].
    rewrite <- !app_assoc in E. assert (w = w') as <- by now apply (free_eq L w w' _ _ F Hw Hw' E). apply app_inv_head in E. eapply IH; eassumption.
Qed.

(** ** trim_wide *)
Section wide.
  Context (W L : list str) (F : free L = true)
    (WL : forall w, (In w W \/ exists c, is_space c = true /\ w = [c]) <-> In w L).
  Lemma wide_sound : forall n s, length s <= n -> exists a, s = a ++ trim_wide W n s /\ star L a /\ stops L (trim_wide W n s).
  Proof.
    induction n as [|n IH]; intros s H.
    - destruct s; [|cbn in H; lia]. exists []. split; [reflexivity|]. split; [apply star_nil|]. intros w x Hw E. cbn in E. symmetry in E. apply app_eq_nil in E as [-> _].
      now apply (free_nonempty L [] F Hw).
    - cbn [trim_wide]. destruct s as [|x s].
      { exists []. split; [reflexivity|]. split; [apply star_nil|]. intros w y Hw E. symmetry in E. apply app_eq_nil in E as [-> _].
        now apply (free_nonempty L [] F Hw). }
      destruct (is_space x) eqn:Ex.
      + destruct (IH s ltac:(cbn in H; lia)) as (a & E & A & S). exists (x :: a). split; [cbn; congruence|]. split; [|exact S].
        change (x :: a) with ([x] ++ a). apply star_cons; [|exact A]. apply WL. right. now exists x.
      + destruct (find _ W) as [w|] eqn:Ew.
        * apply find_some in Ew as [Hw Ew]. apply has_prefix_spec in Ew as (r & E). rewrite E.
          assert (Lw : In w L) by (apply WL; now left). pose proof (free_nonempty L w F Lw) as N.
          replace (skipn (length w) (w ++ r)) with r by (rewrite skipn_app, Nat.sub_diag, skipn_all2 by lia; reflexivity).
          destruct (IH r) as (a & E' & A & S).
          { apply (f_equal (@length ascii)) in E. rewrite app_length in E. destruct w; [congruence|]. cbn in *. lia. }
          exists (w ++ a). split; [rewrite <- app_assoc; congruence|]. split; [now apply star_cons|exact S].
        * exists []. split; [reflexivity|]. split; [apply star_nil|]. intros w y Hw E. apply WL in Hw as [Hw | (c & Hc & ->)].
          -- apply (find_none _ _ Ew) in Hw. rewrite E in Hw. now rewrite has_prefix_app in Hw.
          -- injection E as -> _. congruence.
  Qed.
  Lemma wide_exact a r : star L a -> stops L r -> forall n, length (a ++ r) <= n -> trim_wide W n (a ++ r) = r.
  Proof.
    intros A S n H. destruct (wide_sound n (a ++ r) H) as (a' & E & A' & S'). symmetry. exact (star_unique L a F A a' r _ A' S S' E).
  Qed.
End wide.

(** ** The words *)
Definition words : list str := map encode white_space.
Lemma word_in w : space_word w <-> In w words.
Proof. unfold space_word, words. rewrite in_map_iff. split; intros (c & H & H'); exists c; auto. Qed.
Lemma words_split : words = map (fun c => [c]) ["009"; "010"; "011"; "012"; "013"; " "]%char ++ wide_spaces.
Proof. vm_compute. reflexivity. Qed.
Lemma space_cases c : is_space c = true <-> In c ["009"; "010"; "011"; "012"; "013"; " "]%char.
Proof.
  split.
  - destruct c as [[] [] [] [] [] [] [] []]; vm_compute; intros H; try discriminate H; auto 10.
  - intros H. repeat (destruct H as [<- | H]; [reflexivity|]). destruct H.
Qed.
Lemma words_free : free words = true.
Proof. vm_compute. reflexivity. Qed.
Lemma words_rev_free : free (map (@rev ascii) words) = true.
Proof. vm_compute. reflexivity. Qed.
Lemma words_wide w : (In w wide_spaces \/ exists c, is_space c = true /\ w = [c]) <-> In w words.
Proof.
  rewrite words_split, in_app_iff, in_map_iff. split.
  - intros [H | (c & H & ->)]; [now right|left]. exists c. split; [reflexivity|]. now apply space_cases.
  - intros [(c & <- & H) | H]; [right; exists c; split; [now apply space_cases|reflexivity]|now left].
Qed.
Lemma words_rev_wide w : (In w (map (@rev ascii) wide_spaces) \/ exists c, is_space c = true /\ w = [c]) <-> In w (map (@rev ascii) words).
Proof.
  rewrite words_split, map_app, in_app_iff, map_map. split.
  - intros [H | (c & H & ->)]; [now right|left]. apply in_map_iff. exists c. split; [reflexivity|]. now apply space_cases.
  - intros [H | H]; [|now left]. right. apply in_map_iff in H as (c & <- & H). exists c. split; [now apply space_cases|reflexivity].
Qed.
Lemma blanks_star s : blanks s <-> star words s.
Proof.
  split; induction 1 as [|w s Hw Hs IH]; try constructor; auto; now apply word_in.
Qed.
Lemma stops_start s : solid_start s <-> stops words s.
Proof. split; intros H w r Hw; apply H; now apply word_in. Qed.
Lemma stops_end s : solid_end s <-> stops (map (@rev ascii) words) (rev s).
Proof.
  split; intros H w r Hw E.
  - apply in_map_iff in Hw as (v & <- & Hv). apply (H v (rev r)); [now apply word_in|]. apply (f_equal (@rev ascii)) in E.
    now rewrite rev_involutive, rev_app_distr, rev_involutive in E.
  - apply (H (rev w) (rev r)); [apply in_map; now apply word_in|]. rewrite E. now rewrite rev_app_distr.
Qed.
Lemma blanks_end s : star (map (@rev ascii) words) (rev s) -> blanks s.
Proof.
  intros H. apply star_rev in H. rewrite map_map, rev_involutive in H. rewrite (map_ext _ (fun x => x)), map_id in H; [now apply blanks_star|].
  intros x. apply rev_involutive.
Qed.

(** ** Facts about [trim_left_u], [trim_right_u], [trim_space_u] *)
Lemma left_sound s : exists a, s = a ++ trim_left_u s /\ blanks a /\ solid_start (trim_left_u s).
Proof.
  destruct (wide_sound wide_spaces words words_free words_wide (length s) s (Nat.le_refl _)) as (a & E & A & S).
  exists a. split; [exact E|]. split; [now apply blanks_star|now apply stops_start].
Qed.
Lemma left_exact a r : blanks a -> solid_start r -> trim_left_u (a ++ r) = r.
Proof.
  intros A S. apply (wide_exact wide_spaces words words_free words_wide); [now apply blanks_star|now apply stops_start|apply Nat.le_refl].
Qed.
Lemma right_sound s : exists b, s = trim_right_u s ++ b /\ blanks b /\ solid_end (trim_right_u s).
Proof.
  destruct (wide_sound _ _ words_rev_free words_rev_wide (length s) (rev s)) as (a & E & A & S); [now rewrite rev_length|].
  exists (rev a). unfold trim_right_u. split; [|split].
  - apply (f_equal (@rev ascii)) in E. now rewrite rev_involutive, rev_app_distr in E.
  - apply blanks_end. now rewrite rev_involutive.
  - apply stops_end. now rewrite rev_involutive.
Qed.
Lemma right_exact r b : blanks b -> solid_end r -> trim_right_u (r ++ b) = r.
Proof.
  intros B S. unfold trim_right_u. rewrite rev_app_distr. rewrite (wide_exact _ _ words_rev_free words_rev_wide).
  - apply rev_involutive.
  - apply star_rev. now apply blanks_star.
  - now apply stops_end.
  - rewrite !app_length, !rev_length. lia.
Qed.

(** bytes of words *)
Lemma word_head w : space_word w -> exists c r, w = c :: r /\ (N_of_ascii c < 128 \/ 192 <= N_of_ascii c)%N.
Proof.
  intros H. apply word_in in H. assert (F : forallb (fun w => match w with c :: _ => (N_of_ascii c <? 128)%N || (192 <=? N_of_ascii c)%N | [] => false end) words = true) by (vm_compute; reflexivity).
  rewrite forallb_forall in F. specialize (F w H). destruct w as [|c r]; [discriminate F|]. exists c, r. split; [reflexivity|].
  apply orb_true_iff in F as [F|F]; [left; now apply N.ltb_lt|right; now apply N.leb_le].
Qed.
Lemma word_tail w c r : space_word w -> w = c :: r -> Forall (fun x => 128 <= N_of_ascii x < 192)%N r.
Proof.
  intros H E. apply word_in in H. assert (F : forallb (fun w => match w with _ :: r => forallb (fun x => (128 <=? N_of_ascii x)%N && (N_of_ascii x <? 192)%N) r | [] => false end) words = true) by (vm_compute; reflexivity).
  rewrite forallb_forall in F. specialize (F w H). subst w. apply Forall_forall. intros x Hx. rewrite forallb_forall in F. specialize (F x Hx).
  apply andb_true_iff in F as [F1 F2]. split; [now apply N.leb_le|now apply N.ltb_lt].
Qed.
Lemma word_byte c : space_word [c] -> is_space c = true.
Proof.
  intros H. apply word_in, words_wide in H as [H | (c' & H & E)]; [|congruence]. exfalso. vm_compute in H.
  repeat (destruct H as [H | H]; [discriminate H|]). destruct H.
Qed.
Lemma space_byte c : is_space c = true -> space_word [c].
Proof. intros H. apply word_in, words_wide. right. now exists c. Qed.
Lemma blanks_bytes s : forallb is_space s = true -> blanks s.
Proof.
  induction s as [|c s IH]; intros H; [constructor|]. cbn in H. apply andb_true_iff in H as [H1 H2]. change (c :: s) with ([c] ++ s).
  constructor; [now apply space_byte|auto].
Qed.
Lemma blanks_both a b : blanks a -> blanks b -> blanks (a ++ b).
Proof. intros A B. apply blanks_star. apply star_app; now apply blanks_star. Qed.
(** first bytes that cannot continue a word *)
Definition fresh (s : str) : Prop := match s with [] => True | c :: _ => (N_of_ascii c < 128 \/ 192 <= N_of_ascii c)%N end.
Lemma blanks_fresh b : blanks b -> fresh b.
Proof. intros [|w s Hw _]; [exact I|]. destruct (word_head w Hw) as (c & r & -> & H). exact H. Qed.
Lemma fresh_app a b : fresh a -> fresh b -> fresh (a ++ b).
Proof. destruct a; auto. Qed.
Lemma start_app s r : s <> [] -> solid_start s -> fresh r -> solid_start (s ++ r).
Proof.
  intros N S R w x Hw E. destruct (app_split _ _ _ _ E) as [(c & Ec & Er) | (c & Ec & _)]; [|now apply (S w c Hw)].
  destruct c as [|y c]; [rewrite app_nil_r in Ec; subst w; apply (S s [] Hw); now rewrite app_nil_r|].
  destruct s as [|z s]; [congruence|]. pose proof (word_tail w z (s ++ y :: c) Hw Ec) as T. rewrite Forall_app in T. destruct T as [_ T].
  inversion T as [|? ? T1 T2]; subst. cbn in R. lia.
Qed.
Lemma trim_exact a m b : blanks a -> blanks b -> solid_ends m -> trim_space_u (a ++ m ++ b) = m.
Proof.
  intros A B [S E]. unfold trim_space_u. destruct m as [|x m].
  - cbn [app]. replace (a ++ b) with ((a ++ b) ++ []) by apply app_nil_r. rewrite left_exact; [|now apply blanks_both|exact S]. reflexivity.
  - rewrite left_exact; [now apply right_exact|exact A|]. apply start_app; [discriminate|exact S|now apply blanks_fresh].
Qed.
Lemma solid_nil : solid_ends [].
Proof.
  split; intros w r Hw E; destruct (word_head w Hw) as (c & t & -> & _); [discriminate E|]. symmetry in E. apply app_eq_nil in E as [_ E]. discriminate E.
Qed.
Lemma start_prefix s t : solid_start (s ++ t) -> solid_start s.
Proof. intros H w r Hw ->. apply (H w (r ++ t) Hw). now rewrite app_assoc. Qed.
Lemma trim_sound s : exists a b, s = a ++ trim_space_u s ++ b /\ blanks a /\ blanks b /\ solid_ends (trim_space_u s).
Proof.
  unfold trim_space_u. destruct (left_sound s) as (a & E & A & S). destruct (right_sound (trim_left_u s)) as (b & E' & B & S').
  exists a, b. split; [congruence|]. repeat split; auto. apply (start_prefix _ b). now rewrite <- E'.
Qed.
(** what [trim_space_u] is, without looking at its definition *)
Theorem trim_iff s m : trim_space_u s = m <-> solid_ends m /\ exists a b, s = a ++ m ++ b /\ blanks a /\ blanks b.
Proof.
  split.
  - intros <-. destruct (trim_sound s) as (a & b & E & A & B & S). split; [exact S|]. now exists a, b.
  - intros (S & a & b & -> & A & B). now apply trim_exact.
Qed.
Lemma trim_solid s : solid_ends s -> trim_space_u s = s.
Proof. intros S. apply trim_iff. split; [exact S|]. exists [], []. cbn. rewrite app_nil_r. repeat split; constructor. Qed.
Lemma trim_front sp s : blanks sp -> trim_space_u (sp ++ s) = trim_space_u s.
Proof.
  intros H. apply trim_iff. destruct (trim_sound s) as (a & b & E & A & B & S). split; [exact S|]. exists (sp ++ a), b.
  split; [rewrite <- app_assoc; congruence|]. split; [now apply blanks_both|exact B].
Qed.
Lemma trim_end s e : blanks e -> trim_space_u (s ++ e) = trim_space_u s.
Proof.
  intros H. apply trim_iff. destruct (trim_sound s) as (a & b & E & A & B & S). split; [exact S|]. exists a, (b ++ e).
  split; [rewrite E at 1; now rewrite <- !app_assoc|]. split; [exact A|now apply blanks_both].
Qed.
Lemma blanks_split_word a w b s : free words = true -> blanks s -> s = a ++ w ++ b -> blanks a -> space_word w -> blanks b.
Proof.
  intros F S E A W. apply blanks_star in S, A. apply word_in in W. apply blanks_star. revert a A E. induction S as [|v s Hv Hs IH]; intros a A E.
  - exfalso. symmetry in E. apply app_eq_nil in E as [_ E]. apply app_eq_nil in E as [-> _]. now apply (free_nonempty words [] F W).
  - destruct A as [|v' a Hv' A].
    + cbn in E. assert (v = w) as <- by exact (free_eq words v w _ _ F Hv W E). apply app_inv_head in E. now subst s.
    + rewrite <- app_assoc in E. assert (v = v') as <- by exact (free_eq words v v' _ _ F Hv Hv' E). apply app_inv_head in E. now apply (IH a A).
Qed.
Lemma trim_blank s : trim_space_u s = [] <-> blanks s.
Proof.
  rewrite trim_iff. split.
  - intros (_ & a & b & -> & A & B). now apply blanks_both.
  - intros B. split; [exact solid_nil|]. exists [], s. repeat split; [constructor|exact B].
Qed.
Lemma solid_trim_u s : trim_space_u s = s -> solid_ends s.
Proof. intros H. now apply trim_iff in H as [H _]. Qed.
