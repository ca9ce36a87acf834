(** Help texts and the width of the terminal. *)
From Coq Require Import String Ascii List Bool ZArith NArith Lia.
From Verif.Model Require Import GoStr Wrap Help.
From Verif.Spec Require Import WrapSpec HelpSpec.
From Verif.Proofs Require Import GoStrFacts WrapFacts.
Import ListNotations.
Local Open Scope nat_scope.

(** ** Words *)
Lemma space_same c : is_space c = spaceb c.
Proof. destruct c as [[] [] [] [] [] [] [] []]; reflexivity. Qed.
Lemma tokens_space x : forall c w s, spaceb c = true -> tokens_from w (x ++ c :: s) = tokens_from w x ++ tokens s.
Proof.
  induction x as [|d x IH]; intros c w s W.
  - cbn [app tokens_from]. rewrite W. reflexivity.
  - cbn [app tokens_from]. destruct (spaceb d); rewrite IH by auto; [now rewrite app_assoc|reflexivity].
Qed.
Definition sep (s : str) : Prop := s = [] \/ exists c s', s = c :: s' /\ spaceb c = true.
Lemma tokens_from_nil w : tokens_from w [] = match w with [] => [] | _ => [rev w] end.
Proof. reflexivity. Qed.
Lemma tokens_sep a b : sep b -> tokens (a ++ b) = tokens a ++ tokens b.
Proof.
  intros [-> | (c & s & -> & W)]; [now rewrite !app_nil_r|]. unfold tokens at 1. rewrite tokens_space by auto. f_equal.
  unfold tokens. cbn [tokens_from]. rewrite W. reflexivity.
Qed.
Lemma tokens_lead c s : spaceb c = true -> tokens (c :: s) = tokens s.
Proof. intros W. unfold tokens. cbn [tokens_from]. rewrite W. reflexivity. Qed.
Lemma tokens_spaces k s : tokens (repeat " "%char k ++ s) = tokens s.
Proof. induction k; auto. Qed.
Lemma tokens_nl s : tokens (nl ++ s) = tokens s.
Proof. reflexivity. Qed.
Lemma white_space c : white c -> spaceb c = true.
Proof. intros [-> | [-> | ->]]; reflexivity. Qed.
Lemma flow_tokens_from k s o : reflow k s o -> forall w, tokens_from w o = tokens_from w s.
Proof.
  induction 1 as [|c s o N F IH|c s o W F IH]; intros w; auto.
  - cbn [tokens_from]. destruct (spaceb c); now rewrite !IH.
  - cbn [tokens_from]. rewrite (white_space _ W). change (spaceb "010") with true. cbv iota. f_equal.
    rewrite <- (IH []). apply (tokens_spaces k o).
Qed.
Lemma wrap_tokens i w s : (0 <= i)%Z -> exists out, wrap_at i w s = Some out /\ tokens out = tokens s.
Proof.
  intros I. destruct (wrap_flow i w s I) as (out & k & o & E & F & _ & [-> | (-> & _)]); eexists; (split; [exact E|]).
  - now apply (flow_tokens_from k).
  - unfold new_line, spaces. cbn [app]. rewrite tokens_lead by reflexivity. rewrite tokens_spaces. now apply (flow_tokens_from k).
Qed.
Lemma trail_tokens x t : Forall (fun c => is_space c = true) t -> forall w, tokens_from w (x ++ t) = tokens_from w x.
Proof.
  intros F. induction x as [|c x IH]; intros w.
  - cbn [app]. destruct F as [|c t C F]; auto. cbn [tokens_from]. rewrite <- space_same, C.
    assert (E : tokens_from [] t = []). { clear - F. induction F as [|c t C F IH]; auto. cbn [tokens_from]. now rewrite <- space_same, C. }
    rewrite E. now rewrite app_nil_r.
  - cbn [app tokens_from]. destruct (spaceb c); now rewrite !IH.
Qed.
Lemma trim_left_split p s : exists a, s = a ++ trim_left p s /\ Forall (fun c => p c = true) a.
Proof.
  induction s as [|c s (a & E & F)]; [now exists []|]. cbn [trim_left]. destruct (p c) eqn:P; [|now exists []].
  exists (c :: a). cbn [app]. split; [congruence|now constructor].
Qed.
Lemma trim_tokens s : tokens (trim_trailing s) = tokens s.
Proof.
  unfold trim_trailing, trim_right. destruct (trim_left_split is_space (rev s)) as (a & E & F).
  apply (f_equal (@rev ascii)) in E. rewrite rev_involutive, rev_app_distr in E. rewrite E at 2. symmetry.
  apply (trail_tokens (rev (trim_left is_space (rev s)))). now apply Forall_rev.
Qed.

(** ** Parts of a text *)
Definition says (o : option str) (l : list str) : Prop := exists s, o = Some s /\ sep s /\ tokens s = l.
Lemma says_nil : says (Some []) [].
Proof. exists []. repeat split. now left. Qed.
Lemma says_nl x l : tokens x = l -> says (Some (nl ++ x)) l.
Proof. intros E. exists (nl ++ x). split; [reflexivity|]. split; [right; now exists newline, x|exact E]. Qed.
Lemma says_seq os ls : Forall2 says os ls -> says (seq os) (concat ls).
Proof.
  induction 1 as [|o l os ls (s & -> & S & E) _ (s' & E' & S' & T)]; [exact says_nil|]. cbn [seq concat]. rewrite E'.
  exists (s ++ s'). split; [reflexivity|]. split.
  - destruct S as [-> | (c & x & -> & W)]; auto. right. exists c, (x ++ s'). auto.
  - rewrite tokens_sep by auto. congruence.
Qed.
Lemma says_when b o l : (b = true -> says o l) -> says (when b o) (if b then l else []).
Proof. destruct b; cbn [when]; [auto|]. intros _. exact says_nil. Qed.
Lemma says_line w c name padding short : says (sub_line w c name padding short) (tokens name ++ tokens short).
Proof.
  unfold sub_line, wrap_indent. destruct (wrap_tokens (Z.of_nat (name_padding c) + 5) w short ltac:(lia)) as (out & -> & T).
  cbn [omap]. apply says_nl. unfold rpad, spaces. change ($"  " ++ ?x) with (" "%char :: " "%char :: x).
  rewrite !tokens_lead by reflexivity. rewrite <- app_assoc. rewrite tokens_sep.
  - rewrite tokens_spaces. change ($"   " ++ out) with (repeat " "%char 3 ++ out). rewrite tokens_spaces. now rewrite T.
  - right. destruct (padding - length name); cbn [repeat app]; (do 2 eexists; split; [reflexivity|reflexivity]).
Qed.
Lemma says_lines w c (p : subcommand -> bool) (f : subcommand -> str) padding l :
  Forall2 says (map (fun s => when (p s) (sub_line w c (f s) padding (sc_short s))) l)
               (map (fun s => if p s then tokens (f s) ++ tokens (sc_short s) else []) l).
Proof. induction l as [|s l IH]; cbn [map]; constructor; auto. apply says_when. intros _. apply says_line. Qed.
Lemma flat_filter {A B} (p : A -> bool) (g : A -> list B) l : concat (map (fun s => if p s then g s else []) l) = flat_map g (filter p l).
Proof. induction l as [|s l IH]; auto. cbn [map concat filter]. rewrite IH. destruct (p s); reflexivity. Qed.
Lemma says_list w c h (p : subcommand -> bool) (f : subcommand -> str) padding :
  says (seq (Some (nl ++ nl ++ h) :: map (fun s => when (p s) (sub_line w c (f s) padding (sc_short s))) (subs c)))
       (tokens h ++ flat_map (fun s => tokens (f s) ++ tokens (sc_short s)) (filter p (subs c))).
Proof.
  rewrite <- flat_filter. apply (says_seq _ (tokens h :: _)). constructor; [apply says_nl; apply tokens_nl|]. apply says_lines.
Qed.
Lemma headed_nl h x : tokens (nl ++ h ++ nl ++ x) = tokens h ++ tokens x.
Proof. rewrite tokens_nl, tokens_sep, tokens_nl; auto. right. now exists newline, x. Qed.

Lemma first_seq a os ls : Forall2 says os ls -> exists out, seq (Some a :: os) = Some out /\ tokens out = tokens a ++ concat ls.
Proof. intros H. destruct (says_seq _ _ H) as (s & E & S & T). cbn [seq]. rewrite E. eexists. split; [reflexivity|]. rewrite tokens_sep by auto. congruence. Qed.
Lemma empty_is s : is_empty s = str_eqb s [].
Proof. destruct s; reflexivity. Qed.
Lemma says_opt (s : str) o l : says o l -> (s = [] -> l = []) -> says (when (negb (is_empty s)) o) l.
Proof. intros H N. destruct s as [|x s]; cbn [is_empty negb when]; [|exact H]. rewrite (N eq_refl). exact says_nil. Qed.

Theorem help_says w c : exists out, help w c = Some out /\ tokens out = help_tokens w c.
Proof.
  assert (E : help_tokens w c = tokens ($"Usage: " ++ use_line c) ++ concat
     [ tokens (cmd_short c); tokens (cmd_long c); headed $"Aliases:" (option_map tokens (name_and_aliases c));
       headed $"Examples:" (only (nonempty (cmd_example c)) (tokens (cmd_example c)));
       headed $"Available Commands:"
         (only (some_available c) (flat_map (fun s => tokens (sc_name s) ++ tokens (sc_short s)) (filter shown (subs c))));
       headed $"Flags:" (option_map (fun f => tokens (f w)) (local_flags c));
       headed $"Global Flags:" (option_map (fun f => tokens (f w)) (inherited_flags c));
       headed $"Additional help topics:"
         (only (some_topic c) (flat_map (fun s => tokens (sc_path s) ++ tokens (sc_short s)) (filter sc_topic (subs c))));
       (if some_available c then tokens ($"Use """ ++ cmd_path c ++ $" [command] --help"" for more information about a command.") else []); [] ]).
  { cbn [concat]. rewrite !app_nil_r. reflexivity. }
  rewrite E. unfold help. apply first_seq. repeat apply Forall2_cons; [..|apply Forall2_nil].
  - apply says_opt; [|intros ->; reflexivity]. apply says_nl. reflexivity.
  - apply says_opt; [|intros ->; reflexivity]. unfold wrap_text. destruct (wrap_tokens 0 w (cmd_long c) ltac:(lia)) as (o & -> & T). cbn [omap]. apply says_nl. rewrite tokens_nl, trim_tokens. exact T.
  - destruct (name_and_aliases c) as [a|]; [|exact says_nil]. apply says_nl. rewrite headed_nl. reflexivity.
  - unfold nonempty. rewrite <- empty_is. destruct (is_empty (cmd_example c)); [exact says_nil|]. apply says_nl. rewrite headed_nl. reflexivity.
  - unfold some_available. destruct (existsb sc_available (subs c)); [|exact says_nil]. apply (says_list w c _ listed sc_name).
  - destruct (local_flags c) as [f|]; [|exact says_nil]. apply says_nl. rewrite headed_nl, trim_tokens. reflexivity.
  - destruct (inherited_flags c) as [f|]; [|exact says_nil]. apply says_nl. rewrite headed_nl, trim_tokens. reflexivity.
  - unfold some_topic. destruct (existsb sc_topic (subs c)); [|exact says_nil]. apply (says_list w c _ sc_topic sc_path).
  - apply says_when. intros _. apply says_nl. reflexivity.
  - apply (says_nl []). reflexivity.
Qed.

(** ** Columns *)
Definition broken (o : option str) : Prop := exists s, o = Some s /\ (s = [] \/ exists x, s = nl ++ x).
Lemma broken_seq os : Forall broken os -> broken (seq os).
Proof.
  induction 1 as [|o os (s & -> & S) _ (s' & E & S')]; [exists []; auto|]. cbn [seq]. rewrite E. exists (s ++ s'). split; [reflexivity|].
  destruct S as [-> | (x & ->)]; auto. right. exists (x ++ s'). reflexivity.
Qed.
Lemma seq_in os1 p os2 out : seq (os1 ++ Some p :: os2) = Some out -> exists pre post, out = pre ++ p ++ post /\ seq os2 = Some post.
Proof.
  revert out. induction os1 as [|o os1 IH]; intros out H; cbn [app seq] in H.
  - destruct (seq os2) as [s|]; [|discriminate]. injection H as <-. now exists [], s.
  - destruct o as [s|]; [|discriminate]. destruct (seq (os1 ++ Some p :: os2)) as [t|]; [|discriminate]. injection H as <-.
    destruct (IH _ eq_refl) as (pre & post & -> & E). exists (s ++ pre), post. now rewrite app_assoc.
Qed.
Lemma broken_when b o : broken o -> broken (when b o).
Proof. destruct b; auto. intros _. exists []. auto. Qed.
Lemma broken_nl x : broken (Some (nl ++ x)).
Proof. exists (nl ++ x). eauto. Qed.
Lemma broken_line w c name padding short : broken (sub_line w c name padding short).
Proof.
  unfold sub_line, wrap_indent. destruct (wrap_tokens (Z.of_nat (name_padding c) + 5) w short ltac:(lia)) as (out & -> & T). cbn [omap]. apply broken_nl.
Qed.
Lemma seq_last os out : seq (os ++ [Some nl]) = Some out -> Forall broken os -> exists x, out = nl ++ x.
Proof.
  intros H F. assert (B : broken (seq (os ++ [Some nl]))). { apply broken_seq. apply Forall_app. split; auto. constructor; [apply (broken_nl [])|constructor]. }
  destruct B as (s & E & [-> | (x & ->)]).
  - exfalso. rewrite E in H. injection H as <-. clear F. revert E. induction os as [|o os IH]; cbn [app seq]; [discriminate|]. destruct o as [s|]; [|discriminate]. destruct (seq (os ++ [Some nl])) as [t|]; [|discriminate]. intros E. injection E as E. apply app_eq_nil in E as [-> ->]. auto.
  - rewrite E in H. injection H as <-. now exists x.
Qed.
Lemma padding_is c : name_padding c = Nat.max 11 (longest (map sc_name (subs c))).
Proof. unfold name_padding, longest, list_max. rewrite map_map. induction (subs c) as [|s l IH]; cbn [map fold_right]; [reflexivity|]. rewrite IH. lia. Qed.
Lemma longest_in x l : In x l -> length x <= longest l.
Proof. unfold longest, list_max. induction l as [|y l IH]; intros I; [destruct I|]. cbn [map fold_right]. destruct I as [-> | I]; [lia|]. specialize (IH I). lia. Qed.
Lemma wide_flow i w s out : (0 <= i)%Z -> (w = 0 \/ i + 24 <= w)%Z -> wrap_at i w s = Some out -> reflow (Z.to_nat i) s out.
Proof.
  intros I W H. destruct (wrap_flow i w s I) as (o & k & x & E & F & K & O). rewrite H in E. injection E as <-.
  destruct (Z.eq_dec w 0) as [->|NW].
  - unfold wrap_at in H. cbn in H. destruct (Z.ltb_spec i 0); [lia|]. injection H as <-. apply flow_replace.
  - destruct K as [-> | (_ & K)]; [|lia]. destruct O as [-> | (_ & _ & O)]; [exact F|lia].
Qed.

Theorem help_columns w c s out : help w c = Some out -> some_available c = true -> In s (subs c) -> shown s = true ->
  let col := column (map sc_name (subs c)) in
  (w = 0 \/ Z.of_nat col + 24 <= w)%Z ->
  exists pre lead o post, out = pre ++ nl ++ lead ++ o ++ nl ++ post /\ lead_in col (sc_name s) lead /\ reflow col (sc_short s) o /\
    (w <> 0%Z -> short_words (w - Z.of_nat col - 6) (sc_short s) -> fits (w - Z.of_nat col) w o).
Proof.
  intros H A I SH col W. unfold help in H. unfold some_available in A. rewrite A in H. cbn [when] in H.
  match type of H with seq (?a :: ?b :: ?d :: ?e :: ?f :: ?g :: ?h) = _ => change (seq ([a; b; d; e; f] ++ g :: h) = Some out) in H end.
  match type of H with seq (_ ++ ?g :: _) = _ => destruct g as [p|] eqn:G; [|exfalso; clear - G] end.
  2:{ match type of G with ?x = None => assert (B : broken x); [|destruct B as (? & B & _); congruence] end. apply broken_seq. constructor; [apply broken_nl|]. apply Forall_map. apply Forall_forall. intros s _. apply broken_when, broken_line. }
  apply seq_in in H as (pre & post & -> & P).
  match type of P with seq (?a :: ?b :: ?d :: ?e :: ?f :: ?g) = _ => change (seq ([a; b; d; e] ++ [Some nl]) = Some post) in P end.
  apply seq_last in P as (post' & ->).
  2:{ repeat apply Forall_cons; [..|apply Forall_nil].
      - destruct (local_flags c); [apply broken_nl|exists []; auto].
      - destruct (inherited_flags c); [apply broken_nl|exists []; auto].
      - apply broken_when, broken_seq. constructor; [apply broken_nl|]. apply Forall_map. apply Forall_forall. intros x _. apply broken_when, broken_line.
      - apply broken_nl. }
  apply in_split in I as (l1 & l2 & E). rewrite E in G. rewrite map_app in G. cbn [map] in G. change (listed s) with (shown s) in G. rewrite SH in G. cbn [when] in G. rewrite app_comm_cons in G.
  match type of G with seq (_ ++ sub_line _ _ _ _ _ :: _) = _ => unfold sub_line at 2 in G; unfold wrap_indent in G end.
  assert (C : Z.of_nat col = (Z.of_nat (name_padding c) + 5)%Z). { unfold col, column. rewrite padding_is. lia. }
  destruct (wrap_tokens (Z.of_nat (name_padding c) + 5) w (sc_short s) ltac:(lia)) as (o & Eo & _). rewrite Eo in G. cbn [omap] in G.
  apply seq_in in G as (pre' & post & -> & P).
  assert (B : broken (Some post)). { rewrite <- P. apply broken_seq. apply Forall_map. apply Forall_forall. intros x _. apply broken_when, broken_line. }
  destruct B as (q & Q & B). injection Q as <-.
  exists (pre ++ pre'), ($"  " ++ rpad (sc_name s) (name_padding c) ++ $"   "), o.
  assert (X : exists y, post ++ nl ++ post' = nl ++ y). { destruct B as [-> | (x & ->)]; [now exists post'|]. exists (x ++ nl ++ post'). reflexivity. }
  destruct X as (y & X). exists y. split.
  { rewrite <- X. rewrite <- !app_assoc. reflexivity. }
  assert (L : length (sc_name s) <= name_padding c). { rewrite padding_is. assert (length (sc_name s) <= longest (map sc_name (subs c))); [|lia]. apply longest_in. apply in_map. rewrite E. apply in_or_app. right. now left. }
  split; [split|split].
  - unfold rpad, spaces. rewrite !app_length, repeat_length. change (length $"  ") with 2. change (length $"   ") with 3. lia.
  - exists (name_padding c - length (sc_name s)). unfold rpad, spaces. rewrite <- app_assoc. do 2 f_equal. change $"   " with (repeat " "%char 3). rewrite <- !repeat_app. f_equal. lia.
  - replace col with (Z.to_nat (Z.of_nat (name_padding c) + 5)) by lia. eapply wide_flow; [lia| |exact Eo]. lia.
  - intros NW SW. rewrite C in *. eapply wrap_width; [lia|lia|exact SW|exact Eo].
Qed.

(** The description of a topic begins right of the longest path; its further lines are indented as for commands. *)
Lemma path_padding_is c : path_padding c = Nat.max 11 (longest (map sc_path (subs c))).
Proof. unfold path_padding, longest, list_max. rewrite map_map. induction (subs c) as [|s l IH]; cbn [map fold_right]; [reflexivity|]. rewrite IH. lia. Qed.
Theorem help_topics w c s out : help w c = Some out -> In s (subs c) -> sc_topic s = true ->
  let col := column (map sc_name (subs c)) in
  (w = 0 \/ Z.of_nat col + 24 <= w)%Z ->
  exists pre lead o post, out = pre ++ nl ++ lead ++ o ++ nl ++ post /\ lead_in (column (map sc_path (subs c))) (sc_path s) lead /\ reflow col (sc_short s) o.
Proof.
  intros H I TP col W. unfold help in H.
  assert (A : existsb sc_topic (subs c) = true) by (apply existsb_exists; eauto). rewrite A in H. cbn [when] in H.
  match type of H with seq (?a :: ?b :: ?d :: ?e :: ?f :: ?g :: ?h :: ?i :: ?j :: ?k) = _ => change (seq ([a; b; d; e; f; g; h; i] ++ j :: k) = Some out) in H end.
  match type of H with seq (_ ++ ?g :: _) = _ => destruct g as [p|] eqn:G; [|exfalso; clear - G] end.
  2:{ match type of G with ?x = None => assert (B : broken x); [|destruct B as (? & B & _); congruence] end. apply broken_seq. constructor; [apply broken_nl|]. apply Forall_map. apply Forall_forall. intros s _. apply broken_when, broken_line. }
  apply seq_in in H as (pre & post & -> & P).
  match type of P with seq (?a :: _) = _ => change (seq ([a] ++ [Some nl]) = Some post) in P end.
  apply seq_last in P as (post' & ->).
  2:{ constructor; [|constructor]. apply broken_when, broken_nl. }
  apply in_split in I as (l1 & l2 & E). rewrite E in G. rewrite map_app in G. cbn [map] in G. rewrite TP in G. cbn [when] in G. rewrite app_comm_cons in G.
  match type of G with seq (_ ++ sub_line _ _ _ _ _ :: _) = _ => unfold sub_line at 2 in G; unfold wrap_indent in G end.
  assert (C : Z.of_nat col = (Z.of_nat (name_padding c) + 5)%Z). { unfold col, column. rewrite padding_is. lia. }
  destruct (wrap_tokens (Z.of_nat (name_padding c) + 5) w (sc_short s) ltac:(lia)) as (o & Eo & _). rewrite Eo in G. cbn [omap] in G.
  apply seq_in in G as (pre' & post & -> & P).
  assert (B : broken (Some post)). { rewrite <- P. apply broken_seq. apply Forall_map. apply Forall_forall. intros x _. apply broken_when, broken_line. }
  destruct B as (q & Q & B). injection Q as <-.
  exists (pre ++ pre'), ($"  " ++ rpad (sc_path s) (path_padding c) ++ $"   "), o.
  assert (X : exists y, post ++ nl ++ post' = nl ++ y). { destruct B as [-> | (x & ->)]; [now exists post'|]. exists (x ++ nl ++ post'). reflexivity. }
  destruct X as (y & X). exists y. split.
  { rewrite <- X. rewrite <- !app_assoc. reflexivity. }
  assert (L : length (sc_path s) <= path_padding c). { rewrite path_padding_is. assert (length (sc_path s) <= longest (map sc_path (subs c))); [|lia]. apply longest_in. apply in_map. rewrite E. apply in_or_app. right. now left. }
  split; [split|].
  - unfold rpad, spaces, column. rewrite <- path_padding_is, !app_length, repeat_length. change (length $"  ") with 2. change (length $"   ") with 3. lia.
  - exists (path_padding c - length (sc_path s)). unfold rpad, spaces. rewrite <- app_assoc. do 2 f_equal. change $"   " with (repeat " "%char 3). rewrite <- !repeat_app. f_equal. lia.
  - replace col with (Z.to_nat (Z.of_nat (name_padding c) + 5)) by lia. eapply wide_flow; [lia| |exact Eo]. lia.
Qed.
(** The other sections have a blank line, a heading and their text, each on lines of its own. *)
Theorem help_sections w c out : help w c = Some out ->
  let has h body := exists pre post, out = pre ++ nl ++ nl ++ h ++ nl ++ body ++ nl ++ post in
  (forall s, name_and_aliases c = Some s -> has $"Aliases:" ($"  " ++ s)) /\
  (cmd_example c <> [] -> has $"Examples:" (cmd_example c)) /\
  (forall f, local_flags c = Some f -> has $"Flags:" (trim_trailing (f w))) /\
  (forall f, inherited_flags c = Some f -> has $"Global Flags:" (trim_trailing (f w))).
Proof.
  intros H has. unfold help in H.
  assert (BA : broken (when (existsb sc_available (subs c)) (seq (Some (nl ++ nl ++ $"Available Commands:") :: map (fun s => when (listed s) (sub_line w c (sc_name s) (name_padding c) (sc_short s))) (subs c))))).
  { apply broken_when, broken_seq. constructor; [apply broken_nl|]. apply Forall_map. apply Forall_forall. intros s _. apply broken_when, broken_line. }
  assert (BT : broken (when (existsb sc_topic (subs c)) (seq (Some (nl ++ nl ++ $"Additional help topics:") :: map (fun s => when (sc_topic s) (sub_line w c (sc_path s) (path_padding c) (sc_short s))) (subs c))))).
  { apply broken_when, broken_seq. constructor; [apply broken_nl|]. apply Forall_map. apply Forall_forall. intros s _. apply broken_when, broken_line. }
  assert (BE : broken (when (negb (is_empty (cmd_example c))) (Some (nl ++ nl ++ $"Examples:" ++ nl ++ cmd_example c)))) by apply broken_when, broken_nl.
  assert (BL : broken (match local_flags c with Some f => Some (nl ++ nl ++ $"Flags:" ++ nl ++ trim_trailing (f w)) | None => Some [] end)) by (destruct (local_flags c); [apply broken_nl|exists []; auto]).
  assert (BI : broken (match inherited_flags c with Some f => Some (nl ++ nl ++ $"Global Flags:" ++ nl ++ trim_trailing (f w)) | None => Some [] end)) by (destruct (inherited_flags c); [apply broken_nl|exists []; auto]).
  assert (BU : broken (when (existsb sc_available (subs c)) (Some (nl ++ nl ++ $"Use """ ++ cmd_path c ++ $" [command] --help"" for more information about a command.")))) by apply broken_when, broken_nl.
  assert (K : forall os1 h body os2, seq (os1 ++ Some (nl ++ nl ++ h ++ nl ++ body) :: os2 ++ [Some nl]) = Some out -> Forall broken os2 -> has h body).
  { intros os1 h body os2 E F. apply seq_in in E as (pre & post & -> & P). apply seq_last in P as (x & ->); auto. exists pre, x. now rewrite <- !app_assoc. }
  match type of H with seq [?a; ?b; ?d; ?e; ?f; ?g; ?h; ?i; ?j; ?k; ?l] = _ => set (A := a) in *; set (B := b) in *; set (D := d) in *; set (G := g) in *; set (J := j) in *; set (U := k) in * end.
  split; [|split; [|split]].
  - intros s E. rewrite E in H. refine (K [A; B; D] _ _ [_; G; _; _; J; U] H _). repeat (constructor; auto).
  - intros N. destruct (cmd_example c) as [|x e] eqn:E; [congruence|]. cbn [is_empty negb when] in H. refine (K [A; B; D; _] _ _ [G; _; _; J; U] H _). repeat (constructor; auto).
  - intros f E. rewrite E in H. refine (K [A; B; D; _; _; G] _ _ [_; J; U] H _). repeat (constructor; auto).
  - intros f E. rewrite E in H. refine (K [A; B; D; _; _; G; _] _ _ [J; U] H _). repeat (constructor; auto).
Qed.

(** ** Help topics are indented as if they were commands *)
Fixpoint infixb (a s : str) : bool := has_prefix a s || match s with [] => false | _ :: s => infixb a s end.
Lemma has_prefix_app a b : has_prefix a (a ++ b) = true.
Proof. induction a as [|x a IH]; cbn [app]; [reflexivity|]. cbn [has_prefix]. unfold byte_eqb. rewrite Ascii.eqb_refl. exact IH. Qed.
Lemma infix_app x a y : infixb a (x ++ a ++ y) = true.
Proof.
  induction x as [|c x IH].
  - cbn [app]. assert (P := has_prefix_app a y). destruct (a ++ y); cbn [infixb]; now rewrite P.
  - cbn [app infixb]. now rewrite IH, orb_true_r.
Qed.
Lemma flow_cases k s o : reflow k s o -> o = s \/ exists a b, o = a ++ ("010"%char :: repeat " "%char k) ++ b.
Proof.
  induction 1 as [|c s o N F [-> | (a & b & ->)]|c s o W F IH]; auto.
  - right. exists (c :: a), b. reflexivity.
  - right. exists [], o. reflexivity.
Qed.
Theorem topics_refuted : exists w c s out, help w c = Some out /\ In s (subs c) /\ sc_topic s = true /\
  let col := column (map sc_path (subs c)) in
  (Z.of_nat col + 24 <= w)%Z /\ short_words (w - Z.of_nat col - 6) (sc_short s) /\
  ~ exists pre lead o post, out = pre ++ nl ++ lead ++ o ++ nl ++ post /\ lead_in col (sc_path s) lead /\ reflow col (sc_short s) o.
Proof.
  exists 60%Z, with_topic, (mkSub $"formats" $"ocibuild formats" $"All about the layer files, the image files and the platform files" false true).
  destruct (help 60 with_topic) as [out|] eqn:E; [|vm_compute in E; discriminate]. exists out. split; [reflexivity|]. split; [now left|]. split; [reflexivity|].
  cbv zeta. split; [vm_compute; discriminate|]. split; [vm_compute; repeat (apply Forall_cons; [reflexivity|]); apply Forall_nil|].
  intros (pre & lead & o & post & O & _ & F). apply flow_cases in F as [-> | (a & b & ->)].
  - assert (X : infixb (sc_short (mkSub $"formats" $"ocibuild formats" $"All about the layer files, the image files and the platform files" false true)) out = true).
    { rewrite O. rewrite !app_assoc. rewrite <- (app_assoc _ nl post). rewrite <- (app_assoc _ _ (nl ++ post)). apply infix_app. }
    vm_compute in E. injection E as <-. vm_compute in X. discriminate.
  - assert (X : infixb ("010"%char :: repeat " "%char (column (map sc_path (subs with_topic)))) out = true).
    { rewrite O. replace (pre ++ nl ++ lead ++ (a ++ ("010"%char :: repeat " "%char (column (map sc_path (subs with_topic)))) ++ b) ++ nl ++ post) with ((pre ++ nl ++ lead ++ a) ++ ("010"%char :: repeat " "%char (column (map sc_path (subs with_topic)))) ++ (b ++ nl ++ post)) by (rewrite <- !app_assoc; reflexivity). apply infix_app. }
    vm_compute in E. injection E as <-. vm_compute in X. discriminate.
Qed.

(** ** Numbers *)
Lemma digit_is c : is_digit c = true <-> exists k, k < 10 /\ c = ascii_of_nat (48 + k) /\ digit_val c = N.of_nat k.
Proof.
  split.
  - destruct c as [[] [] [] [] [] [] [] []]; intros H; try discriminate H;
    (match goal with |- context [digit_val ?x] => exists (N.to_nat (digit_val x)) end); (split; [vm_compute; lia|split; reflexivity]).
  - intros (k & L & -> & _). do 10 (destruct k as [|k]; [reflexivity|]). lia.
Qed.
Lemma all_digits_snoc s c : all_digits (s ++ [c]) = forallb is_digit s && is_digit c.
Proof. unfold all_digits. destruct s as [|x s]; cbn [app forallb]; [now rewrite andb_true_r|]. rewrite forallb_app. cbn [forallb]. now rewrite andb_true_r, andb_assoc. Qed.
Lemma dec_val_snoc s c : dec_val (s ++ [c]) = (10 * dec_val s + digit_val c)%N.
Proof. unfold dec_val. rewrite dec_val_from_app. reflexivity. Qed.
Lemma digits_iff s n : digits s n <-> all_digits s = true /\ n = Z.of_N (dec_val s).
Proof.
  split.
  - induction 1 as [c k L E|s n c k D [A ->] L E].
    + assert (G : is_digit c = true) by (apply digit_is; exists k; split; auto; split; auto; subst c; do 10 (destruct k as [|k]; [reflexivity|]); lia).
      cbn [all_digits forallb]. rewrite G. split; [reflexivity|]. apply digit_is in G as (j & Lj & Ej & V). unfold dec_val, dec_val_from. cbn [fold_left]. rewrite V.
      assert (k = j); [|lia]. subst c. apply (f_equal nat_of_ascii) in Ej. rewrite !nat_ascii_embedding in Ej by lia. lia.
    + assert (G : is_digit c = true) by (apply digit_is; exists k; split; auto; split; auto; subst c; do 10 (destruct k as [|k]; [reflexivity|]); lia).
      rewrite all_digits_snoc, G. split. { destruct s; [discriminate|]. unfold all_digits in A. rewrite A. reflexivity. }
      rewrite dec_val_snoc. apply digit_is in G as (j & Lj & Ej & V). rewrite V.
      assert (k = j); [|lia]. subst c. apply (f_equal nat_of_ascii) in Ej. rewrite !nat_ascii_embedding in Ej by lia. lia.
  - intros [A ->]. induction s as [|c s IH] using rev_ind; [discriminate|]. rewrite all_digits_snoc in A. apply andb_true_iff in A as [A G].
    apply digit_is in G as (k & L & E & V). rewrite dec_val_snoc, V. destruct s as [|x s].
    + replace (Z.of_N (10 * dec_val [] + N.of_nat k)) with (Z.of_nat k) by (change (dec_val []) with 0%N; lia). now constructor.
    + replace (Z.of_N (10 * dec_val (x :: s) + N.of_nat k)) with (10 * Z.of_N (dec_val (x :: s)) + Z.of_nat k)%Z by lia. apply more_digits; auto.
Qed.
Lemma digits_head c s n : digits (c :: s) n -> is_digit c = true.
Proof. rewrite digits_iff. intros [A _]. unfold all_digits in A. cbn [forallb] in A. now apply andb_true_iff in A as [A _]. Qed.
Lemma atoi_iff s n : atoi s = Some n <-> numeral s n /\ fits_int n.
Proof.
  assert (P : forall (neg : bool) d, (if all_digits d then let v := Z.of_N (dec_val d) in let v := if neg then (- v)%Z else v in
      if ((min_int64 <=? v) && (v <=? max_int64))%Z then Some v else None else None) = Some n <->
      exists m, digits d m /\ n = (if neg then - m else m)%Z /\ fits_int n).
  { intros neg d. cbv zeta. destruct (all_digits d) eqn:A.
    - assert (F : ((min_int64 <=? (if neg then - Z.of_N (dec_val d) else Z.of_N (dec_val d))) && ((if neg then - Z.of_N (dec_val d) else Z.of_N (dec_val d)) <=? max_int64))%Z = true <-> fits_int (if neg then - Z.of_N (dec_val d) else Z.of_N (dec_val d))%Z).
      { rewrite andb_true_iff, !Z.leb_le. unfold fits_int, min_int64, max_int64. lia. }
      destruct (_ && _)%bool.
      + split.
        * intros E. injection E as <-. exists (Z.of_N (dec_val d)). rewrite digits_iff. split; auto. split; auto. now apply F.
        * intros (m & D & -> & _). apply digits_iff in D as [_ ->]. reflexivity.
      + split; [discriminate|]. intros (m & D & -> & FI). apply digits_iff in D as [_ ->]. apply F in FI. discriminate.
    - split; [discriminate|]. intros (m & D & _). apply digits_iff in D as [D _]. congruence. }
  assert (Q : numeral s n <-> match s with
      | "-"%char :: d => exists m, digits d m /\ n = (- m)%Z
      | "+"%char :: d => digits d n
      | _ => digits s n end).
  { split.
    - intros [d m D|d m D|d m D]; eauto. destruct d as [|c d]; auto. apply digits_head in D as H. destruct c as [[] [] [] [] [] [] [] []]; auto; discriminate H.
    - destruct s as [|c d]; [intros H; now constructor|]. intros H.
      destruct (ascii_dec c "-") as [->|N1]; [destruct H as (m & D & ->); now constructor|]. destruct (ascii_dec c "+") as [->|N2]; [now constructor|].
      constructor. destruct c as [[] [] [] [] [] [] [] []]; auto; congruence. }
  assert (R : forall d, (exists m, digits d m /\ n = m /\ fits_int n) <-> digits d n /\ fits_int n).
  { intros d. split; [intros (m & D & -> & F); auto|intros [D F]; eauto]. }
  assert (R' : forall d, (exists m, digits d m /\ n = (- m)%Z /\ fits_int n) <-> (exists m, digits d m /\ n = (- m)%Z) /\ fits_int n).
  { intros d. split; [intros (m & D & E & F); eauto|intros [(m & D & E) F]; eauto]. }
  rewrite Q. unfold atoi. destruct s as [|c d]; [exact (iff_trans (P false []) (R []))|].
  destruct (ascii_dec c "-") as [->|N1]; [exact (iff_trans (P true d) (R' d))|]. destruct (ascii_dec c "+") as [->|N2]; [exact (iff_trans (P false d) (R d))|].
  assert (X := iff_trans (P false (c :: d)) (R (c :: d))). destruct c as [[] [] [] [] [] [] [] []]; try exact X; congruence.
Qed.
Theorem width_is columns size tty :
  (forall n, numeral columns n -> fits_int n -> terminal_width columns size tty = n) /\
  ((forall n, numeral columns n -> ~ fits_int n) ->
    (forall n, size = Some n -> terminal_width columns size tty = n) /\
    (size = None -> terminal_width columns size tty = if tty then 80 else 0)%Z).
Proof.
  unfold terminal_width. split.
  - intros n N F. assert (H : atoi columns = Some n) by (now apply atoi_iff). now rewrite H.
  - intros N. destruct (atoi columns) as [n|] eqn:E; [apply atoi_iff in E as [A B]; destruct (N n A B)|]. split; [intros n ->; reflexivity|intros ->; reflexivity].
Qed.
