(** Files as layers *)
From Coq Require Import String Ascii List Bool Arith Lia.
From Verif.Model Require Import GoStr LayerFile.
From Verif.Spec Require Import LayerFileSpec.
Import ListNotations.

Lemma uses_length o others n count f : length (uses o others n count f) = count.
Proof. revert n f. induction count as [|count IH]; intros n f; cbn [uses]; auto. destruct (open_with o _) as [t f']. cbn. now rewrite IH. Qed.
(** A file that nobody changes is read alike each time, and a pipe although it can be read only once. *)
Theorem uses_steady f text : holds_text f text -> let '(o, f') := path_opener f in forall n count, uses o (fun _ f => f) n count f' = repeat (Some text) count.
Proof.
  intros [-> | ->]; cbn [path_opener read_all]; intros n count; revert n; induction count as [|count IH]; intros n; cbn [uses open_with read_all repeat]; auto; now rewrite IH.
Qed.
(** What is read from a pipe does not depend on what happens to it later. *)
Theorem uses_special ok text o f' others n count : path_opener (Special ok text) = (o, f') -> forall g, uses o others n count g = repeat (if ok then Some text else None) count.
Proof.
  intros E. cbn [path_opener read_all] in E. destruct ok; injection E as <- <-; revert n; induction count as [|count IH]; intros n g; cbn [uses open_with repeat]; auto; now rewrite IH.
Qed.
(** A file that is not there stays an error, also if it comes later. *)
Theorem uses_missing o f' others n count g : path_opener NoFile = (o, f') -> uses o others n count g = repeat None count.
Proof. intros E. injection E as <- <-. revert n g. induction count as [|count IH]; intros n g; cbn [uses open_with repeat]; auto. now rewrite IH. Qed.
(** Another file in its place is seen. *)
Theorem uses_changed text text' : text <> text' -> let '(o, f') := path_opener (Regular true text) in
  exists others, uses o others 0 2 f' = [Some text; Some text'].
Proof. intros N. cbn [path_opener]. exists (fun n f => match n with O => f | _ => Regular true text' end). reflexivity. Qed.

Lemma firstn_starts k (t : str) : starts (firstn k t) t.
Proof. exists (skipn k t). symmetry. apply firstn_skipn. Qed.
Theorem written_part content read_fails write_fails close_ok : match content with
  | None => write_layer content read_fails write_fails close_ok = ([], false)
  | Some text => starts (fst (write_layer content read_fails write_fails close_ok)) text /\
      (snd (write_layer content read_fails write_fails close_ok) = true -> fst (write_layer content read_fails write_fails close_ok) = text) /\
      (snd (write_layer content read_fails write_fails close_ok) = true <-> read_fails = None /\ close_ok = true /\ match write_fails with Some k => length text <= k | None => True end)
  end.
Proof.
  destruct content as [text|]; [|reflexivity]. cbn [write_layer].
  set (shown := match read_fails with Some k => firstn k text | None => text end).
  assert (S : starts shown text) by (subst shown; destruct read_fails; [apply firstn_starts|exists []; now rewrite app_nil_r]).
  assert (X : forall k, starts (firstn k shown) text).
  { intros k. destruct S as [r E]. exists (skipn k shown ++ r). now rewrite app_assoc, firstn_skipn. }
  split; [|split].
  - destruct write_fails as [k|]; cbn [fst]; auto. destruct (k <? length shown); auto.
  - destruct read_fails as [j|]; cbn [snd fst]; [rewrite andb_false_r; discriminate|]. destruct write_fails as [k|]; [|subst shown; auto]. destruct (k <? length shown); [discriminate|subst shown; auto].
  - cbn [snd]. destruct read_fails as [j|]; [rewrite andb_false_r; split; [discriminate|intros [H _]; discriminate]|]. subst shown. rewrite andb_true_r, andb_true_iff.
    destruct write_fails as [k|]; [|tauto]. rewrite negb_true_iff, Nat.ltb_ge. tauto.
Qed.

Lemma open_layer_spec looks f text : holds_text f text -> exists o f', open_layer looks f = Some (o, f') /\ fst (open_with o f') = Some text.
Proof.
  intros H. pose proof (uses_steady f text H) as U. unfold open_layer. destruct (path_opener f) as [o f'] eqn:P. rewrite (U 0 looks).
  assert (E : existsb (fun t : option str => match t with None => true | Some _ => false end) (repeat (Some text) looks) = false) by (clear; induction looks; auto).
  rewrite E. exists o, f'. split; auto. specialize (U 0 1). cbn [uses repeat] in U. destruct (open_with o f') as [t f'']. cbn [fst]. congruence.
Qed.
Lemma open_layer_text looks f o f' text : open_layer (S looks) f = Some (o, f') -> fst (open_with o f') = Some text -> holds_text f text.
Proof.
  unfold open_layer, holds_text. destruct f as [|ok t|ok t]; cbn [path_opener read_all]; [discriminate| |].
  - cbn [uses open_with read_all]. destruct ok; cbn [existsb]; [|discriminate]. destruct (existsb _ _); [discriminate|]. cbn [orb]. intros E. injection E as <- <-. cbn. intros E. injection E as <-. now left.
  - destruct ok; cbn [uses open_with existsb orb]; [|discriminate]. destruct (existsb _ _); [discriminate|]. intros E. injection E as <- <-. cbn. intros E. injection E as <-. now right.
Qed.
Theorem squash_reads looks squash files write_fails out : let r := squash_command (S looks) squash files write_fails in
  (r = (out, true) <-> exists texts, Forall2 holds_text files texts /\ squash texts = Some out /\ match write_fails with Some k => length out <= k | None => True end) /\
  (fst r <> [] -> exists texts whole, Forall2 holds_text files texts /\ squash texts = Some whole /\ starts (fst r) whole).
Proof.
  cbv zeta.
  assert (O : forall files texts, Forall2 holds_text files texts -> exists l, open_layers (S looks) files = Some l /\ read_layers l = Some texts).
  { clear. induction 1 as [|f t fs ts H _ (l & E & R)]; [exists []; auto|]. destruct (open_layer_spec (S looks) f t H) as (o & f' & E1 & E2). exists ((o, f') :: l). cbn [open_layers read_layers]. now rewrite E1, E, E2, R. }
  assert (I : forall files l texts, open_layers (S looks) files = Some l -> read_layers l = Some texts -> Forall2 holds_text files texts).
  { clear. induction files as [|f fs IH]; intros l texts E R; cbn [open_layers] in E.
    - injection E as <-. cbn in R. injection R as <-. constructor.
    - destruct (open_layer (S looks) f) as [[o f']|] eqn:E1; [|discriminate]. destruct (open_layers (S looks) fs) as [l'|] eqn:E2; [|discriminate]. injection E as <-. cbn [read_layers] in R.
      destruct (fst (open_with o f')) as [t|] eqn:E3; [|discriminate]. destruct (read_layers l') as [ts|] eqn:E4; [|discriminate]. injection R as <-. constructor; [eapply open_layer_text; eauto|eauto]. }
  unfold squash_command. split.
  - split.
    + destruct (open_layers _ files) as [l|] eqn:E; [|discriminate]. destruct (read_layers l) as [texts|] eqn:R; [|discriminate]. destruct (squash texts) as [w|] eqn:Q; [|discriminate].
      intros W. pose proof (written_part (Some w) None write_fails true) as (_ & A & B). rewrite W in A, B. cbn [fst snd] in A, B. rewrite A by auto. exists texts. split; [eauto|]. split; auto. destruct B as [B _]. now apply B.
    + intros (texts & F & Q & L). destruct (O _ _ F) as (l & E & R). rewrite E, R, Q. pose proof (written_part (Some out) None write_fails true) as (_ & A & B).
      destruct B as [_ B]. rewrite (surjective_pairing (write_layer _ _ _ _)). f_equal; [apply A|]; apply B; auto.
  - destruct (open_layers _ files) as [l|] eqn:E; [|cbn; congruence]. destruct (read_layers l) as [texts|] eqn:R; [|cbn; congruence]. destruct (squash texts) as [w|] eqn:Q; [|cbn; congruence].
    intros _. exists texts, w. split; [eauto|]. split; auto. apply (written_part (Some w) None write_fails true).
Qed.
