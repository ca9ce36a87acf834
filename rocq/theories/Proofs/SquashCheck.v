(** Decision procedures for the hypotheses of the squash theorems, for use in
    examples. *)
From Coq Require Import String Ascii List Bool ZArith Lia.
From Verif.Model Require Import GoStr GoPath Tar Squash.
From Verif.Spec Require Import PathSpec SquashSpec.
From Verif.Proofs Require Import Order GoStrFacts GoPathFacts SquashTree SquashLoad SquashSim SquashStack.
Import ListNotations.

Definition eqp (p q : path) : bool := if path_dec p q then true else false.
Lemma eqp_eq p q : eqp p q = true <-> p = q.
Proof. unfold eqp. destruct (path_dec p q); split; congruence. Qed.
Definition plain_compb (c : str) : bool :=
  negb (str_eqb c []) && negb (existsb (byte_eqb slash) c) && negb (str_eqb c dot) && negb (str_eqb c dotdot).
Lemma plain_compb_ok c : plain_compb c = true -> plain_comp c.
Proof.
  unfold plain_compb. rewrite !andb_true_iff, !negb_true_iff. intros (((A & B) & C) & D). repeat split.
  - intros ->. discriminate.
  - intros I. assert (existsb (byte_eqb slash) c = true); [|congruence]. apply existsb_exists. exists slash. split; auto.
  - intros ->. discriminate.
  - intros ->. discriminate.
Qed.
Definition real_pathb (p : path) : bool := forallb (fun c => plain_compb c && negb (marker_name c)) p.
Lemma real_pathb_ok p : real_pathb p = true -> real_path p.
Proof.
  unfold real_pathb. rewrite forallb_forall. intros H. split; apply Forall_forall; intros c I; apply H in I; apply andb_true_iff in I as [A B].
  - now apply plain_compb_ok.
  - now apply negb_true_iff in B.
Qed.
Definition good_entryb (e : entry) : bool :=
  let p := entry_path e in
  negb (is_abs (th_name (fst e))) &&
  (real_pathb p ||
   (negb (eqp p []) && real_pathb (removelast p) && negb (is_dir e) && negb (is_link e) && marker_name (last p []) &&
    (str_eqb (last p []) $".wh..wh..opq" || real_pathb [skipn 4 (last p [])]))).
Lemma good_entryb_ok e : good_entryb e = true -> good_entry e.
Proof.
  unfold good_entryb. intros H. apply andb_true_iff in H as [A H]. apply negb_true_iff in A. split; auto. apply orb_true_iff in H as [H|H]; [left; now apply real_pathb_ok|right].
  rewrite !andb_true_iff, !negb_true_iff in H. destruct H as (((((N & R) & D) & L) & M) & K). exists (removelast (entry_path e)), (last (entry_path e) []).
  split; [apply app_removelast_last; intros X; rewrite X in N; discriminate|]. split; [now apply real_pathb_ok|]. split; auto. split; auto.
  apply orb_true_iff in K as [K|K]; [left; now apply str_eqb_eq|right]. exists (skipn 4 (last (entry_path e) [])). split; [|now apply real_pathb_ok].
  unfold marker_name in M. apply marker_spec in M as [x M]. rewrite M. reflexivity.
Qed.
Definition last_at (es : list entry) (P : path -> bool) : option entry := find (fun e => P (entry_path e)) (rev es).
Lemma last_at_ok es (P : path -> Prop) Pb e : (forall q, P q <-> Pb q = true) -> last_entry es P e -> last_at es Pb = Some e.
Proof.
  intros HP (es1 & es2 & -> & Pe & H). unfold last_at. rewrite rev_app_distr. cbn [rev]. rewrite <- app_assoc.
  assert (F : forall l r, (forall x, In x l -> Pb (entry_path x) = false) -> find (fun e => Pb (entry_path e)) (l ++ r) = find (fun e => Pb (entry_path e)) r).
  { induction l as [|x l IH]; intros r Hl; auto. cbn [app find]. rewrite Hl by now left. apply IH. intros y I. apply Hl. now right. }
  rewrite F; [cbn [app find]; apply HP in Pe; now rewrite Pe|]. intros x I. apply in_rev in I. destruct (Pb (entry_path x)) eqn:X; auto. apply HP in X. now apply H in X.
Qed.
Fixpoint above (p : path) : list path := match p with [] => [] | k :: p' => [] :: map (cons k) (above p') end.
Lemma above_ok q p : below q p = true -> In q (above p).
Proof.
  intros H. apply below_spec in H as (k & r & ->). induction q as [|x q IH]; cbn [app above]; [now left|right]. now apply in_map.
Qed.
Definition above_check (f : fnode -> bool) (before : list entry) (e : entry) : bool :=
  let fs := unpacked before in forallb (fun q => match fs q with Some n => f n | None => true end) (above (entry_path e)).
Lemma above_check_ok f before e : above_check f before e = true ->
  forall q n, below q (entry_path e) = true -> unpacked before q = Some n -> f n = true.
Proof. intros H q n B L. unfold above_check in H. rewrite forallb_forall in H. apply above_ok in B. specialize (H q B). cbv beta in H. now rewrite L in H. Qed.
Definition no_link_node (n : fnode) : bool := match n with FFile h _ => negb (byte_eqb (th_type h) TypeSymlink) | FDir _ => true end.
Definition dir_node (n : fnode) : bool := match n with FFile _ _ => false | FDir _ => true end.
Lemma no_link_check before e : above_check no_link_node before e = true -> no_link_above before e.
Proof. intros H q B (h & c & E & T). apply (above_check_ok _ _ _ H q _ B) in E. cbn [no_link_node] in E. rewrite T in E. discriminate. Qed.
Lemma no_file_check before e : above_check dir_node before e = true -> no_file_above before e.
Proof. intros H q B (h & c & E). apply (above_check_ok _ _ _ H q _ B) in E. discriminate. Qed.
Definition not_hiddenb (before : list entry) (e : entry) : bool :=
  let p := entry_path e in
  if is_dir e && negb (eqp p []) then
    match last_at before (fun q => eqp q p || eqp q (removelast p ++ [$".wh." ++ last p []])) with Some w => eqp (entry_path w) p | None => true end
  else true.
Lemma not_hiddenb_ok before e : not_hiddenb before e = true -> not_hidden before e.
Proof.
  unfold not_hiddenb. intros H D d x w E L. rewrite D, E, removelast_last, last_last in H. replace (eqp (d ++ [x]) []) with false in H.
  - cbn [andb negb] in H. erewrite last_at_ok in H; [|clear H|exact L].
    + now apply eqp_eq in H.
    + intros q. rewrite orb_true_iff, !eqp_eq. reflexivity.
  - unfold eqp. destruct (path_dec _ _) as [X|]; auto. now destruct d.
Qed.
Fixpoint historyb (f : list entry -> entry -> bool) (before es : list entry) : bool :=
  match es with [] => true | e :: es' => f before e && historyb f (before ++ [e]) es' end.
Lemma historyb_ok f (P : list entry -> entry -> Prop) es : (forall b e, f b e = true -> P b e) -> historyb f [] es = true -> history P es.
Proof.
  intros HP H es1 e es2 ->. assert (X : forall b, historyb f b (es1 ++ e :: es2) = true -> f (b ++ es1) e = true).
  { clear H. induction es1 as [|x es1 IH]; intros b Hb; cbn [app historyb] in Hb; apply andb_true_iff in Hb as [A B]; [now rewrite app_nil_r|].
    apply IH in B. rewrite <- app_assoc in B. exact B. }
  apply HP. apply (X [] H).
Qed.
Lemma good_layersb_ok layers : forallb (forallb good_entryb) layers = true -> Forall (Forall good_entry) layers.
Proof. intros A. apply Forall_forall. intros l Il. apply Forall_forall. intros e Ie. rewrite forallb_forall in A. apply A in Il. rewrite forallb_forall in Il. now apply good_entryb_ok, Il. Qed.
Definition plain_stackb (layers : list (list entry)) : bool :=
  forallb (forallb good_entryb) layers && historyb (above_check no_link_node) [] (all_entries layers).
Lemma plain_stackb_ok layers : plain_stackb layers = true -> plain_stack layers.
Proof.
  unfold plain_stackb. intros H. apply andb_true_iff in H as [A B]. split.
  - now apply good_layersb_ok.
  - eapply historyb_ok; [|exact B]. apply no_link_check.
Qed.
Lemma no_fileb_ok es : historyb (above_check dir_node) [] es = true -> history no_file_above es.
Proof. apply historyb_ok. apply no_file_check. Qed.
Lemma no_hiddenb_ok es : historyb not_hiddenb [] es = true -> history not_hidden es.
Proof. apply historyb_ok. apply not_hiddenb_ok. Qed.
(** overrides *)
Definition overridesb (e : entry) (p : path) (dir : bool) : bool :=
  let q := entry_path e in
  eqp q p ||
  (negb (is_marker e) && negb (is_dir e) && below q p) ||
  (is_marker e && at_or_below (removelast q ++ [skipn 4 (last q [])]) p) ||
  (str_eqb (last q []) $".wh..wh..opq" && below (removelast q) p) ||
  (negb dir && below p q).
Lemma overridesb_ok e p dir : overridesb e p dir = false -> ~ overrides e p dir.
Proof.
  unfold overridesb. rewrite !orb_false_iff. intros ((((A & B) & C) & D) & E) O.
  destruct O as [O|[(O1 & O2 & O3)|[(d & x & O1 & O2)|[(d & O1 & O2)|[-> O2]]]]].
  - apply eqp_eq in O. congruence.
  - rewrite O1, O2, O3 in B. discriminate.
  - unfold hides in O1. unfold is_marker in C. rewrite O1, removelast_last, last_last in C. change (skipn 4 ($".wh." ++ x)) with x in C. rewrite O2 in C.
    change (marker_name ($".wh." ++ x)) with (marker_name (wh_prefix ++ x)) in C. rewrite wh_marker in C. discriminate.
  - rewrite O1, removelast_last, last_last, O2 in D. discriminate.
  - rewrite O2 in E. discriminate.
Qed.
(** Where an unpacked stack can have nodes. *)
Lemma no_rootb_ok layers : forallb (forallb (fun e => negb (is_link e && str_eqb (clean (th_link (fst e))) $"/"))) layers = true ->
  Forall (Forall (fun e => ~ links_to_root e)) layers.
Proof.
  intros H. apply Forall_forall. intros l Il. apply Forall_forall. intros e Ie [A B]. rewrite forallb_forall in H. apply H in Il. rewrite forallb_forall in Il. apply Il in Ie.
  rewrite A, B in Ie. discriminate.
Qed.
Lemma at_or_below_self p : at_or_below p p = true.
Proof. apply aob_spec. exists []. now rewrite app_nil_r. Qed.
Lemma aob_removelast q p : at_or_below q (removelast p) = true -> at_or_below q p = true.
Proof.
  intros H. destruct (path_dec p []) as [->|N]; auto. destruct (exists_last N) as (d & k & ->). rewrite removelast_last in H.
  apply aob_spec in H as [r ->]. apply aob_spec. exists (r ++ [k]). now rewrite app_assoc.
Qed.
Lemma unpack_from es : forall fs p, fold_left unpack_entry es fs p <> None -> fs p <> None \/ existsb (fun e => at_or_below p (entry_path e)) es = true.
Proof.
  induction es as [|e es IH]; intros fs p H; auto. cbn [fold_left existsb] in *. rewrite orb_true_iff. apply IH in H as [H|H]; auto.
  assert (M : mkdirs fs (removelast (entry_path e)) p <> None -> fs p <> None \/ at_or_below p (entry_path e) = true).
  { unfold mkdirs. destruct (at_or_below p (removelast (entry_path e))) eqn:A; auto. intros _. right. now apply aob_removelast. }
  assert (X : fs p <> None \/ at_or_below p (entry_path e) = true); [|tauto]. unfold unpack_entry in H.
  destruct (marker_name _); [destruct (str_eqb _ _)|destruct (is_dir e)].
  - unfold remove_below in H. destruct (below _ p); [congruence|auto].
  - unfold remove in H. destruct (at_or_below _ p); [congruence|auto].
  - unfold put_node in H. destruct (path_dec p (entry_path e)) as [->|]; auto. right. apply at_or_below_self.
  - unfold put_node in H. destruct (path_dec p (entry_path e)) as [->|]; auto; [right; apply at_or_below_self|].
    unfold remove_below in H. destruct (below _ p); [congruence|auto].
Qed.
(** The entries of a directory are among the names that follow it in entry paths. *)
Definition next_names (d : path) (es : list entry) : list str :=
  flat_map (fun e => if below d (entry_path e) then [nth (length d) (entry_path e) []] else []) es.
Lemma in_next_names layers d x : unpack empty_root layers (d ++ [x]) <> None -> In x (next_names d (all_entries layers)).
Proof.
  rewrite unpack_all. intros H. apply unpack_from in H as [H|H]; [destruct d; now destruct H|]. apply existsb_exists in H as (e & I & A).
  apply in_flat_map. exists e. split; auto. apply aob_spec in A as [r A]. rewrite A, <- app_assoc. cbn [app]. rewrite below_app. left. rewrite app_nth2, Nat.sub_diag; auto.
Qed.
