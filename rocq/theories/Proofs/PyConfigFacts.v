(** The parser of the repository and Python's. *)
From Coq Require Import String Ascii List Bool Arith NArith Lia.
From Verif.Model Require Import GoStr UniSpace ConfigParser EntryPoints.
From Verif.Spec Require Import PyConfigSpec UnicodeSpec.
From Verif.Proofs Require Import Order GoStrFacts GoPathFacts RegexFacts SpecifierParse UnicodeFacts ConfigFacts.
Import ListNotations.
Local Open Scope nat_scope.

(** ** The words of the specification *)
Lemma same_eqb a b : same a b = str_eqb a b.
Proof.
  unfold same. destruct (list_eq_dec ascii_dec a b) as [->|N]; [now rewrite str_eqb_refl|].
  destruct (str_eqb a b) eqn:E; [|reflexivity]. apply str_eqb_eq in E. contradiction.
Qed.
Lemma dict_get_key {V} k (d : list (str * V)) : dict_get k d = get_key k d.
Proof. induction d as [|[k' v] d IH]; [reflexivity|]. cbn [dict_get get_key]. now rewrite same_eqb, IH. Qed.
Lemma dict_set_key {V} k v (d : list (str * V)) : dict_set k v d = set_key k v d.
Proof. induction d as [|[k' v'] d IH]; [reflexivity|]. cbn [dict_set set_key]. now rewrite same_eqb, IH. Qed.
Lemma eqb_byte a b : Ascii.eqb a b = byte_eqb a b.
Proof. reflexivity. Qed.
Lemma starts_prefix p s : starts p s = has_prefix p s.
Proof. reflexivity. Qed.
Lemma py_lstrip_trim s : py_lstrip s = trim_left py_space s.
Proof. induction s as [|c s IH]; [reflexivity|]. cbn [py_lstrip trim_left]. now rewrite IH. Qed.
Lemma py_rstrip_trim s : py_rstrip s = trim_right py_space s.
Proof. unfold py_rstrip, trim_right. now rewrite py_lstrip_trim. Qed.
Lemma usual_space c : usual_byte c -> py_space c = is_space c.
Proof.
  intros [A B]. unfold py_space, is_space, code. cbv zeta. revert A B. generalize (N_of_ascii c). intros n A B.
  destruct ((9 <=? n) && (n <=? 13))%N eqn:E; [reflexivity|]. cbn [orb].
  destruct (n =? 32)%N eqn:F; [apply N.eqb_eq in F as ->; reflexivity|]. apply N.eqb_neq in F.
  destruct (28 <=? n)%N eqn:G; [|reflexivity]. destruct (n <=? 32)%N eqn:H; [|reflexivity].
  apply N.leb_le in G, H. exfalso. apply B. lia.
Qed.
Definition plain_text (s : str) : Prop := Forall usual_byte s.
Lemma trim_left_ext f g s : Forall (fun c => f c = g c) s -> trim_left f s = trim_left g s.
Proof. induction 1 as [|c s E H IH]; [reflexivity|]. cbn [trim_left]. now rewrite E, IH. Qed.
Lemma plain_rev s : plain_text s -> plain_text (rev s).
Proof. intros H. apply Forall_forall. intros c Hc. apply in_rev in Hc. unfold plain_text in H. rewrite Forall_forall in H. auto. Qed.
Lemma plain_part a b c : plain_text (a ++ b ++ c) -> plain_text b.
Proof. intros H. apply Forall_app in H as [_ H]. now apply Forall_app in H as [H _]. Qed.
Lemma plain_avoids s : plain_text s -> avoids wide_spaces s.
Proof.
  intros H w a b Hw ->. apply plain_part in H. revert H.
  assert (Q : forallb (fun w => match w with c :: _ => (128 <=? N_of_ascii c)%N | [] => false end) wide_spaces = true) by (vm_compute; reflexivity).
  rewrite forallb_forall in Q. specialize (Q w Hw). destruct w as [|c w]; [discriminate Q|]. intros H. inversion H as [|? ? [L _] _]; subst.
  apply N.leb_le in Q. lia.
Qed.
Lemma plain_left s : plain_text s -> trim_left_u s = py_lstrip s.
Proof.
  intros H. unfold trim_left_u. rewrite (trim_wide_plain wide_spaces _ _ (plain_avoids s H) (Nat.le_refl _)), py_lstrip_trim.
  apply trim_left_ext. eapply Forall_impl; [|exact H]. intros c Hc. cbn. now rewrite usual_space.
Qed.
Lemma plain_trim_left f s : plain_text s -> plain_text (trim_left f s).
Proof. intros H. destruct (trim_left_tail f s) as (w & E). apply (plain_part w _ []). now rewrite app_nil_r, <- E. Qed.
Lemma plain_strip s : plain_text s -> trim_space_u s = py_strip s.
Proof.
  intros H. rewrite (trim_plain s (plain_avoids s H)). unfold trim_space, py_strip. rewrite py_rstrip_trim, py_lstrip_trim.
  assert (E : trim_left is_space s = trim_left py_space s).
  { apply trim_left_ext. eapply Forall_impl; [|exact H]. intros c Hc. cbn. now rewrite usual_space. }
  rewrite E. unfold trim_right. f_equal. apply trim_left_ext. eapply Forall_impl; [|apply plain_rev, plain_trim_left, H].
  intros c Hc. cbn. now rewrite usual_space.
Qed.
Lemma strip_part s : exists a b, s = a ++ py_strip s ++ b.
Proof.
  unfold py_strip. rewrite py_rstrip_trim, py_lstrip_trim. destruct (trim_left_tail py_space s) as (a & E). set (t := trim_left py_space s) in *. clearbody t. subst s.
  unfold trim_right. destruct (trim_left_tail py_space (rev t)) as (b & E). exists a, (rev b). f_equal.
  rewrite <- (rev_involutive t), E at 1. now rewrite rev_app_distr.
Qed.
Lemma plain_stripped s : plain_text s -> plain_text (py_strip s).
Proof. intros H. destruct (strip_part s) as (a & b & E). apply (plain_part a _ b). now rewrite <- E. Qed.

(** no white space at the ends *)
Lemma trim_left_head f s : match trim_left f s with [] => True | c :: _ => f c = false end.
Proof. induction s as [|c s IH]; [exact Logic.I|]. cbn [trim_left]. destruct (f c) eqn:E; [exact IH|exact E]. Qed.
Lemma trim_left_none f s : match s with [] => True | c :: _ => f c = false end -> trim_left f s = s.
Proof. destruct s as [|c s]; [reflexivity|]. cbn [trim_left]. now intros ->. Qed.
Definition no_tail (s : str) : Prop := forall a c, s = a ++ [c] -> py_space c = false.
Lemma rstrip_no_tail s : no_tail (py_rstrip s).
Proof.
  intros a c E. rewrite py_rstrip_trim in E. unfold trim_right in E. pose proof (trim_left_head py_space (rev s)) as H.
  apply (f_equal (@rev ascii)) in E. rewrite rev_involutive, rev_app_distr in E. rewrite E in H. exact H.
Qed.
Lemma no_tail_rstrip s : no_tail s -> py_rstrip s = s.
Proof.
  intros H. rewrite py_rstrip_trim. unfold trim_right. rewrite trim_left_none, rev_involutive; [reflexivity|].
  destruct (rev s) as [|c r] eqn:E; [exact Logic.I|]. apply (H (rev r) c). now rewrite <- (rev_involutive s), E.
Qed.
Lemma rstrip_head s c r : s = c :: r -> py_space c = false -> exists r', py_rstrip s = c :: r'.
Proof.
  intros -> N. rewrite py_rstrip_trim. unfold trim_right. destruct (trim_left_tail py_space (rev (c :: r))) as (w & E).
  destruct (rev (trim_left py_space (rev (c :: r)))) as [|d r'] eqn:F.
  - exfalso. apply (f_equal (@rev ascii)) in F. rewrite rev_involutive in F. cbn [rev] in F, E.
    assert (Q : forall l, trim_left py_space (l ++ [c]) <> []).
    { induction l as [|x l IH]; cbn [app trim_left]; [now rewrite N|]. destruct (py_space x); [exact IH|discriminate]. }
    exact (Q _ F).
  - exists r'. apply (f_equal (@rev ascii)) in E. rewrite rev_involutive, rev_app_distr, F in E. cbn [app] in E. congruence.
Qed.
Lemma strip_head s : match py_strip s with [] => True | c :: _ => py_space c = false end.
Proof.
  unfold py_strip. pose proof (trim_left_head py_space s) as H. rewrite <- py_lstrip_trim in H. destruct (py_lstrip s) as [|c r] eqn:E; [exact Logic.I|].
  destruct (rstrip_head (c :: r) c r eq_refl H) as (r' & ->). exact H.
Qed.

(** ** Multi-line values *)
Lemma py_join_join ls : py_join ls = join [nl] ls.
Proof. induction ls as [|l [|l' ls] IH]; [reflexivity..|]. cbn [py_join join]. cbn [py_join join] in IH. now rewrite IH. Qed.
Lemma join_trimmed ls : Forall no_tail ls -> no_tail (trim_right (byte_eqb nl) (join [nl] ls)).
Proof.
  induction ls as [|l ls IH] using rev_ind; intros H.
  - intros a c E. destruct a; discriminate E.
  - apply Forall_app in H as [H Hl]. inversion Hl as [|? ? Hl' _]; subst. specialize (IH H).
    destruct (list_eq_dec ascii_dec l []) as [->|N].
    + destruct ls as [|x ls]; [intros a c E; destruct a; discriminate E|]. rewrite join_snoc by discriminate. rewrite app_nil_r, trim_right_app_all by reflexivity. exact IH.
    + destruct (exists_last N) as (l' & c & ->).
      assert (Hc : py_space c = false) by (apply (Hl' l' c); reflexivity).
      assert (J : exists s, join [nl] (ls ++ [l' ++ [c]]) = s ++ [c]).
      { destruct ls as [|x ls]; [exists l'; reflexivity|]. rewrite join_snoc by discriminate. exists (join [nl] (x :: ls) ++ [nl] ++ l'). now rewrite <- !app_assoc. }
      destruct J as (s & ->).
      rewrite trim_right_nl.
      * intros a d E. apply app_inj_tail in E as [_ <-]. exact Hc.
      * intros w E. apply app_inj_tail in E as [_ ->]. discriminate Hc.
Qed.
Lemma value_same ls : Forall no_tail ls -> py_rstrip (py_join ls) = trim_right (byte_eqb nl) (join [nl] ls).
Proof.
  intros H. rewrite py_join_join. pose proof (join_trimmed ls H) as N. destruct (trim_right_prefix (byte_eqb nl) (join [nl] ls)) as (t & E & Ht).
  rewrite E at 1. rewrite py_rstrip_trim, trim_right_app_all; [rewrite <- py_rstrip_trim; now apply no_tail_rstrip|].
  unfold trim_right. assert (Q : forallb (byte_eqb nl) (rev t) = true).
  { rewrite forallb_forall in *. intros c Hc. apply Ht. now apply in_rev. }
  revert Q. generalize (rev t). clear. induction l as [|c l IH]; [reflexivity|]. cbn [forallb trim_left]. intros Q.
  apply andb_true_iff in Q as [Q Q']. apply byte_eqb_eq in Q as <-. cbn. exact (IH Q').
Qed.

(** ** Headers *)
Lemma up_to_last x : up_to_bracket (x ++ $"]") = Some x.
Proof. induction x as [|c x IH]; [reflexivity|]. cbn [app up_to_bracket]. now rewrite IH. Qed.
Lemma header_agree D line : agreed_line D line ->
  (has_prefix $"[" (py_strip line) && has_suffix $"]" (py_strip line) = match header (py_strip line) with Some _ => true | None => false end) /\
  (forall h, header (py_strip line) = Some h -> trim_suffix $"]" (trim_prefix $"[" (py_strip line)) = h).
Proof.
  intros (A & B & _). generalize dependent (py_strip line). intros v A B.
  assert (F : forall h, v = $"[" ++ h ++ $"]" -> has_prefix $"[" v = true /\ has_suffix $"]" v = true /\ trim_suffix $"]" (trim_prefix $"[" v) = h).
  { intros h ->. split; [reflexivity|]. split.
    - unfold has_suffix. rewrite app_assoc, rev_app_distr. reflexivity.
    - rewrite trim_prefix_app. apply trim_suffix_app. }
  destruct (header v) as [h|] eqn:E.
  - destruct (B h eq_refl) as [V _]. destruct (F h V) as (P & Q & T). rewrite P, Q. split; [reflexivity|]. intros h' [= <-]. exact T.
  - split; [|discriminate]. destruct (has_prefix $"[" v) eqn:P; [|reflexivity]. destruct (has_suffix $"]" v) eqn:G; [|reflexivity]. exfalso.
    apply has_prefix_spec in P as (s & ->). cbn [app list_ascii_of_string] in A, E, G.
    destruct s as [|c s] using rev_ind; [discriminate G|]. clear IHs.
    unfold has_suffix in G. cbn [rev] in G. rewrite rev_app_distr in G. cbn [rev app has_prefix] in G.
    destruct (byte_eqb "]" c) eqn:C; [|discriminate G]. apply byte_eqb_eq in C. subst c.
    unfold header in E. change ["]"%char] with ($"]") in E. rewrite up_to_last in E. destruct s as [|d s]; [|discriminate E]. now apply A.
Qed.

(** ** Delimiters *)
Definition sep_step (value : str) (acc : nat * nat) (sep : str) : nat * nat :=
  match index_of sep value with
  | Some i => if i <? fst acc then (i, length sep) else acc
  | None => acc
  end.
Lemma index_head d v : has_prefix d v = true -> index_of d v = Some 0.
Proof. intros H. destruct v; cbn [index_of]; now rewrite H. Qed.
Lemma index_tail d c v : has_prefix d (c :: v) = false -> index_of d (c :: v) = option_map S (index_of d v).
Proof. intros H. cbn [index_of]. rewrite H. destruct (index_of d v); reflexivity. Qed.
Lemma fold_zero v D : forall l, fold_left (sep_step v) D (0, l) = (0, l).
Proof. induction D as [|d D IH]; intros l; [reflexivity|]. cbn [fold_left]. unfold sep_step at 2. destruct (index_of d v); cbn; apply IH. Qed.
Lemma fold_found c v D d : find (fun d => has_prefix d (c :: v)) D = Some d -> forall i l, fold_left (sep_step (c :: v)) D (S i, l) = (0, length d).
Proof.
  induction D as [|a D IH]; [discriminate|]. cbn [find fold_left]. intros F i l. destruct (has_prefix a (c :: v)) eqn:P.
  - injection F as <-. unfold sep_step at 2. rewrite (index_head _ _ P). cbn. apply fold_zero.
  - unfold sep_step at 2. rewrite (index_tail _ _ _ P). destruct (index_of a v) as [j|]; cbn [option_map fst].
    + destruct (S j <? S i); apply (IH F).
    + apply (IH F).
Qed.
Lemma fold_shift c v D : find (fun d => has_prefix d (c :: v)) D = None -> forall i l i' l',
  fold_left (sep_step v) D (i, l) = (i', l') -> fold_left (sep_step (c :: v)) D (S i, l) = (S i', l').
Proof.
  induction D as [|a D IH]; cbn [find fold_left]; intros F i l i' l' H; [injection H as <- <-; reflexivity|].
  destruct (has_prefix a (c :: v)) eqn:P; [discriminate F|].
  unfold sep_step at 2. unfold sep_step at 2 in H. rewrite (index_tail _ _ _ P). destruct (index_of a v) as [j|]; cbn [option_map fst] in *.
  - change (S j <? S i) with (j <? i). destruct (j <? i); apply IH; auto.
  - now apply IH.
Qed.
Lemma sep_option D v : (forall d, In d D -> d <> []) ->
  match option_line D v with
  | Some (k, r) => exists i l, fold_left (sep_step v) D (length v, 0) = (i, l) /\ i < length v /\ firstn i v = k /\ skipn (i + l) v = r
  | None => fold_left (sep_step v) D (length v, 0) = (length v, 0)
  end.
Proof.
  intros ND. induction v as [|c v IH].
  - assert (E : find (fun d => starts d []) D = None).
    { destruct (find _ D) as [d|] eqn:F; [|reflexivity]. apply find_some in F as [I F]. destruct d; [exfalso; now apply (ND [] I)|discriminate F]. }
    cbn [option_line]. rewrite E. apply fold_zero.
  - cbn [option_line length]. destruct (find (fun d => starts d (c :: v)) D) as [d|] eqn:F.
    + exists 0, (length d). rewrite (fold_found c v D d F). repeat split; lia.
    + destruct (option_line D v) as [[k r]|].
      * destruct IH as (i & l & E & L & K & Q). exists (S i), l. rewrite (fold_shift c v D F _ _ _ _ E). split; [reflexivity|]. split; [lia|].
        split; [cbn; now rewrite K|exact Q].
      * exact (fold_shift c v D F _ _ _ _ IH).
Qed.
Lemma find_sep_step p v : find_sep p v = fold_left (sep_step v) (p_delims p) (length v, 0).
Proof. reflexivity. Qed.
Lemma option_part D v k r : option_line D v = Some (k, r) -> exists d, v = k ++ d ++ r.
Proof.
  revert k r. induction v as [|c v IH]; intros k r; cbn [option_line].
  - destruct (find _ D) as [d|] eqn:F; [|discriminate]. intros [= <- <-]. apply find_some in F as [_ F]. rewrite starts_prefix in F.
    apply has_prefix_spec in F as (t & E). exists d. cbn [app]. rewrite E at 1. f_equal. rewrite E, skipn_app, skipn_all, Nat.sub_diag. reflexivity.
  - destruct (find _ D) as [d|] eqn:F.
    + intros [= <- <-]. apply find_some in F as [_ F]. rewrite starts_prefix in F.
      apply has_prefix_spec in F as (t & E). exists d. cbn [app]. rewrite E at 1. f_equal. rewrite E, skipn_app, skipn_all, Nat.sub_diag. reflexivity.
    + destruct (option_line D v) as [[k' r']|]; [|discriminate]. intros [= <- <-]. destruct (IH k' r' eq_refl) as (d & ->). now exists d.
Qed.

(** ** One line *)
Lemma set_key_twice {V} k (a b : V) m : set_key k a (set_key k b m) = set_key k a m.
Proof.
  induction m as [|[k' v] m IH]; cbn [set_key]; [now rewrite str_eqb_refl|].
  destruct (str_eqb k k') eqn:E; cbn [set_key]; rewrite E; [reflexivity|]. now rewrite IH.
Qed.
Lemma set_key_map {V W} (f : V -> W) k v m : map (fun kv => (fst kv, f (snd kv))) (set_key k v m) = set_key k (f v) (map (fun kv => (fst kv, f (snd kv))) m).
Proof.
  induction m as [|[k' v'] m IH]; [reflexivity|]. cbn [set_key map fst snd]. destruct (str_eqb k k'); [reflexivity|]. cbn [map fst snd]. now rewrite IH.
Qed.
Lemma get_key_map {V W} (f : V -> W) k m : get_key k (map (fun kv => (fst kv, f (snd kv))) m) = option_map f (get_key k m).
Proof. induction m as [|[k' v'] m IH]; [reflexivity|]. cbn [get_key map fst snd]. destruct (str_eqb k k'); [reflexivity|exact IH]. Qed.
Definition shown (secs : list (str * list (str * list str))) : config := map (fun s => (fst s, values (snd s))) secs.
Definition clean_values (secs : list (str * list (str * list str))) : Prop :=
  forall n o k ls, get_key n secs = Some o -> get_key k o = Some ls -> Forall no_tail ls.

Section Steps.
Context (p : parser) (P : plain_parser p).

(** what the loop does on a line, from its text without white space around it and its indentation *)
Definition go_step (st : cstate) (comment : bool) (value : str) (lvl : nat) : cres cstate :=
  if comment then COk st
  else match value with
       | [] => COk (push st [])
       | _ :: _ =>
           match c_val st, (c_indent st <? lvl) with
           | Some ls, true => COk (push st value)
           | _, _ =>
               let fl := flush_kv st in
               if has_prefix $"[" value && has_suffix $"]" value then
                 let name := trim_suffix $"]" (trim_prefix $"[" value) in
                 match get_key name (c_cfg fl) with
                 | None => COk (mkC (set_key name [] (c_cfg fl)) lvl (Some name) (c_key fl) (c_val fl))
                 | Some _ => if p_strict p then CErr (CDupSection name)
                             else COk (mkC (c_cfg fl) lvl (Some name) (c_key fl) (c_val fl))
                 end
               else
                 match c_sect fl with
                 | None => CErr CNoSection
                 | Some n =>
                     let '(pos, len) := find_sep p value in
                     if pos =? length value then CErr (CInvalidLine value)
                     else
                       let key := p_transform p (trim_space_u (firstn pos value)) in
                       let val := trim_space_u (skipn (pos + len) value) in
                       let sec := match get_key n (c_cfg fl) with Some s => s | None => [] end in
                       match get_key key sec, p_strict p with
                       | Some _, true => CErr (CDupKey key)
                       | _, _ => COk (mkC (c_cfg fl) lvl (Some n) key (Some [val]))
                       end
                 end
           end
       end.
Lemma line_space e : e = [] \/ e = [nl] \/ e = ["013"%char; nl] -> plain_text e /\ forall c, In c e -> py_space c = true.
Proof.
  assert (N : usual_byte nl) by (split; [reflexivity|intros [H _]; now apply H]).
  assert (R : usual_byte "013"%char) by (split; [reflexivity|intros [H _]; now apply H]).
  intros [-> | [-> | ->]]; (split; [repeat (constructor; [assumption|]); constructor|]); intros c H; cbn in H; repeat destruct H as [<-|H]; try reflexivity; destruct H.
Qed.
Lemma lstrip_app l e : (forall c, In c e -> py_space c = true) -> py_lstrip (l ++ e) = match py_lstrip l with [] => [] | x :: r => x :: r ++ e end.
Proof.
  intros H. induction l as [|c l IH]; cbn [app py_lstrip].
  - induction e as [|c e IH]; [reflexivity|]. cbn [py_lstrip]. rewrite (H c (or_introl eq_refl)). apply IH. intros x Hx. apply H. now right.
  - destruct (py_space c); [exact IH|reflexivity].
Qed.
Lemma rstrip_app l e : (forall c, In c e -> py_space c = true) -> py_rstrip (l ++ e) = py_rstrip l.
Proof.
  intros H. unfold py_rstrip. f_equal. rewrite rev_app_distr. assert (H' : forall c, In c (rev e) -> py_space c = true) by (intros c Hc; apply H, in_rev, Hc).
  induction (rev e) as [|c r IH]; [reflexivity|]. cbn [app py_lstrip]. rewrite (H' c (or_introl eq_refl)). apply IH. intros x Hx. apply H'. now right.
Qed.
Lemma strip_app l e : (forall c, In c e -> py_space c = true) -> py_strip (l ++ e) = py_strip l.
Proof.
  intros H. unfold py_strip. rewrite (lstrip_app l e H). destruct (py_lstrip l) as [|x r]; [reflexivity|]. exact (rstrip_app (x :: r) e H).
Qed.
Lemma lstrip_nil l : py_lstrip l = [] <-> py_strip l = [].
Proof.
  unfold py_strip. pose proof (trim_left_head py_space l) as H. rewrite <- py_lstrip_trim in H. destruct (py_lstrip l) as [|c r]; [split; reflexivity|].
  destruct (rstrip_head (c :: r) c r eq_refl H) as (r' & ->). split; discriminate.
Qed.
Lemma line_step st l e : plain_text l -> e = [] \/ e = [nl] \/ e = ["013"%char; nl] ->
  parse_line p st (l ++ e) =
  go_step st (existsb (fun c => has_prefix c (py_strip l)) (p_comments p)) (py_strip l) (length l - length (py_lstrip l)).
Proof.
  intros L E. destruct (line_space e E) as [Pe Se].
  assert (PL : plain_text (l ++ e)) by (apply Forall_app; auto).
  assert (T : trim_space_u (l ++ e) = py_strip l) by (rewrite (plain_strip _ PL); now apply strip_app).
  unfold parse_line, comment_start, inline_start. rewrite (pp_inline p P), T, (pp_empty p P). cbn [fold_left].
  unfold go_step. destruct (existsb _ (p_comments p)) eqn:X.
  - cbn [firstn]. change (trim_space_u []) with (@nil ascii). cbv iota. destruct (c_val st) as [ls|]; [|destruct st; reflexivity].
    destruct (0 =? length (l ++ e)) eqn:Z; [|reflexivity]. exfalso. apply Nat.eqb_eq in Z. symmetry in Z. apply length_zero_iff_nil, app_eq_nil in Z as [-> _].
    apply existsb_exists in X as (c & I & X). destruct c; [now apply (pp_comments p P [] I)|discriminate X].
  - rewrite firstn_all, T. destruct (py_strip l) as [|x v] eqn:V.
    + rewrite Nat.eqb_refl. unfold push. destruct st as [cf i s k [ls|]]; reflexivity.
    + assert (I : indent_level (l ++ e) = length l - length (py_lstrip l)).
      { unfold indent_level. rewrite (plain_left _ PL), (lstrip_app l e Se). destruct (py_lstrip l) as [|y r] eqn:Q; [apply lstrip_nil in Q; congruence|].
        cbn [length]. rewrite !app_length. lia. }
      rewrite I. set (lvl := length l - length (py_lstrip l)).
      assert (B : (0 <? lvl) && (c_indent st <? lvl) = (c_indent st <? lvl)).
      { destruct (c_indent st <? lvl) eqn:C; [|now rewrite andb_false_r]. apply Nat.ltb_lt in C. rewrite andb_true_r. apply Nat.ltb_lt. lia. }
      rewrite B. destruct (c_val st) as [ls|] eqn:CV; [|reflexivity]. destruct (c_indent st <? lvl); [|reflexivity]. unfold push. now rewrite CV.
Qed.

(** ** The two loops *)
Record together (st : cstate) (ps : state) : Prop := mkTog {
  tg_bogus : st_bogus ps = false;
  tg_defaults : st_defaults ps = [];
  tg_indent : st_indent ps = c_indent st;
  tg_place : match c_sect st with
             | None => st_place ps = Nowhere /\ c_val st = None
             | Some n => st_place ps = Section_ n /\ get_key n (st_sections ps) <> None
             end;
  tg_cfg : c_cfg (flush_kv st) = shown (st_sections ps);
  tg_key : current ps = match c_val st with Some _ => Some (c_key st) | None => None end;
  tg_val : forall ls, c_val st = Some ls -> ls <> [] /\ get_key (c_key st) (options ps) = Some ls;
  tg_clean : clean_values (st_sections ps)
}.
Lemma flush_cfg st : match c_val st, c_sect st with
  | Some ls, Some n => c_cfg (flush_kv st) =
      set_key n (set_key (c_key st) (trim_right (byte_eqb nl) (join [nl] ls)) (match get_key n (c_cfg st) with Some s => s | None => [] end)) (c_cfg st)
  | _, _ => c_cfg (flush_kv st) = c_cfg st
  end.
Proof. unfold flush_kv. destruct (c_val st), (c_sect st); reflexivity. Qed.
Lemma clean_set secs n o k ls : clean_values secs -> get_key n secs = Some o -> Forall no_tail ls ->
  clean_values (set_key n (set_key k ls o) secs).
Proof.
  intros C G H n' o' k' ls' G'. rewrite get_set_key in G'. destruct (str_eqb n' n) eqn:E.
  - injection G' as <-. rewrite get_set_key. destruct (str_eqb k' k); [intros [= <-]; exact H|]. intros Q. exact (C n o k' ls' G Q).
  - exact (C n' o' k' ls' G').
Qed.
Lemma strip_no_tail s : no_tail (py_strip s).
Proof. apply rstrip_no_tail. Qed.

Lemma together_push st ps l : together st ps -> no_tail l ->
  together (push st l) (match current ps with Some k => append_line k l ps | None => ps end).
Proof.
  intros T N. pose proof (tg_place _ _ T) as Pl. pose proof (tg_key _ _ T) as K. pose proof (tg_val _ _ T) as V. pose proof (tg_cfg _ _ T) as F.
  pose proof (flush_cfg st) as F1. pose proof (flush_cfg (push st l)) as F2. unfold push in F2. cbn [c_val c_sect c_key c_cfg] in F2.
  destruct (c_val st) as [ls|] eqn:CV.
  2:{ rewrite K. assert (E : push st l = st) by (unfold push; destruct st; cbn in *; rewrite CV; reflexivity). rewrite E. exact T. }
  rewrite K. destruct (c_sect st) as [n|] eqn:CS; [|destruct Pl as [_ Pl]; discriminate Pl]. destruct Pl as [Pl Pn].
  destruct (V ls eq_refl) as [NE G]. unfold options in G. rewrite Pl, dict_get_key in G.
  destruct (get_key n (st_sections ps)) as [o|] eqn:Go; [|congruence].
  assert (NT : Forall no_tail (ls ++ [l])).
  { apply Forall_app. split; [exact (tg_clean _ _ T n o _ ls Go G)|repeat constructor; exact N]. }
  assert (A : append_line (c_key st) l ps = mkState (set_key n (set_key (c_key st) (ls ++ [l]) o) (st_sections ps)) (st_defaults ps) (st_place ps) (st_option ps) (st_indent ps) (st_bogus ps)).
  { unfold append_line, with_options, options. rewrite Pl, !dict_get_key, Go, G, !dict_set_key. reflexivity. }
  rewrite A. split; cbn [st_bogus st_defaults st_indent st_place st_sections].
  - exact (tg_bogus _ _ T).
  - exact (tg_defaults _ _ T).
  - exact (tg_indent _ _ T).
  - unfold push. cbn [c_sect c_val]. rewrite CS. split; [exact Pl|]. rewrite get_set_key, str_eqb_refl. discriminate.
  - unfold push. rewrite CV, CS. rewrite F2. unfold shown. rewrite set_key_map. change (map (fun kv => (fst kv, values (snd kv))) (st_sections ps)) with (shown (st_sections ps)). rewrite <- F, F1.
    rewrite set_key_twice. f_equal. unfold values at 1. rewrite (set_key_map (fun x => py_rstrip (py_join x))). rewrite (value_same _ NT).
    assert (O : values o = set_key (c_key st) (trim_right (byte_eqb nl) (join [nl] ls)) (match get_key n (c_cfg st) with Some s => s | None => [] end)).
    { assert (Q : get_key n (shown (st_sections ps)) = Some (values o)) by (unfold shown; now rewrite get_key_map, Go).
      rewrite <- F, F1, get_set_key, str_eqb_refl in Q. now injection Q as Q. }
    unfold values in O. rewrite O, set_key_twice. reflexivity.
  - unfold push. cbn [c_val c_key]. rewrite CV. unfold current in *. cbn [st_place st_option]. rewrite Pl in *. exact K.
  - unfold push. cbn [c_val c_key]. rewrite CV. intros ls' [= <-]. split; [intros Q; now apply app_eq_nil in Q|].
    unfold options. cbn [st_place st_sections]. rewrite Pl, dict_get_key, get_set_key, str_eqb_refl. now rewrite get_set_key, str_eqb_refl.
  - apply clean_set; auto. exact (tg_clean _ _ T).
Qed.
Lemma flush_together st ps : together st ps -> c_val (flush_kv st) = None /\ c_sect (flush_kv st) = c_sect st.
Proof.
  intros T. pose proof (tg_place _ _ T) as Pl. unfold flush_kv. destruct (c_val st) eqn:V, (c_sect st) eqn:S; cbn; auto. destruct Pl as [_ Pl]. discriminate Pl.
Qed.
Notation read := (read_line (p_delims p) (p_comments p) (p_strict p) (p_transform p)).
Lemma bogus_stays ps l ps' : read ps l = Some ps' -> st_bogus ps = true -> st_bogus ps' = true.
Proof.
  intros H B. unfold read_line in H. cbv zeta in H.
  assert (W : forall o s, st_bogus (with_options o s) = st_bogus s) by (intros o [? ? [] ? ? ?]; reflexivity).
  repeat match type of H with
  | context [match ?x with _ => _ end] => destruct x eqn:?
  end; try discriminate H; injection H as <-; unfold append_line; cbn [st_bogus bogus]; rewrite ?W; auto; cbn [st_bogus bogus]; auto.
Qed.
Lemma bogus_lines ls : forall ps ps', read_lines (p_delims p) (p_comments p) (p_strict p) (p_transform p) ps ls = Some ps' -> st_bogus ps = true -> st_bogus ps' = true.
Proof.
  induction ls as [|l ls IH]; intros ps ps'; cbn [read_lines]; [now intros [= <-]|]. destruct (read ps l) as [ps1|] eqn:R; [|discriminate].
  intros H B. apply (IH ps1 ps' H). exact (bogus_stays _ _ _ R B).
Qed.

Lemma step_together st ps l : together st ps -> plain_text l -> agreed_line (p_delims p) l ->
  match go_step st (existsb (fun c => has_prefix c (py_strip l)) (p_comments p)) (py_strip l) (length l - length (py_lstrip l)) with
  | COk st' => exists ps', read ps l = Some ps' /\ together st' ps'
  | CErr _ => forall ps', read ps l = Some ps' -> st_bogus ps' = true
  end.
Proof.
  intros T L A. pose proof (tg_key _ _ T) as K. pose proof (tg_indent _ _ T) as In_. pose proof (tg_place _ _ T) as Pl. pose proof (tg_cfg _ _ T) as Cf.
  unfold read_line, go_step. cbv zeta.
  change (existsb (fun p0 => starts p0 (py_strip l)) (p_comments p)) with (existsb (fun c => has_prefix c (py_strip l)) (p_comments p)).
  destruct (existsb _ (p_comments p)).
  { destruct (current ps); (eexists; split; [reflexivity|exact T]). }
  pose proof (header_agree _ _ A) as [HA HN]. destruct A as (_ & AD & AS).
  pose proof (strip_head l) as SH. pose proof (plain_stripped l L) as PV. pose proof (strip_no_tail l) as NT.
  destruct (py_strip l) as [|x v] eqn:V.
  { assert (Q := together_push st ps [] T NT). destruct (current ps); (eexists; split; [reflexivity|exact Q]). }
  set (lvl := length l - length (py_lstrip l)). rewrite In_.
  destruct (flush_together st ps T) as [FV FS].
  assert (NC : forall r r', (match c_val st, c_indent st <? lvl with Some _, true => False | _, _ => True end) ->
     match r with COk st' => exists ps', r' = Some ps' /\ together st' ps' | CErr _ => forall ps', r' = Some ps' -> st_bogus ps' = true end ->
     match (match c_val st, c_indent st <? lvl with Some _, true => COk (push st (x :: v)) | _, _ => r end) with
     | COk st' => exists ps', (match current ps, c_indent st <? lvl with Some k, true => Some (append_line k (x :: v) ps) | _, _ => r' end) = Some ps' /\ together st' ps'
     | CErr _ => forall ps', (match current ps, c_indent st <? lvl with Some k, true => Some (append_line k (x :: v) ps) | _, _ => r' end) = Some ps' -> st_bogus ps' = true
     end).
  { intros r r' H. rewrite K. destruct (c_val st); [|auto]. destruct (c_indent st <? lvl); [destruct H|auto]. }
  destruct (match c_val st with Some _ => c_indent st <? lvl | None => false end) eqn:Co.
  { clear NC. destruct (c_val st) as [ls|] eqn:CV; [|discriminate Co]. rewrite Co, K. eexists. split; [reflexivity|].
    assert (Q := together_push st ps (x :: v) T NT). rewrite K in Q. exact Q. }
  apply NC; [destruct (c_val st); [now rewrite Co|exact Logic.I]|]. clear NC Co.
  cbn [st_sections st_defaults st_place st_option st_indent st_bogus]. rewrite HA.
  destruct (header (x :: v)) as [h|] eqn:Hd.
  - rewrite (HN h eq_refl). destruct (AD h eq_refl) as [_ ND]. rewrite same_eqb. destruct (str_eqb h $"DEFAULT") eqn:D; [apply str_eqb_eq in D; contradiction|]. clear D.
    rewrite dict_get_key, Cf. unfold shown at 1. rewrite get_key_map.
    destruct (get_key h (st_sections ps)) as [o|] eqn:G; cbn [option_map].
    + destruct (p_strict p); [discriminate|]. eexists. split; [reflexivity|]. split; cbn [st_bogus st_defaults st_indent st_place st_sections c_indent c_sect c_val].
      * exact (tg_bogus _ _ T).
      * exact (tg_defaults _ _ T).
      * reflexivity.
      * split; [reflexivity|]. now rewrite G.
      * rewrite FV. reflexivity.
      * now rewrite FV.
      * rewrite FV. discriminate.
      * exact (tg_clean _ _ T).
    + eexists. split; [reflexivity|]. split; cbn [st_bogus st_defaults st_indent st_place st_sections c_indent c_sect c_val].
      * exact (tg_bogus _ _ T).
      * exact (tg_defaults _ _ T).
      * reflexivity.
      * split; [reflexivity|]. rewrite dict_set_key, get_set_key, str_eqb_refl. discriminate.
      * rewrite FV. unfold flush_kv. cbn [c_val c_sect c_cfg]. rewrite dict_set_key. unfold shown. rewrite (set_key_map values). reflexivity.
      * now rewrite FV.
      * rewrite FV. discriminate.
      * rewrite dict_set_key. intros n' o' k' ls' G'. rewrite get_set_key in G'. destruct (str_eqb n' h); [injection G' as <-; discriminate|]. exact (tg_clean _ _ T n' o' k' ls' G').
  - rewrite FS. destruct (c_sect st) as [n|] eqn:CS.
    2:{ destruct Pl as [-> _]. discriminate. }
    destruct Pl as [Pl Pn]. rewrite Pl.
    pose proof (sep_option (p_delims p) (x :: v) (pp_delims p P)) as SO. rewrite find_sep_step.
    destruct (option_line (p_delims p) (x :: v)) as [[k r]|] eqn:OL.
    2:{ rewrite SO, Nat.eqb_refl. intros ps' [= <-]. reflexivity. }
    destruct SO as (i & len & -> & Li & Fi & Sk). destruct (i =? length (x :: v)) eqn:Z; [apply Nat.eqb_eq in Z; lia|]. clear Z. rewrite Fi, Sk.
    destruct (option_part _ _ _ _ OL) as (d & Ev). rewrite Ev in PV. pose proof PV as PV'. apply Forall_app in PV as [Pk PV]. apply Forall_app in PV as [_ Pr].
    rewrite (plain_strip k Pk), (plain_strip r Pr).
    assert (KN : exists k', k = x :: k').
    { cbn [option_line] in OL. destruct (find _ (p_delims p)) as [d'|] eqn:Fd.
      - apply find_some in Fd as [Fd1 Fd2]. rewrite (AS d' Fd1) in Fd2. discriminate Fd2.
      - destruct (option_line (p_delims p) v) as [[k' r']|]; [|discriminate OL]. injection OL as <- _. now exists k'. }
    destruct KN as (k' & ->).
    assert (KS : py_strip (x :: k') = py_rstrip (x :: k')) by (unfold py_strip; cbn [py_lstrip]; now rewrite SH). rewrite KS.
    destruct (rstrip_head (x :: k') x k' eq_refl SH) as (k'' & KR).
    assert (KX : p_transform p (py_rstrip (x :: k')) <> []) by (rewrite KR; apply (pp_transform p P); discriminate).
    generalize dependent (p_transform p (py_rstrip (x :: k'))). intros key KX. cbv iota.
    set (ps0 := mkState (st_sections ps) (st_defaults ps) (Section_ n) (st_option ps) lvl (st_bogus ps)).
    destruct (get_key n (st_sections ps)) as [o|] eqn:Go; [|congruence].
    assert (EO : options ps0 = o) by (unfold options, ps0; cbn [st_place st_sections]; now rewrite dict_get_key, Go).
    rewrite EO, dict_get_key, Cf. unfold shown at 1. rewrite get_key_map, Go. cbn [option_map].
    assert (GV : get_key key (values o) = option_map (fun y => py_rstrip (py_join y)) (get_key key o)) by exact (get_key_map (fun y => py_rstrip (py_join y)) key o). rewrite GV.
    assert (Done : exists ps', Some (mkState (st_sections (with_options (dict_set key [py_strip r] o) ps0)) (st_defaults (with_options (dict_set key [py_strip r] o) ps0))
        (st_place (with_options (dict_set key [py_strip r] o) ps0)) (Some key) lvl (st_bogus (with_options (dict_set key [py_strip r] o) ps0))) = Some ps' /\
        together (mkC (shown (st_sections ps)) lvl (Some n) key (Some [py_strip r])) ps').
    { assert (N1 : Forall no_tail [py_strip r]) by (repeat constructor; apply strip_no_tail).
      eexists. split; [reflexivity|]. unfold with_options, ps0. cbn [st_place st_sections st_defaults st_bogus]. rewrite !dict_set_key.
      split; cbn [st_bogus st_defaults st_indent st_place st_sections c_indent c_sect c_val c_key].
      - exact (tg_bogus _ _ T).
      - exact (tg_defaults _ _ T).
      - reflexivity.
      - split; [reflexivity|]. rewrite get_set_key, str_eqb_refl. discriminate.
      - unfold flush_kv. cbn [c_val c_sect c_cfg c_key]. unfold shown at 3. rewrite (set_key_map values). fold (shown (st_sections ps)). f_equal.
        unfold values. rewrite (set_key_map (fun y => py_rstrip (py_join y))). rewrite (value_same _ N1). f_equal.
        unfold shown. rewrite get_key_map, Go. reflexivity.
      - unfold current. cbn [st_place st_option]. destruct key; [congruence|reflexivity].
      - intros ls [= <-]. split; [discriminate|]. unfold options. cbn [st_place st_sections]. now rewrite dict_get_key, get_set_key, str_eqb_refl, get_set_key, str_eqb_refl.
      - apply clean_set; auto. exact (tg_clean _ _ T). }
    destruct (get_key key o) as [old|]; cbn [option_map]; [destruct (p_strict p); [discriminate|exact Done]|exact Done].
Qed.
End Steps.

(** ** The lines *)
Definition ended (g l : str) : Prop := exists e, g = l ++ e /\ (e = [] \/ e = [nl] \/ e = ["013"%char; nl]).
Definition go_lines (t : str) : list str := file_lines (split_on nl t).
Lemma split_some c s : exists h r, split_on c s = h :: r.
Proof. destruct s as [|x s]; cbn [split_on]; [eauto|]. destruct (byte_eqb c x); [eauto|]. destruct (split_on c s); eauto. Qed.
Lemma go_lines_nl t : go_lines (nl :: t) = [nl] :: go_lines t.
Proof. unfold go_lines. cbn [split_on]. rewrite byte_eqb_refl. destruct (split_some nl t) as (h & r & ->). reflexivity. Qed.
Lemma go_lines_cons c t : c <> nl -> exists h r, go_lines t = h :: r /\ go_lines (c :: t) = (c :: h) :: r.
Proof.
  intros N. unfold go_lines. cbn [split_on]. assert (E : byte_eqb nl c = false) by (destruct (byte_eqb nl c) eqn:E; [apply byte_eqb_eq in E; congruence|reflexivity]).
  rewrite E. destruct (split_some nl t) as (h & r & ->). destruct r as [|h' r]; [exists h, []; auto|].
  exists (h ++ [nl]), (file_lines (h' :: r)). split; reflexivity.
Qed.
Lemma py_lines_nil t : py_lines t = [] -> t = [].
Proof.
  destruct t as [|c t]; [reflexivity|]. cbn [py_lines]. destruct (Ascii.eqb c "010"); [discriminate|]. destruct (Ascii.eqb c "013").
  - destruct t as [|d t]; [discriminate|]. destruct (Ascii.eqb d "010"); discriminate.
  - destruct (py_lines t); discriminate.
Qed.
Lemma whole_tail a t : whole_ends (a ++ t) -> whole_ends t.
Proof. intros H x y ->. apply (H (a ++ x) y). now rewrite <- app_assoc. Qed.
Lemma lines_same n : forall t, length t <= n -> whole_ends t ->
  exists gs tail, go_lines t = gs ++ tail /\ (tail = [] \/ tail = [[]]) /\ Forall2 ended gs (py_lines t).
Proof.
  induction n as [|n IH]; intros t L W.
  - destruct t; [|cbn in L; lia]. exists [], [[]]. repeat split; auto; constructor.
  - destruct t as [|c t]; [exists [], [[]]; repeat split; auto; constructor|]. cbn [length] in L.
    destruct (ascii_dec c nl) as [->|N1].
    + destruct (IH t ltac:(lia) (whole_tail [nl] t W)) as (gs & tl & E & Ht & F). exists ([nl] :: gs), tl. rewrite go_lines_nl, E.
      split; [reflexivity|]. split; [exact Ht|]. change (py_lines (nl :: t)) with (new_line (py_lines t)). constructor; [exists [nl]; auto|exact F].
    + destruct (ascii_dec c "013"%char) as [->|N2].
      * destruct (W [] t eq_refl) as (t' & ->). cbn [length] in L.
        destruct (IH t' ltac:(lia) (whole_tail ["013"%char; nl] t' W)) as (gs & tl & E & Ht & F). exists (["013"%char; nl] :: gs), tl.
        destruct (go_lines_cons "013"%char (nl :: t') N1) as (h & r & E1 & E2). rewrite go_lines_nl in E1. injection E1 as <- <-.
        change ("010"%char :: t') with (nl :: t'). rewrite E2, E.
        split; [reflexivity|]. split; [exact Ht|]. change (py_lines ("013"%char :: nl :: t')) with (new_line (py_lines t')).
        constructor; [exists ["013"%char; nl]; auto|exact F].
      * destruct (IH t ltac:(lia) (whole_tail [c] t W)) as (gs & tl & E & Ht & F).
        assert (PL : py_lines (c :: t) = in_line c (py_lines t)).
        { cbn [py_lines]. apply Ascii.eqb_neq in N1, N2. change (Ascii.eqb c "010") with (Ascii.eqb c nl). now rewrite N1, N2. }
        rewrite PL. destruct (go_lines_cons c t N1) as (h & r & E1 & ->).
        destruct (py_lines t) as [|l ls] eqn:Q.
        -- apply py_lines_nil in Q. subst t. injection E1 as <- <-. exists [[c]], []. split; [reflexivity|]. split; [auto|].
           constructor; [exists []; auto|constructor].
        -- inversion F as [|g ? gs' ? (e & -> & He) F' X Y]; subst. rewrite E in E1. cbn [app] in E1. injection E1 as <- <-.
           exists ((c :: l ++ e) :: gs'), tl. split; [reflexivity|]. split; [exact Ht|]. constructor; [exists e; auto|exact F'].
Qed.
Lemma py_lines_text t l : In l (py_lines t) -> forall c, In c l -> In c t.
Proof.
  assert (G : forall n t, length t <= n -> forall l, In l (py_lines t) -> forall c, In c l -> In c t).
  { clear. induction n as [|n IH]; intros t L l H c Hc; (destruct t as [|x t]; [destruct H|]); cbn [length] in L; [lia|]. cbn [py_lines] in H.
    destruct (Ascii.eqb x "010"). { destruct H as [<-|H]; [destruct Hc|]. right. apply (IH t ltac:(lia) l H c Hc). }
    destruct (Ascii.eqb x "013").
    - destruct t as [|d t]; [destruct H as [<-|[]]; destruct Hc|]. cbn [length] in L. destruct (Ascii.eqb d "010").
      + destruct H as [<-|H]; [destruct Hc|]. right. right. apply (IH t ltac:(lia) l H c Hc).
      + destruct H as [<-|H]; [destruct Hc|]. right. apply (IH (d :: t) ltac:(cbn; lia) l H c Hc).
    - destruct (py_lines t) as [|y ls] eqn:Q; cbn [in_line] in H.
      + destruct H as [<-|[]]. destruct Hc as [<-|[]]. now left.
      + destruct H as [<-|H].
        * destruct Hc as [<-|Hc]; [now left|]. right. apply (IH t ltac:(lia) y); [rewrite Q; now left|exact Hc].
        * right. apply (IH t ltac:(lia) l); [rewrite Q; now right|exact Hc]. }
  intros H c Hc. exact (G (length t) t (Nat.le_refl _) l H c Hc).
Qed.

Lemma run_together p (P : plain_parser p) gs ls : Forall2 ended gs ls -> Forall plain_text ls -> Forall (agreed_line (p_delims p)) ls ->
  forall st ps, together st ps ->
  match parse_lines p st gs with
  | COk st' => exists ps', read_lines (p_delims p) (p_comments p) (p_strict p) (p_transform p) ps ls = Some ps' /\ together st' ps'
  | CErr _ => forall ps', read_lines (p_delims p) (p_comments p) (p_strict p) (p_transform p) ps ls = Some ps' -> st_bogus ps' = true
  end.
Proof.
  induction 1 as [|g l gs ls (e & -> & He) F IH]; intros PT AG st ps T; cbn [parse_lines read_lines]; [eexists; split; [reflexivity|exact T]|].
  inversion PT as [|? ? Pl PT']; inversion AG as [|? ? Al AG']; subst. rewrite (line_step p P st l e Pl He).
  pose proof (step_together p P st ps l T Pl Al) as Sx. destruct (go_step p st _ _ _) as [st1|er].
  - destruct Sx as (ps1 & -> & T1). exact (IH PT' AG' st1 ps1 T1).
  - destruct (read_line _ _ _ _ ps l) as [ps1|]; [|discriminate]. intros ps' R. exact (bogus_lines p ls ps1 ps' R (Sx ps1 eq_refl)).
Qed.
Lemma empty_merge (o : list (str * str)) : NoDup (map fst o) -> fold_left (fun d kv => dict_set (fst kv) (snd kv) d) o [] = o.
Proof.
  intros N. assert (G : forall o d : list (str * str), NoDup (map fst (d ++ o)) -> fold_left (fun d kv => dict_set (fst kv) (snd kv) d) o d = d ++ o).
  { clear. induction o as [|[k v] o IH]; intros d N; [now rewrite app_nil_r|]. cbn [fold_left fst snd]. rewrite dict_set_key, set_key_new.
    - rewrite IH; [now rewrite <- app_assoc|]. rewrite <- app_assoc. exact N.
    - rewrite map_app in N. cbn in N. intros I. apply NoDup_remove_2 in N. apply N. apply in_app_iff. now left. }
  exact (G o [] N).
Qed.
(** keys of a dictionary are different *)
Lemma set_key_keys {V} k (v : V) m : NoDup (map fst m) -> NoDup (map fst (set_key k v m)).
Proof.
  intros N. induction m as [|[k' v'] m IH]; cbn [set_key]; [repeat constructor; auto|]. destruct (str_eqb k k') eqn:E; [exact N|].
  cbn [map fst] in *. inversion N as [|? ? NI N']; subst. constructor; [|auto].
  intros I. apply in_map_iff in I as ([k2 v2] & E2 & I). cbn in E2. subst k2.
  assert (Q : In k' (map fst (set_key k v m)) -> k' = k \/ In k' (map fst m)).
  { clear. induction m as [|[a b] m IH]; cbn [set_key map fst In]; [intuition|]. destruct (str_eqb k a); cbn [map fst In]; intuition. }
  destruct Q as [->|Q]; [apply (in_map fst) in I; exact I|now rewrite str_eqb_refl in E|contradiction].
Qed.
Definition distinct_keys (secs : list (str * list (str * list str))) : Prop := Forall (fun s => NoDup (map fst (snd s))) secs.
Lemma set_distinct n o secs : distinct_keys secs -> NoDup (map fst o) -> distinct_keys (set_key n o secs).
Proof.
  intros D N. induction D as [|[n' o'] secs H D IH]; cbn [set_key]; [repeat constructor; exact N|].
  destruct (str_eqb n n'); constructor; auto.
Qed.
Lemma get_distinct n o secs : distinct_keys secs -> get_key n secs = Some o -> NoDup (map fst o).
Proof.
  intros D. induction D as [|[n' o'] secs H D IH]; cbn [get_key]; [discriminate|]. destruct (str_eqb n n'); [intros [= <-]; exact H|exact IH].
Qed.
Section Keys.
Context (D C : list str) (strict : bool) (xform : str -> str).
Definition good_keys (ps : state) : Prop := distinct_keys (st_sections ps) /\ NoDup (map fst (st_defaults ps)).
Lemma options_keys ps : good_keys ps -> NoDup (map fst (options ps)).
Proof.
  intros [A B]. unfold options. destruct (st_place ps) as [| |n]; [constructor|exact B|]. rewrite dict_get_key. destruct (get_key n (st_sections ps)) as [o|] eqn:G; [|constructor].
  exact (get_distinct n o _ A G).
Qed.
Lemma with_keys o ps : good_keys ps -> NoDup (map fst o) -> good_keys (with_options o ps).
Proof.
  intros [A B] N. unfold with_options. destruct (st_place ps) as [| |n]; [split; auto|split; cbn; auto|]. split; cbn [st_sections st_defaults]; auto.
  rewrite dict_set_key. now apply set_distinct.
Qed.
Lemma line_keys ps l ps' : good_keys ps -> read_line D C strict xform ps l = Some ps' -> good_keys ps'.
Proof.
  intros G H. unfold read_line in H. cbv zeta in H.
  assert (AP : forall k v s, good_keys s -> good_keys (append_line k v s)).
  { intros k v s Gs. unfold append_line. apply with_keys; auto. rewrite dict_set_key. apply set_key_keys. now apply options_keys. }
  assert (BG : forall s, good_keys s -> good_keys (bogus s)) by (intros s [? ?]; split; auto).
  destruct (if existsb _ C then _ else _) as [|x v].
  { destruct (current ps); injection H as <-; [destruct (existsb _ C); auto|auto]. }
  assert (Main : forall r, match current ps, st_indent ps <? length l - length (py_lstrip l) with Some k, true => Some (append_line k (x :: v) ps) | _, _ => r end = Some ps' ->
     (r = Some ps' -> good_keys ps') -> good_keys ps').
  { intros r E K. destruct (current ps) as [k|]; [|auto]. destruct (st_indent ps <? _); [|auto]. injection E as <-. auto. }
  apply (Main _ H). clear Main H. cbn [st_sections st_defaults st_place st_option st_indent st_bogus].
  destruct (header (x :: v)) as [h|].
  - destruct (same h _); [intros [= <-]; exact G|]. rewrite dict_get_key. destruct (get_key h (st_sections ps)).
    + destruct strict; [discriminate|]. intros [= <-]. exact G.
    + intros [= <-]. split; [|exact (proj2 G)]. cbn [st_sections]. rewrite dict_set_key. apply set_distinct; [exact (proj1 G)|constructor].
  - set (ps0 := mkState _ _ _ _ _ _). assert (G0 : good_keys ps0) by exact G.
    destruct (st_place ps) eqn:Pl; [discriminate| |];
    (destruct (option_line D (x :: v)) as [[k r]|]; [|intros [= <-]; now apply BG];
     assert (G1 : good_keys (match k with [] => bogus ps0 | _ => ps0 end)) by (destruct k; auto);
     set (ps1 := match k with [] => bogus ps0 | _ => ps0 end) in *;
     assert (G2 : good_keys (with_options (dict_set (xform (py_rstrip k)) [py_strip r] (options ps1)) ps1))
       by (apply with_keys; auto; rewrite dict_set_key; apply set_key_keys; now apply options_keys);
     destruct (dict_get _ (options ps1)); [destruct strict; [discriminate|]|]; intros [= <-]; exact G2).
Qed.
Lemma lines_keys ls : forall ps ps', good_keys ps -> read_lines D C strict xform ps ls = Some ps' -> good_keys ps'.
Proof.
  induction ls as [|l ls IH]; intros ps ps' G; cbn [read_lines]; [intros [= <-]; exact G|]. destruct (read_line D C strict xform ps l) as [ps1|] eqn:R; [|discriminate].
  apply IH. exact (line_keys _ _ _ G R).
Qed.
End Keys.

Lemma read_same p text : plain_parser p -> Forall usual_byte text -> whole_ends text ->
  Forall (agreed_line (p_delims p)) (py_lines text) ->
  result (parse_config p text false) = py_read (p_delims p) (p_comments p) (p_strict p) (p_transform p) text.
Proof.
  intros P U W A. unfold parse_config, py_read. fold (go_lines text).
  destruct (lines_same (length text) text (Nat.le_refl _) W) as (gs & tl & -> & Ht & F).
  assert (PT : Forall plain_text (py_lines text)).
  { apply Forall_forall. intros l Hl. apply Forall_forall. intros c Hc. rewrite Forall_forall in U. apply U. exact (py_lines_text text l Hl c Hc). }
  assert (T0 : together init_state (mkState [] [] Nowhere None 0 false)).
  { split; try reflexivity; [split; reflexivity|discriminate|]. intros n o k ls H. discriminate H. }
  pose proof (run_together p P gs (py_lines text) F PT A _ _ T0) as R. rewrite parse_lines_app.
  destruct (parse_lines p init_state gs) as [st|er].
  - destruct R as (ps & E & T). rewrite E, (tg_bogus _ _ T), (tg_defaults _ _ T).
    assert (K0 : good_keys (mkState [] [] Nowhere None 0 false)) by (split; constructor).
    destruct (lines_keys _ _ _ _ _ _ _ K0 E) as [GK _].
    assert (M : map (fun s => (fst s, fold_left (fun d kv => dict_set (fst kv) (snd kv) d) (values (snd s)) (values []))) (st_sections ps) = shown (st_sections ps)).
    { unfold shown. apply map_ext_in. intros [n o] I. cbn [fst snd]. f_equal. change (values []) with (@nil (str * str)). apply empty_merge.
      unfold values. rewrite map_map. cbn [fst]. unfold distinct_keys in GK. rewrite Forall_forall in GK. exact (GK (n, o) I). }
    rewrite M, <- (tg_cfg _ _ T). destruct Ht as [-> | ->]; [reflexivity|]. cbn [parse_lines].
    assert (AN : agreed_line (p_delims p) []).
    { split; [discriminate|]. split; [discriminate|]. intros d Hd. destruct d; [exfalso; now apply (pp_delims p P [] Hd)|reflexivity]. }
    pose proof (line_step p P st [] [] (Forall_nil _) (or_introl eq_refl)) as LS. cbn [app] in LS. rewrite LS. clear LS.
    assert (NC : existsb (fun c => has_prefix c (py_strip [])) (p_comments p) = false).
    { destruct (existsb _ _) eqn:X; [|reflexivity]. apply existsb_exists in X as (c & I & X). destruct c; [exfalso; now apply (pp_comments p P [] I)|discriminate X]. }
    rewrite NC. change (py_strip []) with (@nil ascii). cbn [go_step result]. f_equal.
    pose proof (tg_place _ _ T) as Pl. pose proof (tg_val _ _ T) as V. destruct (c_val st) as [ls|] eqn:CV.
    + apply flush_push_blank; [rewrite CV; intros [= ->]; now destruct (V [] eq_refl)|]. destruct (c_sect st); [discriminate|destruct Pl as [_ Pl]; discriminate Pl].
    + unfold push. rewrite CV. destruct st as [cf i s k v]. cbn in *. now subst v.
  - cbn [result]. destruct (read_lines _ _ _ _ _ (py_lines text)) as [ps|]; [|reflexivity]. now rewrite (R ps eq_refl).
Qed.

(** ** Parsers and examples *)
Lemma parsers_plain : plain_parser new_config_parser /\ plain_parser ep_parser.
Proof.
  assert (T : forall (l : list str), forallb (fun d => match d with [] => false | _ => true end) l = true -> forall d, In d l -> d <> []).
  { intros l H d I ->. rewrite forallb_forall in H. discriminate (H [] I). }
  split; split; try reflexivity; try (apply T; reflexivity); intros [|c k] N; try congruence; discriminate.
Qed.
Definition usual_b (c : ascii) : bool := (N_of_ascii c <? 128)%N && negb ((28 <=? N_of_ascii c)%N && (N_of_ascii c <=? 31)%N).
Lemma usual_dec t : forallb usual_b t = true -> Forall usual_byte t.
Proof.
  intros H. apply Forall_forall. intros c I. rewrite forallb_forall in H. specialize (H c I). unfold usual_b in H.
  apply andb_true_iff in H as [A B]. apply N.ltb_lt in A. split; [exact A|]. intros [C D]. apply N.leb_le in C, D. rewrite C, D in B. discriminate B.
Qed.
Fixpoint whole_b (t : str) : bool :=
  match t with
  | [] => true
  | c :: r => (if Ascii.eqb c "013" then match r with d :: _ => Ascii.eqb d "010" | [] => false end else true) && whole_b r
  end.
Lemma whole_dec t : whole_b t = true -> whole_ends t.
Proof.
  intros H a b ->. induction a as [|x a IH]; cbn [app whole_b] in H; apply andb_true_iff in H as [A B]; [|now apply IH].
  cbn in A. destruct b as [|d b]; [discriminate A|]. apply Ascii.eqb_eq in A as ->. now exists b.
Qed.
Definition agreed_b (D : list str) (l : str) : bool :=
  negb (same (py_strip l) $"[]") &&
  match header (py_strip l) with Some h => same (py_strip l) ($"[" ++ h ++ $"]") && negb (same h $"DEFAULT") | None => true end &&
  forallb (fun d => negb (starts d (py_strip l))) D.
Lemma same_iff a b : same a b = true <-> a = b.
Proof. rewrite same_eqb. apply str_eqb_eq. Qed.
Lemma agreed_dec D ls : forallb (agreed_b D) ls = true -> Forall (agreed_line D) ls.
Proof.
  intros H. apply Forall_forall. intros l I. rewrite forallb_forall in H. specialize (H l I). unfold agreed_b in H.
  apply andb_true_iff in H as [H C]. apply andb_true_iff in H as [A B]. split; [|split].
  - intros E. apply same_iff in E. rewrite E in A. discriminate A.
  - intros h Eh. rewrite Eh in B. apply andb_true_iff in B as [B1 B2]. apply same_iff in B1. split; [exact B1|]. intros E. apply same_iff in E. rewrite E in B2. discriminate B2.
  - intros d Hd. rewrite forallb_forall in C. specialize (C d Hd). now destruct (starts d (py_strip l)).
Qed.
Lemma ex_ini_agrees : plain_parser new_config_parser /\ Forall usual_byte ex_ini /\ whole_ends ex_ini /\
  Forall (agreed_line (p_delims new_config_parser)) (py_lines ex_ini) /\
  result (parse_config new_config_parser ex_ini false) =
    Some [($"console_scripts", [($"foo", $"a.b:c" ++ ["010"%char] ++ $"[x]"); ($"bar", $"d:e")]); ($"t", [($"k", $"1 ; 2")])].
Proof.
  split; [exact (proj1 parsers_plain)|]. split; [apply usual_dec; vm_compute; reflexivity|]. split; [apply whole_dec; vm_compute; reflexivity|].
  split; [apply agreed_dec; vm_compute; reflexivity|vm_compute; reflexivity].
Qed.
Lemma ex_bad_agrees : Forall usual_byte ex_bad_ini /\ whole_ends ex_bad_ini /\ Forall (agreed_line (p_delims new_config_parser)) (py_lines ex_bad_ini) /\
  result (parse_config new_config_parser ex_bad_ini false) = None.
Proof.
  split; [apply usual_dec; vm_compute; reflexivity|]. split; [apply whole_dec; vm_compute; reflexivity|].
  split; [apply agreed_dec; vm_compute; reflexivity|vm_compute; reflexivity].
Qed.
Lemma header_refuted : exists text, Forall usual_byte text /\ whole_ends text /\
  result (parse_config new_config_parser text false) = None /\
  py_read [$"="; $":"] [$"#"; $";"] true to_lower text = Some [($"a", [($"k", $"v")])].
Proof.
  exists (text_of [$"[a] # b"; $"k = v"]). split; [apply usual_dec; vm_compute; reflexivity|]. split; [apply whole_dec; vm_compute; reflexivity|].
  split; vm_compute; reflexivity.
Qed.
Lemma empty_refuted : exists text text', Forall usual_byte text /\ whole_ends text /\ Forall usual_byte text' /\ whole_ends text' /\
  result (parse_config new_config_parser text false) = Some [([], [])] /\ py_read [$"="; $":"] [$"#"; $";"] true to_lower text = None /\
  result (parse_config new_config_parser text' false) = Some [($"a", [([], $"v")])] /\ py_read [$"="; $":"] [$"#"; $";"] true to_lower text' = None.
Proof.
  exists (text_of [$"[]"]), (text_of [$"[a]"; $"= v"]). do 2 (split; [apply usual_dec; vm_compute; reflexivity|]; split; [apply whole_dec; vm_compute; reflexivity|]).
  repeat split; vm_compute; reflexivity.
Qed.
Lemma default_refuted : exists text, Forall usual_byte text /\ whole_ends text /\
  result (parse_config new_config_parser text false) = Some [($"DEFAULT", [($"k", $"v")]); ($"a", [])] /\
  py_read [$"="; $":"] [$"#"; $";"] true to_lower text = Some [($"a", [($"k", $"v")])].
Proof.
  exists (text_of [$"[DEFAULT]"; $"k = v"; $"[a]"]). split; [apply usual_dec; vm_compute; reflexivity|]. split; [apply whole_dec; vm_compute; reflexivity|].
  split; vm_compute; reflexivity.
Qed.
Lemma bytes_refuted : exists text text', whole_ends text /\ Forall usual_byte text' /\
  result (parse_config new_config_parser text false) = Some [($"a", [($"k", $"v" ++ ["028"%char])])] /\
  py_read [$"="; $":"] [$"#"; $";"] true to_lower text = Some [($"a", [($"k", $"v")])] /\
  result (parse_config new_config_parser text' false) = Some [($"a", [($"k", $"v" ++ ["013"%char] ++ $"l = w")])] /\
  py_read [$"="; $":"] [$"#"; $";"] true to_lower text' = Some [($"a", [($"k", $"v"); ($"l", $"w")])].
Proof.
  exists (text_of [$"[a]"; $"k = v" ++ ["028"%char]]), (text_of [$"[a]"; $"k = v" ++ ["013"%char] ++ $"l = w"]).
  split; [apply whole_dec; vm_compute; reflexivity|]. split; [apply usual_dec; vm_compute; reflexivity|]. repeat split; vm_compute; reflexivity.
Qed.
