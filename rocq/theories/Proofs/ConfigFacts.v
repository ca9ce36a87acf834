(** Parsing what RawConfigParser.write writes, and the errors. *)
From Coq Require Import String Ascii List Bool Arith NArith Lia.
From Verif.Model Require Import GoStr UniSpace ConfigParser.
From Verif.Spec Require Import WhiteSpaceSpec ConfigSpec.
From Verif.Proofs Require Import Order GoStrFacts GoPathFacts RegexFacts SpecifierParse WhiteSpaceFacts.
Import ListNotations.
Local Open Scope nat_scope.

Local Arguments byte_eqb : simpl never.
Local Arguments str_eqb : simpl never.
Local Arguments is_space : simpl never.
Local Arguments trim_space_u : simpl never.
Local Arguments trim_left_u : simpl never.
Local Arguments trim_right : simpl never.

(** ** Maps *)
Lemma get_set_key {V} k k' (v : V) m :
  get_key k (set_key k' v m) = if str_eqb k k' then Some v else get_key k m.
Proof.
  induction m as [|[a b] m IH]; cbn [set_key get_key].
  - reflexivity.
  - destruct (str_eqb k' a) eqn:E; cbn [get_key].
    + apply str_eqb_eq in E. subst a. destruct (str_eqb k k'); auto.
    + rewrite IH. destruct (str_eqb k a) eqn:E'; auto.
      apply str_eqb_eq in E'. subst a. destruct (str_eqb k k') eqn:F; auto.
      apply str_eqb_eq in F. subst k'. now rewrite str_eqb_refl in E.
Qed.
Lemma get_key_none {V} k (m : list (str * V)) : get_key k m = None <-> ~ In k (map fst m).
Proof.
  induction m as [|[a b] m IH]; cbn [get_key map fst In].
  - tauto.
  - destruct (str_eqb k a) eqn:E.
    + apply str_eqb_eq in E. subst a. split; [discriminate|]. intros H. exfalso. auto.
    + rewrite IH. assert (a <> k) by (intros ->; now rewrite str_eqb_refl in E). tauto.
Qed.
Lemma set_key_new {V} k (v : V) m : ~ In k (map fst m) -> set_key k v m = m ++ [(k, v)].
Proof.
  induction m as [|[a b] m IH]; cbn [set_key map fst In app]; auto.
  intros H. destruct (str_eqb k a) eqn:E.
  - apply str_eqb_eq in E. subst a. exfalso. auto.
  - rewrite IH; auto.
Qed.
Lemma set_key_last {V} k (v v' : V) m : ~ In k (map fst m) -> set_key k v (m ++ [(k, v')]) = m ++ [(k, v)].
Proof.
  induction m as [|[a b] m IH]; cbn [set_key map fst In app]; intros H.
  - now rewrite str_eqb_refl.
  - destruct (str_eqb k a) eqn:E.
    + apply str_eqb_eq in E. subst a. exfalso. auto.
    + rewrite IH; auto.
Qed.
Lemma get_key_last {V} k (v : V) m : ~ In k (map fst m) -> get_key k (m ++ [(k, v)]) = Some v.
Proof.
  induction m as [|[a b] m IH]; cbn [get_key map fst In app]; intros H.
  - now rewrite str_eqb_refl.
  - destruct (str_eqb k a) eqn:E.
    + apply str_eqb_eq in E. subst a. exfalso. auto.
    + apply IH. auto.
Qed.

(** ** Trimming *)
Definition line_end (e : str) : Prop := e = [] \/ e = [nl].
Lemma line_end_space e : line_end e -> blanks e.
Proof. intros [->| ->]; now apply blanks_bytes. Qed.
Lemma blanks_byte s c : blanks s -> In c s -> is_space c = true \/ ~ ascii_byte c.
Proof.
  induction 1 as [|w s Hw Hs IH]; intros H; [destruct H|]. apply in_app_iff in H as [H|H]; [|auto].
  destruct (word_head w Hw) as (x & r & E & X). pose proof (word_tail w x r Hw E) as T. unfold ascii_byte. rewrite E in H. destruct H as [-> | H].
  - destruct r as [|y r]; [left; apply word_byte; now rewrite <- E|]. right. intros L.
    assert (G : forallb (fun w => match w with a :: _ :: _ => negb (N.ltb (N_of_ascii a) 128) | _ => true end) words = true) by (vm_compute; reflexivity).
    rewrite forallb_forall in G. apply word_in in Hw. specialize (G w Hw). rewrite E in G. apply negb_true_iff, N.ltb_ge in G. lia.
  - right. rewrite Forall_forall in T. specialize (T c H). lia.
Qed.
Lemma ascii_word w c : space_word w -> In c w -> ascii_byte c -> w = [c].
Proof.
  intros Hw I A. destruct (word_head w Hw) as (x & r & E & X). pose proof (word_tail w x r Hw E) as T.
  destruct r as [|y r]; [subst w; destruct I as [-> | []]; reflexivity|]. exfalso. subst w. destruct I as [-> | I].
  - assert (G : forallb (fun w => match w with a :: _ :: _ => negb (N.ltb (N_of_ascii a) 128) | _ => true end) words = true) by (vm_compute; reflexivity).
    rewrite forallb_forall in G. apply word_in in Hw. specialize (G _ Hw). cbn in G. apply negb_true_iff, N.ltb_ge in G. unfold ascii_byte in A. lia.
  - rewrite Forall_forall in T. specialize (T c I). unfold ascii_byte in A. lia.
Qed.
Lemma solid_last s d v : is_space d = false -> ascii_byte d -> solid_end v -> solid_end (s ++ d :: v).
Proof.
  intros D A V w r Hw E. replace (s ++ d :: v) with ((s ++ [d]) ++ v) in E by (rewrite <- app_assoc; reflexivity). symmetry in E.
  destruct (app_split _ _ _ _ E) as [(c & Ec & Ev) | (c & Ec & Ev)].
  - destruct c as [|x c] using rev_ind; [cbn in Ev; apply (V w [] Hw); now rewrite Ev|]. clear IHc.
    rewrite app_assoc in Ec. apply app_inj_tail in Ec as [_ <-]. assert (X : w = [d]) by (apply ascii_word; auto; rewrite Ev; apply in_or_app; left; apply in_or_app; right; now left).
    rewrite X in Hw. apply word_byte in Hw. congruence.
  - exact (V w c Hw Ev).
Qed.
Lemma fresh_ascii c s : ascii_byte c -> fresh (c :: s).
Proof. intros H. left. exact H. Qed.
(** a line whose solid_ends text is a [k], spaces and [d], followed by [v] *)
Lemma trim_item k sp d v e : k <> [] -> solid_start k -> fresh sp -> is_space d = false -> ascii_byte d -> line_end e ->
  trim_space_u (k ++ sp ++ d :: v ++ e) = k ++ sp ++ d :: trim_right_u v.
Proof.
  intros N H F D A E. destruct (right_sound v) as (b & Ev & B & S). apply trim_iff. split.
  - split.
    + apply start_app; auto. apply fresh_app; [exact F|now apply fresh_ascii].
    + rewrite app_assoc. now apply solid_last.
  - exists [], (b ++ e). split; [|split; [constructor|apply blanks_both; [exact B|now apply line_end_space]]].
    rewrite Ev at 1. cbn [app]. rewrite <- !app_assoc. reflexivity.
Qed.
Lemma trim_right_same v : trim_space_u (trim_right_u v) = trim_space_u v.
Proof. destruct (right_sound v) as (b & Ev & B & S). rewrite Ev at 2. now rewrite trim_end. Qed.
Lemma trim_key k sp : solid_ends k -> blanks sp -> trim_space_u (k ++ sp) = k.
Proof. intros T H. rewrite trim_end by exact H. now apply trim_solid. Qed.

(** ** Finding the delimiter *)
Lemma index_of_byte c s : match index_of [c] s with
  | Some i => exists a b, s = a ++ c :: b /\ length a = i /\ ~ In c a
  | None => ~ In c s
  end.
Proof.
  induction s as [|x s IH]; cbn [index_of has_prefix].
  - auto.
  - destruct (byte_eqb c x) eqn:E.
    + apply byte_eqb_eq in E. subst x. exists [], s. cbn. auto.
    + assert (x <> c) by (intros ->; unfold byte_eqb in E; now rewrite Ascii.eqb_refl in E).
      cbn [andb]. destruct (index_of [c] s) as [i|].
      * destruct IH as (a & b & -> & L & N). exists (x :: a), b. cbn. repeat split; auto.
        intros [F|F]; auto.
      * intros [F|F]; auto.
Qed.
Lemma index_at a c b : ~ In c a -> index_of [c] (a ++ c :: b) = Some (length a).
Proof.
  intros N. pose proof (index_of_byte c (a ++ c :: b)) as H. destruct (index_of [c] (a ++ c :: b)) as [i|].
  - destruct H as (a' & b' & E & L & N'). subst i. f_equal. clear - N N' E.
    revert a' N' E. induction a as [|x a IH]; intros [|y a'] N' E; cbn in *; auto.
    + injection E as E1 E2. exfalso. auto.
    + injection E as E1 E2. subst. exfalso. auto.
    + injection E as E1 E2. f_equal. apply IH; auto.
  - exfalso. apply H, in_or_app. right. now left.
Qed.
Lemma find_none p ds v : p_delims p = map (fun c => [c]) ds -> (forall d, In d ds -> ~ In d v) ->
  find_sep p v = (length v, 0).
Proof.
  unfold find_sep. intros -> H. generalize (length v, 0) as acc. induction ds as [|d ds IH]; intros acc; auto.
  cbn [map fold_left]. pose proof (index_of_byte d v) as X. destruct (index_of [d] v).
  - exfalso. destruct X as (a & b & E & _). apply (H d); [now left|]. rewrite E. apply in_or_app. right. now left.
  - apply IH. intros c I. apply H. now right.
Qed.
Lemma find_at p ds a d b : p_delims p = map (fun c => [c]) ds -> In d ds -> (forall c, In c ds -> ~ In c a) ->
  find_sep p (a ++ d :: b) = (length a, 1).
Proof.
  unfold find_sep. intros -> I H. set (v := a ++ d :: b).
  assert (L : length a < length v) by (unfold v; rewrite app_length; cbn; lia).
  assert (A : length a < fst (length v, 0) /\ In d ds \/ (length v, 0) = (length a, 1)) by (left; cbn; auto).
  clear I L. revert A. generalize (length v, 0) as acc.
  assert (Hall : forall c, In c ds -> match index_of [c] v with Some i => length a <= i | None => True end).
  { intros c I. pose proof (index_of_byte c v) as X. destruct (index_of [c] v) as [i|]; auto.
    destruct X as (a' & b' & E & <- & _). unfold v in E.
    destruct (le_lt_dec (length a) (length a')); auto. exfalso.
    apply (H c I). assert (N : nth_error (a ++ d :: b) (length a') = Some c).
    { rewrite E, nth_error_app2, Nat.sub_diag by lia. reflexivity. }
    rewrite nth_error_app1 in N by lia. now apply nth_error_In in N. }
  assert (Hd : index_of [d] v = Some (length a) \/ ~ In d ds).
  { destruct (in_dec ascii_dec d ds) as [I|]; auto. left. apply index_at. auto. }
  clear H. induction ds as [|c ds IH]; intros acc A.
  - destruct A as [[_ []]|A]. exact A.
  - cbn [map fold_left]. apply IH.
    + intros x I. apply Hall. now right.
    + destruct Hd as [Hd|Hd]; [auto|]. right. intros I. apply Hd. now right.
    + specialize (Hall c (or_introl eq_refl)). destruct A as [[L I]|A].
      * destruct I as [->|I].
        -- destruct Hd as [Hd|Hd]; [|exfalso; apply Hd; now left]. rewrite Hd.
           apply Nat.ltb_lt in L. rewrite L. right. reflexivity.
        -- destruct (index_of [c] v) as [i|]; [|auto]. destruct (i <? fst acc) eqn:Q; auto. cbn.
           destruct (Nat.eq_dec i (length a)) as [->|]; [right; reflexivity|left; split; [lia|auto]].
      * rewrite A. cbn [fst]. destruct (index_of [c] v) as [i|]; auto.
        destruct (i <? length a) eqn:Q; auto. apply Nat.ltb_lt in Q. lia.
Qed.

(** ** One line *)
Section Lines.
Context (p : parser) (ds cs : list ascii) (U : usual p ds cs).

Lemma comment_start_none line : not_starting cs (trim_space_u line) -> comment_start p line = length line.
Proof.
  intros H. unfold comment_start, inline_start. rewrite (us_inline _ _ _ U), (us_comments _ _ _ U).
  cbn [fold_left]. replace (existsb _ _) with false; auto. symmetry.
  destruct (trim_space_u line) as [|c t].
  - clear. induction cs as [|x l IH]; auto.
  - cbn in H. revert H. clear. induction cs as [|x l IH]; intros H; auto.
    cbn [map existsb has_prefix]. rewrite IH by (intros F; apply H; now right).
    destruct (byte_eqb x c) eqn:E; auto. apply byte_eqb_eq in E. subst. exfalso. apply H. now left.
Qed.
Lemma comment_start_cases line : comment_start p line = length line \/ comment_start p line = 0.
Proof.
  unfold comment_start, inline_start. rewrite (us_inline _ _ _ U). cbn [fold_left].
  destruct (existsb _ _); auto.
Qed.

Definition push (st : cstate) (l : str) : cstate :=
  mkC (c_cfg st) (c_indent st) (c_sect st) (c_key st)
    (match c_val st with Some ls => Some (ls ++ [l]) | None => None end).

Lemma line_blank st line : trim_space_u line = [] -> parse_line p st line = COk (push st []).
Proof.
  intros H. unfold parse_line. rewrite comment_start_none by now rewrite H.
  rewrite firstn_all, H, (us_empty _ _ _ U), Nat.eqb_refl. unfold push. destruct st as [cf i s k [ls|]]; reflexivity.
Qed.
Lemma line_cont st ls l e : c_val st = Some ls -> c_indent st = 0 -> line_end e -> l <> [] -> solid_ends l ->
  not_starting cs l -> parse_line p st ($"	" ++ l ++ e) = COk (push st l).
Proof.
  intros V I E N T C.
  assert (TT : trim_space_u ($"	" ++ l ++ e) = l).
  { rewrite trim_front by now apply blanks_bytes. rewrite trim_end by now apply line_end_space. now apply trim_solid. }
  unfold parse_line. rewrite comment_start_none by now rewrite TT. rewrite firstn_all, TT.
  assert (L : indent_level ($"	" ++ l ++ e) = 1).
  { unfold indent_level. rewrite left_exact; [|now apply blanks_bytes|apply start_app; [exact N|exact (proj1 T)|now apply blanks_fresh, line_end_space]].
    rewrite app_length. change (length $"	") with 1. destruct (l ++ e) eqn:Q; [apply app_eq_nil in Q as [Q _]; congruence|]. lia. }
  destruct l as [|c l]; [congruence|].
  rewrite L, V. unfold push. rewrite V, I. reflexivity.
Qed.

Lemma indent_zero l : solid_start l -> indent_level l = 0.
Proof.
  intros H. unfold indent_level. pose proof (left_exact [] l blanks_nil H) as E. cbn [app] in E. rewrite E. destruct l; [reflexivity|lia].
Qed.
Lemma start_ascii c l : is_space c = false -> ascii_byte c -> solid_start (c :: l).
Proof.
  intros H A w r Hw E. destruct (word_head w Hw) as (x & t & -> & _). injection E as -> _.
  pose proof (ascii_word _ x Hw (or_introl eq_refl) A) as X. rewrite X in Hw. apply word_byte in Hw. congruence.
Qed.

Lemma line_header st n e : line_end e ->
  parse_line p st ($"[" ++ n ++ $"]" ++ e) =
  match get_key n (c_cfg (flush_kv st)) with
  | None => COk (mkC (set_key n [] (c_cfg (flush_kv st))) 0 (Some n) (c_key (flush_kv st)) (c_val (flush_kv st)))
  | Some _ => if p_strict p then CErr (CDupSection n)
              else COk (mkC (c_cfg (flush_kv st)) 0 (Some n) (c_key (flush_kv st)) (c_val (flush_kv st)))
  end.
Proof.
  intros E.
  assert (TT : trim_space_u ($"[" ++ n ++ $"]" ++ e) = $"[" ++ n ++ $"]").
  { apply trim_iff. split.
    - split; [now apply (start_ascii "["%char)|]. change ($"[" ++ n ++ $"]") with (($"[" ++ n) ++ "]"%char :: []). now apply solid_last; [| |apply solid_nil].
    - exists [], e. split; [cbn [app]; now rewrite <- !app_assoc|]. split; [constructor|now apply line_end_space]. }
  unfold parse_line. rewrite comment_start_none.
  2:{ rewrite TT. cbn. intros F. now apply (us_cs _ _ _ U) in F. }
  rewrite firstn_all, TT.
  assert (S1 : has_suffix $"]" ($"[" ++ n ++ $"]") = true).
  { apply has_suffix_spec. exists ($"[" ++ n). now rewrite <- app_assoc. }
  rewrite S1, has_prefix_app. rewrite trim_prefix_app, trim_suffix_app.
  change (indent_level ($"[" ++ n ++ $"]" ++ e)) with (indent_level ("["%char :: n ++ $"]" ++ e)).
  rewrite indent_zero by now apply start_ascii. cbn [Nat.ltb Nat.leb andb].
  destruct ($"[" ++ n ++ $"]") eqn:F; [discriminate|]. destruct (c_val st); reflexivity.
Qed.

Lemma line_item st k sp d v e n : line_end e -> good_key ds cs k -> blanks sp -> In d ds ->
  c_sect (flush_kv st) = Some n ->
  parse_line p st (k ++ sp ++ d :: v ++ e) =
  match get_key (p_transform p k) (match get_key n (c_cfg (flush_kv st)) with Some s => s | None => [] end), p_strict p with
  | Some _, true => CErr (CDupKey (p_transform p k))
  | _, _ => COk (mkC (c_cfg (flush_kv st)) 0 (Some n) (p_transform p k) (Some [trim_space_u v]))
  end.
Proof.
  intros E (KN & KT & _ & KD & KS) Hsp Hd Hs.
  pose proof (proj1 KT) as KH.
  destruct (us_ds _ _ _ U d Hd) as [Sd Ad].
  assert (TT := trim_item k sp d v e KN KH (blanks_fresh _ Hsp) Sd Ad E).
  unfold parse_line. rewrite comment_start_none.
  2:{ rewrite TT. destruct k as [|c k]; [congruence|]. cbn in *. intros F. apply KS. now right. }
  rewrite firstn_all, TT.
  assert (IL : indent_level (k ++ sp ++ d :: v ++ e) = 0).
  { apply indent_zero. apply start_app; auto. apply fresh_app; [now apply blanks_fresh|now apply fresh_ascii]. }
  rewrite IL. cbn [Nat.ltb Nat.leb andb].
  assert (NP : has_prefix $"[" (k ++ sp ++ d :: trim_right_u v) = false).
  { destruct k as [|c k]; [congruence|]. cbn in *. destruct (byte_eqb "[" c) eqn:B; auto.
    apply byte_eqb_eq in B. subst. exfalso. apply KS. now left. }
  rewrite NP. cbn [andb].
  assert (FS : find_sep p (k ++ sp ++ d :: trim_right_u v) = (length (k ++ sp), 1)).
  { rewrite app_assoc. apply find_at with (ds := ds); auto. { apply (us_delims _ _ _ U). }
    intros c I F. apply in_app_or in F as [F|F]. { now apply (KD c I). }
    destruct (us_ds _ _ _ U c I) as [Sc Ac]. destruct (blanks_byte sp c Hsp F); [congruence|contradiction]. }
  rewrite FS, Hs.
  assert (LL : (length (k ++ sp) =? length (k ++ sp ++ d :: trim_right_u v)) = false).
  { apply Nat.eqb_neq. rewrite (app_assoc k), (app_length (k ++ sp)). cbn. lia. }
  rewrite LL. rewrite (app_assoc k), firstn_app_exact, trim_key by auto.
  assert (SK : skipn (length (k ++ sp) + 1) ((k ++ sp) ++ d :: trim_right_u v) = trim_right_u v).
  { replace (length (k ++ sp) + 1) with (length ((k ++ sp) ++ [d])) by (rewrite app_length; reflexivity).
    replace ((k ++ sp) ++ d :: trim_right_u v) with (((k ++ sp) ++ [d]) ++ trim_right_u v)
      by (rewrite <- app_assoc; reflexivity).
    apply skipn_app_exact. }
  rewrite SK, trim_right_same.
  destruct ((k ++ sp) ++ d :: trim_right_u v) eqn:Q.
  { exfalso. apply app_eq_nil in Q as [_ Q]. discriminate. }
  destruct (c_val st); reflexivity.
Qed.

Lemma line_stray st l e : line_end e -> stray ds cs l -> exists er, parse_line p st (l ++ e) = CErr er.
Proof.
  intros E H. destruct l as [|c l]; [destruct H|]. destruct H as (Hs & Hb & Hc & Hd).
  assert (TT : exists t, trim_space_u ((c :: l) ++ e) = c :: t /\ forall x, In x t -> In x l).
  { rewrite trim_end by now apply line_end_space. destruct (trim_sound (c :: l)) as (a & b & Et & A & B & _).
    destruct A as [|w a Hw A]; [|exfalso; apply (Hs w (a ++ trim_space_u (c :: l) ++ b) Hw); now rewrite app_assoc].
    cbn [app] in Et. destruct (trim_space_u (c :: l)) as [|c' r] eqn:R.
    - exfalso. cbn in Et. destruct B as [|w b Hw B]; [discriminate Et|]. now apply (Hs w b Hw).
    - cbn in Et. injection Et as <- Er. exists r. split; auto. intros x I. rewrite Er. apply in_or_app. auto. }
  destruct TT as (t & TT & Ht). unfold parse_line. rewrite comment_start_none by (rewrite TT; exact Hc).
  rewrite firstn_all, TT. rewrite indent_zero by (apply start_app; [discriminate|exact Hs|now apply blanks_fresh, line_end_space]). cbn [Nat.ltb Nat.leb andb].
  assert (NP : has_prefix $"[" (c :: t) = false).
  { cbn. destruct (byte_eqb "[" c) eqn:B; auto. apply byte_eqb_eq in B. congruence. }
  rewrite NP. cbn [andb].
  assert (FN : find_sep p (c :: t) = (length (c :: t), 0)).
  { apply find_none with (ds := ds); [apply (us_delims _ _ _ U)|]. intros d I [F|F]; apply (Hd d I).
    - now left.
    - right. auto. }
  rewrite FN, Nat.eqb_refl.
  destruct (c_val st); destruct (c_sect (flush_kv st)); eauto.
Qed.

(** ** Runs *)
Lemma parse_lines_app st a b : parse_lines p st (a ++ b) =
  match parse_lines p st a with COk st' => parse_lines p st' b | CErr e => CErr e end.
Proof.
  revert st. induction a as [|l a IH]; intros st; auto. cbn [app parse_lines].
  destruct (parse_line p st l); auto.
Qed.

(** in section [n], read so far [kvs] of it after [done] *)
Record inside (st : cstate) (done : config) (n : str) (kvs : section) : Prop := mkIn {
  in_sect : c_sect st = Some n;
  in_indent : c_indent st = 0;
  in_cfg : c_cfg (flush_kv st) = done ++ [(n, kvs)];
  in_val : c_val st <> Some []
}.
Lemma flush_sect st : c_sect (flush_kv st) = c_sect st.
Proof. unfold flush_kv. destruct (c_val st) eqn:E, (c_sect st) eqn:F; cbn; auto. Qed.
Lemma flush_val st : c_sect st <> None -> c_val (flush_kv st) = None.
Proof. unfold flush_kv. destruct (c_val st) eqn:E, (c_sect st) eqn:F; cbn; auto. congruence. Qed.

Lemma join_snoc sep ls l : ls <> [] -> join sep (ls ++ [l]) = join sep ls ++ sep ++ l.
Proof.
  induction ls as [|x [|y ls] IH]; intros H; [congruence| |].
  - reflexivity.
  - assert (J : join sep (x :: y :: ls) = x ++ sep ++ join sep (y :: ls)) by reflexivity. rewrite J.
    assert (J2 : join sep ((x :: y :: ls) ++ [l]) = x ++ sep ++ join sep ((y :: ls) ++ [l])) by reflexivity.
    rewrite J2, IH by discriminate. now rewrite <- !app_assoc.
Qed.
Lemma flush_push_blank st : c_val st <> Some [] -> c_sect st <> None -> c_cfg (flush_kv (push st [])) = c_cfg (flush_kv st).
Proof.
  intros N M. unfold flush_kv, push. cbn. destruct (c_val st) as [ls|], (c_sect st) as [s|]; auto. cbn.
  rewrite join_snoc by (intros ->; auto). rewrite app_nil_r, trim_right_app_all; auto.
Qed.
Lemma inside_blank st done n kvs : inside st done n kvs -> inside (push st []) done n kvs.
Proof.
  intros [A B C D]. split; auto.
  - rewrite flush_push_blank; auto. congruence.
  - cbn. destruct (c_val st) as [ls|]; [|discriminate]. intros F. injection F as F. now apply app_eq_nil in F.
Qed.

(** the lines of an item after the first *)
Definition cont_lines (ls : list str) : list str := map (fun l => $"	" ++ l ++ [nl]) ls.
Lemma run_cont ls : Forall solid_ends ls -> Forall (not_starting cs) ls ->
  forall st vs, c_val st = Some vs -> c_indent st = 0 ->
  parse_lines p st (cont_lines ls) = COk (mkC (c_cfg st) 0 (c_sect st) (c_key st) (Some (vs ++ ls))).
Proof.
  intros T C. induction ls as [|l ls IH]; intros st vs V I.
  - rewrite app_nil_r. cbn. destruct st; cbn in *; subst; reflexivity.
  - inversion T; subst. inversion C; subst. cbn [cont_lines map parse_lines].
    assert (E : parse_line p st ($"	" ++ l ++ [nl]) = COk (push st l)).
    { destruct l as [|c l].
      - rewrite line_blank; auto.
      - apply line_cont with (ls := vs); auto. { now right. } discriminate. }
    rewrite E. erewrite IH; auto.
    2:{ unfold push. cbn. now rewrite V. }
    unfold push. cbn. now rewrite <- app_assoc.
Qed.

Definition item_lines (kv : str * str) : list str :=
  match split_on nl (snd kv) with
  | [] => []
  | l :: ls => (fst kv ++ $" = " ++ l ++ [nl]) :: cont_lines ls
  end.

Lemma trim_right_nl v : (forall w, v <> w ++ [nl]) -> trim_right (byte_eqb nl) v = v.
Proof.
  intros H. destruct (trim_right_prefix (byte_eqb nl) v) as (t & E & Ht).
  destruct t as [|c t]. { now rewrite app_nil_r in E. }
  exfalso. destruct (exists_last (l := c :: t)) as (t' & x & E'); [discriminate|]. rewrite E' in *.
  rewrite forallb_app in Ht. apply andb_true_iff in Ht as [_ Ht]. cbn in Ht. rewrite andb_true_r in Ht.
  apply byte_eqb_eq in Ht. subst x. apply (H (trim_right (byte_eqb nl) v ++ t')). now rewrite <- app_assoc.
Qed.

Lemma run_item st done n kvs k v : inside st done n kvs -> ~ In n (map fst done) -> ~ In k (map fst kvs) ->
  good_key ds cs k -> p_transform p k = k -> good_value cs v ->
  exists st', parse_lines p st (item_lines (k, v)) = COk st' /\ inside st' done n (kvs ++ [(k, v)]).
Proof.
  intros [A B C D] Nn Nk Gk Tk (V1 & V2 & V3). unfold item_lines. cbn [fst snd].
  destruct (split_on nl v) as [|l ls] eqn:S; [now apply split_on_nonempty in S|].
  cbn [tl] in V2. inversion V1 as [|? ? Tl Tls]; subst.
  cbn [parse_lines].
  replace (k ++ $" = " ++ l ++ [nl]) with (k ++ $" " ++ "="%char :: ($" " ++ l) ++ [nl]) by reflexivity.
  rewrite line_item with (n := n); auto.
  2:{ now right. }
  2:{ now apply blanks_bytes. }
  2:{ apply (us_eq _ _ _ U). }
  2:{ rewrite flush_sect; auto. }
  rewrite C, get_key_last, Tk by auto.
  apply get_key_none in Nk as Nk'. rewrite Nk'.
  assert (TV : trim_space_u ($" " ++ l) = l) by (rewrite trim_front by (now apply blanks_bytes); now apply trim_solid).
  rewrite TV. erewrite run_cont; auto. 2:{ reflexivity. }
  eexists. split; [reflexivity|]. cbn. split; auto; [|discriminate].
  unfold flush_kv. cbn [c_val c_sect c_cfg c_key]. rewrite get_key_last by auto.
  change ([l] ++ ls) with (l :: ls). rewrite <- S, join_split_on, trim_right_nl by auto.
  rewrite (set_key_new k v kvs) by auto. now apply set_key_last.
Qed.

Lemma run_items items : forall st done n kvs, inside st done n kvs -> ~ In n (map fst done) ->
  NoDup (map fst (kvs ++ items)) ->
  (forall k v, In (k, v) items -> good_key ds cs k /\ p_transform p k = k /\ good_value cs v) ->
  exists st', parse_lines p st (concat (map item_lines items)) = COk st' /\ inside st' done n (kvs ++ items).
Proof.
  induction items as [|[k v] items IH]; intros st done n kvs I Nn ND G.
  - exists st. rewrite app_nil_r. auto.
  - cbn [map concat]. rewrite parse_lines_app. destruct (G k v (or_introl eq_refl)) as (G1 & G2 & G3).
    destruct (run_item st done n kvs k v) as (st1 & E1 & I1); auto.
    { rewrite map_app in ND. cbn in ND. apply NoDup_remove_2 in ND. intros F. apply ND, in_or_app. auto. }
    rewrite E1. destruct (IH st1 done n (kvs ++ [(k, v)])) as (st2 & E2 & I2); auto.
    { now rewrite <- app_assoc. }
    { intros k' v' F. apply G. now right. }
    rewrite <- app_assoc in I2. eauto.
Qed.

Definition section_lines (s : str * section) : list str :=
  ($"[" ++ fst s ++ $"]" ++ [nl]) :: concat (map item_lines (snd s)) ++ [[nl]].

(** between sections *)
Definition between (st : cstate) (done : config) : Prop :=
  c_cfg (flush_kv st) = done /\ c_val st <> Some [] /\ (c_val st = None \/ c_sect st <> None).

Lemma flush_none st : c_val st = None \/ c_sect st <> None -> c_val (flush_kv st) = None.
Proof. intros [H|H]; [|now apply flush_val]. unfold flush_kv. rewrite H. auto. Qed.

Lemma run_section st done n (items : section) : between st done -> ~ In n (map fst done) -> NoDup (map fst items) ->
  (forall k v, In (k, v) items -> good_key ds cs k /\ p_transform p k = k /\ good_value cs v) ->
  exists st', parse_lines p st (section_lines (n, items)) = COk st' /\ between st' (done ++ [(n, items)]) /\
              inside st' done n items.
Proof.
  intros (B1 & B2 & B3) Nn ND G. unfold section_lines. cbn [fst snd parse_lines].
  rewrite line_header by now right. rewrite B1. apply get_key_none in Nn as Nn'. rewrite Nn'.
  rewrite set_key_new by auto. rewrite (flush_none st B3).
  set (s0 := mkC _ _ _ _ _).
  assert (I0 : inside s0 done n []).
  { split; auto. discriminate. }
  destruct (run_items items s0 done n [] I0) as (st1 & E1 & I1); auto.
  rewrite parse_lines_app, E1. cbn [parse_lines app] in *. rewrite line_blank by reflexivity.
  apply inside_blank in I1. eexists. split; [reflexivity|]. split; auto.
  destruct I1 as [I1 I2 I3 I4]. split; auto. split; auto. right. congruence.
Qed.

Lemma run_config c : forall st done, between st done -> NoDup (map fst (done ++ c)) ->
  (forall n s, In (n, s) c -> NoDup (map fst s)) ->
  (forall n s k v, In (n, s) c -> In (k, v) s -> good_key ds cs k /\ p_transform p k = k /\ good_value cs v) ->
  exists st', parse_lines p st (concat (map section_lines c)) = COk st' /\ between st' (done ++ c).
Proof.
  induction c as [|[n s] c IH]; intros st done B ND K G.
  - exists st. rewrite app_nil_r. auto.
  - cbn [map concat]. rewrite parse_lines_app.
    destruct (run_section st done n s) as (st1 & E1 & B1 & _); auto.
    { rewrite map_app in ND. cbn in ND. apply NoDup_remove_2 in ND. intros F. apply ND, in_or_app. auto. }
    { eapply K. now left. }
    { intros k v I. eapply G; eauto. now left. }
    rewrite E1. destruct (IH st1 (done ++ [(n, s)])) as (st2 & E2 & B2); auto.
    { now rewrite <- app_assoc. }
    { intros n' s' I. eapply K. right. eauto. }
    { intros n' s' k v I J. eapply (G n' s'); auto. now right. }
    rewrite <- app_assoc in B2. eauto.
Qed.
End Lines.

(** ** Cutting the text into lines *)
Definition nl_lines (ls : list str) : Prop := Forall (fun l => exists l', l = l' ++ [nl] /\ ~ In nl l') ls.
Lemma file_lines_app ls t : nl_lines ls ->
  file_lines (split_on nl (concat ls ++ t)) = ls ++ file_lines (split_on nl t).
Proof.
  intros H. induction H as [|l ls (l' & -> & N) H IH]; auto.
  cbn [concat app]. rewrite <- !app_assoc. cbn [app]. rewrite split_on_app by auto.
  cbn [file_lines]. rewrite <- IH.
  destruct (split_on nl (concat ls ++ t)) eqn:E; [now apply split_on_nonempty in E|]. reflexivity.
Qed.
Lemma nl_lines_app a b : nl_lines a -> nl_lines b -> nl_lines (a ++ b).
Proof. intros. apply Forall_app. auto. Qed.
Lemma nl_lines_concat ls : (forall l, In l ls -> nl_lines l) -> nl_lines (concat ls).
Proof.
  induction ls as [|l ls IH]; intros H. { constructor. }
  cbn. apply nl_lines_app; [apply H; now left|]. apply IH. intros. apply H. now right.
Qed.
Lemma join_cont l ls : join (nl :: $"	") (l :: ls) ++ [nl] = concat ((l ++ [nl]) :: cont_lines ls).
Proof.
  revert l. induction ls as [|m ls IH]; intros l.
  - cbn. now rewrite app_nil_r.
  - assert (J : join (nl :: $"	") (l :: m :: ls) = l ++ (nl :: $"	") ++ join (nl :: $"	") (m :: ls)) by reflexivity.
    rewrite J. rewrite <- !app_assoc. cbn [app]. rewrite IH. cbn [concat cont_lines map].
    rewrite <- !app_assoc. reflexivity.
Qed.
Lemma render_item_lines kv : render_item kv = concat (item_lines kv).
Proof.
  unfold render_item, item_lines, render_value. destruct (split_on nl (snd kv)) as [|l ls] eqn:E.
  { now apply split_on_nonempty in E. }
  rewrite join_cont. cbn [concat]. now rewrite <- !app_assoc.
Qed.
Lemma concat_concat {A B} (f : A -> list B) (g : A -> list (list B)) l :
  (forall x, In x l -> f x = concat (g x)) -> concat (map f l) = concat (concat (map g l)).
Proof.
  induction l as [|x l IH]; intros H; auto. cbn [map concat]. rewrite concat_app, H, IH; auto.
  - intros. apply H. now right.
  - now left.
Qed.
Lemma render_section_lines s : render_section s = concat (section_lines s).
Proof.
  unfold render_section, section_lines. cbn [concat]. rewrite concat_app. cbn [concat].
  rewrite (concat_concat _ item_lines) by (intros; apply render_item_lines).
  rewrite <- !app_assoc. reflexivity.
Qed.
Lemma render_lines c : render c = concat (concat (map section_lines c)).
Proof. apply concat_concat. intros. apply render_section_lines. Qed.

Lemma item_nl k v : ~ In nl k -> nl_lines (item_lines (k, v)).
Proof.
  intros N. unfold item_lines. cbn [fst snd]. pose proof (split_on_no_sep nl v) as F.
  destruct (split_on nl v) as [|l ls]; [constructor|]. inversion F; subst. constructor.
  - exists (k ++ $" = " ++ l). split; [now rewrite <- !app_assoc|]. intros I.
    apply in_app_or in I as [I|I]; auto. apply in_app_or in I as [I|I]; auto.
    repeat (destruct I as [I|I]; [discriminate I|]). destruct I.
  - clear - H2. induction H2; cbn [cont_lines map]; constructor; auto.
    exists ($"	" ++ x). split; auto. intros I. apply in_app_or in I as [I|I]; auto.
    destruct I as [I|[]]. discriminate I.
Qed.
Lemma section_nl n s : ~ In nl n -> (forall k v, In (k, v) s -> ~ In nl k) -> nl_lines (section_lines (n, s)).
Proof.
  intros N K. unfold section_lines. cbn [fst snd]. constructor.
  - exists ($"[" ++ n ++ $"]"). split; [now rewrite <- !app_assoc|]. intros I.
    apply in_app_or in I as [I|I]; [cbn in I; destruct I as [I|I]; [discriminate I|destruct I]|]. apply in_app_or in I as [I|I]; [now apply N in I|]. cbn in I. destruct I as [I|I]; [discriminate I|destruct I].
  - apply nl_lines_app.
    + apply nl_lines_concat. intros l I. apply in_map_iff in I as ([k v] & <- & I). eapply item_nl, K; eauto.
    + constructor; [|constructor]. exists []. auto.
Qed.

Theorem parse_render p ds cs c : usual p ds cs -> good_config p ds cs c ->
  parse_config p (render c) false = COk c.
Proof.
  intros U G. unfold parse_config. rewrite render_lines.
  rewrite <- (app_nil_r (concat (concat (map section_lines c)))).
  rewrite file_lines_app.
  2:{ apply nl_lines_concat. intros l I. apply in_map_iff in I as ([n s] & <- & I). apply section_nl.
      - eapply gc_name; eauto.
      - intros k v J. destruct (gc_key _ _ _ _ G _ _ _ _ I J) as ((_ & _ & X & _) & _). exact X. }
  cbn [split_on file_lines]. rewrite parse_lines_app.
  destruct (run_config p ds cs U c init_state []) as (st & E & B1 & B2 & B3).
  - unfold between, init_state. cbn. repeat split; auto. discriminate.
  - apply (gc_names _ _ _ _ G).
  - apply (gc_keys _ _ _ _ G).
  - intros n s k v I J. split; [|split].
    + eapply gc_key; eauto.
    + eapply gc_key; eauto.
    + eapply gc_value; eauto.
  - cbn [app] in B1. rewrite E. cbn [parse_lines]. rewrite (line_blank p ds cs U) by reflexivity.
    destruct B3 as [B3|B3].
    + unfold push. rewrite B3. rewrite <- B1. unfold flush_kv. cbn. now rewrite B3.
    + rewrite flush_push_blank; auto. now rewrite B1.
Qed.

(** ** Errors *)
Lemma file_lines_at ls : forall l, In l ls -> exists a b e, line_end e /\ file_lines ls = a ++ (l ++ e) :: b.
Proof.
  induction ls as [|x ls IH]; intros l I; [destruct I|].
  destruct ls as [|y ls].
  - destruct I as [->|[]]. exists [], [], []. rewrite app_nil_r. split; [now left|auto].
  - cbn [file_lines]. destruct I as [->|I].
    + exists [], (file_lines (y :: ls)), [nl]. split; [now right|auto].
    + destruct (IH l I) as (a & b & e & E & F). exists ((x ++ [nl]) :: a), b, e. split; auto.
      cbn [file_lines] in F. rewrite F. reflexivity.
Qed.
Lemma file_lines_two a l1 b l2 c : exists e, line_end e /\
  file_lines (a ++ l1 :: b ++ l2 :: c) =
  map (fun l => l ++ [nl]) a ++ (l1 ++ [nl]) :: map (fun l => l ++ [nl]) b ++ (l2 ++ e) :: file_lines c.
Proof.
  assert (A : forall x y ys, file_lines (x ++ y :: ys) = map (fun l => l ++ [nl]) x ++ file_lines (y :: ys)).
  { induction x as [|z x IH]; intros y ys; auto. cbn [map]. rewrite <- (app_comm_cons (map _ x)), <- IH.
    change ((z :: x) ++ y :: ys) with (z :: (x ++ y :: ys)). destruct (x ++ y :: ys) eqn:Q; [destruct x; discriminate|].
    reflexivity. }
  assert (B : exists e, line_end e /\ file_lines (l2 :: c) = (l2 ++ e) :: file_lines c).
  { destruct c; cbn [file_lines].
    - exists []. rewrite app_nil_r. split; auto. now left.
    - exists [nl]. split; auto. now right. }
  destruct B as (e & E & B). exists e. split; auto. rewrite A. f_equal.
  destruct (b ++ l2 :: c) eqn:Q; [destruct b; discriminate|].
  change (file_lines (l1 :: l :: l0)) with ((l1 ++ [nl]) :: file_lines (l :: l0)). rewrite <- Q, A, B. reflexivity.
Qed.
Lemma parse_error p text fails ls : ls = file_lines (split_on nl text) ->
  is_error (parse_lines p init_state ls) -> is_error (parse_config p text fails).
Proof.
  intros -> (e & E). unfold parse_config. destruct fails.
  - destruct (parse_lines p init_state (removelast _)); [exists CRead|eexists]; reflexivity.
  - rewrite E. eexists. reflexivity.
Qed.

Theorem stray_error p ds cs text fails l : usual p ds cs -> In l (split_on nl text) -> stray ds cs l ->
  is_error (parse_config p text fails).
Proof.
  intros U I S. destruct (file_lines_at _ _ I) as (a & b & e & E & F).
  eapply parse_error; [symmetry; exact F|]. rewrite parse_lines_app.
  destruct (parse_lines p init_state a); [|eexists; reflexivity]. cbn [parse_lines].
  destruct (line_stray p ds cs U a0 l e E S) as (er & ->). eexists. reflexivity.
Qed.
Theorem read_error p text : is_error (parse_config p text true).
Proof. unfold parse_config. destruct (parse_lines _ _ _); eexists; reflexivity. Qed.

(** sections stay *)
Definition has_section (st : cstate) (n : str) : Prop := get_key n (c_cfg st) <> None.
Lemma flush_has st n : has_section st n -> has_section (flush_kv st) n.
Proof.
  unfold has_section, flush_kv. destruct (c_val st), (c_sect st); auto. cbn [c_cfg]. rewrite get_set_key.
  destruct (str_eqb n l0); [discriminate|auto].
Qed.
Lemma line_has p st l st' n : parse_line p st l = COk st' -> has_section st n -> has_section st' n.
Proof.
  intros P H. pose proof (flush_has st n H) as HF. unfold parse_line in P.
  destruct (trim_space_u (firstn (comment_start p l) l)) as [|c v].
  - destruct (p_empty_lines p), (c_val st); try destruct (_ =? _); injection P as <-; exact H.
  - assert (Q : match c_val st, (0 <? indent_level l) && (c_indent st <? indent_level l) with
                | Some _, true => True | _, _ => True end) by (destruct (c_val st), (_ && _); exact I). clear Q.
    assert (R : forall X, (if has_prefix $"[" (c :: v) && has_suffix $"]" (c :: v)
         then match get_key (trim_suffix $"]" (trim_prefix $"[" (c :: v))) (c_cfg (flush_kv st)) with
              | Some _ => if p_strict p then CErr (CDupSection (trim_suffix $"]" (trim_prefix $"[" (c :: v))))
                else COk (mkC (c_cfg (flush_kv st)) (indent_level l) (Some (trim_suffix $"]" (trim_prefix $"[" (c :: v)))) (c_key (flush_kv st)) (c_val (flush_kv st)))
              | None => COk (mkC (set_key (trim_suffix $"]" (trim_prefix $"[" (c :: v))) [] (c_cfg (flush_kv st))) (indent_level l) (Some (trim_suffix $"]" (trim_prefix $"[" (c :: v)))) (c_key (flush_kv st)) (c_val (flush_kv st)))
              end else X) = COk st' -> (X = COk st' -> has_section st' n) -> has_section st' n).
    { intros X E K. destruct (_ && _) in E; [|auto].
      destruct (get_key _ _) in E.
      - destruct (p_strict p); [discriminate|]. injection E as <-. exact HF.
      - injection E as <-. unfold has_section. cbn [c_cfg]. rewrite get_set_key. destruct (str_eqb n _); [discriminate|exact HF]. }
    assert (D : match c_sect (flush_kv st) with
            | None => CErr CNoSection
            | Some n0 => let '(pos, len) := find_sep p (c :: v) in
                if pos =? length (c :: v) then CErr (CInvalidLine (c :: v)) else
                  match get_key (p_transform p (trim_space_u (firstn pos (c :: v)))) (match get_key n0 (c_cfg (flush_kv st)) with Some s => s | None => [] end), p_strict p with
                  | Some _, true => CErr (CDupKey (p_transform p (trim_space_u (firstn pos (c :: v)))))
                  | _, _ => COk (mkC (c_cfg (flush_kv st)) (indent_level l) (Some n0) (p_transform p (trim_space_u (firstn pos (c :: v)))) (Some [trim_space_u (skipn (pos + len) (c :: v))]))
                  end
            end = COk st' -> has_section st' n).
    { destruct (c_sect (flush_kv st)) as [n0|]; [|discriminate]. destruct (find_sep p (c :: v)) as [pos len].
      destruct (pos =? _); [discriminate|].
      destruct (get_key (p_transform p _) _), (p_strict p); try discriminate; intros E; injection E as <-; exact HF. }
    destruct (c_val st) as [ls|]; [destruct ((0 <? indent_level l) && (c_indent st <? indent_level l))|].
    + injection P as <-. exact H.
    + apply (R _ P D).
    + apply (R _ P D).
Qed.
Lemma lines_has p ls : forall st st' n, parse_lines p st ls = COk st' -> has_section st n -> has_section st' n.
Proof.
  induction ls as [|l ls IH]; intros st st' n P H; cbn [parse_lines] in P.
  - injection P as <-. exact H.
  - destruct (parse_line p st l) as [s1|] eqn:E; [|discriminate]. eapply IH; eauto. eapply line_has; eauto.
Qed.

Theorem dup_section_error p ds cs text fails a b c n : usual p ds cs -> p_strict p = true ->
  split_on nl text = a ++ ($"[" ++ n ++ $"]") :: b ++ ($"[" ++ n ++ $"]") :: c ->
  is_error (parse_config p text fails).
Proof.
  intros U S F. destruct (file_lines_two a ($"[" ++ n ++ $"]") b ($"[" ++ n ++ $"]") c) as (e & E & L).
  eapply parse_error; [rewrite F; symmetry; exact L|].
  rewrite parse_lines_app. destruct (parse_lines p init_state _) as [s1|]; [|eexists; reflexivity].
  cbn [parse_lines].
  replace (($"[" ++ n ++ $"]") ++ [nl]) with ($"[" ++ n ++ $"]" ++ [nl]) by now rewrite <- !app_assoc.
  rewrite (line_header p ds cs U) by now right. rewrite S.
  destruct (get_key n (c_cfg (flush_kv s1))) eqn:G; [eexists; reflexivity|].
  set (s2 := mkC _ _ _ _ _). assert (H2 : has_section s2 n).
  { unfold has_section, s2. cbn [c_cfg]. rewrite get_set_key, str_eqb_refl. discriminate. }
  rewrite parse_lines_app. destruct (parse_lines p s2 _) as [s3|] eqn:E3; [|eexists; reflexivity].
  apply (lines_has _ _ _ _ _ E3) in H2. cbn [parse_lines].
  replace (($"[" ++ n ++ $"]") ++ e) with ($"[" ++ n ++ $"]" ++ e) by now rewrite <- !app_assoc.
  rewrite (line_header p ds cs U) by auto. rewrite S.
  apply flush_has in H2. unfold has_section in H2. destruct (get_key n (c_cfg (flush_kv s3))); [eexists; reflexivity|congruence].
Qed.

(** keys stay while the section is open *)
Definition has_item (st : cstate) (n k : str) : Prop :=
  c_sect st = Some n /\
  (c_key st = k /\ c_val st <> None \/
   exists s, get_key n (c_cfg st) = Some s /\ get_key k s <> None).
Lemma flush_item st n k : has_item st n k ->
  c_sect (flush_kv st) = Some n /\ exists s, get_key n (c_cfg (flush_kv st)) = Some s /\ get_key k s <> None.
Proof.
  intros (S & H). rewrite flush_sect. split; auto. unfold flush_kv. rewrite S.
  destruct (c_val st) as [ls|].
  - cbn [c_cfg]. rewrite get_set_key, str_eqb_refl. eexists. split; [reflexivity|].
    rewrite get_set_key. destruct (str_eqb k (c_key st)) eqn:E; [discriminate|].
    destruct H as [[H _]|(s & H1 & H2)]. { subst k. now rewrite str_eqb_refl in E. }
    now rewrite H1.
  - destruct H as [[_ H]|H]; [congruence|exact H].
Qed.
Lemma no_header_value p ds cs l : usual p ds cs -> (forall a b, blanks a -> l <> a ++ "["%char :: b) ->
  has_prefix $"[" (trim_space_u (firstn (comment_start p l) l)) = false.
Proof.
  intros U H. destruct (comment_start_cases p ds cs U l) as [E|E]; rewrite E; [|reflexivity].
  rewrite firstn_all. destruct (has_prefix _ _) eqn:P; [|reflexivity]. exfalso. apply has_prefix_spec in P as (r & P).
  destruct (trim_sound l) as (a & b & El & A & _). rewrite P in El. exact (H a (r ++ b) A El).
Qed.
Lemma line_keeps p ds cs st l st' n k : usual p ds cs -> (forall a b, blanks a -> l <> a ++ "["%char :: b) ->
  parse_line p st l = COk st' -> has_item st n k -> has_item st' n k.
Proof.
  intros U N P H. pose proof (no_header_value p ds cs l U N) as NP.
  pose proof (flush_item _ _ _ H) as (FS & s & FG & FK). unfold parse_line in P.
  destruct (trim_space_u (firstn (comment_start p l) l)) as [|c v] eqn:TV.
  - destruct H as (HS & H). destruct (p_empty_lines p), (c_val st) as [ls|] eqn:V; try destruct (_ =? _); injection P as <-;
      (split; cbn [c_sect c_key c_val c_cfg]; [exact HS|]); rewrite ?V;
      (destruct H as [[H1 H2]|H]; [left; split; [exact H1|congruence]|right; exact H]).
  - rewrite NP in P. cbn [andb] in P.
    assert (D : match c_sect (flush_kv st) with
            | None => CErr CNoSection
            | Some n0 => let '(pos, len) := find_sep p (c :: v) in
                if pos =? length (c :: v) then CErr (CInvalidLine (c :: v)) else
                  match get_key (p_transform p (trim_space_u (firstn pos (c :: v)))) (match get_key n0 (c_cfg (flush_kv st)) with Some s => s | None => [] end), p_strict p with
                  | Some _, true => CErr (CDupKey (p_transform p (trim_space_u (firstn pos (c :: v)))))
                  | _, _ => COk (mkC (c_cfg (flush_kv st)) (indent_level l) (Some n0) (p_transform p (trim_space_u (firstn pos (c :: v)))) (Some [trim_space_u (skipn (pos + len) (c :: v))]))
                  end
            end = COk st' -> has_item st' n k).
    { rewrite FS. destruct (find_sep p (c :: v)) as [pos len]. destruct (pos =? _); [discriminate|].
      destruct (get_key (p_transform p _) _), (p_strict p); try discriminate; intros E; injection E as <-;
      (split; cbn; [reflexivity|right; eauto]). }
    destruct (c_val st) as [ls|] eqn:V; [destruct ((0 <? indent_level l) && (c_indent st <? indent_level l))|].
    + injection P as <-. destruct H as (HS & H). split; cbn; auto.
      destruct H as [[H1 H2]|H]; [left; split; [exact H1|discriminate]|right; exact H].
    + apply (D P).
    + apply (D P).
Qed.
Lemma lines_keep p ds cs ls : usual p ds cs -> no_header ls -> forall st st' n k,
  parse_lines p st (map (fun l => l ++ [nl]) ls) = COk st' -> has_item st n k -> has_item st' n k.
Proof.
  intros U H. induction H as [|l ls N H IH]; intros st st' n k P I; cbn [parse_lines map] in P.
  - injection P as <-. exact I.
  - destruct (parse_line p st _) as [s1|] eqn:E; [|discriminate]. eapply IH; eauto.
    refine (line_keeps p ds cs st (l ++ [nl]) s1 n k U _ E I).
    intros a b A Q. destruct b as [|x b _] using rev_ind.
    + apply app_inj_tail in Q as [_ Q]. discriminate Q.
    + rewrite app_comm_cons, app_assoc in Q. apply app_inj_tail in Q as [Q _]. exact (N a b A Q).
Qed.

Theorem dup_key_error p ds cs text fails a b c k sp1 d1 v1 sp2 d2 v2 : usual p ds cs -> p_strict p = true ->
  good_key ds cs k -> blanks sp1 -> blanks sp2 -> In d1 ds -> In d2 ds ->
  no_header b -> split_on nl text = a ++ (k ++ sp1 ++ d1 :: v1) :: b ++ (k ++ sp2 ++ d2 :: v2) :: c ->
  is_error (parse_config p text fails).
Proof.
  intros U S K Hs1 Hs2 Hd1 Hd2 NH F.
  destruct (file_lines_two a (k ++ sp1 ++ d1 :: v1) b (k ++ sp2 ++ d2 :: v2) c) as (e & E & L).
  eapply parse_error; [rewrite F; symmetry; exact L|].
  rewrite parse_lines_app. destruct (parse_lines p init_state _) as [s1|]; [|eexists; reflexivity].
  cbn [parse_lines].
  assert (R : forall sp d v (e : str), (k ++ sp ++ d :: v) ++ e = k ++ sp ++ d :: v ++ e)
    by (intros; now rewrite <- !app_assoc).
  rewrite R.
  destruct (c_sect (flush_kv s1)) as [n|] eqn:Sn.
  - rewrite (line_item p ds cs U) with (n := n); auto; [|now right]. rewrite S.
    destruct (get_key (p_transform p k) _); [eexists; reflexivity|].
    set (s2 := mkC _ _ _ _ _). assert (H2 : has_item s2 n (p_transform p k)).
    { split; [reflexivity|]. left. split; [reflexivity|discriminate]. }
    rewrite parse_lines_app. destruct (parse_lines p s2 _) as [s3|] eqn:E3; [|eexists; reflexivity].
    eapply lines_keep in E3; eauto. apply flush_item in E3 as (FS & s & FG & FK).
    cbn [parse_lines]. rewrite R. rewrite (line_item p ds cs U) with (n := n); auto. rewrite S, FG.
    destruct (get_key (p_transform p k) s); [eexists; reflexivity|congruence].
  - (* no section yet *)
    assert (X : exists er, parse_line p s1 (k ++ sp1 ++ d1 :: v1 ++ [nl]) = CErr er).
    { destruct K as (KN & KT & _ & KD & KS). pose proof (proj1 KT) as KH. destruct (us_ds _ _ _ U d1 Hd1) as [Sd Ad].
      assert (TT := trim_item k sp1 d1 v1 [nl] KN KH (blanks_fresh _ Hs1) Sd Ad (or_intror eq_refl)).
      unfold parse_line. rewrite (comment_start_none p ds cs U).
      2:{ rewrite TT. destruct k as [|x k]; [congruence|]. cbn in *. intros G. apply KS. now right. }
      rewrite firstn_all, TT.
      assert (IL : indent_level (k ++ sp1 ++ d1 :: v1 ++ [nl]) = 0).
      { apply indent_zero. apply start_app; auto. apply fresh_app; [now apply blanks_fresh|now apply fresh_ascii]. }
      rewrite IL. cbn [Nat.ltb Nat.leb andb].
      assert (NP : has_prefix $"[" (k ++ sp1 ++ d1 :: trim_right_u v1) = false).
      { destruct k as [|x k]; [congruence|]. cbn in *. destruct (byte_eqb "[" x) eqn:B; auto.
        apply byte_eqb_eq in B. subst. exfalso. apply KS. now left. }
      rewrite NP, Sn. cbn [andb]. destruct (k ++ sp1 ++ d1 :: trim_right_u v1) eqn:Q.
      { apply app_eq_nil in Q as [Q _]. congruence. }
      destruct (c_val s1); eauto. }
    destruct X as (er & ->). eexists. reflexivity.
Qed.

(** an item outside of every section *)
Theorem no_section_error p ds cs text fails k sp d v rest : usual p ds cs ->
  good_key ds cs k -> blanks sp -> In d ds ->
  split_on nl text = (k ++ sp ++ d :: v) :: rest -> is_error (parse_config p text fails).
Proof.
  intros U (KN & KT & _ & KD & KS) Hs Hd F.
  assert (L : exists e b, line_end e /\ file_lines (split_on nl text) = (k ++ sp ++ d :: v ++ e) :: b).
  { rewrite F. destruct rest as [|r rest]; cbn [file_lines].
    - exists [], []. rewrite app_nil_r. split; [now left|auto].
    - exists [nl], (file_lines (r :: rest)). split; [now right|]. f_equal. now rewrite <- !app_assoc. }
  destruct L as (e & b & E & L). eapply parse_error; [symmetry; exact L|]. cbn [parse_lines].
  pose proof (proj1 KT) as KH. destruct (us_ds _ _ _ U d Hd) as [Sd Ad].
  assert (TT := trim_item k sp d v e KN KH (blanks_fresh _ Hs) Sd Ad E).
  unfold parse_line. rewrite (comment_start_none p ds cs U).
  2:{ rewrite TT. destruct k as [|x k]; [congruence|]. cbn in *. intros G. apply KS. now right. }
  rewrite firstn_all, TT.
  assert (NP : has_prefix $"[" (k ++ sp ++ d :: trim_right_u v) = false).
  { destruct k as [|x k]; [congruence|]. cbn in *. destruct (byte_eqb "[" x) eqn:B; auto.
    apply byte_eqb_eq in B. subst. exfalso. apply KS. now left. }
  rewrite NP. cbn [andb init_state c_val c_sect flush_kv].
  destruct (k ++ sp ++ d :: trim_right_u v) eqn:Q. { apply app_eq_nil in Q as [Q _]. congruence. }
  eexists. reflexivity.
Qed.

(** ** Inline comments *)
Lemma inline_one p c line : p_inline p = [[c]] ->
  inline_start p line = match index_of [c] line with Some i => if (0 <? i) && (i <? length line) then i else length line | None => length line end.
Proof. intros E. unfold inline_start. rewrite E. reflexivity. Qed.
Lemma indent_app a b : fresh b -> trim_space_u a <> [] -> indent_level (a ++ b) = indent_level a.
Proof.
  intros F N. destruct (left_sound a) as (x & E & X & S). assert (R : trim_left_u a <> []).
  { intros R. apply N. apply trim_blank. rewrite R, app_nil_r in E. now rewrite E. }
  unfold indent_level. set (r := trim_left_u a) in *. clearbody r. subst a. rewrite <- app_assoc, left_exact; [|exact X|now apply start_app].
  destruct r as [|c r]; [congruence|]. cbn [app]. rewrite !app_length. cbn [length]. rewrite app_length. lia.
Qed.
Theorem inline_comment p c st a b : p_inline p = [[c]] -> ascii_byte c -> ~ In c a -> trim_space_u a <> [] ->
  existsb (fun m => has_prefix m (trim_space_u a)) (p_comments p) = false ->
  existsb (fun m => has_prefix m (trim_space_u (a ++ c :: b))) (p_comments p) = false ->
  parse_line p st (a ++ c :: b) = parse_line p st a.
Proof.
  intros P Ac N T C1 C2. unfold parse_line.
  assert (A : a <> []) by (intros ->; apply T; reflexivity).
  assert (S1 : comment_start p (a ++ c :: b) = length a).
  { unfold comment_start. rewrite C2, (inline_one p c) by auto. rewrite index_at by auto. rewrite app_length. cbn [length].
    destruct (0 <? length a) eqn:L1; [|apply Nat.ltb_ge in L1; destruct a; [congruence|cbn in L1; lia]].
    destruct (length a <? length a + S (length b)) eqn:L2; auto. apply Nat.ltb_ge in L2. lia. }
  assert (S2 : comment_start p a = length a).
  { unfold comment_start. rewrite C1, (inline_one p c) by auto. pose proof (index_of_byte c a) as X.
    destruct (index_of [c] a); auto. exfalso. destruct X as (u & v & -> & _). apply N. apply in_or_app. right. now left. }
  rewrite S1, S2. rewrite (firstn_all a). replace (firstn (length a) (a ++ c :: b)) with a by (rewrite firstn_app, firstn_all, Nat.sub_diag; cbn; now rewrite app_nil_r).
  destruct (trim_space_u a) as [|x l] eqn:ET; [congruence|].
  assert (I : indent_level (a ++ c :: b) = indent_level a).
  { apply indent_app; [now apply fresh_ascii|]. rewrite ET. discriminate. }
  rewrite I. reflexivity.
Qed.
(** At the very start of a line the mark has no meaning. *)
Theorem inline_at_start p c st b : p_inline p = [[c]] -> ~ In c b ->
  parse_line p st (c :: b) = parse_line (mkParser (p_delims p) (p_comments p) [] (p_strict p) (p_empty_lines p) (p_transform p)) st (c :: b).
Proof.
  intros P N. unfold parse_line. 
  assert (S : comment_start p (c :: b) = comment_start (mkParser (p_delims p) (p_comments p) [] (p_strict p) (p_empty_lines p) (p_transform p)) (c :: b)).
  { unfold comment_start. cbn [p_comments]. destruct (existsb _ _); auto. rewrite (inline_one p c) by auto. unfold inline_start. cbn [p_inline fold_left].
    assert (X : index_of [c] (c :: b) = Some 0) by exact (index_at [] c b (fun f => f)). rewrite X. reflexivity. }
  rewrite <- S. reflexivity.
Qed.
