(** Proofs about RECORD files (C56). *)
From Coq Require Import String Ascii List Bool ZArith NArith Lia Permutation Sorted.
From Verif.Model Require Import GoStr GoPath Pep440 Tar Stat Layer ConfigParser Platform WheelFile Wheel DirectURL Record.
From Verif.Spec Require Import PathSpec SimpleAPISpec LayerSpec WheelSpec RecordSpec DirectURLSpec.
From Verif.Proofs Require Import GoStrFacts GoPathFacts Order DirFacts LayerFacts ConfigFacts SquashLoad DirectURLFacts WheelPaths WheelSpread WheelFacts WheelSame.
Import ListNotations.
Local Open Scope nat_scope.

(** ** CSV *)
Lemma byte_neq a b : a <> b -> byte_eqb a b = false.
Proof. intros H. destruct (byte_eqb a b) eqn:E; auto. now apply byte_eqb_eq in E. Qed.
Lemma read_quoted f acc row s :
  read_csv InQuotes acc row (concat (map csv_byte f) ++ quote :: s) = read_csv QuoteSeen (rev (crlf f) ++ acc) row s.
Proof.
  revert acc. induction f as [|c f IH]; intros acc; [reflexivity|]. cbn [map concat]. unfold crlf. cbn [map concat]. fold (crlf f).
  rewrite rev_app_distr, <- !app_assoc. unfold csv_byte at 1.
  destruct (byte_eqb c quote) eqn:Q.
  - apply byte_eqb_eq in Q as ->. cbn [app read_csv]. change (byte_eqb quote """") with true. cbn iota. rewrite IH. reflexivity.
  - change """"%char with quote. change "013"%char with cr. change "010"%char with nl.
    destruct (byte_eqb c cr) eqn:R; [exact (IH acc)|]. destruct (byte_eqb c nl) eqn:L.
    + cbn [app]. etransitivity; [|exact (IH (nl :: cr :: acc))]. reflexivity.
    + cbn [app read_csv]. change """"%char with quote. rewrite Q. exact (IH _).
Qed.
Definition field_end (st : csv_state) : Prop := st = FieldStart \/ st = InField \/ st = QuoteSeen.
Lemma read_plain f st acc row s : existsb (fun c => byte_eqb c "," || csv_special c) f = false -> st = FieldStart \/ st = InField ->
  exists st', field_end st' /\ read_csv st acc row (f ++ s) = read_csv st' (rev f ++ acc) row s.
Proof.
  revert st acc. induction f as [|c f IH]; intros st acc E H; [exists st; split; [unfold field_end; tauto|reflexivity]|].
  cbn [existsb] in E. apply orb_false_iff in E as [E1 E2]. apply orb_false_iff in E1 as [E0 E1]. unfold csv_special in E1.
  apply orb_false_iff in E1 as [E1 E4]. apply orb_false_iff in E1 as [E1 E3].
  destruct (IH InField (c :: acc) E2 (or_intror eq_refl)) as (st' & F & R). exists st'. split; auto. cbn [rev]. rewrite <- app_assoc. cbn [app]. rewrite <- R.
  cbn [read_csv]. change """"%char with quote. change "013"%char with cr. change "010"%char with nl. rewrite E0, E1, E3, E4. destruct H as [-> | ->]; reflexivity.
Qed.
Lemma crlf_plain f : existsb (fun c => byte_eqb c "," || csv_special c) f = false -> crlf f = f.
Proof.
  induction f as [|c f IH]; [reflexivity|]. cbn [existsb]. intros E. apply orb_false_iff in E as [E1 E2]. apply orb_false_iff in E1 as [E0 E1]. unfold csv_special in E1.
  apply orb_false_iff in E1 as [E1 E4]. apply orb_false_iff in E1 as [E1 E3]. unfold crlf. cbn [map concat]. fold (crlf f).
  change "013"%char with cr. change "010"%char with nl. rewrite E3, E4, IH by auto. reflexivity.
Qed.
Lemma read_field space f row s : exists st, field_end st /\ read_csv FieldStart [] row (csv_field space f ++ s) = read_csv st (rev (crlf f)) row s.
Proof.
  unfold csv_field. destruct (csv_needs_quotes space f) eqn:E.
  - exists QuoteSeen. split; [unfold field_end; auto|]. cbn [app]. rewrite <- app_assoc. etransitivity; [|etransitivity; [exact (read_quoted f [] row s)|now rewrite app_nil_r]]. reflexivity.
  - assert (P : existsb (fun c => byte_eqb c "," || csv_special c) f = false).
    { destruct f as [|c f]; [reflexivity|]. unfold csv_needs_quotes in E. apply orb_false_iff in E as [E _]. now apply orb_false_iff in E. }
    rewrite crlf_plain by exact P. destruct (read_plain f FieldStart [] row s P (or_introl eq_refl)) as (st & F & R). exists st. split; auto. rewrite R. now rewrite app_nil_r.
Qed.
Lemma read_row space r row0 s : r <> [] ->
  read_csv FieldStart [] row0 (csv_row space r ++ s) = option_map (cons (rev row0 ++ map crlf r)) (rfc4180 s).
Proof.
  unfold csv_row. revert row0. induction r as [|f r IH]; intros row0 N; [congruence|]. destruct r as [|f' r].
  - cbn [map join]. rewrite <- app_assoc. destruct (read_field space f row0 ([cr; nl] ++ s)) as (st & F & ->).
    destruct F as [-> |[-> | ->]]; cbn [app read_csv]; rewrite rev_involutive; reflexivity.
  - change (join $"," (map (csv_field space) (f :: f' :: r))) with (csv_field space f ++ $"," ++ join $"," (map (csv_field space) (f' :: r))).
    rewrite <- !app_assoc. match goal with |- read_csv _ _ _ (_ ++ $"," ++ ?x) = _ => destruct (read_field space f row0 ($"," ++ x)) as (st & F & ->) end.
    assert (X : forall s', read_csv st (rev (crlf f)) row0 ($"," ++ s') = read_csv FieldStart [] (crlf f :: row0) s').
    { intros s'. change ($"," ++ s') with (","%char :: s'). rewrite <- (rev_involutive (crlf f)) at 2. destruct F as [-> |[-> | ->]]; reflexivity. }
    rewrite X, app_assoc, IH by discriminate. cbn [rev map]. now rewrite <- app_assoc.
Qed.
Theorem csv_rfc4180 space rows : Forall (fun r => r <> []) rows -> rfc4180 (csv_write space rows) = Some (map (map crlf) rows).
Proof.
  induction 1 as [|r rows N _ IH]; [reflexivity|]. unfold csv_write. cbn [map concat]. fold (csv_write space rows). unfold rfc4180. rewrite read_row by auto. now rewrite IH.
Qed.

(** ** Relative names *)
Lemma strip_spec a b a' b' : strip_common a b = (a', b') ->
  exists c, a = c ++ a' /\ b = c ++ b' /\ (forall x y r r', a' = x :: r -> b' = y :: r' -> x <> y).
Proof.
  revert b. induction a as [|x a IH]; intros b.
  - cbn [strip_common]. intros H. apply pair_equal_spec in H as [<- <-]. exists []. repeat split. discriminate.
  - destruct b as [|y b]; cbn [strip_common].
    + intros H. apply pair_equal_spec in H as [<- <-]. exists []. repeat split. discriminate.
    + destruct (str_eqb x y) eqn:E.
      * apply str_eqb_eq in E as <-. intros H. apply IH in H as (c & -> & -> & H). exists (x :: c). repeat split. exact H.
      * apply str_eqb_neq in E. intros H. apply pair_equal_spec in H as [<- <-]. exists []. repeat split. congruence.
Qed.
Lemma abs_plain p : plain_path (clean_comps ($"/" ++ p)).
Proof. apply clean_list_true. exact (clean_comps_list ($"/" ++ p)). Qed.
(** Following a relative name *)
Definition follow (b l : list str) : list str := rev (fold_left (clean_step true) l (rev b)).
Lemma follow_up b n l : plain_path b -> follow b (repeat dotdot n ++ l) = follow (firstn (length b - n) b) l.
Proof.
  intros P. unfold follow. rewrite fold_left_app. f_equal. f_equal. revert b P. induction n as [|n IH]; intros b P.
  - now rewrite Nat.sub_0_r, firstn_all.
  - cbn [repeat fold_left]. destruct b as [|c b _] using rev_ind.
    + cbn [rev length Nat.sub firstn]. change (clean_step true [] dotdot) with (@nil str). exact (IH [] (Forall_nil _)).
    + apply plain_app in P as [P1 P2]. inversion P2 as [|? ? Pc _]; subst. rewrite rev_app_distr. cbn [rev app].
      replace (clean_step true (c :: rev b) dotdot) with (rev b) by (unfold clean_step; destruct dotdot_eqb as (-> & -> & ->); destruct (plain_neq _ Pc) as (_ & _ & ->); reflexivity).
      rewrite IH by auto. f_equal. rewrite app_length. cbn [length]. rewrite firstn_app. replace (length b + 1 - S n) with (length b - n) by lia. rewrite (proj2 (Nat.sub_0_le (length b - n) (length b))) by lia. now rewrite app_nil_r.
Qed.
Lemma follow_plain b l : plain_path l -> follow b l = b ++ l.
Proof. intros P. unfold follow. rewrite fold_plain by auto. now rewrite rev_app_distr, !rev_involutive. Qed.
Lemma step_after b st c : ~ In slash c -> clean_list false (rev st) ->
  clean_step true (fold_left (clean_step true) (rev st) b) c = fold_left (clean_step true) (rev (clean_step false st c)) b.
Proof.
  intros N C. destruct (str_eqb c []) eqn:E0; [apply str_eqb_eq in E0 as ->; reflexivity|]. destruct (str_eqb c dot) eqn:E1; [apply str_eqb_eq in E1 as ->; reflexivity|].
  destruct (str_eqb c dotdot) eqn:E2.
  - apply str_eqb_eq in E2 as ->. destruct st as [|top st]; [reflexivity|]. change (clean_step false (top :: st) dotdot) with (if str_eqb top dotdot then dotdot :: top :: st else st).
    cbn [rev] in *. destruct (str_eqb top dotdot) eqn:T.
    + cbn [rev]. rewrite !fold_left_app. reflexivity.
    + assert (Pt : plain_comp top).
      { destruct C as (n & ps & C & Pp & _). destruct ps as [|q ps _] using rev_ind.
        - rewrite app_nil_r in C. exfalso. apply str_eqb_neq in T. apply T. apply (repeat_spec n dotdot). rewrite <- C. apply in_or_app. right. now left.
        - rewrite app_assoc in C. apply app_inj_tail in C as [_ ->]. apply plain_app in Pp as [_ Pp]. now inversion Pp. }
      rewrite fold_left_app. cbn [fold_left]. rewrite (clean_step_plain _ _ top Pt). generalize (fold_left (clean_step true) (rev st) b). intros X.
      change (clean_step true (top :: X) dotdot) with (if str_eqb top dotdot then dotdot :: top :: X else X). now rewrite T.
  - assert (Pc : plain_comp c) by (apply str_eqb_neq in E0, E1, E2; exact (conj E0 (conj N (conj E1 E2)))). rewrite (clean_step_plain false) by auto. cbn [rev]. now rewrite fold_left_app.
Qed.
(** Cleaning a relative name first makes no difference. *)
Lemma follow_clean b p : is_abs p = false -> follow b (split_on slash p) = follow b (clean_comps p).
Proof.
  intros A. unfold clean_comps. rewrite A.
  assert (G : forall l st, Forall (fun c => ~ In slash c) l -> clean_list false (rev st) -> fold_left (clean_step true) l (fold_left (clean_step true) (rev st) (rev b)) = fold_left (clean_step true) (rev (fold_left (clean_step false) l st)) (rev b)).
  { induction l as [|c l IH]; intros st F C; [reflexivity|]. inversion F as [|? ? Fc Fl]; subst. cbn [fold_left]. rewrite <- IH by (auto; apply clean_step_inv; auto). f_equal.
    now apply step_after. }
  unfold follow. f_equal. apply (G (split_on slash p) []); [apply split_on_no_sep|apply clean_list_nil].
Qed.
Lemma leads_follow base name file : is_abs name = false ->
  leads_to base name file <-> follow (clean_comps ($"/" ++ base)) (clean_comps name) = clean_comps ($"/" ++ file).
Proof.
  intros A. unfold leads_to. replace ($"/" ++ base ++ $"/" ++ name) with (($"/" ++ base) ++ $"/" ++ name) by (now rewrite <- app_assoc).
  rewrite clean_comps_app by discriminate. change (is_abs ($"/" ++ base)) with true. rewrite <- follow_clean by auto. reflexivity.
Qed.
Lemma rel_text b t : rel_abs b t = let '(x, y) := strip_common (clean_comps b) (clean_comps t) in path_text false (repeat dotdot (length x) ++ y).
Proof. unfold rel_abs, path_text. destruct (strip_common _ _) as [x y]. now destruct (_ ++ y). Qed.
Theorem rel_names base file : names base (rel_abs ($"/" ++ base) ($"/" ++ file)) file.
Proof.
  rewrite rel_text. destruct (strip_common _ _) as [x y] eqn:E. apply strip_spec in E as (c & Eb & Et & D).
  assert (Pb := abs_plain base). assert (Pt := abs_plain file). rewrite Eb in Pb. rewrite Et in Pt. apply plain_app in Pb as [Pc Px]. apply plain_app in Pt as [_ Py].
  assert (C : clean_list false (repeat dotdot (length x) ++ y)) by (exists (length x), y; repeat split; auto; discriminate).
  assert (A := is_abs_text _ _ C). split; [|split; [|split]]; auto.
  - apply leads_follow; auto. rewrite (clean_comps_text _ _ C), Eb, Et, follow_up by (now apply plain_app). rewrite app_length.
    replace (length c + length x - length x) with (length c + 0) by lia. rewrite firstn_app_2. cbn [firstn]. rewrite app_nil_r. now apply follow_plain.
  - now apply clean_of_text.
  - intros other A' L. apply leads_follow in L; auto. rewrite (clean_comps_text _ _ C), app_length, repeat_length.
    destruct (clean_comps_list other) as (n & ps & Eo & Pp & _). rewrite Eo in *. rewrite follow_up in L by (apply abs_plain). rewrite follow_plain in L by auto.
    rewrite app_length, repeat_length. rewrite Eb, Et in L. clear Eb Et Eo. set (m := length (c ++ x) - n) in *.
    assert (M : length (firstn m (c ++ x)) = m) by (apply firstn_length_le; lia). assert (LL := f_equal (@length _) L). rewrite !app_length, M in LL.
    assert (MC : m <= length c).
    { destruct (le_lt_dec m (length c)) as [|G]; auto. exfalso. rewrite firstn_app, firstn_all2 in L by lia. rewrite <- app_assoc in L. apply app_inv_head in L.
      destruct x as [|x0 x']; [cbn [app length] in M; unfold m in G; rewrite app_nil_r in G; lia|]. destruct (m - length c) as [|k] eqn:K; [lia|]. cbn [firstn app] in L.
      destruct y as [|y0 y']; [discriminate|]. injection L as L0 _. now apply (D _ _ _ _ eq_refl eq_refl). }
    assert (m = length c + length x - n) by (unfold m; now rewrite app_length). lia.
Qed.
(** Different files have different names. *)
Lemma leads_inj base name f g : inner f -> inner g -> clean_path f -> clean_path g -> leads_to base name f -> leads_to base name g -> f = g.
Proof.
  unfold leads_to. intros If Ig Cf Cg -> L. unfold clean_path in *. rewrite (clean_inner _ If) in Cf. rewrite (clean_inner _ Ig) in Cg.
  destruct If as (_ & _ & Pf), Ig as (_ & _ & Pg). rewrite <- Cf, <- Cg in L. rewrite !clean_comps_abs in L by auto. congruence.
Qed.

(** ** The names in the .dist-info directory *)
Lemma info_split info : inner info -> clean_path info ->
  exists ds d, plain_path (ds ++ [d]) /\ clean_comps info = ds ++ [d] /\ info = join $"/" (ds ++ [d]).
Proof.
  intros I C. destruct (exists_last (proj1 (proj2 I))) as (ds & d & E). exists ds, d. rewrite <- E. split; [apply I|]. split; auto. rewrite <- clean_inner by auto. now symmetry.
Qed.
Lemma path_text_join l : l <> [] -> path_text false l = join $"/" l.
Proof. destruct l; [congruence|reflexivity]. Qed.
Lemma snoc_ne {A} (l : list A) x : l ++ [x] <> [].
Proof. now destruct l. Qed.
Lemma info_dir info : inner info -> clean_path info -> clean_comps ($"/" ++ path_dir info) = clean_comps ($"/" ++ parent info).
Proof.
  intros I C. destruct (info_split _ I C) as (ds & d & P & E & ->). unfold parent. rewrite E, removelast_last. apply plain_app in P as [P Pd].
  rewrite <- (path_text_join (ds ++ [d])) by apply snoc_ne. rewrite dir_text by (apply plain_clean; now apply plain_app).
  rewrite clean_comps_abs by auto. destruct ds as [|x ds]; [reflexivity|]. rewrite path_text_join by discriminate. now apply clean_comps_abs.
Qed.
Lemma info_join info n : inner info -> plain_comp n -> path_join [info; n] = in_info info n.
Proof. intros I P. destruct (inner_comp _ P) as [In E]. unfold in_info. rewrite join_inner by auto. now rewrite E. Qed.
Lemma in_info_inner info n : inner info -> plain_comp n -> inner (in_info info n) /\ clean_comps (in_info info n) = clean_comps info ++ [n].
Proof. intros (_ & _ & P) Pn. apply inner_join; [apply plain_app; split; auto; now constructor|apply snoc_ne]. Qed.
Lemma in_info_clean info n : inner info -> plain_comp n -> clean_path (in_info info n).
Proof. intros I P. destruct (in_info_inner _ _ I P) as [J E]. unfold clean_path. rewrite (clean_inner _ J), E. reflexivity. Qed.
Lemma in_info_inj info m n : inner info -> plain_comp m -> plain_comp n -> in_info info m = in_info info n -> m = n.
Proof.
  intros I Pm Pn E. destruct (in_info_inner _ _ I Pm) as [_ Em], (in_info_inner _ _ I Pn) as [_ En]. rewrite E, En in Em. now apply app_inj_tail in Em as [_ ->].
Qed.
Lemma plain_byb c : negb (str_eqb c [] || in_set c slash || str_eqb c dot || str_eqb c dotdot) = true -> plain_comp c.
Proof.
  rewrite negb_true_iff, !orb_false_iff. intros (((H1 & H2) & H3) & H4). apply str_eqb_neq in H1, H3, H4. refine (conj H1 (conj _ (conj H3 H4))).
  intros X. apply in_set_spec in X. congruence.
Qed.
Lemma strip_prefix a b : strip_common a (a ++ b) = ([], b).
Proof. induction a as [|x a IH]; [reflexivity|]. cbn [app strip_common]. now rewrite str_eqb_refl. Qed.
Lemma names_dir base base' name file : clean_comps ($"/" ++ base) = clean_comps ($"/" ++ base') -> names base name file -> names base' name file.
Proof.
  intros E (L & C & A & S). assert (X : forall n, is_abs n = false -> leads_to base n file <-> leads_to base' n file) by (intros n An; rewrite !leads_follow, E by auto; tauto).
  split; [now apply X|]. repeat split; auto. intros other Ao Lo. apply S; auto. now apply X.
Qed.
Lemma self_name info : inner info -> clean_path info -> names (parent info) (path_join [path_base info; $"RECORD"]) (in_info info $"RECORD").
Proof.
  intros I C. destruct (info_split _ I C) as (ds & d & P & E & EI). assert (R : plain_comp $"RECORD") by (apply plain_byb; reflexivity).
  replace (path_join [path_base info; $"RECORD"]) with (rel_abs ($"/" ++ parent info) ($"/" ++ in_info info $"RECORD")); [apply rel_names|].
  apply plain_app in P as [P Pd]. inversion Pd as [|? ? Pd' _]; subst. rewrite rel_text. unfold parent, in_info. rewrite E, removelast_last.
  assert (PR : plain_path ((ds ++ [d]) ++ [$"RECORD"])) by (apply plain_app; split; [apply plain_app; now split|now constructor]).
  rewrite !clean_comps_abs by auto. rewrite <- app_assoc, strip_prefix.
  rewrite <- (path_text_join (ds ++ [d])) by apply snoc_ne. rewrite base_plain by (apply plain_app; auto).
  destruct (inner_comp _ Pd') as [Id Ed], (inner_comp _ R) as [Ir Er]. rewrite join_inner by auto. rewrite Ed, Er. reflexivity.
Qed.

(** ** Rows *)
Lemma all_some_map {A} (l : list (option A)) r : all_some l = Some r <-> l = map Some r.
Proof.
  revert r. induction l as [|[x|] l IH]; intros r; cbn [all_some].
  - split; [now intros [= <-]|]. now destruct r.
  - destruct (all_some l) as [l'|].
    + split; [intros [= <-]; cbn [map]; f_equal; now apply IH|]. destruct r as [|y r]; [discriminate|]. cbn [map]. intros H. injection H as -> H. apply IH in H. congruence.
    + split; [discriminate|]. destruct r as [|y r]; [discriminate|]. cbn [map]. intros H. injection H as -> H. apply IH in H. discriminate.
  - split; [discriminate|]. now destruct r.
Qed.
Lemma all_some_in {A B} (f : A -> option B) l rows row : all_some (map f l) = Some rows -> In row rows -> exists x, In x l /\ f x = Some row.
Proof. intros H I. apply all_some_map in H. apply (in_map Some) in I. rewrite <- H in I. apply in_map_iff in I as (x & E & I). eauto. Qed.
Lemma all_some_have {A B} (f : A -> option B) l rows x : all_some (map f l) = Some rows -> In x l -> exists row, In row rows /\ f x = Some row.
Proof. intros H I. apply all_some_map in H. apply (in_map f) in I. rewrite H in I. apply in_map_iff in I as (row & E & I). eauto. Qed.
Lemma record_describes digest algo base base' r row : clean_comps ($"/" ++ base) = clean_comps ($"/" ++ base') ->
  record_file digest algo base r = Some row -> describes digest algo base' r row.
Proof.
  intros E. unfold record_file. assert (N := names_dir _ _ _ _ E (rel_names base (ref_full r))). revert N. set (name := rel_abs _ _). intros N.
  destruct r as [h c|h c hash size|m]; cbn [ref_record].
  - destruct (has_suffix $".pyc" name) eqn:X.
    + intros [= <-]. exists name, [], []. rewrite X. auto.
    + destruct (ref_content _) eqn:Cn; try discriminate. intros H. injection H as <-. eexists _, _, _. split; [reflexivity|]. split; [exact N|]. rewrite X. eauto.
  - intros [= <-]. exists name, hash, (itoa size). auto.
  - destruct (has_suffix $".pyc" name) eqn:X.
    + intros [= <-]. exists name, [], []. rewrite X. auto.
    + destruct (ref_content _) eqn:Cn; try discriminate. intros H. injection H as <-. eexists _, _, _. split; [reflexivity|]. split; [exact N|]. rewrite X. eauto.
Qed.
Lemma record_name digest algo base r row : record_file digest algo base r = Some row -> row_name_of row = rel_abs ($"/" ++ base) ($"/" ++ ref_full r).
Proof.
  unfold record_file. destruct (ref_record r) as [[hash size]|]; [now intros [= <-]|]. destruct (has_suffix _ _); [now intros [= <-]|].
  destruct (ref_content r); try discriminate. intros H. injection H as <-. reflexivity.
Qed.
Lemma sorted_rows sort l : sorts sort -> NoDup (map row_name_of l) -> StronglySorted row_before (sort row_less l).
Proof.
  intros HS N. destruct (HS row_less l) as [P S].
  assert (T : forall a b : str, a <> b -> str_compare a b = Lt \/ str_compare b a = Lt).
  { intros a b D. destruct (str_compare a b) eqn:E; auto; [now apply str_compare_eq in E|]. right. now rewrite (ok_anti _ str_compare_ok), E. }
  assert (AS : forall a b : str, str_compare a b = Lt -> str_compare b a = Lt -> False).
  { intros a b H H'. rewrite (ok_anti _ str_compare_ok), H in H'. discriminate. }
  assert (SW : strict_weak row_less l).
  { unfold row_less. split.
    - intros a b _ _ H. apply str_ltb_lt in H. destruct (str_ltb (hd [] b) (hd [] a)) eqn:E; auto. apply str_ltb_lt in E. exfalso. eauto.
    - intros a b c _ _ _ H. rewrite !str_ltb_lt in *. destruct (list_eq_dec ascii_dec (hd [] a) (hd [] c)) as [X|X]; [right; now rewrite <- X|].
      destruct (T _ _ X); auto. right. eapply (Order.ok_lt _ str_compare_ok); eauto. }
  specialize (S SW). assert (N' : NoDup (map row_name_of (sort row_less l))) by (eapply Permutation_NoDup; [apply Permutation_map; symmetry; exact P|exact N]).
  clear SW P. revert N'. induction S as [|a l' S IH F]; intros N'; [constructor|]. cbn [map] in N'. inversion N'; subst. constructor; auto.
  apply Forall_forall. intros x Ix. rewrite Forall_forall in F. specialize (F x Ix). destruct (T (row_name_of a) (row_name_of x)) as [H|H]; auto.
  - intros X. apply H1. rewrite X. now apply in_map.
  - apply str_ltb_lt in H. unfold row_less in F. unfold row_name_of in H. congruence.
Qed.
Lemma in_map_key (fs : vfs) k r : NoDup (map fst fs) -> (get_key k fs = Some r <-> In (k, r) fs).
Proof. intros N. split; [apply get_key_in|now apply in_get_key]. Qed.

(** ** The hook *)
Lemma some_eq {A} (a b : A) : Some a = Some b -> a = b. Proof. congruence. Qed.
Lemma put_get info n t text fs k : inner info -> plain_comp n ->
  get_key k (put info n t text fs) = if str_eqb k (in_info info n) then Some (mem_reg (in_info info n) 420 t text) else get_key k fs.
Proof. intros I P. unfold put. rewrite info_join by auto. apply get_set_key. Qed.
Lemma mem_full n p t text : ref_full (mem_reg n p t text) = n. Proof. reflexivity. Qed.
Lemma good_iff fs : good_map fs <-> NoDup (map fst fs) /\ forall k r, get_key k fs = Some r -> k = ref_full r /\ clean_path k /\ is_abs k = false.
Proof.
  unfold good_map. split; intros [N F]; split; auto.
  - rewrite Forall_forall in F. intros k r G. apply get_key_in in G. exact (F _ G).
  - apply Forall_forall. intros [k r] I. apply (in_get_key _ _ _ N) in I. exact (F _ _ I).
Qed.
Lemma plain_iff fs : NoDup (map fst fs) -> (plain_names fs <-> forall k r, get_key k fs = Some r -> inner k).
Proof.
  intros N. unfold plain_names. rewrite Forall_forall. split.
  - intros F k r G. apply get_key_in in G. exact (F _ G).
  - intros F [k r] I. apply (in_get_key _ _ _ N) in I. exact (F _ _ I).
Qed.
Lemma put_good info n t text fs : clean_path info -> is_abs info = false -> good_map fs -> good_map (put info n t text fs).
Proof.
  intros C A G. rewrite good_iff in *. destruct G as [N F]. split; [now apply set_key_nodup|]. intros k r E. unfold put in E. rewrite get_set_key in E.
  destruct (str_eqb k _) eqn:X; [|now apply F]. apply str_eqb_eq in X as ->. injection E as <-. split; [reflexivity|].
  assert (NE : info <> []) by (intros ->; discriminate C). unfold path_join. cbn [filter]. apply str_eqb_neq in NE. rewrite NE. cbn [negb].
  assert (CC : forall s, clean_path (clean s)) by (intros s; apply clean_idem). destruct (negb (str_eqb n [])).
  - split; [apply CC|]. cbn [join]. rewrite is_abs_clean, is_abs_app; auto. now apply str_eqb_neq.
  - split; [apply CC|]. cbn [join]. now rewrite is_abs_clean.
Qed.
Lemma put_plain info n t text fs : inner info -> plain_comp n -> NoDup (map fst fs) -> plain_names fs -> plain_names (put info n t text fs).
Proof.
  intros I P N F. rewrite plain_iff in * by (auto; now apply set_key_nodup). intros k r E. rewrite put_get in E by auto.
  destruct (str_eqb k _) eqn:X; [|now apply (F k r)]. apply str_eqb_eq in X as ->. now apply in_info_inner.
Qed.
Definition notes (installer : str) (url : option direct_url) (t : option Z) (fs : vfs) (info : str) : vfs :=
  let fs := put info $"INSTALLER" t (installer ++ [nl]) fs in
  match url with None => fs | Some u => put info $"direct_url.json" t (url_text u) fs end.
Definition all_rows (digest : str -> str -> str) (algo : str) (fs : vfs) (info : str) : option (list (list str)) :=
  match all_some (map (record_file digest (hash_used algo) (path_dir info)) (filter (fun r => negb (ref_dir r)) (map snd fs))) with
  | Some rows => Some ([path_join [path_base info; $"RECORD"]; []; []] :: rows)
  | None => None
  end.
Lemma hook_is space digest range sort algo installer url t fs info :
  record_hook space digest range sort algo installer url t fs info =
  let fs := notes installer url t fs info in
  if negb (existsb (str_eqb (hash_used algo)) guaranteed) then None
  else match all_rows digest algo (range fs) info with
       | None => None
       | Some rows => Some (put info $"RECORD" t (csv_write space (sort row_less rows)) fs)
       end.
Proof. unfold record_hook, all_rows. cbv zeta. fold (notes installer url t fs info). fold (hash_used algo). destruct (negb _); auto. now destruct (all_some _). Qed.
Lemma notes_good installer url t fs info : clean_path info -> is_abs info = false -> good_map fs -> good_map (notes installer url t fs info).
Proof. intros. unfold notes. destruct url; repeat apply put_good; auto. Qed.
Lemma plain_INSTALLER : plain_comp $"INSTALLER". Proof. now apply plain_byb. Qed.
Lemma plain_URL : plain_comp $"direct_url.json". Proof. now apply plain_byb. Qed.
Lemma plain_RECORD : plain_comp $"RECORD". Proof. now apply plain_byb. Qed.
#[local] Hint Resolve plain_INSTALLER plain_URL plain_RECORD : core.
Lemma notes_plain installer url t fs info : inner info -> NoDup (map fst fs) -> plain_names fs -> plain_names (notes installer url t fs info).
Proof. intros I N P. unfold notes. destruct url; repeat apply put_plain; auto. now apply set_key_nodup. Qed.
Lemma in_info_neq info m n : inner info -> plain_comp m -> plain_comp n -> m <> n -> str_eqb (in_info info m) (in_info info n) = false.
Proof. intros I Pm Pn D. apply str_eqb_neq. intros E. now apply in_info_inj in E. Qed.
Lemma notes_other installer url t fs info k : inner info -> k <> in_info info $"INSTALLER" -> (url = None \/ k <> in_info info $"direct_url.json") ->
  get_key k (notes installer url t fs info) = get_key k fs.
Proof.
  intros I K1 K2. apply str_eqb_neq in K1. unfold notes. destruct url as [u|].
  - destruct K2 as [K2|K2]; [discriminate|]. apply str_eqb_neq in K2. rewrite !put_get by auto. now rewrite K1, K2.
  - rewrite put_get by auto. now rewrite K1.
Qed.
Lemma notes_record installer url t fs info : inner info -> get_key (in_info info $"RECORD") (notes installer url t fs info) = get_key (in_info info $"RECORD") fs.
Proof. intros I. apply notes_other; auto; [|right]; intros E; apply in_info_inj in E; auto; discriminate. Qed.
(** The rows before sorting *)
Lemma rows_nodup digest algo fs info rows : inner info -> clean_path info -> good_map fs -> plain_names fs ->
  get_key (in_info info $"RECORD") fs = None -> all_rows digest algo fs info = Some rows -> NoDup (map row_name_of rows).
Proof.
  intros I C G P NR A. unfold all_rows in A. destruct (all_some _) as [rows0|] eqn:AS; [|discriminate]. injection A as <-. cbn [map]. constructor.
  - intros X. apply in_map_iff in X as (row & E & X). destruct (all_some_in _ _ _ _ AS X) as (r & Ir & R). apply filter_In in Ir as [Ir _]. apply in_map_iff in Ir as ([k r'] & <- & Ir).
    assert (Pk := P). unfold plain_names in Pk. rewrite Forall_forall in Pk. specialize (Pk _ Ir). destruct G as [N F]. rewrite Forall_forall in F. destruct (F _ Ir) as (F1 & F2 & _). cbn [fst snd] in *.
    apply (in_get_key _ _ _ N) in Ir. rewrite (record_name _ _ _ _ _ R) in E. change (row_name_of [path_join [path_base info; $"RECORD"]; []; []]) with (path_join [path_base info; $"RECORD"]) in E.
    assert (L := proj1 (rel_names (path_dir info) (ref_full r'))). rewrite E in L. assert (L' := proj1 (names_dir _ _ _ _ (eq_sym (info_dir _ I C)) (self_name _ I C))).
    rewrite <- F1 in L. assert (Ek : k = in_info info $"RECORD") by (eapply leads_inj; [| | | |exact L|exact L']; auto; [now apply in_info_inner|now apply in_info_clean]). congruence.
  - apply all_some_map in AS. assert (Q : forall l rows0, map (record_file digest (hash_used algo) (path_dir info)) l = map Some rows0 -> NoDup (map ref_full l) -> Forall (fun r => inner (ref_full r) /\ clean_path (ref_full r)) l -> NoDup (map row_name_of rows0)).
    { clear. induction l as [|r l IH]; intros [|row rows]; try discriminate; [constructor|]. cbn [map]. intros H N F. apply (f_equal (@hd_error _)) in H as H0. apply (f_equal (@tl _)) in H as H1. cbn [hd_error tl] in H0, H1. injection H0 as H0. clear H.
      inversion N as [|? ? NI N']; subst. inversion F as [|? ? [F1 F2] F']; subst. constructor; [|now apply IH]. intros X. apply NI.
      apply in_map_iff in X as (row' & E & X). apply (in_map Some) in X. rewrite <- H1 in X. apply in_map_iff in X as (r' & E' & X). apply record_name in H0, E'.
      rewrite Forall_forall in F'. destruct (F' _ X) as [F3 F4].
      replace (ref_full r) with (ref_full r'); [now apply in_map|]. eapply leads_inj; [| | | |apply rel_names|]; eauto. rewrite <- E', E, H0. apply rel_names. }
    apply (Q _ _ AS).
    + destruct G as [N F]. rewrite Forall_forall in F. replace (map ref_full (filter (fun r => negb (ref_dir r)) (map snd fs))) with (map fst (filter (fun kr => negb (ref_dir (snd kr))) fs)).
      * clear -N. induction fs as [|[k r] fs IH]; [constructor|]. cbn [map fst] in N. inversion N; subst. cbn [filter snd]. destruct (negb (ref_dir r)); auto. cbn [map fst]. constructor; auto.
        intros X. apply H1. apply in_map_iff in X as (kr & <- & X). apply filter_In in X as [X _]. now apply in_map.
      * clear -F. induction fs as [|[k r] fs IH]; [reflexivity|]. cbn [filter map snd]. specialize (IH (fun x I => F x (or_intror I))). destruct (negb (ref_dir r)); auto. cbn [map fst]. f_equal; auto. apply (F (k, r)). now left.
    + destruct G as [N F]. rewrite Forall_forall in *. unfold plain_names in P. rewrite Forall_forall in P. intros r Ir. apply filter_In in Ir as [Ir _]. apply in_map_iff in Ir as ([k r'] & <- & Ir).
      destruct (F _ Ir) as (F1 & F2 & _). specialize (P _ Ir). cbn [fst snd] in *. now rewrite <- F1.
Qed.
Lemma describes_name digest algo base r row : describes digest algo base r row -> leads_to base (row_name_of row) (ref_full r).
Proof. intros (name & hash & size & -> & N & _). apply N. Qed.
Lemma rows_spec sort digest algo fs fs' info rows text t : sorts sort -> inner info -> clean_path info -> good_map fs -> plain_names fs ->
  get_key (in_info info $"RECORD") fs = None -> Permutation fs' fs -> all_rows digest algo fs' info = Some rows ->
  rows_for digest (hash_used algo) info (put info $"RECORD" t text fs) (sort row_less rows).
Proof.
  intros HS I C G P NR PM A. assert (G' : good_map fs') by (eapply good_perm; [symmetry; exact PM|exact G]).
  assert (P' : plain_names fs') by (unfold plain_names in *; eapply Permutation_Forall; [symmetry; exact PM|exact P]).
  assert (NR' : get_key (in_info info $"RECORD") fs' = None) by (rewrite (perm_get fs); [exact NR|apply G|exact PM]).
  assert (ND := rows_nodup _ _ _ _ _ I C G' P' NR' A). assert (SR := sorted_rows sort rows HS ND). destruct (HS row_less rows) as [PR _].
  assert (IR : forall row, In row (sort row_less rows) <-> In row rows) by (intros row; split; apply Permutation_in; [exact PR|symmetry; exact PR]).
  assert (SN := self_name info I C). assert (ID := info_dir info I C).
  unfold all_rows in A. destruct (all_some _) as [rows0|] eqn:AS; [|discriminate]. injection A as A.
  assert (FI : forall k r, get_key k (put info $"RECORD" t text fs) = Some r /\ ref_dir r = false /\ k <> in_info info $"RECORD" <-> In (k, r) fs' /\ ref_dir r = false).
  { intros k r. rewrite put_get by auto. destruct (str_eqb k (in_info info $"RECORD")) eqn:X.
    - apply str_eqb_eq in X as ->. split; [now intros (_ & _ & [])|]. intros [X _]. apply (in_get_key _ _ _ (proj1 G')) in X. congruence.
    - apply str_eqb_neq in X. rewrite <- (perm_get fs fs') by (auto; apply G). rewrite in_map_key by apply G'. tauto. }
  split; [|split; [|split]].
  - exists (path_join [path_base info; $"RECORD"]). split; [rewrite IR, <- A; now left|]. split; auto. intros row' Iw L. rewrite IR, <- A in Iw. destruct Iw as [<- |Iw]; [reflexivity|]. exfalso.
    destruct (all_some_in _ _ _ _ AS Iw) as (r & X & R). apply filter_In in X as [X D]. apply in_map_iff in X as ([k r'] & <- & X).
    assert (L2 := describes_name _ _ _ _ _ (record_describes _ _ _ _ _ _ ID R)). assert (F1 := proj2 G'). rewrite Forall_forall in F1. destruct (F1 _ X) as (Ek & Ck & _).
    assert (Pk := P'). unfold plain_names in Pk. rewrite Forall_forall in Pk. specialize (Pk _ X). cbn [fst snd] in *. rewrite <- Ek in L2.
    assert (k = in_info info $"RECORD") by (eapply leads_inj; [| | | |exact L2|exact L]; auto; [now apply in_info_inner|now apply in_info_clean]).
    subst k. apply (in_get_key _ _ _ (proj1 G')) in X. congruence.
  - intros row Ir. rewrite IR, <- A in Ir. destruct Ir as [<- |Ir]; [left; eauto|]. right. destruct (all_some_in _ _ _ _ AS Ir) as (r & X & R).
    apply filter_In in X as [X D]. apply in_map_iff in X as ([k r'] & <- & X). exists k, r'. split; [apply FI; split; auto; now apply negb_true_iff|]. now apply (record_describes _ _ (path_dir info)).
  - intros k r F. apply FI in F as [X D]. assert (Ir : In r (filter (fun r => negb (ref_dir r)) (map snd fs'))) by (apply filter_In; split; [change r with (snd (k, r)); now apply in_map|now rewrite D]).
    destruct (all_some_have _ _ _ _ AS Ir) as (row & Iw & R). assert (Iw' : In row rows) by (rewrite <- A; now right). exists row. rewrite IR. split; auto. split; [exact (record_describes _ _ _ _ _ _ ID R)|].
    intros row' Iw2 L. rewrite IR in Iw2. assert (F1 := proj2 G'). rewrite Forall_forall in F1. destruct (F1 _ X) as (Ek & Ck & _). assert (Pk := P'). unfold plain_names in Pk. rewrite Forall_forall in Pk. specialize (Pk _ X). cbn [fst snd] in *.
    rewrite <- A in Iw2. destruct Iw2 as [<- |Iw2].
    + exfalso. assert (k = in_info info $"RECORD") by (eapply leads_inj; [| | | |exact L|apply SN]; auto; [now apply in_info_inner|now apply in_info_clean]).
      subst k. apply (in_get_key _ _ _ (proj1 G')) in X. congruence.
    + destruct (all_some_in _ _ _ _ AS Iw2) as (r2 & Ir2 & R2). apply filter_In in Ir2 as [Ir2 _]. apply in_map_iff in Ir2 as ([k2 r2'] & <- & Ir2). destruct (F1 _ Ir2) as (Ek2 & Ck2 & _).
      assert (Pk2 := P'). unfold plain_names in Pk2. rewrite Forall_forall in Pk2. specialize (Pk2 _ Ir2). cbn [fst snd] in *.
      assert (L2 := describes_name _ _ _ _ _ (record_describes _ _ _ _ _ _ ID R2)). rewrite <- Ek2 in L2.
      assert (k2 = k) by (eapply leads_inj; [| | | |exact L2|exact L]; auto). subst k2. assert (r2' = r) by (apply (in_get_key _ _ _ (proj1 G')) in X, Ir2; congruence). congruence.
  - exact SR.
Qed.
Theorem record_ok space digest range sort algo installer url t fs info fs' :
  (forall m, Permutation (range m) m) -> sorts sort -> hook_input fs info -> record_hook space digest range sort algo installer url t fs info = Some fs' ->
  (exists text rows, plain_file (in_info info $"RECORD") t text fs' /\ rfc4180 text = Some (map (map crlf) rows) /\ rows_for digest (hash_used algo) info fs' rows) /\
  plain_file (in_info info $"INSTALLER") t (installer ++ [nl]) fs' /\
  (forall u, url = Some u -> plain_file (in_info info $"direct_url.json") t (url_json go_quote u) fs') /\
  (forall k, k <> in_info info $"RECORD" -> k <> in_info info $"INSTALLER" -> url = None \/ k <> in_info info $"direct_url.json" -> get_key k fs' = get_key k fs).
Proof.
  intros HR HS (I & C & G & P & NR) H. rewrite hook_is in H. cbv zeta in H. destruct (negb _); [discriminate|]. destruct (all_rows _ _ _ _) as [rows|] eqn:A; [|discriminate]. apply some_eq in H as <-.
  assert (IA : is_abs info = false) by apply I. assert (G1 := notes_good installer url t fs info C IA G). assert (P1 := notes_plain installer url t fs info I (proj1 G) P).
  assert (NR1 := notes_record installer url t fs info I). rewrite NR in NR1. split; [|split; [|split]].
  - exists (csv_write space (sort row_less rows)), (sort row_less rows). split; [|split].
    + exists (mem_reg (in_info info $"RECORD") 420 t (csv_write space (sort row_less rows))). rewrite put_get, str_eqb_refl by auto. repeat split.
    + apply csv_rfc4180. apply Forall_forall. intros row Ir. assert (X := rows_spec sort digest algo _ _ info rows [] t HS I C G1 P1 NR1 (HR _) A). destruct X as (_ & X & _).
      destruct (X row Ir) as [(name & -> & _)|(k & r & _ & name & hash & size & -> & _)]; discriminate.
    + now apply (rows_spec sort digest algo _ _ info rows _ t HS I C G1 P1 NR1 (HR _)).
  - exists (mem_reg (in_info info $"INSTALLER") 420 t (installer ++ [nl])). rewrite put_get by auto. rewrite in_info_neq by (auto; discriminate). unfold notes. destruct url as [u|].
    + rewrite put_get by auto. rewrite in_info_neq by (auto; discriminate). rewrite put_get, str_eqb_refl by auto. repeat split.
    + rewrite put_get, str_eqb_refl by auto. repeat split.
  - intros u ->. exists (mem_reg (in_info info $"direct_url.json") 420 t (url_text u)). rewrite put_get by auto. rewrite in_info_neq by (auto; discriminate). unfold notes. rewrite put_get, str_eqb_refl by auto.
    repeat split. cbn [mem_reg ref_content m_content]. now rewrite (proj2 (url_python u)).
  - intros k K1 K2 K3. rewrite put_get by auto. apply str_eqb_neq in K1. rewrite K1. now apply notes_other.
Qed.
Lemma hashes_same algo : existsb (str_eqb algo) guaranteed = true <-> In algo python_hashes.
Proof.
  rewrite existsb_exists. split.
  - intros (x & I & E). apply str_eqb_eq in E as ->. cbn [guaranteed In] in I. change python_hashes with [$"sha1"; $"sha224"; $"sha256"; $"sha384"; $"sha512"; $"md5"]. cbn [In]. tauto.
  - intros I. exists algo. split; [|apply str_eqb_refl]. change python_hashes with [$"sha1"; $"sha224"; $"sha256"; $"sha384"; $"sha512"; $"md5"] in I. cbn [guaranteed In] in *. tauto.
Qed.
Theorem record_hash space digest range sort algo installer url t fs info fs' :
  record_hook space digest range sort algo installer url t fs info = Some fs' -> In (hash_used algo) python_hashes.
Proof. intros H. rewrite hook_is in H. cbv zeta in H. destruct (existsb _ _) eqn:X; [|discriminate]. now apply hashes_same. Qed.
Lemma all_some_ex {A B} (f : A -> option B) l : (forall x, In x l -> f x <> None) -> all_some (map f l) <> None.
Proof.
  induction l as [|x l IH]; intros H; cbn [map all_some]; [discriminate|]. specialize (IH (fun y I => H y (or_intror I))). specialize (H x (or_introl eq_refl)).
  destruct (f x); [|congruence]. now destruct (all_some _).
Qed.
Theorem record_succeeds space digest range sort algo installer url t fs info :
  (forall m, Permutation (range m) m) -> hook_input fs info -> In (hash_used algo) python_hashes ->
  (forall k r, get_key k fs = Some r -> k <> in_info info $"INSTALLER" -> url = None \/ k <> in_info info $"direct_url.json" -> ref_dir r = false ->
     (exists hash size, ref_record r = Some (hash, size)) \/ exists text ok, ref_content r = Bytes text ok) ->
  exists fs', record_hook space digest range sort algo installer url t fs info = Some fs'.
Proof.
  intros HR (I & C & G & P & NR) HA F. rewrite hook_is. cbv zeta. apply hashes_same in HA. rewrite HA. cbn [negb].
  assert (IA : is_abs info = false) by apply I. assert (G1 := notes_good installer url t fs info C IA G).
  destruct (all_rows _ _ _ _) as [rows|] eqn:A; [eauto|]. exfalso. unfold all_rows in A. destruct (all_some _) eqn:S; [discriminate|]. revert S. apply all_some_ex.
  intros r X. apply filter_In in X as [X D]. apply in_map_iff in X as ([k r'] & <- & X). cbn [snd] in *. apply (Permutation_in _ (HR _)) in X. apply (in_get_key _ _ _ (proj1 G1)) in X. apply negb_true_iff in D.
  assert (Q : (exists hash size, ref_record r' = Some (hash, size)) \/ exists text ok, ref_content r' = Bytes text ok).
  { unfold notes in X. destruct url as [u|].
    - rewrite !put_get in X by auto. destruct (str_eqb k (in_info info $"direct_url.json")) eqn:E1; [injection X as <-; right; eexists; eexists; reflexivity|].
      destruct (str_eqb k (in_info info $"INSTALLER")) eqn:E2; [injection X as <-; right; eexists; eexists; reflexivity|]. apply str_eqb_neq in E1, E2. eauto.
    - rewrite !put_get in X by auto. destruct (str_eqb k (in_info info $"INSTALLER")) eqn:E2; [injection X as <-; right; eexists; eexists; reflexivity|]. apply str_eqb_neq in E2. eauto. }
  unfold record_file. destruct Q as [(hash & size & ->)|(text & ok & ->)]; [discriminate|]. destruct (ref_record r') as [[h s]|]; [discriminate|]. destruct (has_suffix _ _); discriminate.
Qed.
Lemma record_keeps space digest range sort algo installer url t fs info fs' :
  record_hook space digest range sort algo installer url t fs info = Some fs' -> clean_path info -> is_abs info = false -> good_map fs -> good_map fs'.
Proof.
  intros H C A G. rewrite hook_is in H. cbv zeta in H. destruct (negb _); [discriminate|]. destruct (all_rows _ _ _ _) as [rows|]; [|discriminate]. injection H as <-.
  apply put_good; auto. now apply notes_good.
Qed.

(** ** The order of the map does not matter *)
Lemma put_perm info n t text fs fs' : NoDup (map fst fs) -> Permutation fs fs' -> Permutation (put info n t text fs) (put info n t text fs').
Proof.
  intros N P. assert (N' : NoDup (map fst fs')) by (eapply perm_nodup; [exact N|symmetry; exact P]). apply maps_perm; try now apply set_key_nodup.
  intros k. unfold put. rewrite !get_set_key. destruct (str_eqb _ _); auto. apply perm_get; auto.
Qed.
Lemma all_rows_perm digest algo fs fs' info : Permutation fs fs' -> same_set (all_rows digest algo fs info) (all_rows digest algo fs' info).
Proof.
  intros P. unfold all_rows.
  assert (Q : forall l l' : list (option (list str)), Permutation l l' -> same_set (all_some l) (all_some l')).
  { clear. intros l l' P. destruct (all_some l) as [r|] eqn:E.
    - apply all_some_map in E as ->. apply Permutation_sym in P. apply Permutation_map_inv in P as (r' & -> & P). replace (all_some (map Some r')) with (Some r') by (symmetry; now apply all_some_map). exact P.
    - destruct (all_some l') as [r|] eqn:E'; [|exact Logic.I]. exfalso. apply all_some_map in E' as ->. apply Permutation_map_inv in P as (r' & -> & P). 
      assert (X : all_some (map Some r') = Some r') by now apply all_some_map. congruence. }
  specialize (Q _ _ (Permutation_map (record_file digest (hash_used algo) (path_dir info)) (filter_perm (fun r => negb (ref_dir r)) _ _ (Permutation_map snd P)))).
  destruct (all_some _), (all_some _); auto. cbn [same_set] in *. now constructor.
Qed.
Theorem record_same space digest range range' sort sort' algo installer url t fs fs' info :
  (forall m, Permutation (range m) m) -> (forall m, Permutation (range' m) m) -> sorts sort -> sorts sort' ->
  hook_input fs info -> Permutation fs fs' ->
  same_set (record_hook space digest range sort algo installer url t fs info) (record_hook space digest range' sort' algo installer url t fs' info).
Proof.
  intros HR HR' HS HS' (I & C & G & P & NR) PM. rewrite !hook_is. cbv zeta. destruct (negb _); [exact Logic.I|].
  assert (IA : is_abs info = false) by apply I. assert (G1 := notes_good installer url t fs info C IA G). assert (P1 := notes_plain installer url t fs info I (proj1 G) P).
  assert (NR1 := notes_record installer url t fs info I). rewrite NR in NR1.
  assert (PN : Permutation (notes installer url t fs info) (notes installer url t fs' info)).
  { unfold notes. destruct url; repeat apply put_perm; auto; try apply set_key_nodup; apply G. }
  assert (PR : Permutation (range (notes installer url t fs info)) (range' (notes installer url t fs' info))) by (rewrite HR, HR'; exact PN).
  assert (S := all_rows_perm digest algo _ _ info PR). destruct (all_rows _ _ (range _) _) as [rows|] eqn:A, (all_rows _ _ (range' _) _) as [rows'|] eqn:A'; auto.
  cbn [same_set] in *. replace (sort' row_less rows') with (sort row_less rows); [now apply put_perm; [apply G1|]|].
  assert (G2 : good_map (range (notes installer url t fs info))) by (eapply good_perm; [symmetry; apply HR|exact G1]).
  assert (ND := rows_nodup _ _ _ _ _ I C G2 (Permutation_Forall (Permutation_sym (HR _)) P1) (eq_trans (perm_get _ _ _ (proj1 G1) (HR _)) NR1) A).
  apply (sorted_unique row_before).
  - intros a b Ha Hb. unfold row_before in *. rewrite (ok_anti _ str_compare_ok), Ha in Hb. discriminate.
  - now apply sorted_rows.
  - apply sorted_rows; auto. eapply Permutation_NoDup; [apply Permutation_map; exact S|exact ND].
  - rewrite (proj1 (HS row_less rows)), (proj1 (HS' row_less rows')). exact S.
Qed.

(** ** Installation *)
Lemma header_reg r h : ref_header r = Some h ->
  (th_type h = TypeReg -> ref_dir r = false /\ th_size h = ref_size r) /\ (ref_dir r = false -> th_type h <> TypeDir).
Proof.
  unfold ref_header, file_info_header, ref_dir. destruct (header_type (ref_mode r)) as [ty|] eqn:T; [|discriminate]. intros H.
  assert (X : th_type h = ty /\ th_size h = (if (N.land (ref_mode r) go_type_mask =? 0)%N then ref_size r else 0%Z) \/ th_type h = TypeLink).
  { destruct (match r with MemRef m => m_sys m | _ => None end) as [s|].
    - destruct (byte_eqb (th_type s) TypeLink); apply some_eq in H; subst h; cbn [th_type th_size]; auto.
    - apply some_eq in H. subst h. cbn [th_type th_size]. auto. }
  unfold header_type in T. destruct (N.land (ref_mode r) go_type_mask =? 0)%N eqn:M.
  - apply some_eq in T as <-. assert (D : bit_set (ref_mode r) go_dir = false).
    { unfold bit_set. apply N.eqb_eq in M. apply negb_false_iff, N.eqb_eq. change go_dir with (N.land go_type_mask go_dir). now rewrite N.land_assoc, M. }
    split; [intros Y; destruct X as [[_ X]|X]; [now rewrite X|rewrite X in Y; discriminate]|]. intros _. destruct X as [[X _]|X]; rewrite X; discriminate.
  - destruct (bit_set (ref_mode r) go_dir) eqn:D; [split; [|discriminate]; apply some_eq in T as <-; intros Y; destruct X as [[X _]|X]; rewrite X in Y; discriminate|].
    assert (NT : ty <> TypeReg /\ ty <> TypeDir).
    { destruct (bit_set (ref_mode r) go_symlink); [apply some_eq in T as <-; split; discriminate|]. destruct (bit_set (ref_mode r) go_device).
      - apply some_eq in T as <-. clear H X; destruct (bit_set (ref_mode r) go_char_device); split; discriminate.
      - destruct (bit_set (ref_mode r) go_named_pipe); [apply some_eq in T as <-; split; discriminate|discriminate]. }
    split; intros Y; destruct X as [[X _]|X]; rewrite X in *; try tauto; discriminate.
Qed.
Theorem record_installed o h0 space range sort algo installer url fuel pl pl' min mx wh l :
  fair o -> pyc_outputs o -> (forall m, Permutation (range m) m) -> sorts sort ->
  (forall t fs info, o_hook o t fs info = match h0 t fs info with Some fs => record_hook space (o_digest o) range sort algo installer url t fs info | None => None end) ->
  (forall t fs info fs', install_vfs o pl' min t wh = IOk (fs, info) -> h0 t fs info = Some fs' ->
     hook_input fs' info /\ forall k r, get_key k fs' = Some r -> get_key k fs = Some r \/ exists m, r = MemRef m) ->
  sanitize pl = Some pl' -> inner_scheme (pl_scheme pl') -> inner_names wh -> never_nested (pl_scheme pl') wh ->
  install_wheel o fuel pl min mx wh = IOk l ->
  exists info root, info_of wh info /\ root_of (pl_scheme pl') root /\
  let base := join $"/" (clean_comps root) in
  exists e0 rows, In e0 l /\ th_name (fst e0) = join $"/" (clean_comps root ++ [info; $"RECORD"]) /\ th_type (fst e0) = TypeReg /\
  rfc4180 (snd e0) = Some (map (map crlf) rows) /\ StronglySorted row_before rows /\
  (forall row, In row rows -> exists e, In e l /\ th_type (fst e) <> TypeDir /\ leads_to base (row_name_of row) (th_name (fst e))) /\
  (exists name, only_row rows base (th_name (fst e0)) [name; []; []] /\ names base name (th_name (fst e0))) /\
  forall e, In e l -> th_type (fst e) = TypeReg -> th_name (fst e) <> th_name (fst e0) ->
  exists row, only_row rows base (th_name (fst e)) row /\
    (right_row (o_digest o) (hash_used algo) base e row \/ script_row (o_digest o) (pl_scheme pl') root (data_name info) base wh e row).
Proof.
  intros FO PO HR HSo HK H0 S HS HN NN H. apply install_inv in H as (pl2 & fs & ip & fs1 & fs2 & refs & S2 & IC & IV & HKo & AP & TE & LR).
  assert (pl2 = pl') by congruence. subst pl2. destruct (vfs_places _ _ _ _ _ _ _ FO HS HN NN IV) as (info & root & IO & RO & RD & DI & EI & ND & PL).
  rewrite HK in HKo. set (t := max_time o wh mx) in *. destruct (h0 t fs ip) as [fs0|] eqn:E0; [|discriminate]. destruct (H0 _ _ _ _ IV E0) as [HI H0']. clear H0.
  pose proof HI as (II & CI & G0 & P0 & NR). destruct (record_ok _ _ _ _ _ _ _ _ _ _ _ HR HSo HI HKo) as ((text & rows & PF & CSV & R1 & R2 & R3 & R4) & _ & _ & OT).
  assert (GM1 : good_map fs1) by (eapply record_keeps; eauto; apply II).
  destruct FO as (F1 & F2 & F2' & F3 & F4 & F5 & F6).
  destruct (parents_spec _ _ _ _ _ GM1 (F2 fs1) (F2' fs1) AP) as (GM2 & Q1 & Q2 & Q3).
  destruct (layer_refs _ _ _ _ _ _ F6 (F5 fs2) TE LR) as [L1 L2].
  destruct (root_inner _ _ _ _ _ HS RD) as (_ & NR0 & PR0). destruct (info_plain _ _ HN DI) as [PI _].
  assert (PIP : plain_path (clean_comps root ++ [info])) by (apply Forall_app; split; auto).
  destruct (inner_join _ PIP (snoc_ne _ _)) as [_ CC]. rewrite <- EI in CC.
  assert (EB : parent ip = join $"/" (clean_comps root)) by (unfold parent; now rewrite CC, removelast_last).
  assert (ER : in_info ip $"RECORD" = join $"/" (clean_comps root ++ [info; $"RECORD"])) by (unfold in_info; now rewrite CC, <- app_assoc).
  rewrite EB in R1, R2, R3. rewrite ER in *. set (rec := join $"/" (clean_comps root ++ [info; $"RECORD"])) in *. set (base := join $"/" (clean_comps root)) in *.
  assert (NMK : forall k r, get_key k fs2 = Some r -> clean (ref_full r) = k).
  { intros k r I. rewrite good_iff in GM2. destruct (proj2 GM2 _ _ I) as (E & C & _). now rewrite <- E. }
  (* the entry of a reference *)
  assert (LE : forall k r, get_key k fs1 = Some r -> exists e h, In e l /\ ref_header r = Some h /\ th_name (fst e) = k /\ th_type (fst e) = th_type h /\
    (th_type h = TypeReg -> ref_content r = Bytes (snd e) true)).
  { intros k r G. apply Q1 in G as G2. assert (X := NMK _ _ G2). apply get_key_in in G2. destruct (L2 _ _ G2) as (fr & e & Ie & T & W). exists e. unfold tar_entry in T. destruct (ref_header r) as [h|]; [|discriminate]. exists h. apply some_eq in T. subst fr.
    destruct (written_fields _ _ _ _ W eq_refl) as (NM & TY & SZ & _ & _ & _ & _ & _ & CT). cbn [fr_name fr_content th_type th_size owned with_name] in NM, TY, SZ, CT.
    split; auto. split; auto. split; [congruence|]. split; auto. intros Y. rewrite Y in CT. apply CT. }
  exists info, root. split; auto. split; auto. cbv zeta. fold base.
  destruct PF as (r0 & Gr & Fr & Dr & Mr & Tr & Cr). destruct (LE _ _ Gr) as (e0 & h & Ie0 & Hh & Ne0 & Te0 & Ce0).
  assert (T0 : th_type h = TypeReg).
  { assert (X : r0 = mem_reg rec 420 t text).
    { rewrite hook_is in HKo. cbv zeta in HKo. destruct (negb _); [discriminate|]. destruct (all_rows _ _ _ _) as [rows'|]; [|discriminate]. apply some_eq in HKo. rewrite <- HKo in Gr. rewrite put_get in Gr by auto.
      rewrite ER in Gr. rewrite str_eqb_refl in Gr. apply some_eq in Gr. subst r0. f_equal. cbn [mem_reg ref_content m_content] in Cr. congruence. }
    rewrite X in Hh. apply (f_equal (fun x => match x with Some y => th_type y | None => th_type h end)) in Hh. symmetry. exact Hh. }
  exists e0, rows. rewrite Ne0. split; auto. split; auto. split; [congruence|]. split; [specialize (Ce0 T0); rewrite Cr in Ce0; injection Ce0 as <-; exact CSV|]. split; auto. split; [|split].
  - intros row Ir. destruct (R2 row Ir) as [(name & -> & N)|(k & r & (G & D & _) & DS)].
    + exists e0. rewrite Ne0, Te0, T0. split; auto. split; [discriminate|]. apply N.
    + destruct (LE _ _ G) as (e & h' & Ie & Hh' & Ne & Te & _). exists e. split; auto. split; [rewrite Te; now apply (header_reg r)|]. rewrite Ne. rewrite good_iff in GM1. destruct (proj2 GM1 _ _ G) as (-> & _). now apply describes_name in DS.
  - destruct R1 as (name & I1 & I2 & I3). exists name. split; [split; auto|]. exact I2.
  - intros e Ie Te Ne. destruct (L1 e Ie) as (k & r & fr & Ik & T & W). assert (Gk := in_get_key _ _ _ (proj1 GM2) Ik).
    destruct (Q2 k r Gk) as [G1|(_ & -> & n & In' & B)]; [|exfalso; destruct (mem_entry _ _ _ _ _ _ T W) as (_ & TY & _); rewrite TY in Te; discriminate].
    unfold tar_entry in T. destruct (ref_header r) as [h'|] eqn:Hr; [|discriminate]. apply some_eq in T. subst fr.
    destruct (written_fields _ _ _ _ W eq_refl) as (NM & TY & SZ & _ & _ & _ & _ & _ & CT). cbn [fr_name fr_content th_type th_size owned with_name] in NM, TY, SZ, CT.
    rewrite Te in TY. rewrite <- TY in CT. destruct CT as [CT CS]. destruct (header_reg _ _ Hr) as [HD _]. destruct (HD (eq_sym TY)) as [Dd Sz].
    assert (NK : th_name (fst e) = k) by (rewrite NM; now apply NMK).
    assert (NR' : k <> rec) by congruence. destruct (R3 k r (conj G1 (conj Dd NR'))) as (row & Irow & DS & U). exists row. rewrite NK. split; [split; auto|].
    destruct DS as (name & hash & size & -> & N & DS). assert (FK : ref_full r = k) by (rewrite good_iff in GM1; symmetry; now apply (proj2 GM1)). rewrite FK in N.
    destruct r as [zh zc|zh zc hash' size'|m].
    + left. exists name, hash, size. rewrite NK. split; auto. split; auto. destruct (has_suffix $".pyc" name); auto. destruct DS as (text' & ok' & C & -> & ->). rewrite C in CT. injection CT as -> _. rewrite <- Sz, CS. auto.
    + right. destruct DS as [-> ->].
      assert (OLD : get_key k fs = Some (RecRef zh zc hash' size')).
      { assert (OLD0 : get_key k fs0 = Some (RecRef zh zc hash' size')).
        { rewrite hook_is in HKo. cbv zeta in HKo. destruct (negb _); [discriminate|]. destruct (all_rows _ _ _ _) as [rows'|]; [|discriminate]. apply some_eq in HKo. rewrite <- HKo in G1.
          rewrite put_get in G1 by auto. destruct (str_eqb k _); [discriminate|]. unfold notes in G1. destruct url; repeat rewrite put_get in G1 by auto; repeat (destruct (str_eqb k _) in G1; [discriminate|]); exact G1. }
        destruct (H0' _ _ OLD0) as [|(m & X)]; [auto|discriminate]. }
      destruct (PL _ _ OLD) as [(rs & outs & C & J & EK)|(f & key & J & D & M & _)].
      * specialize (PO _ _ _ C). rewrite Forall_forall in PO. destruct (PO _ J) as (_ & _ & _ & m & X). discriminate.
      * unfold made_from in M. destruct (is_script key) eqn:IS; [|discriminate]. destruct key as [key|]; [|discriminate]. cbn [is_script] in IS. apply str_eqb_eq in IS. subst key.
        unfold rewritten in M. rewrite created_content in M. destruct (zf_content f) as [| |ft ok] eqn:CF; try discriminate. cbv zeta in M. destruct (negb _) eqn:PX; [discriminate|].
        apply negb_false_iff in PX. exists f, ft, ok, name. rewrite NK. split; auto. split; auto. split; [apply has_prefix_spec in PX as [x PX]; apply has_prefix_spec; exists (x ++ skipn 9 ft); rewrite <- (firstn_skipn 9 ft) at 1; rewrite PX; now rewrite <- app_assoc|].
        split; auto. split; auto. destruct (created_name min k f) as (h9 & E9 & _). rewrite E9 in M. destruct (if str_eqb _ _ then _ else _) as [sb sk]. apply IOk_inj in M. injection M as _ _ <- <-. reflexivity.
    + left. exists name, hash, size. rewrite NK. split; auto. split; auto. destruct (has_suffix $".pyc" name); auto. destruct DS as (text' & ok' & C & -> & ->). rewrite C in CT. injection CT as -> _. rewrite <- Sz, CS. auto.
Qed.
