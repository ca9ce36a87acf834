(** Proofs about fragments of URLs and checksums. *)
From Coq Require Import String Ascii List Bool ZArith NArith Lia.
From Verif.Model Require Import GoStr SimpleAPI.
From Verif.Spec Require Import WheelNameSpec SimpleAPISpec UrlSpec.
From Verif.Proofs Require Import Order GoStrFacts WheelNameFacts SimpleAPIFacts.
Import ListNotations.
Local Open Scope Z_scope.
Local Arguments byte_eqb : simpl never.
Local Arguments str_eqb : simpl never.

Lemma unhex_spec c n : unhex c = Some n <-> hex_digit c n.
Proof.
  split.
  - unfold unhex, code. pose proof (ascii_N_embedding c) as EM. set (m := N_of_ascii c) in *.
    destruct ((48 <=? m) && (m <=? 57))%N eqn:A.
    { apply andb_prop in A as [A1 A2]. apply N.leb_le in A1, A2. intros [= <-]. rewrite <- EM.
      replace m with (48 + (m - 48))%N at 1 by lia. constructor. lia. }
    destruct ((97 <=? m) && (m <=? 102))%N eqn:B.
    { apply andb_prop in B as [A1 A2]. apply N.leb_le in A1, A2. intros [= <-]. rewrite <- EM.
      replace m with (87 + (m - 87))%N at 1 by lia. apply HX_lower. lia. }
    destruct ((65 <=? m) && (m <=? 70))%N eqn:C; [|discriminate].
    apply andb_prop in C as [A1 A2]. apply N.leb_le in A1, A2. intros [= <-]. rewrite <- EM.
    replace m with (55 + (m - 55))%N at 1 by lia. apply HX_upper. lia.
  - destruct 1 as [n H|n H|n H]; unfold unhex, code; rewrite N_ascii_embedding by lia.
    + replace ((48 <=? 48 + n) && (48 + n <=? 57))%N with true; [f_equal; lia|]. symmetry. rewrite andb_true_iff, !N.leb_le. lia.
    + replace ((48 <=? 87 + n) && (87 + n <=? 57))%N with false by (symmetry; apply andb_false_intro2, N.leb_gt; lia).
      replace ((97 <=? 87 + n) && (87 + n <=? 102))%N with true; [f_equal; lia|]. symmetry. rewrite andb_true_iff, !N.leb_le. lia.
    + replace ((48 <=? 55 + n) && (55 + n <=? 57))%N with false by (symmetry; apply andb_false_intro2, N.leb_gt; lia).
      replace ((97 <=? 55 + n) && (55 + n <=? 102))%N with false by (symmetry; apply andb_false_intro1, N.leb_gt; lia).
      replace ((65 <=? 55 + n) && (55 + n <=? 70))%N with true; [f_equal; lia|]. symmetry. rewrite andb_true_iff, !N.leb_le. lia.
Qed.
Lemma hex_not_eq n : ~ hex_digit "="%char n.
Proof. intros H. apply unhex_spec in H. vm_compute in H. discriminate. Qed.

Lemma unescape_decodes plus raw : forall s, unescape plus raw = Some s -> decodes plus raw s.
Proof.
  remember (length raw) as m eqn:Hm. assert (L : (length raw <= m)%nat) by lia. clear Hm. revert raw L.
  induction m as [|m IH]; intros [|c raw] L s; cbn [unescape length] in *; try (intros [= <-]; constructor); try lia.
  destruct (byte_eqb c "%") eqn:E.
  - apply byte_eqb_eq in E. subst c. destruct raw as [|a [|b raw]]; try discriminate.
    destruct (unhex a) as [x|] eqn:A; [|discriminate]. destruct (unhex b) as [y|] eqn:B; [|discriminate].
    destruct (unescape plus raw) as [r|] eqn:R; [|discriminate]. intros [= <-].
    constructor; try (now apply unhex_spec). apply IH; auto. cbn [length] in L. lia.
  - destruct (unescape plus raw) as [r|] eqn:R; [|discriminate]. intros [= <-].
    assert (c <> "%"%char) by (intros ->; now rewrite byte_eqb_refl in E).
    destruct (plus && byte_eqb c "+") eqn:P.
    + apply andb_prop in P as [-> P]. apply byte_eqb_eq in P. subst c. constructor; auto. apply IH; auto. lia.
    + constructor; auto; [|apply IH; auto; lia]. intros [-> ->]. now rewrite byte_eqb_refl in P.
Qed.
Lemma decodes_unescape plus raw s : decodes plus raw s -> unescape plus raw = Some s.
Proof.
  induction 1 as [|a b x y raw s A B _ IH|raw s P _ IH|c raw s H1 H2 _ IH]; auto; cbn [unescape].
  - rewrite byte_eqb_refl. apply unhex_spec in A, B. now rewrite A, B, IH.
  - change (byte_eqb "+" "%") with false. cbv iota. now rewrite IH, P, byte_eqb_refl.
  - destruct (byte_eqb c "%") eqn:E; [apply byte_eqb_eq in E; contradiction|]. rewrite IH.
    destruct plus; auto. destruct (byte_eqb c "+") eqn:F; auto. apply byte_eqb_eq in F. exfalso. auto.
Qed.
Lemma decodes_app plus a b x y : decodes plus a x -> decodes plus b y -> decodes plus (a ++ b) (x ++ y).
Proof. induction 1; intros; cbn [app]; auto; now constructor; auto. Qed.
Lemma decodes_split plus a b s : decodes plus (a ++ "="%char :: b) s -> exists x y, decodes plus a x /\ decodes plus b y.
Proof.
  remember (length a) as m eqn:Hm. assert (L : (length a <= m)%nat) by lia. clear Hm. revert a s L.
  induction m as [|m IH]; intros a s L D.
  - destruct a; [|cbn [length] in L; lia]. cbn [app] in D. exists []. inversion D; subst. exists s0. split; [constructor|auto].
  - destruct a as [|c a]; cbn [app length] in *.
    { exists []. inversion D; subst. exists s0. split; [constructor|auto]. }
    inversion D; subst.
    + destruct a as [|a1 [|a2 a]]; cbn [app] in *.
      * injection H0 as E1 E2. subst. exfalso. eapply hex_not_eq. eassumption.
      * injection H0 as E1 E2 E3. subst. exfalso. eapply hex_not_eq. eassumption.
      * injection H0 as E1 E2 E3. subst. cbn [length] in L.
        destruct (IH a s0) as (x' & y' & A & B); [lia|assumption|]. exists (ascii_of_N (16 * x + y) :: x'), y'. split; auto. constructor; auto.
    + destruct (IH a s0) as (x' & y' & A & B); [lia|assumption|]. exists (" "%char :: x'), y'. split; auto. now constructor.
    + destruct (IH a s0) as (x' & y' & A & B); [lia|assumption|]. exists (c :: x'), y'. split; auto. now constructor.
Qed.
Lemma decodes_eq : decodes true $"=" $"=".
Proof. constructor; [discriminate|intros [_ [=]]|constructor]. Qed.

(** One piece of the list *)
Definition piece_ok (p : str) : Prop := ~ In ";"%char p /\ exists d, decodes true p d.
Definition piece_gives (p k v : str) : Prop := exists raw_k raw_v, p <> [] /\ ~ In "="%char raw_k /\
    (p = raw_k ++ $"=" ++ raw_v \/ (p = raw_k /\ raw_v = [])) /\ decodes true raw_k k /\ decodes true raw_v v.
Lemma piece_cut p : p <> [] -> let k := fst (cut "="%char p) in let v := match snd (cut "="%char p) with Some v => v | None => [] end in
  ~ In "="%char k /\ (p = k ++ $"=" ++ v \/ (p = k /\ v = [])).
Proof.
  intros H k v. subst k v. split; [apply cut_no_sep|]. pose proof (cut_parts "="%char p) as P. destruct (snd (cut "="%char p)) as [v|].
  - left. symmetry. exact P.
  - right. rewrite app_nil_r in P. auto.
Qed.
Lemma cut_of p k v : ~ In "="%char k -> (p = k ++ $"=" ++ v \/ (p = k /\ v = [])) ->
  fst (cut "="%char p) = k /\ match snd (cut "="%char p) with Some v => v | None => [] end = v.
Proof.
  intros N [-> | [-> ->]].
  - change ($"=" ++ v) with ("="%char :: v). rewrite cut_app by auto. auto.
  - pose proof (cut_parts "="%char k) as P. destruct (snd (cut "="%char k)) as [v|].
    + exfalso. apply N. rewrite <- P. apply in_or_app. right. now left.
    + rewrite app_nil_r in P. auto.
Qed.
Lemma piece_result p : p <> [] -> contains_byte ";"%char p = false ->
  let '(k, v) := cut "="%char p in
  match unescape true k, unescape true (match v with Some v => v | None => [] end) with
  | Some k, Some v => piece_ok p /\ (forall k' v', piece_gives p k' v' <-> k' = k /\ v' = v)
  | _, _ => ~ piece_ok p
  end.
Proof.
  intros NE SC. assert (NS : ~ In ";"%char p) by (intros I; apply contains_byte_spec in I; congruence).
  destruct (piece_cut p NE) as [A B]. destruct (cut "="%char p) as [k v] eqn:E. cbn [fst snd] in A, B.
  set (v0 := match v with Some v => v | None => [] end) in *.
  destruct (unescape true k) as [dk|] eqn:K.
  - destruct (unescape true v0) as [dv|] eqn:V.
    + pose proof (unescape_decodes _ _ _ K) as DK. pose proof (unescape_decodes _ _ _ V) as DV. split.
      * split; auto. destruct B as [B | [B B']]; [|rewrite B; eauto]. exists (dk ++ $"=" ++ dv). rewrite B at 1.
        apply decodes_app; auto. apply decodes_app; auto. apply decodes_eq.
      * intros k' v'. split.
        -- intros (rk & rv & _ & N & P & D1 & D2). destruct (cut_of _ _ _ N P) as [Q1 Q2]. rewrite E in Q1, Q2. cbn [fst snd] in Q1, Q2.
           apply decodes_unescape in D1, D2. split.
           ++ rewrite <- Q1, K in D1. now injection D1.
           ++ rewrite <- Q2 in D2. fold v0 in D2. rewrite V in D2. now injection D2.
        -- intros [-> ->]. exists k, v0. auto 10.
    + intros [_ (d & D)]. destruct B as [B | [B B']].
      * rewrite B in D. change ($"=" ++ v0) with ("="%char :: v0) in D. apply decodes_split in D as (x & y & _ & D2).
        apply decodes_unescape in D2. congruence.
      * rewrite B' in V. discriminate.
  - intros [_ (d & D)]. destruct B as [B | [B B']].
    + rewrite B in D. change ($"=" ++ v0) with ("="%char :: v0) in D. apply decodes_split in D as (x & y & D2 & _).
      apply decodes_unescape in D2. congruence.
    + rewrite <- B in K. apply decodes_unescape in D. congruence.
Qed.
Lemma pieces_spec l : (snd (parse_pieces l) = true <-> forall p, In p l -> piece_ok p) /\
  ((forall p, In p l -> piece_ok p) -> forall k v, In (k, v) (fst (parse_pieces l)) <-> exists p, In p l /\ piece_gives p k v).
Proof.
  induction l as [|p l [IH1 IH2]].
  - split; [split; [intros _ p []|auto]|]. intros _ k v. split; [intros []|intros (p & [] & _)].
  - cbn [parse_pieces]. destruct (parse_pieces l) as [m ok]. cbn [fst snd] in *.
    destruct (contains_byte ";" p) eqn:C.
    { assert (~ piece_ok p) by (intros [N _]; apply contains_byte_spec in C; auto). split.
      - split; [discriminate|]. intros H'. exfalso. apply H, H'. now left.
      - intros H'. exfalso. apply H, H'. now left. }
    destruct p as [|x p].
    { split.
      - rewrite IH1. split; intros H p Hp.
        + destruct Hp as [<- | Hp]; auto. split; [intros []|]. exists []. constructor.
        + apply H. now right.
      - intros H k v. rewrite IH2 by (intros; apply H; now right). split.
        + intros (p & I & G). exists p. split; [now right|auto].
        + intros (p & [<- | I] & G); [destruct G as (? & ? & G & _); congruence|eauto]. }
    pose proof (piece_result (x :: p) ltac:(discriminate) C) as R. destruct (cut "="%char (x :: p)) as [k v].
    destruct (unescape true k) as [dk|]; [destruct (unescape true _) as [dv|]|]; cbn [fst snd].
    + destruct R as [R1 R2]. split.
      * rewrite IH1. split; intros H q Hq; [destruct Hq as [<- | Hq]; auto|apply H; now right].
      * intros H k' v'. cbn [In]. rewrite IH2 by (intros; apply H; now right). split.
        -- intros [E | (q & I & G)]; [|exists q; auto]. injection E as -> ->. exists (x :: p). split; [now left|]. now apply R2.
        -- intros (q & [<- | I] & G); [left; apply R2 in G as [-> ->]; auto|right; eauto].
    + split; [split; [discriminate|]; intros H; exfalso; apply R, H; now left|]. intros H. exfalso. apply R, H. now left.
    + split; [split; [discriminate|]; intros H; exfalso; apply R, H; now left|]. intros H. exfalso. apply R, H. now left.
Qed.
Lemma query_spec s : (snd (parse_query s) = true <-> well_formed_list s) /\
  (well_formed_list s -> forall k v, In (k, v) (fst (parse_query s)) <-> gives s k v).
Proof.
  assert (W : well_formed_list s <-> forall p, In p (split_on "&"%char s) -> piece_ok p).
  { unfold well_formed_list, piece_ok. split; intros H p Hp; apply H; now apply split_piece_by. }
  assert (G : forall k v, gives s k v <-> exists p, In p (split_on "&"%char s) /\ piece_gives p k v).
  { intros k v. unfold gives, piece_gives. split.
    - intros (p & a & b & P & R). exists p. split; [now apply split_piece_by|eauto].
    - intros (p & P & a & b & R). exists p, a, b. split; [now apply split_piece_by|auto]. }
  destruct (pieces_spec (split_on "&"%char s)) as [P1 P2]. unfold parse_query. destruct s as [|c s].
  - cbn [fst snd split_on] in *. split.
    + split; auto. intros _. apply W, P1. reflexivity.
    + intros H k v. rewrite G, <- P2 by (now apply W). reflexivity.
  - rewrite W. split; auto. intros H k v. rewrite G. apply P2, H.
Qed.

Theorem get_exact e url before raw frag content : url = before ++ $"#" ++ raw -> ~ In "#"%char before -> decodes false raw frag ->
  (get e url = Some content <->
   e_url_ok e before = true /\ e_fetch e url = Some (200, content) /\
   (well_formed_list frag -> forall k v h, gives frag k v -> e_hash e k = Some h -> h content = v)).
Proof.
  intros -> HB D. apply decodes_unescape in D. unfold get, url_fragment.
  change ($"#" ++ raw) with ("#"%char :: raw) in *. rewrite cut_app by auto. cbn [fst]. rewrite D.
  destruct (e_url_ok e before); cbn [negb]; [|split; [discriminate|intros [[=] _]]].
  destruct (e_fetch e (before ++ "#"%char :: raw)) as [[st c]|]; [|split; [discriminate|intros (_ & [=] & _)]].
  destruct (st =? 200) eqn:E; cbn [negb]; [|split; [discriminate|intros (_ & [= -> ->] & _); discriminate]].
  apply Z.eqb_eq in E. subst st. destruct (query_spec frag) as [Q1 Q2]. set (q := parse_query frag) in *.
  replace (match frag with [] => Some c | _ :: _ => let '(kvs, ok) := q in if ok && negb (forallb (checksum_ok e c) kvs) then None else Some c end)
    with (if snd q && negb (forallb (checksum_ok e c) (fst q)) then None else Some c)
    by (subst q; destruct frag; [reflexivity|]; destruct (parse_query _); reflexivity).
  destruct (snd q) eqn:OK; cbn [andb].
  - pose proof (proj1 Q1 eq_refl) as W. specialize (Q2 W). destruct (forallb (checksum_ok e c) (fst q)) eqn:FB; cbn [negb].
    + rewrite forallb_forall in FB. split.
      * intros [= <-]. repeat split; auto. intros _ k v h G H. apply Q2 in G. specialize (FB _ G). unfold checksum_ok in FB. cbn [fst snd] in FB.
        rewrite H in FB. now apply str_eqb_eq.
      * intros (_ & H & _). congruence.
    + split; [discriminate|]. intros (_ & [= ->] & H). exfalso. assert (F : forallb (checksum_ok e content) (fst q) = true); [|congruence].
      apply forallb_forall. intros [k v] I. apply Q2 in I. unfold checksum_ok. cbn [fst snd]. destruct (e_hash e k) as [h|] eqn:Eh; auto.
      apply str_eqb_eq. eauto.
  - split.
    + intros [= <-]. repeat split; auto. intros W. apply Q1 in W. congruence.
    + intros (_ & H & _). congruence.
Qed.
Theorem get_no_fragment e url content : ~ In "#"%char url ->
  (get e url = Some content <-> e_url_ok e url = true /\ e_fetch e url = Some (200, content)).
Proof.
  intros H. unfold get, url_fragment. pose proof (cut_parts "#"%char url) as P. destruct (cut "#"%char url) as [a [b|]]; cbn [fst snd] in P.
  { exfalso. apply H. rewrite <- P. apply in_or_app. right. now left. }
  rewrite app_nil_r in P. subst a. cbn [fst].
  destruct (e_url_ok e url); cbn [negb]; [|split; [discriminate|intros [[=] _]]].
  destruct (e_fetch e url) as [[st c]|]; [|split; [discriminate|intros (_ & [=])]].
  destruct (st =? 200) eqn:E; cbn [negb]; [|split; [discriminate|intros (_ & [= -> ->]); discriminate]].
  apply Z.eqb_eq in E. subst st. split; [intros [= ->]; auto|intros [_ [= ->]]; auto].
Qed.
Theorem get_bad_fragment e url before raw : url = before ++ $"#" ++ raw -> ~ In "#"%char before -> (forall d, ~ decodes false raw d) -> get e url = None.
Proof.
  intros -> HB D. unfold get, url_fragment. change ($"#" ++ raw) with ("#"%char :: raw). rewrite cut_app by auto. cbn [fst].
  destruct (e_url_ok e before); cbn [negb]; auto. destruct (unescape false raw) as [f|] eqn:F; auto. exfalso. eapply D. eapply unescape_decodes; eauto.
Qed.
Theorem get_checks e url before raw frag content k v h : url = before ++ $"#" ++ raw -> ~ In "#"%char before -> decodes false raw frag -> well_formed_list frag ->
  get e url = Some content -> gives frag k v -> e_hash e k = Some h -> h content = v.
Proof. intros U B D W G GV H. apply (get_exact e url before raw frag content U B D) in G as (_ & _ & C). eauto. Qed.
Lemma encoded_example : decodes false $"sha256=%2530%30" $"sha256=%300" /\ well_formed_list $"sha256=%300" /\ gives $"sha256=%300" $"sha256" $"00" /\
  ~ well_formed_list $"sha256=00&a%".
Proof.
  destruct (query_spec $"sha256=%300") as [Q1 Q2]. destruct (query_spec $"sha256=00&a%") as [R1 _].
  assert (W : well_formed_list $"sha256=%300") by (apply Q1; vm_compute; reflexivity).
  split; [apply unescape_decodes; vm_compute; reflexivity|]. split; [exact W|]. split.
  - apply (Q2 W). vm_compute. auto.
  - intros H. apply R1 in H. vm_compute in H. discriminate.
Qed.
