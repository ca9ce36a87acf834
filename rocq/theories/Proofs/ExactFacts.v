(** Proofs about Spec/ExactSpec.v: C01, C06, C07. *)
From Coq Require Import String Ascii List Bool ZArith NArith Lia.
From Verif.Model Require Import GoStr Pep440 Specifier.
From Verif.Spec Require Import Pep440Spec VersionGrammar SpecifierSpec ExactSpec.
From Verif.Proofs Require Import Order GoStrFacts Pep440Cmp Pep440Parse Pep440Sound SpecifierParse SpecifierMatch.
Import ListNotations.
Local Open Scope Z_scope.

(** ** Comparison *)
Lemma release_more a b : forall fuel k i, (forall j, (i + fuel <= j)%nat -> nth j a 0 = nth j b 0) ->
  cmp_release_from a b i (fuel + k) = cmp_release_from a b i fuel.
Proof.
  induction fuel as [|fuel IH]; intros k i H.
  - cbn [Nat.add cmp_release_from]. revert i H. induction k as [|k IH]; intros i H; [reflexivity|]. cbn [cmp_release_from]. unfold release_segment.
    rewrite (H i) by lia. rewrite Z.sub_diag. change (wrap64 0 =? 0) with true. cbn iota. apply IH. intros j Hj. apply H. lia.
  - cbn [Nat.add cmp_release_from]. destruct (wrap64 _ =? 0); [|reflexivity]. apply IH. intros j Hj. apply H. lia.
Qed.
Lemma release_nth a b a' b' : (forall j, nth j a 0 = nth j a' 0) -> (forall j, nth j b 0 = nth j b' 0) ->
  forall fuel i, cmp_release_from a b i fuel = cmp_release_from a' b' i fuel.
Proof.
  intros Ha Hb. induction fuel as [|fuel IH]; intros i; [reflexivity|]. cbn [cmp_release_from]. unfold release_segment. now rewrite Ha, Hb, IH.
Qed.
Lemma release_enough a b k : (max (length a) (length b) <= k)%nat -> cmp_release_from a b 0 k = cmp_release_from a b 0 (max (length a) (length b)).
Proof.
  intros H. replace k with (max (length a) (length b) + (k - max (length a) (length b)))%nat by lia. apply release_more.
  intros j Hj. rewrite !nth_overflow by lia. reflexivity.
Qed.
Lemma nth_zeros r n j : nth j (r ++ repeat 0 n) 0 = nth j r 0.
Proof.
  destruct (Nat.lt_ge_cases j (length r)) as [H|H]; [now rewrite app_nth1|]. rewrite app_nth2, (nth_overflow r) by lia.
  generalize (j - length r)%nat. induction n as [|n IH]; intros [|k]; cbn [repeat nth]; auto.
Qed.
Theorem zeros_irrelevant v w n m : cmp (add_zeros n v) (add_zeros m w) = cmp v w.
Proof.
  assert (E : cmp_release (pub (add_zeros n v)) (pub (add_zeros m w)) = cmp_release (pub v) (pub w)).
  { unfold cmp_release, add_zeros. cbn [pub release].
    rewrite (release_nth _ _ (release (pub v)) (release (pub w))) by (intros; apply nth_zeros).
    apply release_enough. rewrite !app_length. lia. }
  unfold cmp, public_cmp. rewrite E. reflexivity.
Qed.
Theorem self_equal v : cmp v v = 0.
Proof.
  assert (W : forall z, wrap64 (z - z) = 0) by (intros z; now rewrite Z.sub_diag).
  assert (W' : forall z, wrap32 (z - z) = 0) by (intros z; now rewrite Z.sub_diag).
  assert (R : forall r f i, cmp_release_from r r i f = 0) by (intros r; induction f as [|f IH]; intros i; [reflexivity|]; cbn [cmp_release_from]; rewrite W; apply IH).
  assert (S' : forall s, str_ltb s s = false).
  { intros s. unfold str_ltb. now rewrite (ok_refl _ str_compare_ok s). }
  unfold cmp, public_cmp, cmp_epoch, cmp_release, cmp_prerelease, cmp_postrelease. rewrite W, R. cbn [orelse Z.eqb].
  unfold orelse at 2. destruct (pre_rank (pub v)) as [l k]. rewrite Z.eqb_refl. cbn [negb]. rewrite !W. change (0 =? 0) with true. cbn iota.
  unfold orelse at 2. change (0 =? 0) with true. cbn iota.
  assert (D : cmp_devrelease (pub v) (pub v) = 0) by (unfold cmp_devrelease; destruct (dev (pub v)); auto).
  rewrite D. unfold orelse. change (0 =? 0) with true. cbn iota.
  induction (local v) as [|x l' IH]; [reflexivity|]. cbn [cmp_local tl].
  assert (X : cmp_local_segment (Some x) (Some x) = 0) by (destruct x as [i|t]; cbn [cmp_local_segment]; [apply W'|now rewrite S']).
  rewrite X. exact IH.
Qed.

Lemma compare_list_eq {A} (c : A -> A -> comparison) : (forall a b, c a b = Eq -> a = b) -> forall x y, cmp_list c x y = Eq -> x = y.
Proof.
  intros H. induction x as [|a x IH]; intros [|b y] E; try discriminate E; [reflexivity|]. cbn [cmp_list] in E. apply lex_eq in E as [E1 E2]. now rewrite (H _ _ E1), (IH _ E2).
Qed.
Lemma compare_ext_eq {A} (c : A -> A -> comparison) : (forall a b, c a b = Eq -> a = b) -> forall x y, cmp_ext c x y = Eq -> x = y.
Proof. intros H [|a|] [|b|] E; try discriminate E; try reflexivity. cbn in E. now rewrite (H _ _ E). Qed.
Lemma compare_pair_eq {A B} (c : A -> A -> comparison) (d : B -> B -> comparison) : (forall a b, c a b = Eq -> a = b) -> (forall a b, d a b = Eq -> a = b) ->
  forall x y, cmp_pair c d x y = Eq -> x = y.
Proof. intros H K [a b] [a' b'] E. unfold cmp_pair in E. apply lex_eq in E as [E1 E2]. cbn in *. now rewrite (H _ _ E1), (K _ _ E2). Qed.
Lemma seg_key_inj a b : seg_key a = seg_key b -> a = b.
Proof. destruct a, b; cbn; intros E; congruence. Qed.
Lemma map_seg_key a b : map seg_key a = map seg_key b -> a = b.
Proof.
  revert b. induction a as [|x a IH]; intros [|y b] E; try discriminate E; [reflexivity|]. cbn [map] in E.
  assert (E1 : seg_key x = seg_key y) by congruence. assert (E2 : map seg_key a = map seg_key b) by congruence. now rewrite (seg_key_inj _ _ E1), (IH _ E2).
Qed.
Lemma canonical_rank l m : canonical_letter l -> canonical_letter m -> rank l = rank m -> l = m.
Proof. intros [-> | [-> | ->]] [-> | [-> | ->]] E; try reflexivity; discriminate E. Qed.
Theorem equal_without_zeros s t v w : parse_version s = Some v -> parse_version t = Some w -> (cmp v w = 0 <-> without_zeros v = without_zeros w).
Proof.
  intros P Q. pose proof (parsed_ranged _ _ P) as Rv. pose proof (parsed_ranged _ _ Q) as Rw. rewrite (cmp_zero v w Rv Rw).
  apply parse_result in P as (_ & Lv & _). apply parse_result in Q as (_ & Lw & _).
  unfold pep440_compare, public_compare. rewrite !lex_eq. unfold without_zeros. split.
  - intros ((E1 & E2 & E3 & E4 & E5) & E6).
    apply Z.compare_eq in E1. apply compare_list_eq in E2; [|exact Z.compare_eq].
    apply post_key_eq in E4.
    assert (D : dev (pub v) = dev (pub w)).
    { unfold dev_key in E5. destruct (dev (pub v)), (dev (pub w)); try discriminate E5; [|reflexivity]. cbn in E5. apply Z.compare_eq in E5. now rewrite E5. }
    assert (P : pre (pub v) = pre (pub w)).
    { unfold pre_key in E3. rewrite E4, D in E3. destruct (pre (pub v)) as [[l n]|] eqn:Pv, (pre (pub w)) as [[m k]|] eqn:Pw; try reflexivity.
      - cbn in E3. unfold cmp_pair in E3. apply lex_eq in E3 as [F1 F2]. cbn in *. apply Z.compare_eq in F1, F2.
        rewrite F2. now rewrite (canonical_rank l m (Lv _ _ eq_refl) (Lw _ _ eq_refl) F1).
      - exfalso. destruct (post (pub w)), (dev (pub w)); discriminate E3.
      - exfalso. destruct (post (pub w)), (dev (pub w)); discriminate E3. }
    assert (L : local v = local w).
    { apply compare_ext_eq in E6.
      - unfold local_key in E6. destruct (local v), (local w); try discriminate E6; [reflexivity|]. apply map_seg_key. congruence.
      - apply compare_list_eq. apply compare_pair_eq; [apply compare_ext_eq; exact Z.compare_eq|]. intros a b E. now apply (str_compare_eq a b). }
    rewrite E1, E2, E4, D, P, L. reflexivity.
  - intros E.
    assert (E1 : epoch (pub v) = epoch (pub w)) by (injection E; intros; assumption).
    assert (E2 : strip_zeros (release (pub v)) = strip_zeros (release (pub w))) by (injection E; intros; assumption).
    assert (E3 : pre (pub v) = pre (pub w)) by (injection E; intros; assumption).
    assert (E4 : post (pub v) = post (pub w)) by (injection E; intros; assumption).
    assert (E5 : dev (pub v) = dev (pub w)) by (injection E; intros; assumption).
    assert (E6 : local v = local w) by (injection E; intros; assumption).
    unfold pre_key, post_key, dev_key. rewrite E1, E2, E3, E4, E5, E6.
    assert (K := ok_refl _ pep440_compare_ok w). unfold pep440_compare, public_compare, pre_key, post_key, dev_key in K. rewrite !lex_eq in K. exact K.
Qed.

(** ** Specifier texts *)
Lemma parts_fields s : parse_clauses (fields_func (fun c => byte_eqb c ","%char) s) = parse_clauses (split_on ","%char s).
Proof.
  unfold fields_func.
  assert (G : forall s cur, parse_clauses (fields_aux (fun c => byte_eqb c ","%char) s cur) = parse_clauses (match split_on ","%char s with [] => [] | h :: t => (rev cur ++ h) :: t end)).
  { clear s. induction s as [|x s IH]; intros cur.
    - cbn [fields_aux split_on]. destruct cur as [|y cur]; [reflexivity|]. now rewrite app_nil_r.
    - cbn [fields_aux]. destruct (byte_eqb x ","%char) eqn:E.
      + apply byte_eqb_eq in E as ->. assert (Sx : split_on ","%char (","%char :: s) = [] :: split_on ","%char s) by reflexivity. rewrite Sx.
        specialize (IH []). cbn [rev app] in IH. assert (Hs : match split_on ","%char s with [] => [] | h :: t => h :: t end = split_on ","%char s) by now destruct (split_on ","%char s).
        rewrite Hs in IH. destruct cur as [|y cur]; [rewrite IH; reflexivity|]. rewrite app_nil_r. cbn [parse_clauses]. now rewrite IH.
      + rewrite IH. assert (E' : byte_eqb ","%char x = false) by (destruct (byte_eqb ","%char x) eqn:B; [apply byte_eqb_eq in B; subst x; discriminate E|reflexivity]).
        cbn [split_on]. rewrite E'. destruct (split_on ","%char s) as [|h t] eqn:Es; [now apply split_on_nonempty in Es|].
        cbn [rev]. now rewrite <- app_assoc. }
  rewrite G. cbn [rev app]. now destruct (split_on ","%char s).
Qed.

Lemma keep_trimmed l : parse_clauses l = parse_clauses (filter (fun t => negb (str_eqb t [])) (map trim_space l)).
Proof.
  induction l as [|s l IH]; [reflexivity|]. cbn [parse_clauses map filter]. rewrite IH. destruct (trim_space s) as [|x t] eqn:E; [reflexivity|].
  cbn [str_eqb negb parse_clauses]. rewrite <- E, trim_space_idem, E. reflexivity.
Qed.
Lemma parse_parts s : parse_specifier s = parse_clauses (parts s).
Proof. unfold parse_specifier, parts. now rewrite parts_fields, keep_trimmed. Qed.
Lemma parts_trimmed s : Forall (fun p => p <> [] /\ trim_space p = p) (parts s).
Proof.
  apply Forall_forall. intros p I. unfold parts in I. apply filter_In in I as [I N]. apply in_map_iff in I as (q & <- & _).
  split; [|apply trim_space_idem]. intros E. rewrite E in N. discriminate N.
Qed.
Lemma clauses_forall l cs : Forall (fun p => p <> [] /\ trim_space p = p) l -> (parse_clauses l = Ok cs <-> Forall2 (fun p c => parse_clause p = Ok c) l cs).
Proof.
  intros H. revert cs. induction H as [|p l (N & T) H IH]; intros cs.
  - cbn [parse_clauses]. split; [intros [= <-]; constructor|intros F; now inversion F].
  - cbn [parse_clauses]. rewrite T. destruct p as [|x p]; [congruence|]. split.
    + destruct (parse_clause (x :: p)) as [c| |] eqn:E; try discriminate. destruct (parse_clauses l) as [cs'| |] eqn:E'; try discriminate. intros [= <-].
      constructor; [exact E|now apply IH].
    + intros F. inversion F as [|? c ? cs' F1 F2]; subst. rewrite F1. apply IH in F2. now rewrite F2.
Qed.
Lemma slice_ok s t : slice_from 2 s = Ok t <-> exists a b, s = a :: b :: t.
Proof.
  destruct s as [|a [|b s]]; cbn; split; try discriminate; try (intros (x & y & E); discriminate E).
  - intros [= <-]. eauto.
  - intros (x & y & E). injection E as _ _ <-. reflexivity.
Qed.
Lemma slice_prefix p t s : length p = 2%nat -> has_prefix p s = true -> slice_from 2 s = Ok t -> s = p ++ t.
Proof.
  intros N H E. apply has_prefix_spec in H as (u & ->). destruct p as [|a [|b [|c p]]]; try discriminate N. cbn in E. now injection E as <-.
Qed.
Lemma operator_sound s op t m d l : clause_operator s = Ok (op, t, m, d, l) -> exists x, s = clause_text op x t /\ passed_over op x.
Proof.
  unfold clause_operator, clause_text.
  assert (Plain : forall o p k, length p = 2%nat -> operator_text o = p -> passed_over o [] -> (match o with OpPrefixMatch | OpPrefixExclude => $".*" | _ => [] end = []) ->
    has_prefix p s = true -> plain_variant o k s = Ok (op, t, m, d, l) -> exists x, s = operator_text op ++ x ++ t ++ match op with OpPrefixMatch | OpPrefixExclude => $".*" | _ => [] end /\ passed_over op x).
  { intros o p k N O Po St H E. unfold plain_variant in E. destruct (slice_from 2 s) as [u| |] eqn:Es; try discriminate E. injection E as <- <- <- <- <-.
    exists []. rewrite St, app_nil_r, O. split; [now apply slice_prefix|exact Po]. }
  assert (Eqv : forall a b p, length p = 2%nat -> operator_text a = p -> operator_text b = p -> passed_over a [] -> passed_over b [] ->
    match a with OpPrefixMatch | OpPrefixExclude => $".*" | _ => [] end = [] -> match b with OpPrefixMatch | OpPrefixExclude => $".*" | _ => [] end = $".*" ->
    has_prefix p s = true -> eq_variant a b s = Ok (op, t, m, d, l) -> exists x, s = operator_text op ++ x ++ t ++ match op with OpPrefixMatch | OpPrefixExclude => $".*" | _ => [] end /\ passed_over op x).
  { intros a b p N Oa Ob Pa Pb Sa Sb H E. unfold eq_variant in E. destruct (slice_from 2 s) as [u| |] eqn:Es; try discriminate E. apply (slice_prefix p) in Es; auto.
    destruct (has_suffix $".*" u) eqn:Hs; injection E as <- <- <- <- <-; exists [].
    - apply has_suffix_spec in Hs as (w & ->). rewrite trim_suffix_app, Sb, Ob. split; [exact Es|exact Pb].
    - rewrite Sa, Oa, app_nil_r. split; [exact Es|exact Pa]. }
  assert (One : forall o c, operator_text o = [c] -> match o with OpPrefixMatch | OpPrefixExclude => $".*" | _ => [] end = [] -> (forall x, x <> "="%char -> passed_over o [x]) ->
    has_prefix [c; "="%char] s = false -> has_prefix [c] s = true -> plain_variant o 1 s = Ok (op, t, m, d, l) ->
    exists x, s = operator_text op ++ x ++ t ++ match op with OpPrefixMatch | OpPrefixExclude => $".*" | _ => [] end /\ passed_over op x).
  { intros o c O St Po N H E. unfold plain_variant in E. destruct (slice_from 2 s) as [u| |] eqn:Es; try discriminate E. injection E as <- <- <- <- <-.
    apply slice_ok in Es as (a & b & ->). cbn [has_prefix] in N, H. rewrite andb_true_r in H. rewrite H in N. cbn [andb] in N. rewrite andb_true_r in N. apply byte_eqb_eq in H as <-.
    exists [b]. rewrite St, app_nil_r, O. split; [reflexivity|]. apply Po. intros ->. discriminate N. }
  destruct (has_prefix $"~=" s) eqn:H1; [apply (Plain OpCompatible $"~=" 2%nat); auto; reflexivity|].
  destruct (has_prefix $"==" s && negb (has_prefix $"===" s)) eqn:H2; [apply andb_true_iff in H2 as [H2 _]; apply (Eqv OpStrictMatch OpPrefixMatch $"=="); auto; reflexivity|].
  destruct (has_prefix $"!=" s) eqn:H3; [apply (Eqv OpStrictExclude OpPrefixExclude $"!="); auto; reflexivity|].
  destruct (has_prefix $"<=" s) eqn:H4; [apply (Plain OpLE $"<=" 1%nat); auto; reflexivity|].
  destruct (has_prefix $">=" s) eqn:H5; [apply (Plain OpGE $">=" 1%nat); auto; reflexivity|].
  destruct (has_prefix $"<" s) eqn:H6; [apply (One OpLT "<"%char); auto; intros x X; exists x; auto|].
  destruct (has_prefix $">" s) eqn:H7; [apply (One OpGT ">"%char); auto; intros x X; exists x; auto|]. discriminate.
Qed.
Definition min_of (op : cmpop) : nat := match op with OpCompatible => 2 | _ => 1 end.
Definition dev_of (op : cmpop) : bool := match op with OpPrefixMatch | OpPrefixExclude => false | _ => true end.
Definition local_of (op : cmpop) : bool := match op with OpStrictMatch | OpStrictExclude => true | _ => false end.
Lemma operator_complete op x t : passed_over op x -> forallb version_byte t = true ->
  clause_operator (clause_text op x t) = Ok (op, t, min_of op, dev_of op, local_of op).
Proof.
  intros Po V. pose proof (no_star t V) as NS. pose proof (head_not_eq t V) as NE.
  assert (N3 : forall u, has_prefix $"=" (t ++ u) = match t with [] => has_prefix $"=" u | _ => false end).
  { intros u. destruct t as [|c t']; [reflexivity|]. cbn [has_prefix app list_ascii_of_string] in *. exact NE. }
  unfold clause_text. destruct op; cbn [passed_over] in Po; try subst x; cbn [operator_text]; rewrite ?app_nil_r, ?app_nil_l.
  - reflexivity.
  - change ($"==" ++ t) with ("="%char :: "="%char :: t). unfold clause_operator.
    change (has_prefix $"==" ("="%char :: "="%char :: t)) with true. change (has_prefix $"===" ("="%char :: "="%char :: t)) with (has_prefix $"=" t). rewrite NE.
    change (has_prefix $"~=" ("="%char :: "="%char :: t)) with false. cbn [negb andb]. unfold eq_variant. rewrite slice2, NS. reflexivity.
  - change ($"==" ++ t ++ $".*") with ("="%char :: "="%char :: (t ++ $".*")). unfold clause_operator.
    change (has_prefix $"==" ("="%char :: "="%char :: (t ++ $".*"))) with true. change (has_prefix $"===" ("="%char :: "="%char :: (t ++ $".*"))) with (has_prefix $"=" (t ++ $".*")).
    rewrite N3. change (has_prefix $"=" $".*") with false. assert (Z : match t with [] => false | _ :: _ => false end = false) by now destruct t. rewrite Z.
    change (has_prefix $"~=" ("="%char :: "="%char :: (t ++ $".*"))) with false. cbn [negb andb]. unfold eq_variant. rewrite slice2, has_suffix_app, trim_suffix_app. reflexivity.
  - change ($"!=" ++ t) with ("!"%char :: "="%char :: t). unfold clause_operator.
    change (has_prefix $"~=" ("!"%char :: "="%char :: t)) with false. change (has_prefix $"==" ("!"%char :: "="%char :: t)) with false. change (has_prefix $"!=" ("!"%char :: "="%char :: t)) with true.
    cbn [negb andb]. unfold eq_variant. rewrite slice2, NS. reflexivity.
  - change ($"!=" ++ t ++ $".*") with ("!"%char :: "="%char :: (t ++ $".*")). unfold clause_operator.
    change (has_prefix $"~=" ("!"%char :: "="%char :: (t ++ $".*"))) with false. change (has_prefix $"==" ("!"%char :: "="%char :: (t ++ $".*"))) with false.
    change (has_prefix $"!=" ("!"%char :: "="%char :: (t ++ $".*"))) with true.
    cbn [negb andb]. unfold eq_variant. rewrite slice2, has_suffix_app, trim_suffix_app. reflexivity.
  - reflexivity.
  - reflexivity.
  - destruct Po as (c & -> & Nc). change ($"<" ++ [c] ++ t) with ("<"%char :: c :: t). unfold clause_operator.
    assert (B : has_prefix $"<=" ("<"%char :: c :: t) = false).
    { change (has_prefix $"<=" ("<"%char :: c :: t)) with (byte_eqb "=" c && true). destruct (byte_eqb "=" c) eqn:E; [apply byte_eqb_eq in E; congruence|reflexivity]. }
    rewrite B. reflexivity.
  - destruct Po as (c & -> & Nc). change ($">" ++ [c] ++ t) with (">"%char :: c :: t). unfold clause_operator.
    assert (B : has_prefix $">=" (">"%char :: c :: t) = false).
    { change (has_prefix $">=" (">"%char :: c :: t)) with (byte_eqb "=" c && true). destruct (byte_eqb "=" c) eqn:E; [apply byte_eqb_eq in E; congruence|reflexivity]. }
    rewrite B. reflexivity.
Qed.
Lemma clause_read p c : trim_space p = p -> (parse_clause p = Ok c <-> read_as p c).
Proof.
  intros T. split.
  - intros H. pose proof (parse_clause_ok _ _ H) as [Pm _]. unfold parse_clause in H. rewrite T in H.
    destruct (clause_operator p) as [[[[[op t] m] d] l]| |] eqn:E; try discriminate H. apply operator_sound in E as (x & -> & Po).
    destruct (parse_version t) as [v|] eqn:V; [|discriminate H].
    destruct (length (release (pub v)) <? m)%nat; [discriminate H|]. destruct (is_some (dev (pub v)) && negb d); [discriminate H|].
    destruct ((0 <? length (local v))%nat && negb l); [discriminate H|]. injection H as <-. cbn [c_op c_ver] in *. exists x, t. auto.
  - intros (x & t & -> & Po & V & Pm). unfold parse_clause. rewrite T. rewrite operator_complete by (auto; now apply parse_bytes in V). rewrite V. destruct c as [op v]. cbn [c_op c_ver] in *.
    assert (R : (1 <= length (release (pub v)))%nat).
    { apply parsed_ranged in V as [(_ & N & _) _]. destruct (release (pub v)); [congruence|cbn; lia]. }
    assert (R1 : (length (release (pub v)) <? 1)%nat = false) by (apply Nat.ltb_ge; exact R).
    destruct op; cbn [min_of dev_of local_of permitted negb] in *; rewrite ?andb_false_r, ?andb_true_r; try rewrite R1; try reflexivity.
    + apply andb_true_iff in Pm as [P1 P2]. apply Nat.leb_le in P1. assert (E2 : (length (release (pub v)) <? 2)%nat = false) by (apply Nat.ltb_ge; exact P1). rewrite E2.
      destruct (local v); [reflexivity|discriminate P2].
    + destruct (dev (pub v)); [discriminate Pm|]. cbn [is_some]. destruct (local v); [reflexivity|discriminate Pm].
    + destruct (dev (pub v)); [discriminate Pm|]. cbn [is_some]. destruct (local v); [reflexivity|discriminate Pm].
    + destruct (local v); [reflexivity|discriminate Pm].
    + destruct (local v); [reflexivity|discriminate Pm].
    + destruct (local v); [reflexivity|discriminate Pm].
    + destruct (local v); [reflexivity|discriminate Pm].
Qed.
Theorem specifier_read s cs : parse_specifier s = Ok cs <-> Forall2 read_as (parts s) cs.
Proof.
  rewrite parse_parts, (clauses_forall _ _ (parts_trimmed s)). pose proof (parts_trimmed s) as T. split; intros F.
  - induction F as [|p c l cs' H F IH]; [constructor|]. inversion T as [|? ? [_ Tp] T']; subst. constructor; [now apply clause_read|now apply IH].
  - induction F as [|p c l cs' H F IH]; [constructor|]. inversion T as [|? ? [_ Tp] T']; subst. constructor; [now apply clause_read|now apply IH].
Qed.

(** ** The selected version *)
From Verif.Model Require Import WheelName SimpleAPI.
From Verif.Spec Require Import WheelNameSpec SimpleAPISpec.
From Verif.Proofs Require Import WheelNameFacts SimpleAPIFacts.
Theorem selected_version sort tags spec links l d : sorts sort ->
  (forall l d, In l links -> parse_filename (l_text l) = Some d -> no_overflow (f_version d)) ->
  select_links sort tags spec links = Some l -> parse_filename (l_text l) = Some d ->
  forall l' d', candidate tags spec links l' d' ->
  (withdrawn tags links (f_version d) -> withdrawn tags links (f_version d')) /\
  ((withdrawn tags links (f_version d) <-> withdrawn tags links (f_version d')) -> pep440_compare (f_version d') (f_version d) <> Gt).
Proof.
  intros HS HW H Hd l' d' C. apply select_links_some in H as (d0 & H1 & H2 & H3 & H4 & H5 & H6); auto.
  assert (d0 = d) as -> by congruence.
  destruct (select_classes _ _ _ _ (page_wf_versions tags links HW) H5) as (_ & _ & K & J).
  destruct (candidate_version _ _ _ _ _ C) as [V1 V2]. destruct C as (C1 & C2 & _).
  assert (Pd : parsed (f_version d)) by (eapply parse_filename_parsed; eauto).
  assert (Pd' : parsed (f_version d')) by (eapply parse_filename_parsed; eauto).
  pose proof (policy_spec tags links _ Pd) as Q. pose proof (policy_spec tags links _ Pd') as Q'. fold (withdrawn tags links (f_version d)) in Q. fold (withdrawn tags links (f_version d')) in Q'.
  split.
  - intros W. apply Q'. apply J; auto. now apply Q.
  - intros E.
    assert (L : cmp (f_version d') (f_version d) <= 0).
    { apply K; auto. apply eq_true_iff_eq. tauto. }
    rewrite <- cmp_sign; [|apply parsed_wf; eauto..]. now apply sign_npos.
Qed.

(** *** SelectWheel *)
Theorem select_wheel_spec e sort tags name spec : sorts sort ->
  fst (select_wheel e sort tags name spec) = fst (list_package_files e name) /\
  match snd (select_wheel e sort tags name spec) with
  | Some l => exists links d, snd (list_package_files e name) = Some links /\ candidate tags spec links l d
  | None => forall links, snd (list_package_files e name) = Some links -> forall l d, ~ candidate tags spec links l d
  end.
Proof.
  intros HS. unfold select_wheel. destruct (list_package_files e name) as [reqs [links|]]; cbn [fst snd]; (split; [reflexivity|]); [|discriminate].
  destruct (select_links sort tags spec links) as [l|] eqn:E.
  - destruct (selected_candidate _ _ _ _ _ HS E) as (d & C). now exists links, d.
  - intros links' [= <-]. now apply (selection_fails sort).
Qed.
