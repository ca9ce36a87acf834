(** Reading a platform file gives what it means. *)
From Coq Require Import String Ascii List Bool ZArith Lia.
From Verif.Model Require Import GoStr WheelName Platform Inspect.
From Verif.Spec Require Import InspectSpec PlatFileSpec.
From Verif.Proofs Require Import Order WheelNameFacts InspectFacts.
Import ListNotations.
Local Open Scope nat_scope.

(** ** values *)
Lemma text_spec d s : as_str d = Some s <-> is_text d s.
Proof.
  unfold is_text. destruct d; cbn; split; try discriminate; try (intros [E|(z' & E & _)]; discriminate).
  - intros E. injection E as <-. now left.
  - intros [E|(z & E & _)]; [now injection E as <-|discriminate].
  - intros E. injection E as <-. right. eauto.
  - intros [E|(z' & E & ->)]; [discriminate|]. now injection E as <-.
Qed.
Lemma int_spec d z : as_int d = Some z <-> is_int d z.
Proof. unfold is_int. destruct d; cbn; split; try discriminate; intros E; injection E as <-; auto. Qed.
Lemma byte_spec d c : as_byte d = Some c <-> is_byte d c.
Proof.
  unfold is_byte. destruct d; cbn; split; try discriminate.
  - destruct (_ && _)%bool eqn:B; [|discriminate]. intros E. injection E as <-. apply andb_true_iff in B. destruct B as [B1 B2]. apply Z.leb_le in B1. apply Z.ltb_lt in B2.
    rewrite nat_ascii_embedding by lia. f_equal. lia.
  - intros E. injection E as ->. pose proof (nat_ascii_bounded c) as B.
    assert (X : ((0 <=? Z.of_nat (nat_of_ascii c)) && (Z.of_nat (nat_of_ascii c) <? 256))%Z = true) by (apply andb_true_iff; rewrite Z.leb_le, Z.ltb_lt; lia).
    rewrite X. now rewrite Nat2Z.id, ascii_nat_embedding.
Qed.
Lemma list_spec {A} (f : doc -> option A) P d l : (forall d a, f d = Some a <-> P d a) -> (as_list f d = Some l <-> is_list P d l).
Proof.
  intros H. unfold is_list. destruct d as [| |ds|]; cbn [as_list]; try (split; [discriminate|intros (x & E & _); discriminate]).
  assert (X : each f ds = Some l <-> Forall2 P ds l).
  { revert l. induction ds as [|d ds IH]; intros l; cbn [each].
    - split; [intros E; injection E as <-; constructor|]. intros F. now inversion F.
    - split.
      + destruct (f d) as [a|] eqn:E; [|discriminate]. destruct (each f ds) as [r|]; [|discriminate]. intros X. injection X as <-. constructor; [now apply H|now apply IH].
      + intros F. inversion F as [|? a ? r Pa Fr]; subst. apply H in Pa. apply IH in Fr. now rewrite Pa, Fr. }
  rewrite X. split; [eauto|]. intros (x & E & F). injection E as <-. auto.
Qed.
Lemma tag_spec d t : as_tag d = Some t <-> is_tag d t.
Proof.
  unfold is_tag, tag_parts. destruct d as [s| | |]; cbn [as_tag]; try (split; [discriminate|intros [E _]; discriminate]). split.
  - intros E. apply tag_string_parse in E. destruct E as [<- H]. auto.
  - intros [E (H1 & H2 & H3)]. injection E as ->. now apply (parse_tag_string t).
Qed.

(** ** maps *)
Lemma given_cons name k d l : given name ((k, d) :: l) = if str_eqb (to_lower name) (to_lower k) then Some d else given name l.
Proof. unfold given. cbn [find fst]. now destruct (str_eqb _ _). Qed.
Lemma given_none name k l : same_key name k -> ~ In (to_lower k) (map (fun x => to_lower (fst x)) l) -> given name l = None.
Proof.
  intros K. induction l as [|[k' d] l IH]; intros N; auto. rewrite given_cons. cbn [map fst In] in N. destruct (str_eqb _ _) eqn:E; [|apply IH; tauto].
  apply str_eqb_eq in E. exfalso. apply N. left. unfold same_key in K. congruence.
Qed.
Lemma given_in name l d : given name l = Some d -> exists k, In (k, d) l.
Proof. induction l as [|[k v] l IH]; [discriminate|]. rewrite given_cons. destruct (str_eqb _ _); [|intros E; destruct (IH E) as [k' I]; exists k'; now right]. intros E. injection E as ->. exists k. now left. Qed.
Section map.
  Context {A : Type} (set : A -> str -> doc -> option A) (put : A -> option nat -> doc -> option A) (names : list str).
  Context (same : nat -> A -> A -> Prop) (sets : nat -> A -> doc -> A -> Prop).
  Hypothesis set_put : forall a k d, set a k d = put a (index names k) d.
  Hypothesis put_none : forall a d, put a None d = None.
  Hypothesis names_apart : NoDup (map to_lower names).
  Hypothesis same_refl : forall i a, same i a a.
  Hypothesis same_trans : forall i a b c, same i a b -> same i b c -> same i a c.
  Hypothesis same_sym : forall i a b, same i a b -> same i b a.
  Hypothesis same_all : forall a b, (forall i, i < length names -> same i a b) -> a = b.
  Hypothesis sets_start : forall i a a' d b, sets i a d b -> same i a a' -> sets i a' d b.
  Hypothesis sets_end : forall i a d b b', sets i a d b -> same i b b' -> sets i a d b'.
  Hypothesis put_sets : forall i a d c, i < length names -> put a (Some i) d = Some c -> sets i a d c /\ forall j, j <> i -> same j a c.
  Hypothesis sets_put : forall i a d b, i < length names -> sets i a d b -> exists c, put a (Some i) d = Some c /\ same i c b.

  Lemma index_lt k i : index names k = Some i -> i < length names.
  Proof.
    clear. revert i. induction names as [|n l IH]; intros i; [discriminate|]. cbn [index length]. destruct (field n k); [intros E; injection E as <-; lia|].
    destruct (index l k) as [j|]; [|discriminate]. cbn. intros E. injection E as <-. specialize (IH j eq_refl). lia.
  Qed.
  Lemma index_nth k i j : index names k = Some i -> j < length names -> (str_eqb (to_lower (nth j names [])) (to_lower k) = true <-> j = i).
  Proof.
    clear - names_apart. revert i j. induction names as [|n l IH]; intros i j; [discriminate|]. inversion names_apart as [|? ? N1 N2]; subst. cbn [index length]. destruct (field n k) eqn:F.
    - intros E L. injection E as <-. unfold field in F. destruct j as [|j]; cbn [nth]; [tauto|]. split; [|discriminate]. intros X. exfalso. apply str_eqb_eq in X, F.
      apply N1. rewrite F, <- X. apply in_map. apply nth_In. lia.
    - destruct (index l k) as [m|] eqn:E; [|discriminate]. cbn [option_map]. intros X L. injection X as <-. destruct j as [|j].
      + unfold field in F. cbn [nth]. rewrite F. split; discriminate.
      + cbn [nth]. rewrite (IH N2 m j eq_refl) by lia. lia.
  Qed.
  Lemma index_none k : index names k = None -> ~ exists n, In n names /\ same_key n k.
  Proof.
    clear. induction names as [|n l IH]; intros E (m & I & K); [destruct I|]. cbn [index] in E. destruct (field n k) eqn:F; [discriminate|].
    destruct I as [->|I]; [unfold field in F; unfold same_key in K; rewrite K, str_eqb_refl in F; discriminate|].
    destruct (index l k); [discriminate|]. apply IH; eauto.
  Qed.
  Lemma known_index k n : In n names -> same_key n k -> exists i, index names k = Some i.
  Proof. intros I K. destruct (index names k) as [i|] eqn:E; eauto. exfalso. apply (index_none k E). eauto. Qed.

  Theorem fields_spec l a b : distinct_keys l ->
    (fields set a l = Some b <-> only_keys names l /\
     forall i, i < length names -> match given (nth i names []) l with None => same i a b | Some d => sets i a d b end).
  Proof.
    revert a. induction l as [|[k d] l IH]; intros a ND; cbn [fields].
    - split.
      + intros E. injection E as <-. split; [intros k v []|]. intros i L. apply same_refl.
      + intros [_ H]. f_equal. apply same_all. intros i L. exact (H i L).
    - unfold distinct_keys in ND. cbn [map fst] in ND. inversion ND as [|? ? N1 N2]; subst. rewrite set_put. split.
      + destruct (index names k) as [i|] eqn:IX; [|rewrite put_none; discriminate]. pose proof (index_lt _ _ IX) as LI.
        destruct (put a (Some i) d) as [c|] eqn:P; [|discriminate]. intros E. apply (IH c N2) in E. destruct E as [K E].
        destruct (put_sets i a d c LI P) as [SI SO]. split.
        * intros k' v [X|X]; [|eauto]. injection X as <- <-. eapply index_in; eauto.
        * intros j LJ. specialize (E j LJ). rewrite given_cons. pose proof (index_nth k i j IX LJ) as X. destruct (str_eqb _ _) eqn:SE.
          -- assert (j = i) by tauto. subst j. rewrite (given_none _ k) in E; [eauto|now apply str_eqb_eq in SE|auto].
          -- assert (NJ : j <> i) by (intros ->; destruct X as [_ X]; discriminate (X eq_refl)). destruct (given _ l); eauto.
      + intros [K H]. destruct (K k d (or_introl eq_refl)) as (n & I & SK). destruct (known_index k n I SK) as [i IX]. rewrite IX. pose proof (index_lt _ _ IX) as LI.
        assert (SI : sets i a d b).
        { specialize (H i LI). rewrite given_cons in H. destruct (index_nth k i i IX LI) as [_ X]. now rewrite X in H. }
        destruct (sets_put i a d b LI SI) as (c & P & SC). rewrite P. destruct (put_sets i a d c LI P) as [_ SO]. apply (IH c N2). split; [intros k' v X; apply (K k' v); now right|].
        intros j LJ. specialize (H j LJ). rewrite given_cons in H. pose proof (index_nth k i j IX LJ) as X. destruct (str_eqb _ _) eqn:SE.
        * assert (j = i) by tauto. subst j. rewrite (given_none _ k); [auto|now apply str_eqb_eq in SE|auto].
        * assert (NJ : j <> i) by (intros ->; destruct X as [_ X]; discriminate (X eq_refl)). destruct (given _ l); eauto.
  Qed.
End map.
Ltac nodup := repeat constructor; cbn; intuition discriminate.
Ltac small i L := repeat (destruct i as [|i]; [|]); try (cbn in L; lia).
Lemma reads_iff {A} (f : doc -> option A) (P : doc -> A -> Prop) zero o a : (forall d a, f d = Some a <-> P d a) ->
  (reads P zero o a <-> match o with None => zero = a | Some d => f d = Some a end).
Proof. intros H. destruct o; cbn; [now rewrite H|]. split; congruence. Qed.

Definition same_scheme (i : nat) (a b : scheme) : Prop :=
  match i with 0 => s_purelib a = s_purelib b | 1 => s_platlib a = s_platlib b | 2 => s_headers a = s_headers b | 3 => s_scripts a = s_scripts b | 4 => s_data a = s_data b | _ => True end.
Definition sets_scheme (i : nat) (a : scheme) (d : doc) (b : scheme) : Prop :=
  match i with 0 => as_str d = Some (s_purelib b) | 1 => as_str d = Some (s_platlib b) | 2 => as_str d = Some (s_headers b) | 3 => as_str d = Some (s_scripts b) | 4 => as_str d = Some (s_data b) | _ => False end.
Ltac five i := destruct i as [|[|[|[|[|i]]]]].
Lemma scheme_fields l a b : distinct_keys l ->
  (fields set_scheme a l = Some b <-> only_keys scheme_keys l /\
   forall i, i < 5 -> match given (nth i scheme_keys []) l with None => same_scheme i a b | Some d => sets_scheme i a d b end).
Proof.
  intros ND. apply (fields_spec set_scheme put_scheme scheme_keys same_scheme sets_scheme); [..|exact ND].
  - apply set_scheme_put.
  - now intros [].
  - nodup.
  - intros i x. five i; cbn; auto.
  - intros i x y z. five i; cbn; try tauto; congruence.
  - intros i x y. five i; cbn; try tauto; congruence.
  - intros [] [] H. cbn [length scheme_keys] in H. f_equal; [apply (H 0)|apply (H 1)|apply (H 2)|apply (H 3)|apply (H 4)]; lia.
  - intros i x y d z. five i; cbn; try tauto; congruence.
  - intros i x d y z. five i; cbn; try tauto; congruence.
  - intros i [] d c L. five i; cbn [put_scheme]; try discriminate; (destruct (as_str d) as [t|] eqn:E; [|discriminate]); cbn [option_map]; intros X; injection X as <-; (split; [exact E|]); intros j NJ; five j; cbn; try tauto; congruence.
  - intros i [] d y L. five i; cbn [put_scheme sets_scheme]; try tauto; intros ->; cbn [option_map]; eexists; split; reflexivity.
Qed.
Lemma scheme_spec d s : (forall m, d = DMap m -> distinct_keys m) -> as_map set_scheme no_scheme d = Some s <-> is_scheme d s.
Proof.
  intros ND. unfold is_scheme. destruct d as [| | |l]; cbn [as_map]; try (split; [discriminate|intros (m & E & _); discriminate]).
  rewrite scheme_fields by auto. split.
  - intros [K H]. exists l. split; auto. split; auto. repeat split; apply (reads_iff as_str is_text _ _ _ text_spec); [apply (H 0)|apply (H 1)|apply (H 2)|apply (H 3)|apply (H 4)]; lia.
  - intros (l' & E & K & H0 & H1 & H2 & H3 & H4). injection E as <-. split; auto. intros i L.
    apply (reads_iff as_str is_text _ _ _ text_spec) in H0, H1, H2, H3, H4. five i; auto. lia.
Qed.

Definition same_version (i : nat) (a b : version_info) : Prop :=
  match i with 0 => vi_major a = vi_major b | 1 => vi_minor a = vi_minor b | 2 => vi_micro a = vi_micro b | 3 => vi_level a = vi_level b | 4 => vi_serial a = vi_serial b | _ => True end.
Definition sets_version (i : nat) (a : version_info) (d : doc) (b : version_info) : Prop :=
  match i with 0 => as_int d = Some (vi_major b) | 1 => as_int d = Some (vi_minor b) | 2 => as_int d = Some (vi_micro b) | 3 => as_str d = Some (vi_level b) | 4 => as_int d = Some (vi_serial b) | _ => False end.
Lemma version_fields l a b : distinct_keys l ->
  (fields set_version a l = Some b <-> only_keys version_keys l /\
   forall i, i < 5 -> match given (nth i version_keys []) l with None => same_version i a b | Some d => sets_version i a d b end).
Proof.
  intros ND. apply (fields_spec set_version put_version version_keys same_version sets_version); [..|exact ND].
  - apply set_version_put.
  - now intros [].
  - nodup.
  - intros i x. five i; cbn; auto.
  - intros i x y z. five i; cbn; try tauto; congruence.
  - intros i x y. five i; cbn; try tauto; congruence.
  - intros [] [] H. cbn [length version_keys] in H. f_equal; [apply (H 0)|apply (H 1)|apply (H 2)|apply (H 3)|apply (H 4)]; lia.
  - intros i x y d z. five i; cbn; try tauto; congruence.
  - intros i x d y z. five i; cbn; try tauto; congruence.
  - intros i [] d c L. five i; cbn [put_version]; try discriminate; try (destruct (as_str d) as [t|] eqn:E; [|discriminate]); try (destruct (as_int d) as [t|] eqn:E; [|discriminate]);
      cbn [option_map]; intros X; injection X as <-; (split; [exact E|]); intros j NJ; five j; cbn; try tauto; congruence.
  - intros i [] d y L. five i; cbn [put_version sets_version]; try tauto; intros ->; cbn [option_map]; eexists; split; reflexivity.
Qed.
Lemma version_spec d s : (forall m, d = DMap m -> distinct_keys m) -> as_map set_version no_version d = Some s <-> is_version d s.
Proof.
  intros ND. unfold is_version. destruct d as [| | |l]; cbn [as_map]; try (split; [discriminate|intros (m & E & _); discriminate]).
  rewrite version_fields by auto. split.
  - intros [K H]. exists l. split; auto. split; auto.
    repeat split; first [apply (reads_iff as_str is_text _ _ _ text_spec)|apply (reads_iff as_int is_int _ _ _ int_spec)]; [apply (H 0)|apply (H 1)|apply (H 2)|apply (H 3)|apply (H 4)]; lia.
  - intros (l' & E & K & H0 & H1 & H2 & H3 & H4). injection E as <-. split; auto. intros i L.
    apply (reads_iff as_int is_int _ _ _ int_spec) in H0, H1, H2, H4. apply (reads_iff as_str is_text _ _ _ text_spec) in H3. five i; auto. lia.
Qed.

Definition same_plat (i : nat) (a b : plat_file) : Prop :=
  match i with
  | 0 => pl_console (pf_platform a) = pl_console (pf_platform b) | 1 => pl_graphical (pf_platform a) = pl_graphical (pf_platform b) | 2 => pl_scheme (pf_platform a) = pl_scheme (pf_platform b)
  | 3 => pl_uid (pf_platform a) = pl_uid (pf_platform b) | 4 => pl_gid (pf_platform a) = pl_gid (pf_platform b) | 5 => pl_uname (pf_platform a) = pl_uname (pf_platform b) | 6 => pl_gname (pf_platform a) = pl_gname (pf_platform b)
  | 7 => pf_version a = pf_version b | 8 => pf_magic a = pf_magic b | 9 => pf_tags a = pf_tags b | 10 => pf_compile a = pf_compile b | _ => True
  end.
Definition sets_plat (i : nat) (a : plat_file) (d : doc) (b : plat_file) : Prop :=
  match i with
  | 0 => as_str d = Some (pl_console (pf_platform b)) | 1 => as_str d = Some (pl_graphical (pf_platform b)) | 2 => as_map set_scheme (pl_scheme (pf_platform a)) d = Some (pl_scheme (pf_platform b))
  | 3 => as_int d = Some (pl_uid (pf_platform b)) | 4 => as_int d = Some (pl_gid (pf_platform b)) | 5 => as_str d = Some (pl_uname (pf_platform b)) | 6 => as_str d = Some (pl_gname (pf_platform b))
  | 7 => as_map set_version (pf_version a) d = Some (pf_version b) | 8 => as_list as_byte d = Some (pf_magic b) | 9 => as_list as_tag d = Some (pf_tags b) | 10 => as_list as_str d = Some (pf_compile b) | _ => False
  end.
Ltac eleven i := destruct i as [|[|[|[|[|[|[|[|[|[|[|i]]]]]]]]]]].
Lemma plat_fields l a b : distinct_keys l ->
  (fields set_plat a l = Some b <-> only_keys plat_keys l /\
   forall i, i < 11 -> match given (nth i plat_keys []) l with None => same_plat i a b | Some d => sets_plat i a d b end).
Proof.
  intros ND. apply (fields_spec set_plat put_plat plat_keys same_plat sets_plat); [..|exact ND].
  - apply set_plat_put.
  - now intros [[] ? ? ? ?].
  - nodup.
  - intros i x. eleven i; cbn; auto.
  - intros i x y z. eleven i; cbn; try tauto; congruence.
  - intros i x y. eleven i; cbn; try tauto; congruence.
  - intros [[] ? ? ? ?] [[] ? ? ? ?] H. cbn [length plat_keys] in H. f_equal; [f_equal|..]; [apply (H 0)|apply (H 1)|apply (H 2)|apply (H 3)|apply (H 4)|apply (H 5)|apply (H 6)|apply (H 7)|apply (H 8)|apply (H 9)|apply (H 10)]; lia.
  - intros i x y d z. eleven i; cbn [sets_plat same_plat]; try congruence; try tauto; intros E <-; exact E.
  - intros i x d y z. eleven i; cbn [sets_plat same_plat]; try tauto; congruence.
  - intros i [[] ? ? ? ?] d c L. eleven i; cbn [put_plat]; try discriminate;
      (match goal with |- option_map _ ?x = _ -> _ => destruct x as [t|] eqn:E; [|discriminate] end); cbn [option_map]; intros X; injection X as <-; (split; [exact E|]); intros j NJ; eleven j; cbn; try tauto; congruence.
  - intros i [[] ? ? ? ?] d y L. eleven i; cbn -[as_map as_list as_str as_int]; try tauto; intros ->; cbn [option_map]; eexists; split; reflexivity.
Qed.
Theorem plat_spec l p : unambiguous l -> (read_plat (DMap l) = Some p <-> is_plat l p).
Proof.
  intros [ND NM]. unfold read_plat. cbn [as_map]. rewrite plat_fields by auto. unfold is_plat.
  assert (DS : forall name d, given name l = Some d -> forall m, d = DMap m -> distinct_keys m) by (intros name d G m ->; apply given_in in G; destruct G as [k I]; eauto).
  assert (S : reads is_scheme no_scheme (given $"Scheme" l) (pl_scheme (pf_platform p)) <->
    match given $"Scheme" l with None => no_scheme = pl_scheme (pf_platform p) | Some d => as_map set_scheme no_scheme d = Some (pl_scheme (pf_platform p)) end).
  { destruct (given $"Scheme" l) as [d|] eqn:G; cbn [reads]; [now rewrite (scheme_spec d _ (DS _ _ G))|split; congruence]. }
  assert (V : reads is_version no_version (given $"VersionInfo" l) (pf_version p) <->
    match given $"VersionInfo" l with None => no_version = pf_version p | Some d => as_map set_version no_version d = Some (pf_version p) end).
  { destruct (given $"VersionInfo" l) as [d|] eqn:G; cbn [reads]; [now rewrite (version_spec d _ (DS _ _ G))|split; congruence]. }
  rewrite S, V, !(reads_iff as_str is_text _ _ _ text_spec), !(reads_iff as_int is_int _ _ _ int_spec),
    (reads_iff _ (is_list is_byte) _ _ _ (fun d l => list_spec as_byte is_byte d l byte_spec)), (reads_iff _ (is_list is_tag) _ _ _ (fun d l => list_spec as_tag is_tag d l tag_spec)),
    (reads_iff _ (is_list is_text) _ _ _ (fun d l => list_spec as_str is_text d l text_spec)).
  split.
  - intros [K H]. split; auto. split; [apply (H 0); lia|]. split; [apply (H 1); lia|]. split; [apply (H 2); lia|]. split; [apply (H 3); lia|]. split; [apply (H 4); lia|].
    split; [apply (H 5); lia|]. split; [apply (H 6); lia|]. split; [apply (H 7); lia|]. split; [apply (H 8); lia|]. split; [apply (H 9); lia|]. apply (H 10); lia.
  - intros (K & H0 & H1 & H2 & H3 & H4 & H5 & H6 & H7 & H8 & H9 & H10). split; auto. intros i L. eleven i; auto. lia.
Qed.
