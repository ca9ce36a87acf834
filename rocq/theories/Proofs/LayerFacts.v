(** Writing and comparing layers. *)
From Coq Require Import String Ascii List Bool ZArith Lia Sorted Permutation.
From Verif.Model Require Import GoStr GoPath Tar Layer.
From Verif.Spec Require Import DirSpec PathSpec SimpleAPISpec LayerSpec.
From Verif.Proofs Require Import Order GoStrFacts GoPathFacts.
Import ListNotations.
Local Arguments byte_eqb : simpl never.
Local Arguments str_eqb : simpl never.
Local Arguments Nat.leb : simpl never.
Local Arguments Nat.ltb : simpl never.

(** *** the order *)
Lemma pb_irrefl p : ~ parts_before p p.
Proof. induction p as [|x p IH]; cbn [parts_before]; auto. intros [H|[_ H]]; auto. rewrite (ok_refl _ str_compare_ok) in H. discriminate. Qed.
Lemma pb_trans p : forall q r, parts_before p q -> parts_before q r -> parts_before p r.
Proof.
  induction p as [|x p IH]; intros [|y q] [|z r]; cbn [parts_before]; try tauto.
  intros [H|[-> H]] [H'|[-> H']]; auto.
  - left. eapply (ok_lt _ str_compare_ok); eauto.
  - right. split; eauto.
Qed.
Lemma pb_total p : forall q, p <> q -> parts_before p q \/ parts_before q p.
Proof.
  induction p as [|x p IH]; intros [|y q] N; cbn [parts_before]; auto. destruct (str_compare x y) eqn:E; auto.
  - apply str_compare_eq in E as ->. destruct (IH q); [congruence| |]; auto.
  - right. left. now rewrite (ok_anti _ str_compare_ok), E.
Qed.
Lemma parts_less_ne p : forall q, Forall (fun c => c <> []) p -> Forall (fun c => c <> []) q -> parts_less p q = true <-> parts_before p q.
Proof.
  induction p as [|x p IH]; intros [|y q] P Q; cbn [parts_less parts_less_nil parts_before tl].
  - split; [discriminate|tauto].
  - inversion Q; subst. destruct y; [congruence|]. split; auto.
  - inversion P; subst. destruct x; [congruence|]. split; [discriminate|tauto].
  - inversion P; inversion Q; subst. destruct (str_eqb x y) eqn:E.
    + apply str_eqb_eq in E as ->. rewrite IH; auto. rewrite (ok_refl _ str_compare_ok). intuition congruence.
    + rewrite str_ltb_lt. split; auto. intros [H|[-> _]]; auto. rewrite str_eqb_refl in E. discriminate.
Qed.
(** The parts of a clean path: no empty ones, or an empty one first, or "/". *)
Definition good_parts (p : list str) : Prop :=
  p <> [] /\ Forall (fun c => c <> []) p \/ p = [[]; []] \/ exists q, p = [] :: q /\ q <> [] /\ Forall (fun c => c <> []) q.
Lemma clean_good n : clean_path n -> good_parts (split_on slash n).
Proof.
  unfold clean_path. intros H. rewrite <- H, clean_text. pose proof (clean_comps_list n) as C. pose proof (clean_list_no_slash _ _ C) as NS. pose proof (clean_list_ne _ _ C) as NE.
  destruct (is_abs n); cbn [path_text].
  - rewrite split_slash. destruct (clean_comps n) as [|c l]; [right; left; reflexivity|]. right; right. exists (c :: l).
    change $"/" with [slash]. rewrite split_on_join; auto; try discriminate. repeat split; auto. discriminate.
  - left. destruct (clean_comps n) as [|c l]; [split; [discriminate|repeat constructor; discriminate]|]. change $"/" with [slash]. rewrite split_on_join; auto; try discriminate. split; auto; discriminate.
Qed.
Lemma parts_less_spec p q : good_parts p -> good_parts q -> parts_less p q = true <-> parts_before p q.
Proof.
  intros [[Pe P]|[->|(p' & -> & P' & P)]] [[Qe Q]|[->|(q' & -> & Q' & Q)]].
  - now apply parts_less_ne.
  - destruct p as [|x p]; [congruence|]. inversion P; subst. destruct x; [congruence|]. cbn. split; [discriminate|]. intros [X|[X _]]; discriminate.
  - destruct p as [|x p]; [congruence|]. inversion P; subst. destruct x; [congruence|]. cbn. split; [discriminate|]. intros [X|[X _]]; discriminate.
  - destruct q as [|y q]; [congruence|]. inversion Q; subst. destruct y; [congruence|]. cbn. split; auto.
  - cbn. split; [discriminate|]. intros [X|[_ [X|[_ []]]]]; discriminate.
  - destruct q' as [|y q]; [congruence|]. inversion Q; subst. destruct y; [congruence|]. cbn. split; auto.
  - destruct q as [|y q]; [congruence|]. inversion Q; subst. destruct y; [congruence|]. cbn. split; auto.
  - destruct p' as [|x p]; [congruence|]. inversion P; subst. destruct x; [congruence|]. cbn. split; [discriminate|]. intros [X|[_ [X|[X _]]]]; discriminate.
  - cbn [parts_less parts_before]. change (str_eqb [] []) with true. cbn iota. cbn [tl]. rewrite parts_less_ne; auto. change (str_compare [] []) with Eq. intuition congruence.
Qed.
Lemma sorted_unique {A} (R : A -> A -> Prop) : (forall a b, R a b -> R b a -> False) -> forall l l',
  StronglySorted R l -> StronglySorted R l' -> Permutation l l' -> l = l'.
Proof.
  intros AS l l' S. revert l'. induction S as [|a l S IH F]; intros l' S' P; [now apply Permutation_nil in P|].
  destruct S' as [|b l' S' F']; [symmetry in P; now apply Permutation_nil in P|]. rewrite Forall_forall in F, F'.
  assert (a = b) as ->.
  { assert (I : In a (b :: l')) by (eapply Permutation_in; [exact P|now left]). assert (I' : In b (a :: l)) by (eapply Permutation_in; [symmetry; exact P|now left]).
    destruct I as [->|I]; auto. destruct I' as [->|I']; auto. exfalso. eapply AS; [apply F, I'|apply F', I]. }
  f_equal. apply IH; auto. now apply Permutation_cons_inv in P.
Qed.
Section refs.
  Context (sort : (fileref -> fileref -> bool) -> list fileref -> list fileref) (HS : sorts sort).
  Definition ref_before (a b : fileref) : Prop := name_parts_before (fr_name a) (fr_name b).
  Lemma split_inj a b : split_on slash a = split_on slash b -> a = b.
  Proof. intros H. rewrite <- (join_split_on slash a), <- (join_split_on slash b), H. reflexivity. Qed.
  Lemma sorted_refs vfs : NoDup (map fr_name vfs) -> Forall (fun r => clean_path (fr_name r)) vfs -> StronglySorted ref_before (sort ref_less vfs).
  Proof.
    intros N E. destruct (HS ref_less vfs) as [P S]. rewrite Forall_forall in E.
    assert (L : forall a b, In a vfs -> In b vfs -> (ref_less a b = true <-> ref_before a b)) by (intros a b Ia Ib; apply parts_less_spec; apply clean_good; now apply E).
    assert (T : forall a b, fr_name a <> fr_name b -> ref_before a b \/ ref_before b a) by (intros a b D; apply pb_total; intros X; now apply split_inj in X).
    assert (SW : strict_weak ref_less vfs).
    { split.
      - intros a b Ia Ib H. apply L in H; auto. destruct (ref_less b a) eqn:H'; auto. apply L in H'; auto. exfalso. eapply pb_irrefl, pb_trans; eauto.
      - intros a b c Ia Ib Ic H. rewrite !L in *; auto. destruct (list_eq_dec ascii_dec (fr_name a) (fr_name c)) as [X|X].
        + right. unfold ref_before in *. now rewrite <- X.
        + destruct (T a c X); auto. right. eapply pb_trans; eauto. }
    specialize (S SW). assert (N' : NoDup (map fr_name (sort ref_less vfs))) by (eapply Permutation_NoDup; [apply Permutation_map; symmetry; exact P|exact N]).
    assert (I : forall x, In x (sort ref_less vfs) -> In x vfs) by (intros x; apply Permutation_in, P).
    clear SW P. revert I N'. induction S as [|a l S IH F]; intros I N'; [constructor|]. cbn [map] in N'. inversion N'; subst. constructor.
    - apply IH; auto. intros x Ix. apply I. now right.
    - apply Forall_forall. intros x Ix. rewrite Forall_forall in F. specialize (F x Ix). destruct (T a x) as [H|H]; auto.
      + intros X. apply H1. rewrite X. now apply in_map.
      + exfalso. apply L in H; [congruence|apply I; now right|apply I; now left].
  Qed.
End refs.
Theorem same_layer encodable sort sort' vfs vfs' c : sorts sort -> sorts sort' -> Permutation vfs vfs' ->
  NoDup (map fr_name vfs) -> Forall (fun r => clean_path (fr_name r)) vfs ->
  layer_from_refs encodable sort vfs c = layer_from_refs encodable sort' vfs' c.
Proof.
  intros HS HS' P N E. unfold layer_from_refs. f_equal.
  assert (N' : NoDup (map fr_name vfs')) by (eapply Permutation_NoDup; [apply Permutation_map, P|exact N]).
  assert (E' : Forall (fun r => clean_path (fr_name r)) vfs') by (eapply Permutation_Forall; eauto).
  apply (sorted_unique ref_before).
  - intros a b H H'. eapply pb_irrefl, pb_trans; eauto.
  - now apply sorted_refs.
  - now apply sorted_refs.
  - etransitivity; [apply HS|]. etransitivity; [exact P|]. symmetry. apply HS'.
Qed.
(** *** what is written *)
Lemma forall2_impl {A B} (P Q : A -> B -> Prop) l m : (forall a b, P a b -> Q a b) -> Forall2 P l m -> Forall2 Q l m.
Proof. intros H. induction 1; constructor; auto. Qed.
Definition written (c : option Z) (r : fileref) (e : entry) : Prop :=
  entry_for r e /\ exists h, fr_header r = Some h /\ fst e = tar_written (clamp_header c (with_name h (fr_name r))).
Lemma tar_written_fields h : same_but_times h (tar_written h).
Proof. unfold tar_written. destruct (th_format h =? 0)%Z; repeat split. Qed.
Lemma write_ref_ok encodable c r e : write_ref encodable c r = inl e -> written c r e.
Proof.
  unfold write_ref. destruct (fr_header r) as [h|] eqn:H; [|discriminate]. unfold write_entry. destruct (negb _); [discriminate|].
  set (h' := clamp_header c (with_name h (fr_name r))). destruct (tar_written_fields h') as (NM & F).
  change (th_type h') with (th_type h). change (th_size h') with (th_size h).
  assert (X : forall s, (if byte_eqb (th_type h) TypeReg then fr_content r = Bytes s true /\ th_size h = Z.of_nat (length s) else s = []) ->
    inl (tar_written h', s) = @inl entry lerr e -> written c r e).
  { intros s C E. injection E as <-. split; exists h; split; auto. }
  destruct (byte_eqb (th_type h) TypeReg) eqn:T.
  - destruct (fr_content r) as [| |s cl] eqn:C; try discriminate. destruct (_ <? _)%Z eqn:L1; [discriminate|]. destruct cl; [|discriminate]. cbn [negb].
    destruct (_ <? th_size h)%Z eqn:L2; [discriminate|]. apply Z.ltb_ge in L1, L2. apply X. split; auto. lia.
  - now apply X.
Qed.
Lemma write_refs_ok encodable c l : forall out, write_refs encodable c l = LayerOk out -> Forall2 (written c) l out.
Proof.
  induction l as [|r l IH]; intros out E; cbn [write_refs] in E; [injection E as <-; constructor|].
  destruct (write_ref encodable c r) as [x|] eqn:W; [|discriminate]. destruct (write_refs encodable c l); try discriminate. injection E as <-.
  constructor; auto. now apply (write_ref_ok encodable).
Qed.
Lemma layer_entries encodable sort vfs c out : sorts sort -> layer_from_refs encodable sort vfs c = LayerOk out ->
  exists l, Permutation l vfs /\ Forall2 (written c) l out.
Proof. intros HS E. exists (sort ref_less vfs). split; [apply HS|]. now apply (write_refs_ok encodable). Qed.
Lemma written_names c l out : Forall2 (written c) l out -> map (fun e => th_name (fst e)) out = map fr_name l.
Proof. induction 1 as [|r e l out [(h & _ & N & _) _] _ IH]; auto. cbn [map]. now rewrite IH, N. Qed.
Theorem layer_in_order encodable sort vfs c out : sorts sort -> NoDup (map fr_name vfs) -> Forall (fun r => clean_path (fr_name r)) vfs ->
  layer_from_refs encodable sort vfs c = LayerOk out ->
  StronglySorted name_parts_before (map (fun e => th_name (fst e)) out) /\
  exists l, Permutation l vfs /\ Forall2 entry_for l out.
Proof.
  intros HS N E L. pose proof (sorted_refs sort HS vfs N E) as S. apply write_refs_ok in L. split.
  - rewrite (written_names c _ _ L). clear -S. induction S as [|a l S IH F]; [constructor|]. cbn [map]. constructor; auto. apply Forall_map. exact F.
  - exists (sort ref_less vfs). split; [apply HS|]. eapply forall2_impl; [|exact L]. now intros r e [H _].
Qed.
Lemma pb_app p q : q <> [] -> parts_before p (p ++ q).
Proof. intros N. induction p as [|x p IH]; cbn [app parts_before]; auto. destruct q; [congruence|exact I]. Qed.
Lemma sorted_precedes {A} (R : A -> A -> Prop) l a b : (forall x, ~ R x x) -> (forall x y z, R x y -> R y z -> R x z) -> StronglySorted R l -> In a l -> In b l -> R a b -> precedes a b l.
Proof.
  intros IR TR S Ia Ib H. apply in_split in Ia as (l1 & l2 & ->). apply in_app_or in Ib as [Ib|[->|Ib]].
  - exfalso. clear -IR TR S Ib H. induction l1 as [|x l1 IH]; [destruct Ib|]. cbn [app] in S. inversion S as [|? ? S' F]; subst. destruct Ib as [->|Ib]; auto.
    rewrite Forall_forall in F. apply (IR b). eapply TR; [apply F, in_or_app; right; now left|exact H].
  - now apply IR in H.
  - apply in_split in Ib as (l3 & l4 & ->). exists l1, l3, l4. reflexivity.
Qed.
Theorem parents_first encodable sort vfs c out d n : sorts sort -> NoDup (map fr_name vfs) -> Forall (fun r => clean_path (fr_name r)) vfs ->
  layer_from_refs encodable sort vfs c = LayerOk out ->
  In d (map fr_name vfs) -> In n (map fr_name vfs) -> below d n -> precedes d n (map (fun e => th_name (fst e)) out).
Proof.
  intros HS N E L Id Ix (x & B). destruct (layer_in_order encodable sort vfs c out HS N E L) as [S (l & P & F)].
  assert (NM : map (fun e => th_name (fst e)) out = map fr_name l).
  { clear -F. induction F as [|r e l out (h & _ & N & _) _ IH]; auto. cbn [map]. now rewrite IH, N. }
  apply (sorted_precedes name_parts_before); auto.
  - intros y. apply pb_irrefl.
  - intros y z w. apply pb_trans.
  - rewrite NM. eapply Permutation_in; [apply Permutation_map; symmetry; exact P|exact Id].
  - rewrite NM. eapply Permutation_in; [apply Permutation_map; symmetry; exact P|exact Ix].
  - unfold name_parts_before. destruct B as [->|(-> & -> & X)].
    + change ($"/" ++ x) with (slash :: x). rewrite split_on_app_gen. apply pb_app. apply split_on_nonempty.
    + rewrite split_slash. change (split_on slash $"/") with [[]; @nil ascii]. cbn [parts_before]. right. split; auto.
      destruct (split_on slash x) as [|y ys] eqn:S'; [now apply split_on_nonempty in S'|]. cbn [parts_before].
      destruct y as [|b y]; [|now left]. exfalso. apply in_map_iff in Ix as (r & NR & Ir). rewrite Forall_forall in E. specialize (E r Ir). apply clean_good in E.
      rewrite NR, split_slash, S' in E. destruct E as [[_ F0]|[F0|(q & F0 & _ & F1)]].
      * inversion F0. congruence.
      * injection F0 as ->. apply X. rewrite <- (join_split_on slash x), S'. reflexivity.
      * injection F0 as <-. inversion F1. congruence.
Qed.

(** *** times *)
Lemma time_le_refl a : time_le a a.
Proof. destruct a; cbn [time_le]; auto. lia. Qed.
Lemma clamp_le c t : time_le (clamp c t) c.
Proof. unfold clamp, time_after. destruct t as [x|], c as [y|]; cbn [time_le]; auto. destruct (y <? x)%Z eqn:E; cbn [time_le]; [lia|]. apply Z.ltb_ge in E. lia. Qed.
Lemma clamp_id c t : time_le t c -> clamp c t = t.
Proof. unfold clamp, time_after. destruct t as [x|], c as [y|]; cbn [time_le]; try tauto. intros L. destruct (y <? x)%Z eqn:E; auto. apply Z.ltb_lt in E. lia. Qed.
Lemma round_whole x : (x mod 1000000000 = 0 -> round_second x = x)%Z.
Proof. intros H. unfold round_second. rewrite Z.mod_eq in H by lia. assert (E : (x = x / 1000000000 * 1000000000)%Z) by lia. rewrite E at 1. rewrite Z.div_add_l by lia. change (500000000 / 1000000000)%Z with 0%Z. lia. Qed.
Lemma round_le x y : (x <= y -> y mod 1000000000 = 0 -> round_second x <= y)%Z.
Proof. intros L H. rewrite <- (round_whole y H). unfold round_second. apply Z.mul_le_mono_nonneg_r; [lia|]. apply Z.div_le_mono; lia. Qed.
Lemma round_near x : (x - 500000000 < round_second x <= x + 500000000)%Z.
Proof. unfold round_second. pose proof (Z.mod_eq (x + 500000000) 1000000000 ltac:(lia)). pose proof (Z.mod_pos_bound (x + 500000000) 1000000000 ltac:(lia)). lia. Qed.
Definition times_le (c : option Z) (h : header) : Prop := time_le (th_mtime h) c /\ time_le (th_atime h) c /\ time_le (th_ctime h) c.
Theorem not_later encodable sort vfs c out : sorts sort -> whole_second c -> layer_from_refs encodable sort vfs c = LayerOk out ->
  forall e, In e out -> time_le (th_mtime (fst e)) c /\ time_le (th_atime (fst e)) c /\ time_le (th_ctime (fst e)) c.
Proof.
  intros HS W L e I. destruct (layer_entries encodable sort vfs c out HS L) as (l & _ & F).
  assert (X : exists r, written c r e).
  { clear -F I. induction F as [|r x l out H F IH]; [destruct I|]. destruct I as [->|I]; eauto. }
  destruct X as (r & _ & h & _ & ->). unfold tar_written. cbn [th_format clamp_header with_times]. destruct (_ =? 0)%Z; cbn [with_times clamp_header th_mtime th_atime th_ctime].
  - split; [|split; exact I0 || exact I || cbn [time_le]; auto]. pose proof (clamp_le c (th_mtime (with_name h (fr_name r)))) as K. destruct (clamp c _) as [x|]; cbn [option_map time_le] in *; auto.
    destruct c as [y|]; auto. now apply round_le.
  - auto using clamp_le.
Qed.
(** One entry per reference, its times being the clamped ones up to what the
    archive can record. *)
Lemma round_nearest t : nearest_second t (option_map round_second t).
Proof.
  destruct t as [x|]; cbn [option_map nearest_second]; auto. split.
  - unfold round_second. apply Z.mod_mul. lia.
  - pose proof (round_near x). unfold round_second in *. pose proof (Z.mod_eq (x + 500000000) 1000000000 ltac:(lia)). pose proof (Z.mod_pos_bound (x + 500000000) 1000000000 ltac:(lia)). lia.
Qed.
Lemma nearest_whole t t' : whole_second t -> nearest_second t t' -> t' = t.
Proof.
  destruct t as [x|], t' as [y|]; cbn [whole_second nearest_second]; try tauto. intros W [M L]. f_equal.
  rewrite Z.mod_eq in W, M by lia. lia.
Qed.
Lemma nearest_unique t a b : nearest_second t a -> nearest_second t b -> a = b.
Proof.
  destruct t as [x|], a as [y|], b as [z|]; cbn [nearest_second]; try tauto. intros [M L] [M' L']. f_equal.
  rewrite Z.mod_eq in M, M' by lia. lia.
Qed.
Lemma clamp_at_most c t : at_most c t (clamp c t).
Proof.
  split; [apply clamp_id|]. intros N. unfold clamp, time_after. destruct t as [x|], c as [y|]; cbn [time_le] in *; try tauto.
  destruct (y <? x)%Z eqn:Z; auto. apply Z.ltb_ge in Z. tauto.
Qed.
Lemma at_most_unique c t a b : at_most c t a -> at_most c t b -> a = b.
Proof.
  intros [A B] [A' B']. assert (D : time_le t c \/ ~ time_le t c).
  { destruct t as [x|], c as [y|]; cbn [time_le]; try tauto. lia. }
  destruct D as [D|D]; [rewrite A, A'|rewrite B, B']; auto.
Qed.
Lemma written_clamped c h0 h : th_mtime h = th_mtime h0 -> th_atime h = th_atime h0 -> th_ctime h = th_ctime h0 -> th_format h = th_format h0 -> clamped c h0 (tar_written (clamp_header c h)).
Proof.
  intros M A C F. unfold clamped, tar_written. cbn [th_format clamp_header with_times]. rewrite F.
  destruct (th_format h0 =? 0)%Z eqn:Z; cbn [with_times clamp_header th_mtime th_atime th_ctime]; rewrite M, ?A, ?C.
  - apply Z.eqb_eq in Z. split; [|now intros []]. intros _. split; auto. exists (clamp c (th_mtime h0)). split; [apply clamp_at_most|apply round_nearest].
  - apply Z.eqb_neq in Z. split; [now intros|]. intros _. auto using clamp_at_most.
Qed.
Theorem times_kept encodable sort vfs c out : sorts sort -> layer_from_refs encodable sort vfs c = LayerOk out ->
  exists l, Permutation l vfs /\ Forall2 (fun r e => entry_for r e /\ exists h, fr_header r = Some h /\ clamped c h (fst e)) l out.
Proof.
  intros HS L. destruct (layer_entries encodable sort vfs c out HS L) as (l & P & F). exists l. split; auto. eapply forall2_impl; [|exact F].
  intros r e (E & h & H & W). split; auto. exists h. split; auto. rewrite W. now apply written_clamped.
Qed.

Theorem access_times_dropped encodable sort vfs c out : sorts sort -> Forall (fun r => forall h, fr_header r = Some h -> th_format h = 0%Z) vfs ->
  layer_from_refs encodable sort vfs c = LayerOk out -> Forall (fun e => th_atime (fst e) = None /\ th_ctime (fst e) = None) out.
Proof.
  intros HS Z L. destruct (layer_entries encodable sort vfs c out HS L) as (l & P & F). apply (Permutation_Forall (Permutation_sym P)) in Z.
  clear L P. induction F as [|r e l out (_ & h & H & E) F IH]; constructor; inversion Z as [|? ? Zh Z']; subst; auto.
  rewrite E. unfold tar_written. cbn [th_format clamp_header with_times with_name]. rewrite (Zh _ H). cbn. auto.
Qed.
Theorem zero_clamp encodable sort vfs out : layer_from_refs encodable sort vfs None = LayerOk out ->
  Forall (fun e => th_mtime (fst e) = None /\ th_atime (fst e) = None /\ th_ctime (fst e) = None) out.
Proof.
  intros L. apply write_refs_ok in L. induction L as [|r e l out (_ & h & H & E) F IH]; constructor; auto.
  assert (K : forall t, clamp None t = None) by (intros []; reflexivity).
  rewrite E. unfold tar_written. cbn [th_format clamp_header with_times with_name]. destruct (_ =? 0)%Z; cbn; rewrite ?K; auto.
Qed.

(** *** readers *)
Local Open Scope nat_scope.
Local Opaque chunk_size.
Lemma read_full_ok chunks : forall k last err s o r, read_full k chunks last err = (s, o, r) ->
  let all := concat chunks ++ last in
  s = firstn k all /\ bytes_of r = skipn k all /\ rd_err r = err /\
  (o = Full /\ k <= length all \/ o = match err with None => Short | Some e => Bad e end /\ length all < k).
Proof.
  induction chunks as [|c cs IH]; intros [|k] last err s o r E; cbn [read_full] in E.
  - injection E as <- <- <-. cbv zeta. repeat split; auto. left. split; auto. lia.
  - cbn [concat app]. destruct (S k <=? length last) eqn:L; injection E as <- <- <-; [apply Nat.leb_le in L|apply Nat.leb_gt in L]; unfold bytes_of; cbn [rd_chunks rd_last rd_err concat app].
    + repeat split; auto.
    + rewrite firstn_all2, skipn_all2 by lia. repeat split; auto.
  - injection E as <- <- <-. cbv zeta. repeat split; auto. left. split; auto. lia.
  - destruct (length c <=? S k) eqn:L; [apply Nat.leb_le in L|apply Nat.leb_gt in L].
    + destruct (read_full (S k - length c) cs last err) as [[s' o'] r'] eqn:R. injection E as <- <- <-. apply IH in R as (-> & B & X & O).
      cbn [concat]. rewrite <- app_assoc. cbv zeta. rewrite (firstn_app (S k) c), (skipn_app (S k) c), (firstn_all2 c) by lia. rewrite (skipn_all2 c) by lia. cbn [app]. repeat split; auto.
      rewrite !app_length in *. destruct O as [[-> O]|[-> O]]; [left|right]; split; auto; lia.
    + injection E as <- <- <-. cbn [concat]. rewrite <- app_assoc. cbv zeta. unfold bytes_of. cbn [rd_chunks rd_last rd_err concat]. rewrite (firstn_app (S k) c), (skipn_app (S k) c).
      replace (S k - length c) with 0 by lia. rewrite firstn_O, app_nil_r. cbn [skipn]. rewrite <- app_assoc. repeat split; auto. left. split; auto. rewrite app_length. lia.
Qed.
Lemma fill_ok k a s o r : fill k a = (s, o, r) ->
  s = firstn k (bytes_of a) /\ bytes_of r = skipn k (bytes_of a) /\ rd_err r = rd_err a /\
  (o = Full /\ k <= length (bytes_of a) \/ o = match rd_err a with None => Short | Some e => Bad e end /\ length (bytes_of a) < k).
Proof. apply read_full_ok. Qed.
Theorem readers_ok n : forall a b,
  match readers_equal n a b with
  | Same => rd_err a = None /\ rd_err b = None /\ bytes_of a = bytes_of b
  | Differ => bytes_of a <> bytes_of b
  | CmpErr e => rd_err a = Some e \/ rd_err b = Some e
  | CmpFuel => n * chunk_size <= length (bytes_of a)
  end.
Proof.
  assert (CS : chunk_size <> 0) by discriminate.
  induction n as [|n IH]; intros a b; cbn [readers_equal]; [lia|].
  destruct (fill chunk_size a) as [[x ox] a'] eqn:FA. destruct (fill chunk_size b) as [[y oy] b'] eqn:FB.
  apply fill_ok in FA as (-> & A' & EA & OA). apply fill_ok in FB as (-> & B' & EB & OB).
  assert (GA : match ox with Bad e => rd_err a = Some e | _ => length (bytes_of a) < chunk_size -> rd_err a = None end).
  { destruct OA as [[-> L]|[-> L]]; [lia|]. destruct (rd_err a); auto. }
  assert (GB : match oy with Bad e => rd_err b = Some e | _ => length (bytes_of b) < chunk_size -> rd_err b = None end).
  { destruct OB as [[-> L]|[-> L]]; [lia|]. destruct (rd_err b); auto. }
  assert (D : bytes_of a = bytes_of b <-> firstn chunk_size (bytes_of a) = firstn chunk_size (bytes_of b) /\ bytes_of a' = bytes_of b').
  { rewrite A', B'. split; [now intros ->|]. intros [X Y]. now rewrite <- (firstn_skipn chunk_size (bytes_of a)), <- (firstn_skipn chunk_size (bytes_of b)), X, Y. }
  clear OA OB. set (res := if negb _ then _ else _).
  assert (R : (ox = Full \/ ox = Short) -> (oy = Full \/ oy = Short) -> match res with
    | Same => rd_err a = None /\ rd_err b = None /\ bytes_of a = bytes_of b
    | Differ => bytes_of a <> bytes_of b
    | CmpErr e => rd_err a = Some e \/ rd_err b = Some e
    | CmpFuel => S n * chunk_size <= length (bytes_of a) end).
  { intros OA OB. unfold res. clear res. destruct (str_eqb _ _) eqn:Q; cbn [negb].
    - apply str_eqb_eq in Q. destruct (length (firstn chunk_size (bytes_of a)) <? chunk_size) eqn:L.
      + apply Nat.ltb_lt in L. assert (LB := L). rewrite Q in LB. rewrite firstn_length in L, LB. repeat split.
        * destruct OA as [-> | ->]; apply GA; lia.
        * destruct OB as [-> | ->]; apply GB; lia.
        * apply D. split; auto. rewrite A', B', !skipn_all2 by lia. reflexivity.
      + apply Nat.ltb_ge in L. rewrite firstn_length in L. specialize (IH a' b'). rewrite EA, EB in IH. destruct (readers_equal n a' b').
        * destruct IH as (? & ? & ?). tauto.
        * tauto.
        * exact IH.
        * rewrite A', skipn_length in IH. lia.
    - intros X. apply D in X as [X _]. rewrite X, str_eqb_refl in Q. discriminate. }
  destruct ox; [| |left; exact GA]; (destruct oy; [| |right; exact GB]); apply R; auto.
Qed.
Theorem readers_exact n a b :
  (readers_equal n a b = Same -> bytes_of a = bytes_of b /\ rd_err a = None /\ rd_err b = None) /\
  (readers_equal n a b = Differ -> bytes_of a <> bytes_of b) /\
  (forall e, readers_equal n a b = CmpErr e -> rd_err a = Some e \/ rd_err b = Some e) /\
  (length (bytes_of a) < n -> readers_equal n a b <> CmpFuel).
Proof.
  assert (CS : chunk_size <> 0) by discriminate. pose proof (readers_ok n a b) as R. repeat split; intros; try (rewrite H in R; tauto).
  intros X. rewrite X in R. nia.
Qed.
Theorem readers_decided n a b : length (bytes_of a) < n -> rd_err a = None -> rd_err b = None ->
  (bytes_of a = bytes_of b -> readers_equal n a b = Same) /\ (bytes_of a <> bytes_of b -> readers_equal n a b = Differ).
Proof.
  intros L A B. destruct (readers_exact n a b) as (S & D & E & F). specialize (F L). destruct (readers_equal n a b) as [| |e|].
  - destruct S as [S _]; auto. tauto.
  - specialize (D eq_refl). tauto.
  - destruct (E e eq_refl); congruence.
  - congruence.
Qed.
(** *** layers *)
Lemma headers_equal_ok a b : headers_equal a b = true <-> same_but_times a b /\ same_change_time a b.
Proof.
  unfold headers_equal, same_but_times, same_but_name_and_times, same_change_time. destruct (header_eq_dec a _) as [E|E]; split; auto.
  - intros _. rewrite E. cbn. repeat split.
  - discriminate.
  - intros ((N & F) & C). exfalso. apply E. destruct a, b. cbn in *. unfold with_times. cbn. intuition congruence.
Qed.
Definition no_err (items : list (header * reader)) : Prop := Forall (fun x => rd_err (snd x) = None) items.
Definition longest_of (l : list (header * reader)) : nat := fold_right (fun x n => Nat.max (length (bytes_of (snd x))) n) 0 l.
Lemma items_ok n : forall a ae b be,
  match items_equal n a ae b be with
  | Same => ae = None /\ be = None /\ no_err a /\ no_err b /\ same_items same_change_time a b
  | Differ => ~ same_items same_change_time a b
  | CmpErr e => ae = Some e \/ be = Some e \/ (exists x, In x a /\ rd_err (snd x) = Some e) \/ (exists x, In x b /\ rd_err (snd x) = Some e)
  | CmpFuel => n * chunk_size <= longest_of a
  end.
Proof.
  induction a as [|[h r] a IH]; intros ae [|[h' r'] b] be; cbn [items_equal].
  - destruct ae, be; auto. repeat split; auto; constructor.
  - destruct ae; auto. unfold same_items. intros F. inversion F.
  - destruct be; auto. unfold same_items. intros F. inversion F.
  - assert (K : match (if negb (headers_equal h h') then Differ else match readers_equal n r r' with Same => items_equal n a ae b be | other => other end) with
      | Same => ae = None /\ be = None /\ no_err ((h, r) :: a) /\ no_err ((h', r') :: b) /\ same_items same_change_time ((h, r) :: a) ((h', r') :: b)
      | Differ => ~ same_items same_change_time ((h, r) :: a) ((h', r') :: b)
      | CmpErr e => ae = Some e \/ be = Some e \/ (exists x, In x ((h, r) :: a) /\ rd_err (snd x) = Some e) \/ (exists x, In x ((h', r') :: b) /\ rd_err (snd x) = Some e)
      | CmpFuel => n * chunk_size <= longest_of ((h, r) :: a) end).
    { destruct (headers_equal h h') eqn:H; cbn [negb].
      - apply headers_equal_ok in H as [H1 H2]. pose proof (readers_ok n r r') as R. destruct (readers_equal n r r').
        + destruct R as (E1 & E2 & E). specialize (IH ae b be). destruct (items_equal n a ae b be).
          * destruct IH as (-> & -> & Na & Nb & F). repeat split; auto; constructor; auto.
          * intros F. apply IH. now inversion F.
          * cbn [In]. destruct IH as [IH|[IH|[(x & I & X)|(x & I & X)]]]; auto; [right; right; left|right; right; right]; exists x; auto.
          * unfold longest_of in *. cbn [fold_right snd]. lia.
        + intros F. inversion F as [|? ? ? ? (_ & _ & X) _]; subst. now apply R.
        + destruct R as [R|R]; [right; right; left; exists (h, r)|right; right; right; exists (h', r')]; split; auto; now left.
        + unfold longest_of. cbn [fold_right snd]. lia.
      - intros F. inversion F as [|? ? ? ? (X & Y & _) _]; subst. assert (headers_equal h h' = true) by (apply headers_equal_ok; auto). congruence. }
    destruct ae; exact K.
Qed.
(** The answers of the comparison. *)
Theorem layers_ok n a b :
  match layers_equal n a b with
  | Same => readable a /\ readable b /\ same_items same_change_time (s_items a) (s_items b)
  | Differ => ~ same_items same_change_time (s_items a) (s_items b)
  | CmpErr e => ~ (readable a /\ readable b)
  | CmpFuel => n * chunk_size <= longest a
  end.
Proof.
  unfold layers_equal, readable. destruct (s_open a); [intros [(X & _) _]; discriminate|]. destruct (s_open b); cbn [maybe_set_err].
  - destruct (s_close a); intros [_ (X & _)]; discriminate.
  - pose proof (items_ok n (s_items a) (s_end a) (s_items b) (s_end b)) as K. destruct (items_equal _ _ _ _ _); cbn [maybe_set_err].
    + destruct K as (-> & -> & Na & Nb & F). destruct (s_close b); cbn [maybe_set_err]; [destruct (s_close a); intros [_ (_ & _ & X & _)]; discriminate|].
      destruct (s_close a); cbn [maybe_set_err]; [intros [(_ & _ & X & _) _]; discriminate|]. auto 10.
    + destruct (s_close b); cbn [maybe_set_err]; [destruct (s_close a); intros [_ (_ & _ & X & _)]; discriminate|].
      destruct (s_close a); cbn [maybe_set_err]; [intros [(_ & _ & X & _) _]; discriminate|]. auto.
    + destruct (s_close b), (s_close a); intros [(_ & A & _ & Fa) (_ & B & _ & Fb)]; rewrite Forall_forall in Fa, Fb;
      (destruct K as [K|[K|[(x & I & X)|(x & I & X)]]]; [congruence|congruence|rewrite (Fa x I) in X; discriminate|rewrite (Fb x I) in X; discriminate]).
    + destruct (s_close b), (s_close a); exact K.
Qed.

Theorem layers_exact n a b :
  (layers_equal n a b = Same -> readable a /\ readable b /\ same_items same_change_time (s_items a) (s_items b)) /\
  (layers_equal n a b = Differ -> ~ same_items same_change_time (s_items a) (s_items b)) /\
  (forall e, layers_equal n a b = CmpErr e -> ~ (readable a /\ readable b)) /\
  (longest a < n -> layers_equal n a b <> CmpFuel).
Proof.
  assert (CS : chunk_size <> 0) by discriminate. pose proof (layers_ok n a b) as R. split; [|split; [|split]]; intros; try (rewrite H in R; tauto).
  intros X. rewrite X in R. nia.
Qed.
Theorem layers_decided n a b : longest a < n -> readable a -> readable b ->
  (same_items same_change_time (s_items a) (s_items b) -> layers_equal n a b = Same) /\
  (~ same_items same_change_time (s_items a) (s_items b) -> layers_equal n a b = Differ).
Proof.
  intros L A B. destruct (layers_exact n a b) as (S & D & E & F). specialize (F L). destruct (layers_equal n a b) as [| |e|].
  - destruct S as (_ & _ & S); auto. tauto.
  - specialize (D eq_refl). tauto.
  - now destruct (E e eq_refl).
  - congruence.
Qed.
Theorem layers_errors n a b : ~ readable a \/ ~ readable b -> layers_equal n a b <> Same.
Proof. intros H S. destruct (layers_exact n a b) as (X & _). apply X in S. tauto. Qed.
