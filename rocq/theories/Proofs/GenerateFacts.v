(** Proofs about Model/Generate.v. *)
From Coq Require Import String Ascii List Bool ZArith NArith Lia.
From Verif.Model Require Import GoStr Pep440 Specifier Generate.
From Verif.Spec Require Import Pep440Spec GenerateSpec.
From Verif.Proofs Require Import Order GoStrFacts Pep440Parse Pep440Sound.
Import ListNotations.
Open Scope Z_scope.

(** ** Generated values *)
(** [g] never panics, and all its results have [P]. *)
Definition yields {R A} (g : gen R A) (P : A -> Prop) : Prop := forall r, exists a r', g r = Some (a, r') /\ P a.
Lemma yields_ret {R A} (a : A) (P : A -> Prop) : P a -> yields (R := R) (ret a) P.
Proof. intros H r. exists a, r. auto. Qed.
Lemma yields_bind {R A B} (g : gen R A) (f : A -> gen R B) (P : A -> Prop) (Q : B -> Prop) :
  yields g P -> (forall a, P a -> yields (f a) Q) -> yields (bind g f) Q.
Proof. intros HG HF r. destruct (HG r) as (a & r' & E & Pa). unfold bind. rewrite E. apply HF, Pa. Qed.
Lemma yields_weaken {R A} (g : gen R A) (P Q : A -> Prop) : yields g P -> (forall a, P a -> Q a) -> yields g Q.
Proof. intros H I r. destruct (H r) as (a & r' & E & Pa). eauto. Qed.

Section Facts.
Context {R : Type} (src : R -> Z -> Z * R) (HS : in_range src).
Lemma intn_yields n : 0 < n -> yields (intn src n) (fun x => 0 <= x < n).
Proof.
  intros H r. unfold intn. destruct (n <=? 0) eqn:E; [apply Z.leb_le in E; lia|]. pose proof (HS r n H) as B.
  destruct (src r n) as [x r']. exists x, r'. auto.
Qed.
Lemma bool_yields : yields (rand_bool src) (fun _ => True).
Proof. eapply yields_bind; [apply intn_yields; lia|]. intros a _. now apply yields_ret. Qed.
Lemma seg_yields : yields (rand_seg src) small.
Proof. apply intn_yields. lia. Qed.
Lemma bound_range size : 1 <= bound 1 size 10 <= 10.
Proof. unfold bound. destruct (size <? 1) eqn:A; destruct (10 <? _) eqn:B; try apply Z.ltb_lt in A; try apply Z.ltb_ge in A; try apply Z.ltb_lt in B; try apply Z.ltb_ge in B; lia. Qed.
Lemma list_yields {A} (item : gen R A) P n : yields item P -> yields (rand_list item n) (fun l => length l = n /\ Forall P l).
Proof.
  intros H. induction n as [|n IH]; cbn [rand_list]; [apply yields_ret; auto|].
  eapply yields_bind; [exact H|]. intros x Px. eapply yields_bind; [exact IH|]. intros l [L F]. apply yields_ret. cbn [length]. auto.
Qed.
Lemma option_yields {A} (item : gen R A) (P : A -> Prop) d : yields item P -> (forall x, d = Some x -> P x) ->
  yields (rand_option src item d) (fun o => forall x, o = Some x -> P x).
Proof.
  intros H D. eapply yields_bind; [apply bool_yields|]. intros [] _.
  - eapply yields_bind; [exact H|]. intros x Px. apply yields_ret. intros y [= <-]. exact Px.
  - now apply yields_ret.
Qed.
Lemma public_yields size : yields (generate_public src (pub zero_version) size) small_public.
Proof.
  unfold generate_public. eapply yields_bind; [apply bool_yields|]. intros b _.
  eapply (yields_bind _ _ small); [destruct b; [apply seg_yields|apply yields_ret; cbn; unfold small; lia]|]. intros e He.
  pose proof (bound_range size) as B. eapply yields_bind; [apply intn_yields; lia|]. intros n Hn. cbn beta in *.
  eapply yields_bind; [apply list_yields, seg_yields|]. intros rel [L F].
  eapply (yields_bind _ _ (fun o => forall x, o = Some x -> canonical_letter (fst x) /\ small (snd x))).
  { apply option_yields; [|discriminate]. eapply yields_bind; [apply intn_yields; lia|]. intros l Hl. cbn beta in *.
    eapply yields_bind; [apply seg_yields|]. intros m Hm. apply yields_ret. split; [|exact Hm]. cbn [fst].
    assert (C : l = 0 \/ l = 1 \/ l = 2) by lia. destruct C as [-> | [-> | ->]]; unfold canonical_letter; auto. }
  intros p Hp. eapply yields_bind; [apply option_yields; [apply seg_yields|discriminate]|]. intros po Hpo.
  eapply yields_bind; [apply option_yields; [apply seg_yields|discriminate]|]. intros d Hd. apply yields_ret.
  unfold small_public. cbn [epoch release pre post dev]. split; [exact He|]. split; [lia|]. split; [exact F|].
  split; [intros l m E; exact (Hp (l, m) E)|]. split; assumption.
Qed.
Lemma char_yields set (P : ascii -> Prop) : set <> [] -> Forall P set -> yields (rand_char src set) P.
Proof.
  intros N F. eapply yields_bind; [apply intn_yields; destruct set; [congruence|cbn [length]; lia]|]. intros i Hi. cbn beta in *. apply yields_ret.
  rewrite Forall_forall in F. apply F, nth_In. lia.
Qed.
Lemma alpha_chars : Forall (fun c => is_lower_alpha c = true) alpha.
Proof. apply Forall_forall. intros c H. assert (E : forallb is_lower_alpha alpha = true) by (vm_compute; reflexivity). rewrite forallb_forall in E. auto. Qed.
Lemma alphadig_chars : Forall (fun c => lower_alnum c = true) alphadig.
Proof. apply Forall_forall. intros c H. assert (E : forallb lower_alnum alphadig = true) by (vm_compute; reflexivity). rewrite forallb_forall in E. auto. Qed.
Lemma locals_yields k : forall size, yields (rand_locals src k size) (fun x => length (fst x) = k /\ Forall small_seg (fst x)).
Proof.
  induction k as [|k IH]; intros size; cbn [rand_locals]; [apply yields_ret; cbn; auto|].
  eapply yields_bind; [apply bool_yields|]. intros b _. eapply (yields_bind _ _ (fun x => small_seg (fst x))).
  { destruct b.
    - eapply yields_bind; [apply seg_yields|]. intros n Hn. cbn beta in *. now apply yields_ret.
    - pose proof (bound_range size) as B. eapply yields_bind; [apply intn_yields; lia|]. intros n Hn. cbn beta in *.
      eapply yields_bind; [apply (char_yields alpha _ ltac:(discriminate) alpha_chars)|]. intros c Hc.
      eapply yields_bind; [apply list_yields, (char_yields alphadig _ ltac:(discriminate) alphadig_chars)|]. intros s [L F]. apply yields_ret.
      cbn [fst small_seg]. repeat split; [exact Hc| |lia]. apply forallb_forall. now rewrite Forall_forall in F. }
  intros x Hx. eapply yields_bind; [apply IH|]. intros y [L F]. apply yields_ret. cbn [fst length]. auto.
Qed.
Theorem version_yields size r : exists v r', generate_version src zero_version size r = Some (v, r') /\ small_version v.
Proof.
  enough (H : yields (generate_version src zero_version size) small_version) by (destruct (H r) as (v & r' & E & S); eauto).
  unfold generate_version. eapply yields_bind; [apply bool_yields|]. intros b _.
  eapply (yields_bind _ _ (fun x : list intorstr * Z => (length (fst x) <= 10)%nat /\ Forall small_seg (fst x))).
  { destruct b; [|apply yields_ret; cbn; split; [lia|constructor]]. pose proof (bound_range size) as B.
    eapply yields_bind; [apply intn_yields; lia|]. intros n Hn. cbn beta in *. eapply yields_weaken; [apply locals_yields|]. cbn beta. intros x [L F]. split; [lia|auto]. }
  intros x [L F]. eapply yields_bind; [apply public_yields|]. intros p Hp. apply yields_ret. split; auto.
Qed.
Theorem op_yields r : exists op r', generate_op src r = Some (op, r').
Proof.
  enough (H : yields (generate_op src) (fun _ => True)) by (destruct (H r) as (v & r' & E & _); eauto).
  unfold generate_op. eapply yields_bind; [apply intn_yields; cbn; lia|]. intros i Hi. cbn beta in *.
  destruct (nth_error all_ops (Z.to_nat i)) eqn:E; [now apply yields_ret|]. apply nth_error_None in E. cbn [length all_ops] in *. lia.
Qed.
End Facts.

(** ** Small versions are canonical *)
Lemma small_int n : small n -> int64_ok n.
Proof. unfold small, int64_ok. intros. split; [lia|]. assert (3000 < 2 ^ 63) by reflexivity. lia. Qed.
Lemma atoi_letter c s : is_lower_alpha c = true -> atoi (c :: s) = None.
Proof. destruct c as [[] [] [] [] [] [] [] []]; intros H; try (vm_compute in H; discriminate H); reflexivity. Qed.
Theorem small_canonical v : small_version v -> canonical v.
Proof.
  intros ((E & L & F & P & PO & D) & _ & FL). unfold canonical, ranged_public. split; [|split].
  - split; [now apply small_int|]. split; [intros X; rewrite X in L; cbn [length] in L; lia|].
    split; [eapply Forall_impl; [|exact F]; exact small_int|]. split.
    { intros l n H. destruct (P _ _ H) as [C S]. split; [destruct C as [-> | [-> | ->]]; discriminate|now apply small_int]. }
    split; intros n H; apply small_int; auto.
  - intros l n H. now apply (P _ _ H).
  - eapply Forall_impl; [|exact FL]. intros [n|[|c s]]; cbn [small_seg canonical_seg].
    + unfold small, int32_ok. assert (3000 < 2 ^ 31) by reflexivity. lia.
    + intros [].
    + intros (A & B & _). repeat split; [discriminate| |now apply atoi_letter]. cbn [forallb]. unfold lower_alnum at 1. now rewrite A, B.
Qed.

(** ** Every small version can come out *)
Lemma dice_range : in_range dice.
Proof. intros [|d r] n H; cbn [dice fst]; [lia|]. now apply Z.mod_pos_bound. Qed.
Definition reach {A} (g : gen (list Z) A) (a : A) : Prop := exists r, forall rest, g (r ++ rest) = Some (a, rest).
Lemma reach_ret {A} (a : A) : reach (ret a) a.
Proof. exists []. reflexivity. Qed.
Lemma reach_bind {A B} (g : gen (list Z) A) (f : A -> gen (list Z) B) a b : reach g a -> reach (f a) b -> reach (bind g f) b.
Proof. intros [r1 H1] [r2 H2]. exists (r1 ++ r2). intros rest. unfold bind. now rewrite <- app_assoc, H1, H2. Qed.
Lemma reach_intn n x : 0 <= x < n -> reach (intn dice n) x.
Proof.
  intros H. exists [x]. intros rest. unfold intn. destruct (n <=? 0) eqn:E; [apply Z.leb_le in E; lia|]. cbn [app dice]. now rewrite Z.mod_small.
Qed.
Lemma reach_bool b : reach (rand_bool dice) b.
Proof. apply reach_bind with (a := if b then 1 else 0); [apply reach_intn; destruct b; lia|]. destruct b; apply reach_ret. Qed.
Lemma reach_seg n : small n -> reach (rand_seg dice) n.
Proof. apply reach_intn. Qed.
Lemma reach_list {A} (item : gen (list Z) A) l n : n = length l -> Forall (reach item) l -> reach (rand_list item n) l.
Proof.
  intros -> F. induction F as [|x l H _ IH]; cbn [rand_list length]; [apply reach_ret|].
  eapply reach_bind; [exact H|]. eapply reach_bind; [exact IH|]. apply reach_ret.
Qed.
Lemma reach_option {A} (item : gen (list Z) A) o : (forall x, o = Some x -> reach item x) -> reach (rand_option dice item None) o.
Proof.
  intros H. destruct o as [x|].
  - apply reach_bind with (a := true); [apply reach_bool|]. eapply reach_bind; [apply H; reflexivity|]. apply reach_ret.
  - apply reach_bind with (a := false); [apply reach_bool|]. apply reach_ret.
Qed.
Lemma bound_10 size : 10 <= size -> bound 1 size 10 = 10.
Proof. intros H. unfold bound. destruct (size <? 1) eqn:A; [apply Z.ltb_lt in A; lia|]. destruct (10 <? size) eqn:B; auto. apply Z.ltb_ge in B. lia. Qed.
Lemma reach_public p size : 10 <= size -> small_public p -> reach (generate_public dice (pub zero_version) size) p.
Proof.
  intros HZ (E & L & F & P & PO & D). destruct p as [e rel p po d]. cbn [epoch release pre post dev] in *. unfold generate_public.
  apply reach_bind with (a := true); [apply reach_bool|]. eapply reach_bind; [apply reach_seg, E|].
  apply reach_bind with (a := Z.of_nat (length rel) - 1); [apply reach_intn; rewrite bound_10 by lia; lia|].
  eapply reach_bind.
  { apply reach_list with (l := rel); [lia|]. eapply Forall_impl; [|exact F]. exact reach_seg. }
  eapply reach_bind.
  { apply reach_option with (o := p). intros [l n] H. destruct (P _ _ H) as [C S]. destruct C as [-> | [-> | ->]].
    - apply reach_bind with (a := 0); [apply reach_intn; lia|]. eapply reach_bind; [apply reach_seg, S|]. apply reach_ret.
    - apply reach_bind with (a := 1); [apply reach_intn; lia|]. eapply reach_bind; [apply reach_seg, S|]. apply reach_ret.
    - apply reach_bind with (a := 2); [apply reach_intn; lia|]. eapply reach_bind; [apply reach_seg, S|]. apply reach_ret. }
  eapply reach_bind; [apply reach_option with (o := po); intros n H; apply reach_seg; auto|].
  eapply reach_bind; [apply reach_option with (o := d); intros n H; apply reach_seg; auto|]. apply reach_ret.
Qed.
Lemma reach_char set c : In c set -> reach (rand_char dice set) c.
Proof.
  intros H. apply (In_nth _ _ zero) in H as (i & L & E). apply reach_bind with (a := Z.of_nat i); [apply reach_intn; lia|].
  rewrite Nat2Z.id, E. apply reach_ret.
Qed.
Lemma alpha_in c : is_lower_alpha c = true -> In c alpha.
Proof.
  intros H. assert (E : existsb (Ascii.eqb c) alpha = true).
  { destruct c as [[] [] [] [] [] [] [] []]; try (vm_compute in H; discriminate H); vm_compute; reflexivity. }
  apply existsb_exists in E as (x & I & E). apply Ascii.eqb_eq in E. now subst.
Qed.
Lemma alphadig_in c : lower_alnum c = true -> In c alphadig.
Proof.
  intros H. assert (E : existsb (Ascii.eqb c) alphadig = true).
  { destruct c as [[] [] [] [] [] [] [] []]; try (vm_compute in H; discriminate H); vm_compute; reflexivity. }
  apply existsb_exists in E as (x & I & E). apply Ascii.eqb_eq in E. now subst.
Qed.
Lemma reach_locals l : forall size, Forall small_seg l -> 10 * Z.of_nat (length l) + 10 <= size ->
  exists size', 10 <= size' /\ reach (rand_locals dice (length l) size) (l, size').
Proof.
  induction l as [|x l IH]; intros size F S; cbn [rand_locals length] in *.
  { exists size. split; [lia|]. apply reach_ret. }
  inversion F as [|? ? X F']; subst. destruct x as [n|[|c s]]; [| contradiction|].
  - destruct (IH size F' ltac:(lia)) as (size' & S' & Q). exists size'. split; auto.
    apply reach_bind with (a := true); [apply reach_bool|]. apply reach_bind with (a := (SInt n, size)).
    { eapply reach_bind; [apply reach_seg, X|]. apply reach_ret. }
    eapply reach_bind; [exact Q|]. apply reach_ret.
  - destruct X as (X1 & X2 & X3). destruct (IH (size - (1 + Z.of_nat (length s))) F' ltac:(lia)) as (size' & S' & Q). exists size'. split; auto.
    apply reach_bind with (a := false); [apply reach_bool|]. apply reach_bind with (a := (SStr (c :: s), size - (1 + Z.of_nat (length s)))).
    { apply reach_bind with (a := Z.of_nat (length s)); [apply reach_intn; rewrite bound_10 by lia; lia|].
      eapply reach_bind; [apply reach_char, alpha_in, X1|]. eapply reach_bind; [|apply reach_ret].
      apply reach_list; [now rewrite Nat2Z.id|]. apply Forall_forall. intros d Hd. apply reach_char, alphadig_in. rewrite forallb_forall in X2. auto. }
    eapply reach_bind; [exact Q|]. apply reach_ret.
Qed.
Theorem version_reached v size : 120 <= size -> small_version v -> exists r, generate_version dice zero_version size r = Some (v, []).
Proof.
  intros HZ (P & L & F). enough (H : reach (generate_version dice zero_version size) v) by (destruct H as [r H]; exists r; rewrite <- (H []); now rewrite app_nil_r).
  destruct v as [p loc]. cbn [pub local] in *. unfold generate_version. destruct loc as [|x loc].
  - apply reach_bind with (a := false); [apply reach_bool|]. apply reach_bind with (a := ([], size)); [apply reach_ret|].
    eapply reach_bind; [apply reach_public; [cbn [snd]; lia|exact P]|]. apply reach_ret.
  - apply reach_bind with (a := true); [apply reach_bool|]. set (l := x :: loc) in *. assert (1 <= Z.of_nat (length l)) by (unfold l; cbn [length]; lia).
    destruct (reach_locals l (size - Z.of_nat (length l)) F ltac:(lia)) as (size' & S' & Q). apply reach_bind with (a := (l, size')).
    { apply reach_bind with (a := Z.of_nat (length l) - 1); [apply reach_intn; rewrite bound_10 by lia; lia|].
      replace (1 + (Z.of_nat (length l) - 1)) with (Z.of_nat (length l)) by lia. now rewrite Nat2Z.id. }
    eapply reach_bind; [apply reach_public; [exact S'|exact P]|]. apply reach_ret.
Qed.
Theorem op_reached op : exists r, generate_op dice r = Some (op, []).
Proof. destruct op; [exists [0]|exists [1]|exists [2]|exists [3]|exists [4]|exists [5]|exists [6]|exists [7]|exists [8]]; reflexivity. Qed.

(** ** The helpers of the tests *)
Lemma fill_spec {V} n i (tc : list V) : fill_args n i tc = match n, nth_error tc i with O, _ => Some [] | _, Some v => Some (repeat v n) | _, None => None end.
Proof.
  induction n as [|n IH]; auto. cbn [fill_args]. rewrite IH. destruct (nth_error tc i) as [v|]; [|reflexivity]. destruct n; reflexivity.
Qed.
Lemma static_passes {V} nargs (fn : list V -> option bool) cases : forall i, static_cases nargs fn i cases = Some [] <->
  forall k tc, nth_error cases k = Some tc -> length tc = nargs /\
    (nargs = 0%nat /\ fn [] = Some true \/ exists v, nth_error tc (i + k) = Some v /\ fn (repeat v nargs) = Some true).
Proof.
  induction cases as [|tc cases IH]; intros i; cbn [static_cases].
  { split; auto. intros _ [|k] tc; discriminate. }
  assert (R : forall X : Prop, (X /\ static_cases nargs fn (S i) cases = Some []) <->
     (X /\ forall k tc', nth_error cases k = Some tc' -> length tc' = nargs /\
    (nargs = 0%nat /\ fn [] = Some true \/ exists v, nth_error tc' (i + S k) = Some v /\ fn (repeat v nargs) = Some true))).
  { intros X. rewrite IH. split; intros [HX H]; split; auto; intros k tc' Hk; specialize (H k tc' Hk); rewrite <- plus_n_Sm in *; exact H. }
  set (X := length tc = nargs /\ (nargs = 0%nat /\ fn [] = Some true \/ exists v, nth_error tc (i + 0) = Some v /\ fn (repeat v nargs) = Some true)).
  transitivity (X /\ static_cases nargs fn (S i) cases = Some []).
  - destruct (Nat.eqb (length tc) nargs) eqn:E; cbn [negb].
    + apply Nat.eqb_eq in E. rewrite fill_spec. subst X. rewrite Nat.add_0_r. rewrite E. destruct nargs as [|n].
      * destruct tc; [|discriminate]. destruct (fn []) as [[]|] eqn:FN.
        -- destruct (static_cases 0 fn (S i) cases) as [l|]; split; [intros [= ->]; auto|intros [_ H]; auto|discriminate|intros [_ H]; auto].
        -- split; [destruct (static_cases 0 fn (S i) cases); discriminate|]. intros [[_ [[_ H]|(v & H & _)]] _]; [discriminate|destruct i; discriminate].
        -- split; [discriminate|]. intros [[_ [[_ H]|(v & H & _)]] _]; [discriminate|destruct i; discriminate].
      * destruct (nth_error tc i) as [v|].
        -- destruct (fn (repeat v (S n))) as [[]|] eqn:FN.
           ++ destruct (static_cases (S n) fn (S i) cases) as [l|]; split; [intros [= ->]; split; [split; auto; right; eauto|auto]|intros [_ H]; auto|discriminate|intros [_ H]; auto].
           ++ split; [destruct (static_cases (S n) fn (S i) cases); discriminate|]. intros [[_ [[H _]|(w & [= <-] & H)]] _]; congruence.
           ++ split; [discriminate|]. intros [[_ [[H _]|(w & [= <-] & H)]] _]; congruence.
        -- split; [discriminate|]. intros [[_ [[H _]|(w & H & _)]] _]; congruence.
    + apply Nat.eqb_neq in E. split; [destruct (static_cases nargs fn (S i) cases); discriminate|]. intros [[H _] _]. contradiction.
  - rewrite R. subst X. split.
    + intros [A B] [|k] tc'; cbn [nth_error]; [intros [= <-]; exact A|apply B].
    + intros H. split; [apply (H 0%nat tc eq_refl)|]. intros k tc' Hk. apply (H (S k) tc' Hk).
Qed.
(** What QuickCheck checks *)
Theorem quick_check_actual {V} random nargs (fn : list V -> option bool) cases : quick_check random nargs fn cases = Some [] <->
  random = CheckPassed /\ forall i tc, nth_error cases i = Some tc -> length tc = nargs /\
    (nargs = 0%nat /\ fn [] = Some true \/ exists v, nth_error tc i = Some v /\ fn (repeat v nargs) = Some true).
Proof.
  unfold quick_check. destruct random.
  - cbn [app]. rewrite <- (static_passes nargs fn cases 0). destruct (static_cases nargs fn 0 cases) as [l|]; tauto.
  - split; [discriminate|intros [[=] _]].
  - split; [|intros [[=] _]]. destruct (static_cases nargs fn 0 cases); discriminate.
Qed.
Theorem quick_check_one {V} random (fn : list V -> option bool) (v : V) :
  quick_check random 1 fn [[v]] = Some [] <-> random = CheckPassed /\ fn [v] = Some true.
Proof.
  rewrite quick_check_actual. split.
  - intros [A B]. split; auto. destruct (B 0%nat [v] eq_refl) as [_ [[H _]|(w & E & F)]]; [discriminate|]. injection E as <-. exact F.
  - intros [A B]. split; auto. intros [|i] tc; cbn [nth_error]; [|destruct i; discriminate]. intros [= <-]. split; auto. right. exists v. auto.
Qed.
Theorem quick_check_two {V} random (fn : list V -> option bool) (v w : V) rest : random <> SetupFailed -> quick_check random 1 fn ([v] :: [w] :: rest) = None.
Proof.
  intros H. unfold quick_check. destruct random; [|congruence|]; cbn [static_cases length Nat.eqb negb fill_args nth_error].
  - destruct (fn [v]); reflexivity.
  - destruct (fn [v]); reflexivity.
Qed.
Lemma static_equal_passes {V W} (eqb : W -> W -> bool) nargs (fn1 fn2 : list V -> option W) cases : forall i, static_cases_equal eqb nargs fn1 fn2 i cases = Some [] <->
  forall tc, In tc cases -> length tc = nargs /\ exists a b, fn1 tc = Some a /\ fn2 tc = Some b /\ eqb a b = true.
Proof.
  induction cases as [|tc cases IH]; intros i; cbn [static_cases_equal].
  { split; auto. intros _ tc []. }
  transitivity ((length tc = nargs /\ exists a b, fn1 tc = Some a /\ fn2 tc = Some b /\ eqb a b = true) /\ static_cases_equal eqb nargs fn1 fn2 (S i) cases = Some []).
  - destruct (Nat.eqb (length tc) nargs) eqn:E; cbn [negb].
    + apply Nat.eqb_eq in E. destruct (fn1 tc) as [a|]; [|split; [discriminate|intros [[_ (x & y & [=] & _)] _]]].
      destruct (fn2 tc) as [b|]; [|split; [discriminate|intros [[_ (x & y & _ & [=] & _)] _]]].
      destruct (static_cases_equal eqb nargs fn1 fn2 (S i) cases) as [l|]; [|split; [discriminate|intros [_ [=]]]].
      destruct (eqb a b) eqn:EB.
      * split; [intros [= ->]; split; auto; split; eauto 10|intros [_ H]; auto].
      * split; [discriminate|]. intros [[_ (x & y & [= <-] & [= <-] & H)] _]. congruence.
    + apply Nat.eqb_neq in E. split; [destruct (static_cases_equal eqb nargs fn1 fn2 (S i) cases); discriminate|]. intros [[H _] _]. contradiction.
  - rewrite IH. split; [intros [A B] t [<- | H]; auto|]. intros H. split; [apply H; now left|]. intros t Ht. apply H. now right.
Qed.
Theorem quick_equal_exact {V W} (eqb : W -> W -> bool) random nargs (fn1 fn2 : list V -> option W) cases : quick_check_equal eqb random nargs fn1 fn2 cases = Some [] <->
  random = CheckPassed /\ forall tc, In tc cases -> length tc = nargs /\ exists a b, fn1 tc = Some a /\ fn2 tc = Some b /\ eqb a b = true.
Proof.
  unfold quick_check_equal. destruct random.
  - cbn [app]. rewrite <- (static_equal_passes eqb nargs fn1 fn2 cases 0). destruct (static_cases_equal eqb nargs fn1 fn2 0 cases) as [l|]; tauto.
  - split; [discriminate|intros [[=] _]].
  - split; [|intros [[=] _]]. destruct (static_cases_equal eqb nargs fn1 fn2 0 cases); discriminate.
Qed.

(** What is reported *)
Fixpoint collect {V} (g : nat -> list V -> option (list failure)) (i : nat) (cases : list (list V)) : effect :=
  match cases with
  | [] => Some []
  | tc :: cases => match g i tc, collect g (S i) cases with Some a, Some l => Some (a ++ l) | _, _ => None end
  end.
Lemma collect_in {V} (g : nat -> list V -> option (list failure)) cases : forall i, (forall k tc, nth_error cases k = Some tc -> g (i + k)%nat tc <> None) ->
  exists l, collect g i cases = Some l /\ forall x, In x l <-> exists k tc a, nth_error cases k = Some tc /\ g (i + k)%nat tc = Some a /\ In x a.
Proof.
  induction cases as [|tc cases IH]; intros i H; cbn [collect].
  { exists []. split; auto. intros x. split; [intros []|]. intros ([|k] & t & a & N & _); discriminate. }
  destruct (IH (S i)) as (l & E & X).
  { intros k t N. specialize (H (S k) t N). now replace (S i + k)%nat with (i + S k)%nat by lia. }
  pose proof (H 0%nat tc eq_refl) as H0. rewrite Nat.add_0_r in H0. destruct (g i tc) as [a|] eqn:G; [|congruence]. rewrite E. exists (a ++ l). split; auto.
  intros x. rewrite in_app_iff, X. split.
  - intros [I|(k & t & b & N & GE & I)].
    + exists 0%nat, tc, a. rewrite Nat.add_0_r. auto.
    + exists (S k), t, b. replace (i + S k)%nat with (S i + k)%nat by lia. auto.
  - intros ([|k] & t & b & N & GE & I); cbn [nth_error] in N.
    + injection N as <-. rewrite Nat.add_0_r in GE. left. congruence.
    + right. exists k, t, b. replace (S i + k)%nat with (i + S k)%nat by lia. auto.
Qed.
Definition one_case {V} nargs (fn : list V -> option bool) (i : nat) (tc : list V) : option (list failure) :=
  if negb (Nat.eqb (length tc) nargs) then Some [WrongCount i]
  else match fill_args (length tc) i tc with None => None | Some args => match fn args with None => None | Some ok => Some (if ok then [] else [StaticFailure i]) end end.
Lemma static_collect {V} nargs (fn : list V -> option bool) cases : forall i, static_cases nargs fn i cases = collect (one_case nargs fn) i cases.
Proof.
  induction cases as [|tc cases IH]; intros i; [reflexivity|]. cbn [static_cases collect]. unfold one_case at 1. rewrite IH.
  destruct (negb _); [reflexivity|]. destruct (fill_args _ _ _); auto. destruct (fn l) as [[]|]; auto.
  all: destruct (collect _ _ _); reflexivity.
Qed.
Definition one_equal {V W} (eqb : W -> W -> bool) nargs (fn1 fn2 : list V -> option W) (i : nat) (tc : list V) : option (list failure) :=
  if negb (Nat.eqb (length tc) nargs) then Some [WrongCount i]
  else match fn1 tc, fn2 tc with Some a, Some b => Some (if eqb a b then [] else [StaticFailure i]) | _, _ => None end.
Lemma static_equal_collect {V W} (eqb : W -> W -> bool) nargs (fn1 fn2 : list V -> option W) cases : forall i,
  static_cases_equal eqb nargs fn1 fn2 i cases = collect (one_equal eqb nargs fn1 fn2) i cases.
Proof.
  induction cases as [|tc cases IH]; intros i; [reflexivity|]. cbn [static_cases_equal collect]. unfold one_equal at 1. rewrite IH.
  destruct (negb _); [reflexivity|]. destruct (fn1 tc), (fn2 tc); auto. destruct (collect _ _ _); auto. destruct (eqb _ _); reflexivity.
Qed.
Theorem quick_equal_reports {V W} (eqb : W -> W -> bool) random nargs (fn1 fn2 : list V -> option W) cases : random <> SetupFailed ->
  (forall tc, In tc cases -> length tc = nargs -> fn1 tc <> None /\ fn2 tc <> None) ->
  exists l, quick_check_equal eqb random nargs fn1 fn2 cases = Some l /\ (In RandomFailure l <-> random = CheckFailed) /\
  (forall i, In (WrongCount i) l <-> exists tc, nth_error cases i = Some tc /\ length tc <> nargs) /\
  (forall i, In (StaticFailure i) l <-> exists tc a b, nth_error cases i = Some tc /\ length tc = nargs /\ fn1 tc = Some a /\ fn2 tc = Some b /\ eqb a b = false).
Proof.
  intros NS H. destruct (collect_in (one_equal eqb nargs fn1 fn2) cases 0) as (l & E & X).
  { intros k tc N. unfold one_equal. destruct (Nat.eqb (length tc) nargs) eqn:EN; cbn [negb]; [|discriminate]. apply Nat.eqb_eq in EN.
    destruct (H tc (nth_error_In _ _ N) EN). destruct (fn1 tc), (fn2 tc); congruence. }
  rewrite <- static_equal_collect in E. cbn [plus] in X.
  assert (Y : forall x, In x l <-> exists k tc, nth_error cases k = Some tc /\ match x with
      | RandomFailure => False | WrongCount i => k = i /\ length tc <> nargs
      | StaticFailure i => k = i /\ length tc = nargs /\ exists a b, fn1 tc = Some a /\ fn2 tc = Some b /\ eqb a b = false end).
  { intros x. rewrite X. split.
    - intros (k & tc & a & N & G & I). exists k, tc. split; auto. unfold one_equal in G. destruct (Nat.eqb (length tc) nargs) eqn:EN; cbn [negb] in G.
      + apply Nat.eqb_eq in EN. destruct (fn1 tc) as [u|]; [|discriminate]. destruct (fn2 tc) as [v|]; [|discriminate]. injection G as <-.
        destruct (eqb u v) eqn:EB; [destruct I|]. destruct I as [<-|[]]. split; auto. split; auto. exists u, v. auto.
      + apply Nat.eqb_neq in EN. injection G as <-. destruct I as [<-|[]]. auto.
    - intros (k & tc & N & G). exists k, tc. unfold one_equal. destruct x as [|i|i]; [destruct G| |].
      + destruct G as [-> L]. apply Nat.eqb_neq in L. rewrite L. cbn [negb]. exists [WrongCount i]. repeat split; auto. now left.
      + destruct G as (-> & L & a & b & -> & -> & EB). apply Nat.eqb_eq in L. rewrite L, EB. cbn [negb]. exists [StaticFailure i]. repeat split; auto. now left. }
  assert (Z : exists l', quick_check_equal eqb random nargs fn1 fn2 cases = Some l' /\ (In RandomFailure l' <-> random = CheckFailed) /\ forall x, x <> RandomFailure -> In x l' <-> In x l).
  { assert (NR : ~ In RandomFailure l) by (intros I; apply Y in I as (k & tc & _ & []); auto). unfold quick_check, quick_check_equal. rewrite E.
    destruct random; [exists l|congruence|exists (RandomFailure :: l)]; (split; [reflexivity|]); (split; [cbn [In]; split; [intros J; (congruence || tauto)|intros J; (discriminate || now left)]|]).
    - tauto.
    - intros x N. cbn [In]. split; [intros [<-|I]; [congruence|auto]|auto]. }
  destruct Z as (l' & -> & R & Z). exists l'. split; auto. split; auto. split; intros i; (rewrite Z by discriminate); rewrite Y.
  - split; [intros (k & tc & N & -> & L); eauto|intros (tc & N & L); eauto].
  - split; [intros (k & tc & N & -> & L & a & b & F); exists tc, a, b; tauto|intros (tc & a & b & N & L & F); exists i, tc; split; auto; split; auto; split; auto; exists a, b; auto].
Qed.
Theorem quick_check_reports {V} random nargs (fn : list V -> option bool) cases : random <> SetupFailed ->
  (forall i tc, nth_error cases i = Some tc -> length tc = nargs -> nargs = 0%nat /\ fn [] <> None \/ exists v, nth_error tc i = Some v /\ fn (repeat v nargs) <> None) ->
  exists l, quick_check random nargs fn cases = Some l /\ (In RandomFailure l <-> random = CheckFailed) /\
  (forall i, In (WrongCount i) l <-> exists tc, nth_error cases i = Some tc /\ length tc <> nargs) /\
  (forall i, In (StaticFailure i) l <-> exists tc, nth_error cases i = Some tc /\ length tc = nargs /\
     (nargs = 0%nat /\ fn [] = Some false \/ exists v, nth_error tc i = Some v /\ fn (repeat v nargs) = Some false)).
Proof.
  intros NS H. destruct (collect_in (one_case nargs fn) cases 0) as (l & E & X).
  { intros k tc N. unfold one_case. destruct (Nat.eqb (length tc) nargs) eqn:EN; cbn [negb]; [|discriminate]. apply Nat.eqb_eq in EN.
    rewrite fill_spec, EN. cbn [plus]. destruct (H k tc N EN) as [[-> F]|(v & -> & F)]; [destruct (fn []); congruence|].
    destruct nargs as [|m]; [cbn [repeat] in F; destruct (fn []); congruence|]. destruct (fn (repeat v (S m))); congruence. }
  rewrite <- static_collect in E. cbn [plus] in X.
  assert (Y : forall x, In x l <-> exists k tc, nth_error cases k = Some tc /\ match x with
      | RandomFailure => False | WrongCount i => k = i /\ length tc <> nargs
      | StaticFailure i => k = i /\ length tc = nargs /\ (nargs = 0%nat /\ fn [] = Some false \/ exists v, nth_error tc i = Some v /\ fn (repeat v nargs) = Some false) end).
  { intros x. rewrite X. split.
    - intros (k & tc & a & N & G & I). exists k, tc. split; auto. unfold one_case in G. destruct (Nat.eqb (length tc) nargs) eqn:EN; cbn [negb] in G.
      + apply Nat.eqb_eq in EN. rewrite fill_spec, EN in G. destruct nargs as [|m].
        * destruct (fn []) as [[]|] eqn:F; try discriminate; injection G as <-; [destruct I|]. destruct I as [<-|[]]. auto.
        * destruct (nth_error tc k) as [v|] eqn:NT; [|discriminate]. destruct (fn (repeat v (S m))) as [[]|] eqn:F; try discriminate; injection G as <-; [destruct I|]. destruct I as [<-|[]].
          split; auto. split; auto. right. exists v. auto.
      + apply Nat.eqb_neq in EN. injection G as <-. destruct I as [<-|[]]. auto.
    - intros (k & tc & N & G). exists k, tc. unfold one_case. destruct x as [|i|i]; [destruct G| |].
      + destruct G as [-> L]. apply Nat.eqb_neq in L. rewrite L. cbn [negb]. exists [WrongCount i]. repeat split; auto. now left.
      + destruct G as (-> & L & G). pose proof L as L'. apply Nat.eqb_eq in L'. rewrite L', fill_spec, L. cbn [negb]. exists [StaticFailure i]. split; auto. split; [|now left].
        destruct G as [[-> F]|(v & NT & F)]; [now rewrite F|]. rewrite NT. destruct nargs; [cbn [repeat] in F|]; now rewrite F. }
  assert (Z : exists l', quick_check random nargs fn cases = Some l' /\ (In RandomFailure l' <-> random = CheckFailed) /\ forall x, x <> RandomFailure -> In x l' <-> In x l).
  { assert (NR : ~ In RandomFailure l) by (intros I; apply Y in I as (k & tc & _ & []); auto). unfold quick_check, quick_check_equal. rewrite E.
    destruct random; [exists l|congruence|exists (RandomFailure :: l)]; (split; [reflexivity|]); (split; [cbn [In]; split; [intros J; (congruence || tauto)|intros J; (discriminate || now left)]|]).
    - tauto.
    - intros x N. cbn [In]. split; [intros [<-|I]; [congruence|auto]|auto]. }
  destruct Z as (l' & -> & R & Z). exists l'. split; auto. split; auto. split; intros i; (rewrite Z by discriminate); rewrite Y.
  - split; [intros (k & tc & N & -> & L); eauto|intros (tc & N & L); eauto].
  - split; [intros (k & tc & N & -> & L & F); exists tc; auto|intros (tc & N & L & F); exists i, tc; auto].
Qed.
