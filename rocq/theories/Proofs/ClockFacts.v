(** Proofs about the clock (C62). *)
From Coq Require Import String Ascii List Bool NArith ZArith Lia.
From Verif.Model Require Import GoStr Clock.
From Verif.Spec Require Import ClockSpec.
From Verif.Proofs Require Import GoStrFacts.
Import ListNotations.

Lemma digit_char k : (k < 10)%N -> is_digit (ascii_of_N (48 + k)) = true /\ digit_val (ascii_of_N (48 + k)) = k.
Proof.
  intros L. unfold is_digit, digit_val, code. rewrite N_ascii_embedding by lia. split; [|lia]. apply andb_true_iff. split; apply N.leb_le; lia.
Qed.
Lemma digits_val ds n : digits_of ds n -> all_digits ds = true /\ Z.of_N (dec_val ds) = n.
Proof.
  induction 1 as [k L|ds n k D [IH1 IH2] L]; destruct (digit_char k L) as [A B].
  - split; [unfold all_digits; cbn [forallb]; now rewrite A|]. unfold dec_val, dec_val_from. cbn [fold_left]. rewrite B. lia.
  - split.
    + unfold all_digits in *. destruct ds as [|c ds]; [discriminate|]. cbn [app]. rewrite app_comm_cons, forallb_app, IH1. cbn [forallb]. now rewrite A.
    + unfold dec_val, dec_val_from in *. rewrite fold_left_app. cbn [fold_left]. rewrite B. lia.
Qed.
Lemma val_digits ds : all_digits ds = true -> digits_of ds (Z.of_N (dec_val ds)).
Proof.
  assert (X : forall c, is_digit c = true -> exists k, (k < 10)%N /\ c = ascii_of_N (48 + k)).
  { intros c D. unfold is_digit, code in D. apply andb_true_iff in D as [D1 D2]. apply N.leb_le in D1, D2. exists (N_of_ascii c - 48)%N. split; [lia|]. replace (48 + (N_of_ascii c - 48))%N with (N_of_ascii c) by lia. symmetry. apply ascii_N_embedding. }
  induction ds as [|c ds IH] using rev_ind; [discriminate|]. intros A. destruct ds as [|d ds].
  - cbn in A. rewrite andb_true_r in A. destruct (X _ A) as (k & L & ->). cbn [app]. unfold dec_val, dec_val_from. cbn [fold_left]. rewrite (proj2 (digit_char k L)). replace (10 * 0 + k)%N with k by lia. now constructor.
  - cbn [app all_digits] in A. rewrite app_comm_cons, forallb_app in A. apply andb_true_iff in A as [A B]. cbn [forallb] in B. rewrite andb_true_r in B. destruct (X _ B) as (k & L & ->).
    specialize (IH A). unfold dec_val, dec_val_from in *. rewrite fold_left_app. cbn [fold_left]. rewrite (proj2 (digit_char k L)). rewrite N2Z.inj_add, N2Z.inj_mul. now constructor.
Qed.
Lemma digits_head ds n : digits_of ds n -> exists c r, ds = c :: r /\ is_digit c = true.
Proof.
  intros H. apply digits_val in H as [A _]. destruct ds as [|c r]; [discriminate|]. exists c, r. split; auto. cbn in A. now apply andb_true_iff in A as [A _].
Qed.
Theorem atoi_number s n : atoi s = Some n <-> number s n.
Proof.
  unfold number. assert (RG : forall v, ((min_int64 <=? v) && (v <=? max_int64))%Z = true <-> (- 2 ^ 63 <= v < 2 ^ 63)%Z).
  { intros v. rewrite andb_true_iff, !Z.leb_le. unfold min_int64, max_int64. lia. }
  assert (PLAIN : forall c r, is_digit c = true -> c :: r = c :: r -> atoi (c :: r) = if all_digits (c :: r) then let v := Z.of_N (dec_val (c :: r)) in if ((min_int64 <=? v) && (v <=? max_int64))%Z then Some v else None else None).
  { intros c r D _. unfold atoi. destruct c as [[] [] [] [] [] [] [] []]; try reflexivity; discriminate D. }
  split.
  - intros H. unfold atoi in H.
    assert (K : exists (neg : bool) ds v, all_digits ds = true /\ v = (if neg then - Z.of_N (dec_val ds) else Z.of_N (dec_val ds))%Z /\ v = n /\ ((min_int64 <=? v) && (v <=? max_int64))%Z = true /\
                 (if neg then s = $"-" ++ ds else s = ds \/ s = $"+" ++ ds)).
    { destruct s as [|c s]; [discriminate|].
      assert (G : forall (neg : bool) d, (if all_digits d then let v := Z.of_N (dec_val d) in let v := if neg then (- v)%Z else v in if ((min_int64 <=? v) && (v <=? max_int64))%Z then Some v else None else None) = Some n ->
              exists v, all_digits d = true /\ v = (if neg then - Z.of_N (dec_val d) else Z.of_N (dec_val d))%Z /\ v = n /\ ((min_int64 <=? v) && (v <=? max_int64))%Z = true).
      { intros neg d E. destruct (all_digits d); [|discriminate]. cbv zeta in E. destruct (_ && _)%Z eqn:R; [|discriminate]. injection E as E. eexists. repeat split; eauto. }
      destruct (Ascii.eqb_spec c "-") as [->|N1].
      - exists true, s. apply (G true s) in H as (v & A & B & C & D). exists v. repeat split; auto.
      - destruct (Ascii.eqb_spec c "+") as [->|N2].
        + exists false, s. apply (G false s) in H as (v & A & B & C & D). exists v. repeat split; auto.
        + exists false, (c :: s). assert (E : (if all_digits (c :: s) then let v := Z.of_N (dec_val (c :: s)) in let v := if false then (- v)%Z else v in if ((min_int64 <=? v) && (v <=? max_int64))%Z then Some v else None else None) = Some n).
          { destruct c as [[] [] [] [] [] [] [] []]; try exact H; congruence. }
          apply (G false (c :: s)) in E as (v & A & B & C & D). exists v. repeat split; auto. }
    destruct K as (neg & ds & v & A & B & C & D & E). apply RG in D. split; [lia|]. apply val_digits in A. destruct neg.
    + right. right. exists ds. split; auto. replace (- n)%Z with (Z.of_N (dec_val ds)) by lia. auto.
    + subst v. rewrite C in A. destruct E as [->| ->]; [left; auto|right; left; eauto].
  - intros [R [D|[(ds & -> & D)|(ds & -> & D)]]]; pose proof (digits_val _ _ D) as [A B].
    + destruct (digits_head _ _ D) as (c & r & -> & Dc). rewrite PLAIN, A by auto. cbv zeta. rewrite B, (proj2 (RG _) R). reflexivity.
    + cbn [list_ascii_of_string app atoi]. unfold atoi. rewrite A. cbv zeta. rewrite B, (proj2 (RG _) R). reflexivity.
    + cbn [list_ascii_of_string app atoi]. unfold atoi. rewrite A. cbv zeta. rewrite B, Z.opp_involutive, (proj2 (RG _) R). reflexivity.
Qed.

(** ** The invariant *)
(** in the critical section *)
Definition inside (x : pc) : bool := match x with Locked | Call | Got _ | Write _ | Store | Unlock => true | _ => false end.
Definition env_seen (run : list process) (e : str) : Prop := exists p, In p run /\ p_env p = e.
Definition good (run : list process) (done : bool) (now : option Z) (x : pc) : Prop :=
  match x with
  | Call => done = false
  | Got e => done = false /\ env_seen run e
  | Write t => done = false /\ source run t
  | Store => done = false /\ now <> None
  | Unlock | Return => done = true
  | _ => True
  end.
Definition inv (run : list process) (p : process) : Prop :=
  (forall i, inside (p_threads p i) = true <-> p_lock p = Some i) /\
  (forall i, good run (p_done p) (p_now p) (p_threads p i)) /\
  (p_done p = true -> p_now p <> None) /\
  (forall t, p_now p = Some t -> source run t) /\
  (forall i v, In (i, v) (p_log p) -> p_done p = true /\ v = p_now p).
Lemma source_more p run t : source run t -> source (p :: run) t.
Proof. intros [(q & n & I & N & E)|(q & r & I & J & N & E)]; [left; exists q, n; split; [now right|auto]|right; exists q, r; split; [now right|split; [now right|auto]]]. Qed.
Lemma seen_more p run e : env_seen run e -> env_seen (p :: run) e.
Proof. intros (q & I & E). exists q. split; auto. now right. Qed.
Lemma good_more p run d n x : good run d n x -> good (p :: run) d n x.
Proof. destruct x; cbn; auto; intros [A B]; split; auto using source_more, seen_more. Qed.
Lemma set_all (Q : nat -> pc -> Prop) th i x : (forall j, Q j (th j)) -> Q i x -> forall j, Q j (set_pc th i x j).
Proof. intros H X j. unfold set_pc. destruct (Nat.eqb_spec j i); subst; auto. Qed.
(** A step inside, or outside, the critical section *)
Lemma set_stays th i x l : (forall j, inside (th j) = true <-> l = Some j) -> inside x = inside (th i) -> forall j, inside (set_pc th i x j) = true <-> l = Some j.
Proof. intros H X. apply (set_all (fun j y => inside y = true <-> l = Some j)); auto. rewrite X. auto. Qed.
Lemma inv_ok run : execution run -> match run with [] => True | p :: _ => inv run p end.
Proof.
  induction 1 as [e c|p p' run EX IH ST].
  - split; [|split; [|split; [|split]]]; cbn; intros; try discriminate; auto; try contradiction. split; discriminate.
  - destruct IH as (IA & IB & IC & ID & IE).
    assert (MB : forall d n (th : nat -> pc), (forall i, good (p :: run) d n (th i)) -> forall i, good (p' :: p :: run) d n (th i)) by (intros; now apply good_more).
    inversion ST; subst; cbn [p_env p_clock p_done p_lock p_now p_threads p_log] in *; unfold inv; cbn [p_env p_clock p_done p_lock p_now p_threads p_log].
    + split; [exact IA|]. split; [now apply MB|]. split; auto. split; auto using source_more.
    + split; [exact IA|]. split; [now apply MB|]. split; auto. split; auto using source_more.
    + split; [apply set_stays; auto; rewrite H; now destruct d|]. split; [apply (set_all (fun _ => good _ _ _)); [now apply MB|now destruct d]|]. split; auto. split; auto using source_more.
    + split; [|split; [apply (set_all (fun _ => good _ _ _)); [now apply MB|exact I]|split; auto; split; auto using source_more]].
      intros j. unfold set_pc. destruct (Nat.eqb_spec j i) as [->|NE]; [split; auto|]. rewrite IA. split; intros X; congruence.
    + split; [apply set_stays; auto; rewrite H; now destruct d|]. split; [apply (set_all (fun _ => good _ _ _)); [now apply MB|now destruct d]|]. split; auto. split; auto using source_more.
    + split; [apply set_stays; auto; now rewrite H|]. split; [|split; auto; split; auto using source_more]. apply (set_all (fun _ => good _ _ _)); [now apply MB|]. assert (G := IB i). rewrite H in G. split; [exact G|].
      eexists. split; [right; left; reflexivity|reflexivity].
    + split; [apply set_stays; auto; now rewrite H|]. split; [|split; auto; split; auto using source_more]. apply (set_all (fun _ => good _ _ _)); [now apply MB|]. assert (G := IB i). rewrite H in G. destruct G as [G (q & Iq & Eq)]. split; [exact G|].
      apply source_more. destruct (atoi env) as [n0|] eqn:A.
      * left. exists q, n0. split; auto. split; auto. apply atoi_number. now rewrite Eq.
      * right. exists q. eexists. split; auto. split; [left; reflexivity|]. split; [|reflexivity]. intros n0 N. apply atoi_number in N. rewrite Eq in N. congruence.
    + assert (G := IB i). rewrite H in G. destruct G as [G S]. subst d. split; [apply set_stays; auto; now rewrite H|]. split; [|split; [discriminate|split]].
      * apply (set_all (fun _ => good _ _ _)); [|split; [auto|discriminate]]. intros j. apply good_more. assert (Gj := IB j). destruct (th j); auto. destruct Gj. split; auto. discriminate.
      * intros t' E. injection E as <-. now apply source_more.
      * intros j v X. apply IE in X as [X _]. discriminate.
    + assert (G := IB i). rewrite H in G. destruct G as [G NN]. subst d. split; [apply set_stays; auto; now rewrite H|]. split; [|split; [auto|split; auto using source_more]].
      * intros j. unfold set_pc. destruct (Nat.eqb_spec j i) as [->|NE]; [reflexivity|]. assert (Ij := proj1 (IA j)). assert (Ii : l = Some i) by (apply IA; now rewrite H).
        destruct (th j) eqn:T; auto; try (specialize (Ij eq_refl); congruence); reflexivity.
      * intros j v X. apply IE in X as [X _]. discriminate.
    + assert (G := IB i). rewrite H in G. cbn in G. subst d. split; [|split; [apply (set_all (fun _ => good _ _ _)); [now apply MB|reflexivity]|split; auto; split; auto using source_more]].
      intros j. assert (Ii : l = Some i) by (apply IA; now rewrite H). unfold set_pc. destruct (Nat.eqb_spec j i) as [->|NE]; [split; discriminate|]. rewrite IA. split; intros X; congruence.
    + assert (G := IB i). rewrite H in G. cbn in G. subst d. split; [apply set_stays; auto; now rewrite H|]. split; [apply (set_all (fun _ => good _ _ _)); [now apply MB|exact I]|split; auto; split; auto using source_more].
      intros j v X. apply in_app_or in X as [X|[X|[]]]; [eapply IE; eauto|]. injection X as <- <-. auto.
Qed.
Theorem clock_constant p run : execution (p :: run) -> exists t, (forall i v, In (i, v) (p_log p) -> v = Some t) /\ (p_log p <> [] -> source (p :: run) t).
Proof.
  intros E. destruct (inv_ok _ E) as (_ & _ & IC & ID & IE). destruct (p_now p) as [t|] eqn:N.
  - exists t. split; [intros i v X; now apply IE in X as [_ X]|]. intros _. auto.
  - exists 0%Z. destruct (p_log p) as [|[i v] l] eqn:L; [split; [intros i v []|congruence]|]. exfalso. destruct (IE i v) as [D _]; [now left|]. now apply IC in D.
Qed.
Theorem clock_epoch p run n : execution (p :: run) -> Forall (fun q => number (p_env q) n) (p :: run) -> forall i v, In (i, v) (p_log p) -> v = Some (n * 1000000000)%Z.
Proof.
  intros E F i v X. destruct (clock_constant _ _ E) as (t & A & B). rewrite (A _ _ X). f_equal. rewrite Forall_forall in F. destruct B as [(q & m & I & N & ->)|(q & r & I & _ & N & _)].
  - intros Z. rewrite Z in X. destruct X.
  - unfold unix. f_equal. apply atoi_number in N. specialize (F _ I). apply atoi_number in F. congruence.
  - exfalso. eapply N, F, I.
Qed.
Theorem clock_system p run : execution (p :: run) -> Forall (fun q => forall n, ~ number (p_env q) n) (p :: run) -> forall i v, In (i, v) (p_log p) -> exists q, In q (p :: run) /\ v = Some (p_clock q).
Proof.
  intros E F i v X. destruct (clock_constant _ _ E) as (t & A & B). rewrite (A _ _ X). rewrite Forall_forall in F. destruct B as [(q & m & I & N & ->)|(q & r & I & J & N & ->)].
  - intros Z. rewrite Z in X. destruct X.
  - exfalso. eapply F; eauto.
  - eauto.
Qed.
(** Nobody waits forever for a lock that nobody releases: a goroutine in a call can go on, or the one
    that has the lock can. *)
Theorem clock_progress p run i : execution (p :: run) -> moves i p \/ exists j, j <> i /\ p_lock p = Some j /\ moves j p.
Proof.
  intros E. destruct (inv_ok _ E) as (IA & _). destruct p as [e c d l n th log]. cbn [p_threads p_lock] in IA.
  assert (M : forall j, th j <> WantLock \/ l = None -> moves j (mkProc e c d l n th log)).
  { intros j H. unfold moves. cbn [p_threads].
    assert (Q : forall x, x <> th j -> set_pc th j x j <> th j) by (intros x X; unfold set_pc; now rewrite Nat.eqb_refl).
    destruct (th j) eqn:T.
    - eexists. split; [apply step_load with (i := j); auto|]. apply Q. now destruct d.
    - destruct H as [H|H]; [congruence|]. subst l. eexists. split; [apply step_lock with (i := j); auto|]. apply Q. discriminate.
    - eexists. split; [apply step_check with (i := j); auto|]. apply Q. now destruct d.
    - eexists. split; [apply step_getenv with (i := j); auto|]. apply Q. discriminate.
    - eexists. split; [eapply step_parse with (i := j); eauto|]. apply Q. discriminate.
    - eexists. split; [eapply step_write with (i := j); eauto|]. apply Q. discriminate.
    - eexists. split; [apply step_store with (i := j); auto|]. apply Q. discriminate.
    - eexists. split; [apply step_unlock with (i := j); auto|]. apply Q. discriminate.
    - eexists. split; [apply step_return with (i := j); auto|]. apply Q. discriminate. }
  destruct l as [k|]; [|left; apply M; auto]. destruct (Nat.eq_dec k i) as [->|NE].
  - left. apply M. left. intros X. assert (Y : inside (th i) = true) by (now apply IA). rewrite X in Y. discriminate.
  - right. exists k. split; auto. split; auto. apply M. left. intros X. assert (Y : inside (th k) = true) by (now apply IA). rewrite X in Y. discriminate.
Qed.
