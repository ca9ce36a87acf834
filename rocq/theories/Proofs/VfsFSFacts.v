(** Reading from a loaded image. *)
From Coq Require Import String Ascii List Bool ZArith Lia Permutation Sorted.
From Verif.Model Require Import GoStr GoPath Tar Squash VfsFS.
From Verif.Spec Require Import PathSpec SquashSpec SimpleAPISpec VfsFSSpec.
From Verif.Proofs Require Import Order GoStrFacts GoPathFacts SquashTree SquashLoad SquashSim SquashStack SquashWf SquashInv SquashWrite SquashReload SquashMain SquashFinal SquashMore SquashLinks.
Import ListNotations.
Local Arguments byte_eqb : simpl never.
Local Arguments str_eqb : simpl never.
Local Arguments clean : simpl never.
Local Arguments path_base : simpl never.

(** *** concurrent calls behave like calls one after the other *)
Section conc.
  Context (sort : (dirent -> dirent -> bool) -> list dirent -> list dirent) (f : handle).
  Notation in_lock := (in_lock sort f).
  Notation before_lock := (before_lock f).
  Fixpoint replays (s : rstate) (log : list (nat * call * result)) (s' : rstate) : Prop :=
    match log with
    | [] => s' = s
    | (_, c, r) :: log' =>
        match before_lock c with
        | Some r' => r = r' /\ replays s log' s'
        | None => r = snd (in_lock s c) /\ replays (fst (in_lock s c)) log' s'
        end
    end.
  Lemma replays_fail log : forall s s' i c r, replays s log s' -> before_lock c = Some r -> replays s (log ++ [(i, c, r)]) s'.
  Proof.
    induction log as [|[[j c'] r'] log IH]; intros s s' i c r H B; cbn [app replays] in *.
    - rewrite B. auto.
    - destruct (before_lock c') as [x|]; destruct H as [-> H]; auto.
  Qed.
  Lemma replays_ok log : forall s s' i c, replays s log s' -> before_lock c = None ->
    replays s (log ++ [(i, c, snd (in_lock s' c))]) (fst (in_lock s' c)).
  Proof.
    induction log as [|[[j c'] r'] log IH]; intros s s' i c H B; cbn [app replays] in *.
    - subst s'. rewrite B. auto.
    - destruct (before_lock c') as [x|]; destruct H as [-> H]; auto.
  Qed.
  Definition busy (p : progress) : bool := match p with Idle | Waiting _ => false | _ => true end.
  Definition current (p : progress) : list call :=
    match p with Idle => [] | Waiting c | Locked c | Loaded c _ | Stored c _ => [c] end.
  Definition inv (programs : nat -> list call) (c : config) : Prop :=
    exists s, replays just_opened (c_log c) s /\
    (forall i, calls_of i (c_log c) ++ current (fst (c_threads c i)) ++ snd (c_threads c i) = programs i) /\
    (forall i x, In x (current (fst (c_threads c i))) -> before_lock x = None) /\
    (forall i, busy (fst (c_threads c i)) = true -> c_lock c = Some i) /\
    match c_lock c with
    | None => c_state c = s
    | Some j =>
        match fst (c_threads c j) with
        | Locked _ => c_state c = s
        | Loaded _ s' => s' = s
        | Stored x r => r = snd (in_lock s x) /\ c_state c = fst (in_lock s x)
        | _ => False
        end
    end.
  Lemma calls_of_snoc i j x r log : calls_of i (log ++ [(j, x, r)]) = calls_of i log ++ (if Nat.eqb j i then [x] else []).
  Proof. unfold calls_of. rewrite filter_app, map_app. cbn [filter fst snd]. now destruct (Nat.eqb j i). Qed.
  Ltac other i j := destruct (Nat.eqb_spec j i) as [->|NE]; cbn [fst snd].
  Lemma inv_step programs c c' : inv programs c -> step sort f c c' -> inv programs c'.
  Proof.
    intros (s & R & P & B & L & M) S.
    destruct S as [th l st log i x rest r T F|th l st log i x rest T F|th st log i x rest T|th l st log i x rest T|th l st log i x rest s' T|th l st log i x rest r T];
      cbn [c_threads c_lock c_state c_log] in *; pose proof (P i) as Pi; pose proof (B i) as Bi; pose proof (L i) as Li; rewrite T in Pi, Bi, Li; cbn [fst snd current busy app] in Pi, Bi, Li.
    - exists s. cbn [c_threads c_lock c_state c_log]. split; [now apply replays_fail|]. unfold set_thread. split; [|split; [|split]].
      + intros j. rewrite calls_of_snoc. rewrite (Nat.eqb_sym i j). other i j; [rewrite <- app_assoc; exact Pi|rewrite app_nil_r; apply P].
      + intros j y. other i j; [intros []|apply B].
      + intros j. other i j; [discriminate|apply L].
      + destruct l as [j|]; auto. other i j; auto. now rewrite T in M.
    - exists s. cbn [c_threads c_lock c_state c_log]. split; auto. unfold set_thread. split; [|split; [|split]].
      + intros j. other i j; auto.
      + intros j y. other i j; [intros [<-|[]]; auto|apply B].
      + intros j. other i j; [discriminate|apply L].
      + destruct l as [j|]; auto. other i j; auto. now rewrite T in M.
    - exists s. cbn [c_threads c_lock c_state c_log]. split; auto. unfold set_thread. split; [|split; [|split]].
      + intros j. other i j; auto.
      + intros j y. other i j; [apply Bi|apply B].
      + intros j. other i j; auto. intros X. apply L in X. discriminate.
      + rewrite Nat.eqb_refl. cbn [fst]. exact M.
    - rewrite (Li eq_refl) in *. rewrite T in M. cbn [fst] in M. exists s. cbn [c_threads c_lock c_state c_log]. split; auto. unfold set_thread. split; [|split; [|split]].
      + intros j. other i j; auto.
      + intros j y. other i j; [apply Bi|apply B].
      + intros j. other i j; auto.
      + rewrite Nat.eqb_refl. cbn [fst]. exact M.
    - rewrite (Li eq_refl) in *. rewrite T in M. cbn [fst] in M. subst s'. exists s. cbn [c_threads c_lock c_state c_log]. split; auto. unfold set_thread. split; [|split; [|split]].
      + intros j. other i j; auto.
      + intros j y. other i j; [apply Bi|apply B].
      + intros j. other i j; auto.
      + rewrite Nat.eqb_refl. cbn [fst]. auto.
    - rewrite (Li eq_refl) in *. rewrite T in M. cbn [fst] in M. destruct M as [-> ->]. exists (fst (in_lock s x)). cbn [c_threads c_lock c_state c_log].
      split; [apply replays_ok; auto; apply Bi; now left|]. unfold set_thread. split; [|split; [|split]]; auto.
      + intros j. rewrite calls_of_snoc. rewrite (Nat.eqb_sym i j). other i j; [rewrite <- app_assoc; exact Pi|rewrite app_nil_r; apply P].
      + intros j y. other i j; [intros []|apply B].
      + intros j. other i j; [discriminate|]. intros X. apply L in X. congruence.
  Qed.
  Lemma inv_start programs : inv programs (mkConfig (fun i => (Idle, programs i)) None just_opened []).
  Proof. exists just_opened. cbn. repeat split; auto. - intros _ x []. - discriminate. Qed.
  Theorem reachable_inv programs c : reachable sort f programs c -> inv programs c.
  Proof. induction 1; [apply inv_start|eapply inv_step; eauto]. Qed.
  Theorem reachable_replays programs c : reachable sort f programs c -> exists s, replays just_opened (c_log c) s.
  Proof. intros H. apply reachable_inv in H as (s & H & _). eauto. Qed.
  (** Each goroutine has made the calls of its program in order. *)
  Theorem reachable_calls programs c i : reachable sort f programs c -> exists rest, calls_of i (c_log c) ++ rest = programs i.
  Proof. intros H. apply reachable_inv in H as (s & _ & H & _). eauto. Qed.

  (** *** files *)
  Context (h : header).
  Lemma replays_file log : hd_header f = Some h -> th_type h <> TypeDir -> (th_size h <= Z.of_nat (length (hd_body f)))%Z ->
    forall s s', replays s log s' -> (r_pos s <= length (hd_body f))%nat -> reads_file (skipn (r_pos s) (hd_body f)) (r_closed s) log.
  Proof.
    intros H T SZ. assert (TD : byte_eqb (th_type h) TypeDir = false) by (destruct (byte_eqb _ _) eqn:E; auto; apply byte_eqb_eq in E; congruence).
    assert (NM : (Z.of_nat (length (hd_body f)) <? th_size h)%Z = false) by (apply Z.ltb_ge; lia).
    induction log as [|[[i c] r] log IH]; intros s s' R LE; [exact I|]. cbn [replays reads_file] in *. unfold VfsFS.before_lock in R. rewrite H, TD, NM in R.
    destruct c as [size| |m]; cbn [non_dir] in R; try rewrite TD in R; cbn [negb] in R.
    - cbn [VfsFS.in_lock] in R. destruct (r_closed s) eqn:C; [destruct R as [-> R]; split; auto; rewrite <- C; eapply IH; eauto|].
      destruct (Nat.eqb_spec (r_pos s) (length (hd_body f))) as [E|E].
      + rewrite E, skipn_all. destruct R as [-> R]. split; auto. cbn [fst] in R. apply IH in R; auto. now rewrite E, skipn_all, C in R.
      + destruct (skipn (r_pos s) (hd_body f)) as [|a rest] eqn:SK.
        { apply (f_equal (@length _)) in SK. rewrite skipn_length in SK. cbn [length] in SK. lia. }
        destruct R as [-> R]. split; [reflexivity|]. apply IH in R; cbn [fst r_pos r_closed] in R |- *.
        * assert (K : forall (A : Type) (m k : nat) (l : list A), skipn (m + k) l = skipn k (skipn m l)).
          { intros A m k. induction m; intros l; auto. destruct l; cbn [plus skipn]; auto. now destruct k. }
          rewrite K, SK in R. rewrite <- (firstn_skipn size (a :: rest)) in R at 2.
          rewrite skipn_app, skipn_all2, Nat.sub_diag in R by reflexivity. exact R.
        * rewrite firstn_length, <- SK, skipn_length. lia.
    - cbn [VfsFS.in_lock] in R. destruct (r_closed s) eqn:C; destruct R as [-> R]; cbn [fst] in R; split; auto; apply IH in R; auto. now rewrite C in R.
    - destruct R as [-> R]. split; auto. eapply IH; eauto.
  Qed.
End conc.
Theorem reads_file_any sort f programs c h : reachable sort f programs c -> hd_header f = Some h -> th_type h <> TypeDir ->
  (th_size h <= Z.of_nat (length (hd_body f)))%Z -> reads_file (hd_body f) false (c_log c).
Proof.
  intros R H T SZ. apply reachable_replays in R as [s R]. apply (replays_file sort f h (c_log c) H T SZ just_opened s R). cbn [just_opened r_pos]. lia.
Qed.
(** *** directories *)
Lemma skipn_add {A} (m k : nat) (l : list A) : skipn (m + k) l = skipn k (skipn m l).
Proof. revert l. induction m; intros l; auto. destruct l; cbn [plus skipn]; auto. now destruct k. Qed.
Lemma page_spec s entries n : (r_pos s <= length entries)%nat ->
  (snd (page s entries n), skipn (r_pos (fst (page s entries n))) entries) =
    (let rest := skipn (r_pos s) entries in
     if (0 <? n)%Z then match rest with [] => (RErr EEOF, []) | _ => (REntries (firstn (Z.to_nat n) rest), skipn (Z.to_nat n) rest) end
     else (REntries rest, [])) /\
  (r_pos (fst (page s entries n)) <= length entries)%nat /\ r_closed (fst (page s entries n)) = r_closed s /\ r_dirents (fst (page s entries n)) = r_dirents s.
Proof.
  intros LE. unfold page. replace (length entries <? r_pos s)%nat with false by (symmetry; apply Nat.ltb_ge; lia).
  pose proof (skipn_length (r_pos s) entries) as SL. cbv zeta. destruct (Z.ltb_spec 0 n) as [Hn|Hn].
  - set (rest := skipn (r_pos s) entries) in *.
    assert (X : (if (n <? Z.of_nat (length rest))%Z then firstn (Z.to_nat n) rest else rest) = firstn (Z.to_nat n) rest).
    { destruct (Z.ltb_spec n (Z.of_nat (length rest))); auto. rewrite firstn_all2; auto. lia. }
    rewrite X. destruct rest as [|a more] eqn:E.
    + rewrite firstn_nil. cbn [fst snd r_pos r_closed r_dirents]. fold rest. rewrite E. auto.
    + destruct (Z.to_nat n) as [|m] eqn:M; [lia|]. cbn [firstn]. cbn [fst snd r_pos r_closed r_dirents length].
      split; [f_equal|split; [|auto]].
      * rewrite skipn_add. fold rest. rewrite E. cbn [skipn].
        rewrite firstn_length. destruct (Nat.min_spec m (length more)) as [[? ->]|[? ->]]; auto. rewrite !skipn_all2; auto; lia.
      * rewrite firstn_length. cbn [length] in SL. lia.
  - cbn [fst snd r_pos r_closed r_dirents]. split; [f_equal|split; [|auto]].
    + rewrite skipn_add, skipn_all. reflexivity.
    + lia.
Qed.

Section dirs.
  Context (sort : (dirent -> dirent -> bool) -> list dirent -> list dirent) (f : handle) (acc : list dirent).
  Notation entries := (sort (fun i j => str_ltb (fst i) (fst j)) acc).
  Lemma replays_dir log : non_dir (hd_header f) = false -> hd_built f = (acc, None) ->
    forall s s', replays sort f s log s' -> (r_pos s <= length entries)%nat -> (r_dirents s = None -> r_pos s = 0%nat) -> (r_dirents s = None \/ r_dirents s = Some entries) ->
    reads_dir (skipn (r_pos s) entries) (r_closed s) log.
  Proof.
    intros ND HB. induction log as [|[[i c] r] log IH]; intros s s' R LE Z0 DE; [exact I|]. cbn [replays reads_dir] in *. unfold before_lock in R. rewrite ND in R.
    destruct c as [size| |m].
    - assert (X : match hd_header f with Some h => if byte_eqb (th_type h) TypeDir then Some (RErr EIsDir) else if (Z.of_nat (length (hd_body f)) <? th_size h)%Z then Some (RErr EMissing) else None | None => Some (RErr EIsDir) end = Some (RErr EIsDir)).
      { unfold non_dir in ND. destruct (hd_header f) as [h|]; auto. apply negb_false_iff in ND. now rewrite ND. }
      rewrite X in R. destruct R as [-> R]. split; auto. eapply IH; eauto.
    - cbn [in_lock] in R. destruct (r_closed s) eqn:C; destruct R as [-> R]; cbn [fst] in R; split; auto; apply IH in R; auto. now rewrite C in R.
    - cbn [in_lock] in R. destruct (r_closed s) eqn:C; [destruct R as [-> R]; cbn [fst] in R; split; auto; apply IH in R; auto; now rewrite C in R|].
      assert (X : exists s0, r_pos s0 = r_pos s /\ r_closed s0 = false /\ r_dirents s0 = Some entries /\
        r = snd (page s0 entries m) /\ replays sort f (fst (page s0 entries m)) log s').
      { destruct DE as [D|D]; rewrite D in R.
        - rewrite HB in R. eexists. split; [|split; [|split; [|exact R]]]; auto.
        - exists s. auto. }
      destruct X as (s0 & E0 & C0 & D0 & Er & R'). rewrite <- E0 in *. destruct (page_spec s0 entries m LE) as (PG & LE' & C' & D').
      apply IH in R'; auto; [|intros X; congruence|right; congruence]. rewrite C', C0 in R'. cbv zeta in PG.
      destruct (0 <? m)%Z; [destruct (skipn (r_pos s0) entries) eqn:SK|]; injection PG as P1 P2; rewrite P2 in R'; rewrite Er, P1; auto.
  Qed.
End dirs.
Theorem reads_dir_any sort f programs c acc : reachable sort f programs c -> non_dir (hd_header f) = false -> hd_built f = (acc, None) ->
  reads_dir (sort (fun i j => str_ltb (fst i) (fst j)) acc) false (c_log c).
Proof.
  intros R H B. apply reachable_replays in R as [s R]. apply (replays_dir sort f acc (c_log c) H B just_opened s R); auto. cbn. lia.
Qed.
(** *** consequences *)
Lemma reads_file_prefix log : forall rest closed, reads_file rest closed log -> exists more, rest = bytes_read log ++ more /\
  (In (RErr EEOF) (map snd log) -> more = []).
Proof.
  induction log as [|[[i c] r] log IH]; intros rest closed R; [exists rest; split; [auto|intros []]|]. cbn [reads_file] in R.
  assert (K : forall rest' closed', reads_file rest' closed' log -> (match r with RData chunk => chunk | _ => [] end) ++ rest' = rest -> (r = RErr EEOF -> rest' = []) -> exists more, rest = bytes_read ((i, c, r) :: log) ++ more /\ (In (RErr EEOF) (map snd ((i, c, r) :: log)) -> more = [])).
  { intros rest' closed' H E Z. apply IH in H as (more & -> & Hm). exists more. unfold bytes_read. cbn [map concat snd]. fold (bytes_read log). rewrite <- app_assoc. split; auto.
    intros [X|X]; auto. apply Z in X. destruct (bytes_read log); [auto|discriminate]. }
  destruct c as [size| |m].
  - destruct closed; [destruct R as [-> R]; eapply K; eauto; discriminate|]. destruct rest as [|a rest]; destruct R as [-> R].
    + eapply K; eauto.
    + eapply K; eauto; [apply firstn_skipn|discriminate].
  - destruct R as [-> R]. eapply K; eauto; destruct closed; auto; discriminate.
  - destruct R as [-> R]. eapply K; eauto; discriminate.
Qed.
Lemma reads_dir_prefix log : forall rest closed, reads_dir rest closed log -> exists more, rest = entries_read log ++ more /\
  (In (RErr EEOF) (map snd log) -> more = []).
Proof.
  induction log as [|[[i c] r] log IH]; intros rest closed R; [exists rest; split; [auto|intros []]|]. cbn [reads_dir] in R.
  assert (K : forall rest' closed', reads_dir rest' closed' log -> (match r with REntries l => l | _ => [] end) ++ rest' = rest -> (r = RErr EEOF -> rest' = []) -> exists more, rest = entries_read ((i, c, r) :: log) ++ more /\ (In (RErr EEOF) (map snd ((i, c, r) :: log)) -> more = [])).
  { intros rest' closed' H E Z. apply IH in H as (more & -> & Hm). exists more. unfold entries_read. cbn [map concat snd]. fold (entries_read log). rewrite <- app_assoc. split; auto.
    intros [X|X]; auto. apply Z in X. destruct (entries_read log); [auto|discriminate]. }
  destruct c as [size| |m].
  - destruct R as [-> R]. eapply K; eauto; discriminate.
  - destruct R as [-> R]. eapply K; eauto; destruct closed; auto; discriminate.
  - destruct closed; [destruct R as [-> R]; eapply K; eauto; discriminate|]. destruct (0 <? m)%Z.
    + destruct rest as [|a rest]; destruct R as [-> R].
      * eapply K; eauto.
      * eapply K; eauto; [apply firstn_skipn|discriminate].
    + destruct R as [-> R]. eapply K; eauto using app_nil_r; discriminate.
Qed.
