(** Proofs about the output file of the go-build layer command (C63, C72). *)
From Coq Require Import String Ascii List Bool ZArith Lia.
From Verif.Model Require Import GoStr Tar Layer GoBuild.
From Verif.Spec Require Import LayerSpec GoBuildSpec.
From Verif.Proofs Require Import GoStrFacts Order LayerFacts.
Import ListNotations.
Local Open Scope nat_scope.
Local Opaque chunk_size.

Lemma written_prefix pieces : forall sofar x, In x (file_states sofar pieces) -> exists a b, pieces = a ++ b /\ x = Some (sofar ++ concat a).
Proof.
  induction pieces as [|p pieces IH]; intros sofar x H; [destruct H|]. destruct H as [<-|H].
  - exists [p], pieces. cbn. now rewrite app_nil_r.
  - apply IH in H as (a & b & -> & ->). exists (p :: a), b. cbn. now rewrite app_assoc.
Qed.
Lemma written_last pieces : forall sofar d, last (file_states sofar pieces) d = match pieces with [] => d | _ => Some (sofar ++ concat pieces) end.
Proof.
  induction pieces as [|p pieces IH]; intros sofar d; [reflexivity|]. cbn [file_states]. change (last (?x :: ?l) d) with (match l with [] => x | _ => last l d end).
  destruct pieces as [|p' pieces]; [cbn; now rewrite app_nil_r|]. specialize (IH (sofar ++ p) d). cbn [file_states] in *. rewrite IH. cbn [concat]. now rewrite !app_assoc.
Qed.
(** What is done to the file. *)
Lemma gobuild_cases n w file :
  (fst (gobuild n w file) = [] /\ (snd (gobuild n w file) = Done -> exists new old, w_build w = inr new /\ file = Some old /\ layers_equal n (w_untar w new) (w_untar w old) = Same)) \/
  (exists new, w_build w = inr new /\ gobuild n w file = replace_output w file /\
     (file = None \/ exists old, file = Some old /\ w_open w old = None /\ layers_equal n (w_untar w new) (w_untar w old) = Differ)).
Proof.
  unfold gobuild. destruct (w_build w) as [e|new]; [left; split; [reflexivity|discriminate]|]. destruct file as [old|]; [|right; exists new; auto].
  destruct (w_open w old) as [e|] eqn:O; [left; split; [reflexivity|discriminate]|]. destruct (layers_equal n _ _) as [| |e|] eqn:E; cbn [fst snd].
  - left. split; auto. intros _. exists new, old. auto.
  - right. exists new. split; auto. split; auto. right. exists old. auto.
  - left. split; [reflexivity|discriminate].
  - left. split; [reflexivity|discriminate].
Qed.
Lemma replace_states w file x : In x (fst (replace_output w file)) -> x = None \/ exists a b, w_writes w = a ++ b /\ x = Some (concat a).
Proof.
  unfold replace_output. intros H.
  assert (K : In x (let removed := match file with Some _ => [None] | None => [] end in removed ++ Some [] :: file_states [] (w_writes w))).
  { destruct file as [old|]; [destruct (w_remove w); [destruct H|]|]; (destruct (w_create w); cbn [fst] in H; [cbn in *; tauto|exact H]). }
  cbv zeta in K. apply in_app_or in K as [K|[<-|K]].
  - destruct file; [destruct K as [<-|[]]; auto|destruct K].
  - right. exists [], (w_writes w). auto.
  - apply written_prefix in K as (a & b & E & ->). right. exists a, b. auto.
Qed.
(** Untouched if the layers are equal up to the times. *)
Theorem gobuild_same n w new old : w_build w = inr new -> w_open w old = None -> readable (w_untar w new) -> readable (w_untar w old) ->
  longest (w_untar w new) < n -> unchanged w new old -> gobuild n w (Some old) = ([], Done).
Proof. intros B O R R' L U. unfold gobuild. rewrite B, O. now rewrite (proj1 (layers_decided n _ _ L R R') U). Qed.
(** Touched only if they differ, and only if a layer was built. *)
Theorem gobuild_touched n w old : fst (gobuild n w (Some old)) <> [] -> exists new, w_build w = inr new /\ ~ unchanged w new old.
Proof.
  intros H. destruct (gobuild_cases n w (Some old)) as [[E _]|(new & B & _ & [X|(o & X & _ & E)])]; [congruence|discriminate|]. injection X as <-.
  exists new. split; auto. now apply layers_exact in E.
Qed.
Theorem gobuild_done n w file : (forall new, w_build w = inr new -> copies new w) -> snd (gobuild n w file) = Done ->
  exists new, w_build w = inr new /\
    (final n w file = Some new \/ exists old, file = Some old /\ fst (gobuild n w file) = [] /\ unchanged w new old).
Proof.
  intros C D. unfold final. destruct (gobuild_cases n w file) as [[E X]|(new & B & E & _)].
  - destruct (X D) as (new & old & B & -> & S). exists new. split; auto. right. exists old. split; auto. split; auto. now apply layers_exact in S.
  - exists new. split; auto. left. rewrite E in *. unfold replace_output in *.
    assert (K : last (Some [] :: file_states [] (w_writes w)) file = Some new).
    { destruct (C new B) as [_ W]. assert (w_copy w = None) as CE.
      { destruct file; [destruct (w_remove w); [discriminate|]|]; (destruct (w_create w); [discriminate|]); cbn [snd] in D; unfold first_err in D; now destruct (w_copy w). }
      specialize (W CE). change (last (?x :: ?l) file) with (match l with [] => x | _ => last l file end). destruct (file_states [] (w_writes w)) eqn:Wr.
      - destruct (w_writes w); [|discriminate]. cbn in W. now subst.
      - rewrite <- Wr, written_last. destruct (w_writes w) eqn:Ww; [discriminate|]. rewrite <- Ww in *. now rewrite <- W, app_nil_l. }
    assert (LA : forall l (x : option str) r d, last (l ++ x :: r) d = last (x :: r) d).
    { induction l as [|y l IH]; intros; [reflexivity|]. cbn [app]. change (last (?x :: ?l) d) with (match l with [] => x | _ => last l d end). rewrite IH. now destruct l. }
    destruct file as [old|]; [destruct (w_remove w); [discriminate|]|]; (destruct (w_create w); [discriminate|]); cbn [fst]; rewrite LA; exact K.
Qed.
(** What a crash can leave. *)
Theorem gobuild_states n w file x : (forall new, w_build w = inr new -> copies new w) -> In x (crash_states n w file) ->
  x = file \/ x = None \/ exists new part rest, w_build w = inr new /\ new = part ++ rest /\ x = Some part.
Proof.
  intros C [<-|H]; auto. right. destruct (gobuild_cases n w file) as [[E _]|(new & B & E & _)]; rewrite E in H; [destruct H|].
  apply replace_states in H as [->|(a & b & W & ->)]; auto. right. destruct (C new B) as [(rest & R) _]. exists new, (concat a), (concat b ++ rest).
  split; auto. split; auto. rewrite R, W, concat_app. now rewrite app_assoc.
Qed.
(** Whenever the output is replaced, there is a moment at which it is neither the old nor the new one. *)
Theorem gobuild_not_atomic n w old : fst (gobuild n w (Some old)) <> [] ->
  In None (crash_states n w (Some old)) /\ (w_create w = None -> In (Some []) (crash_states n w (Some old))) /\
  (forall e, w_create w = Some e -> final n w (Some old) = None /\ snd (gobuild n w (Some old)) = Failed e).
Proof.
  intros H. unfold crash_states, final. destruct (gobuild_cases n w (Some old)) as [[E _]|(new & B & E & _)]; [congruence|]. rewrite E in *. unfold replace_output in *.
  destruct (w_remove w); [now destruct H|]. destruct (w_create w) as [e|]; cbn [fst snd app] in *.
  - split; [right; now left|]. split; [discriminate|]. intros x X. injection X as <-. auto.
  - split; [right; now left|]. split; [intros _; right; right; now left|discriminate].
Qed.

(** ** Again, after a crash *)
Lemma readers_cut n : forall a b tail e, bytes_of a = bytes_of b ++ tail -> rd_err a = None -> rd_err b = Some e -> length (bytes_of a) < n -> readers_equal n a b = CmpErr e.
Proof.
  assert (CS : chunk_size <> 0) by discriminate.
  induction n as [|n IH]; intros a b tail e E A B L; [lia|]. cbn [readers_equal].
  destruct (fill chunk_size a) as [[x ox] a'] eqn:FA. destruct (fill chunk_size b) as [[y oy] b'] eqn:FB.
  apply fill_ok in FA as (-> & A' & EA & OA). apply fill_ok in FB as (-> & B' & EB & OB). rewrite A in OA. rewrite B in OB.
  destruct OB as [[-> LB]|[-> LB]].
  - assert (LE : length (bytes_of b) <= length (bytes_of a)) by (rewrite E, app_length; lia).
    destruct OA as [[-> LA]|[-> LA]]; [|lia].
    assert (Q : firstn chunk_size (bytes_of a) = firstn chunk_size (bytes_of b)). { rewrite E, firstn_app. replace (chunk_size - length (bytes_of b)) with 0 by lia. cbn [firstn]. apply app_nil_r. }
    rewrite Q, str_eqb_refl. cbn [negb]. rewrite firstn_length. destruct (Nat.ltb_spec (Nat.min chunk_size (length (bytes_of b))) chunk_size); [lia|].
    apply (IH a' b' tail e); try congruence.
    + rewrite A', B', E, skipn_app. replace (chunk_size - length (bytes_of b)) with 0 by lia. reflexivity.
    + rewrite A', skipn_length. lia.
  - destruct OA as [[-> _]|[-> _]]; reflexivity.
Qed.
Lemma items_cut n l l' a ae b be : same_items same_change_time l l' -> no_err l -> no_err l' -> longest_of l < n ->
  b <> [] \/ be <> None -> ae = None ->
  items_equal n (l ++ a) ae (l' ++ b) be = items_equal n a ae b be.
Proof.
  intros F. revert a b. induction F as [|[h r] [h' r'] l l' (H1 & H2 & H3) F IH]; intros a b N N' L NB AE; [reflexivity|].
  inversion N; inversion N'; subst. cbn [snd fst] in *. unfold longest_of in *. cbn [fold_right snd] in L. cbn [app items_equal].
  assert (HE : headers_equal h h' = true) by (apply headers_equal_ok; auto). rewrite HE. cbn [negb].
  rewrite (proj1 (readers_decided n r r' ltac:(lia) ltac:(auto) ltac:(auto)) H3). apply IH; auto. lia.
Qed.
Lemma longest_app a b : longest_of (a ++ b) = Nat.max (longest_of a) (longest_of b).
Proof. unfold longest_of. induction a as [|x a IH]; [reflexivity|]. cbn [app fold_right]. lia. Qed.
Theorem cut_off_error n a b : cut_off a b -> readable a -> longest a < n -> exists e, layers_equal n a b = CmpErr e.
Proof.
  intros (OB & l & l' & rest & EA & F & N' & K) (OA & EndA & ClA & NA) L. unfold layers_equal. rewrite OA, OB, ClA, EndA.
  assert (Lg : longest a = longest_of (l ++ rest)) by (unfold longest; now rewrite EA). rewrite Lg, longest_app in L. rewrite EA in NA. apply Forall_app in NA as [NA1 NA2].
  assert (G : exists e, items_equal n (s_items a) None (s_items b) (s_end b) = CmpErr e).
  { rewrite EA. destruct K as [[EB E]|(h & r & h' & r' & rest' & tail & -> & EB & S1 & S2 & Y & RE)]; rewrite EB.
    - rewrite <- (app_nil_r l'). destruct (s_end b) as [e|] eqn:Eb; [|congruence]. rewrite items_cut by (auto; lia || (right; congruence)). exists e. now destruct rest as [|[h r] rest].
    - destruct (rd_err r') as [e|] eqn:Er; [|congruence]. rewrite items_cut by (auto; lia || (left; discriminate)). exists e. cbn [items_equal].
      assert (HE : headers_equal h h' = true) by (apply headers_equal_ok; auto). rewrite HE. cbn [negb]. inversion NA2; subst. unfold longest_of in L. cbn [fold_right snd] in L.
      rewrite (readers_cut n r r' tail e); auto. lia. }
  destruct G as [e ->]. exists e. destruct (s_close b); reflexivity.
Qed.
(** If a crash left a file that is cut off, the command fails from then on, and leaves it as it is. *)
Theorem gobuild_stuck n w new old : w_build w = inr new -> readable (w_untar w new) -> longest (w_untar w new) < n -> cut_off (w_untar w new) (w_untar w old) ->
  exists e, gobuild n w (Some old) = ([], Failed e).
Proof.
  intros B R L C. unfold gobuild. rewrite B. destruct (w_open w old) as [e|]; [eauto|]. destruct (cut_off_error n _ _ C R L) as [e ->]. eauto.
Qed.
(** If it left nothing, or a layer that can be read, it can be run again. *)
Theorem gobuild_again n w new file : w_build w = inr new -> copies new w -> w_remove w = None -> w_create w = None -> w_copy w = None -> w_close w = None ->
  readable (w_untar w new) -> longest (w_untar w new) < n ->
  (forall old, file = Some old -> w_open w old = None /\ readable (w_untar w old)) ->
  snd (gobuild n w file) = Done /\ (final n w file = Some new \/ exists old, file = Some old /\ final n w file = Some old /\ unchanged w new old).
Proof.
  intros B C WR WC WP WL R L H.
  assert (D : snd (gobuild n w file) = Done).
  { unfold gobuild. rewrite B. assert (K : snd (replace_output w file) = Done) by (unfold replace_output; rewrite WR, WC; destruct file; cbn; now rewrite WP, WL).
    destruct file as [old|]; auto. destruct (H old eq_refl) as [-> R']. destruct (layers_exact n (w_untar w new) (w_untar w old)) as (_ & _ & X & Y). specialize (Y L).
    destruct (layers_equal n _ _) as [| |e|] eqn:E; auto; [exfalso; now apply (X e)|congruence]. }
  split; auto. destruct (gobuild_done n w file) as (new' & B' & [K|(old & -> & E & U)]); auto.
  - intros x X. rewrite B in X. injection X as <-. auto.
  - rewrite B in B'. injection B' as <-. auto.
  - rewrite B in B'. injection B' as <-. right. exists old. split; auto. split; auto. unfold final. now rewrite E.
Qed.
