(** Images whose layers are written through links: what LookPath and Stat give. *)
From Coq Require Import String Ascii List Bool ZArith Lia.
From Verif.Model Require Import GoStr GoPath Tar Squash VfsFS LookPath Inspect.
From Verif.Spec Require Import PathSpec SquashSpec VfsFSSpec LookPathSpec.
From Verif.Proofs Require Import Order SquashTree SquashLoad SquashLinks SquashCreate SquashHard VfsFSFacts VfsImage LookPathFacts VfsThrough.
Import ListNotations.
Local Open Scope nat_scope.

(** *** without contents *)
Lemma alike_is_dir a b p : alike a b -> is_dir_at a p <-> is_dir_at b p.
Proof. intros H. split; intros [m E]; exists m; eapply alike_dir; eauto using alike_sym. Qed.
Lemma alike_is_link a b p : alike a b -> is_symlink_at a p <-> is_symlink_at b p.
Proof.
  intros H. split; intros (h & c & E & T).
  - destruct (alike_file a b p h c H E) as [c' E']. now exists h, c'.
  - destruct (alike_file b a p h c (alike_sym _ _ H) E) as [c' E']. now exists h, c'.
Qed.
Lemma alike_leads a b : alike a b -> (forall p D, leads a p D -> leads b p D) /\ (forall d cs q, reaches a d cs q -> reaches b d cs q).
Proof.
  intros H. apply (leads_reaches_ind a (fun p D _ => leads b p D) (fun d cs q _ => reaches b d cs q)).
  - intros p N. apply leads_end. now rewrite <- (alike_is_link a b p H).
  - intros p h c q d E T N _ R _ L. destruct (alike_file a b p h c H E) as [c' E']. eapply leads_link; eauto.
  - intros. apply reaches_nil.
  - intros. now apply reaches_up.
  - intros d c D P. apply reaches_last; auto. now apply (alike_is_dir a b d H).
  - intros d c cs d' q D P _ L N _ R. eapply reaches_down; eauto. now apply (alike_is_dir a b d H).
  - intros d cs D L N P. apply reaches_new; auto; [now rewrite <- (alike_is_dir a b d H)|now rewrite <- (alike_is_link a b d H)].
Qed.
Lemma aat_bare a es es' : all_at_target a es es' -> forall b, alike a b -> all_at_target b (map bare1 es) (map bare1 es').
Proof.
  induction 1 as [a|a e e' es es' T _ IH]; intros b H; cbn [map]; [apply aat_nil|]. apply aat_cons; [|apply IH, alike_entry, H].
  destruct T as (A & _ & C & D). split; [exact A|]. split; [reflexivity|]. split; [exact C|].
  destruct D as [D|(x & q & d & r & E1 & E2 & R & L & E3)]; [now left|]. right. exists x, q, d, r. split; [exact E1|]. split; [exact E2|].
  destruct (alike_leads a b H) as [AL AR]. split; [now apply AR|]. split; [now apply AL|exact E3].
Qed.

(** *** the same answers *)
Lemma stat_same t u lnk tgt : strip t = strip u ->
  match stat t lnk tgt, stat u lnk tgt with
  | StatErr a, StatErr b => a = b
  | StatOk h, StatOk k => anon h = anon k
  | StatPanic, StatPanic => True
  | _, _ => False
  end.
Proof.
  intros E. pose proof (header_same t u tgt E) as A. pose proof (header_same t u lnk E) as B. unfold stat.
  destruct (header_at t tgt) as [h|], (header_at u tgt) as [k|]; cbn [option_map] in A; try discriminate; auto.
  destruct (header_at t lnk) as [h'|], (header_at u lnk) as [k'|]; cbn [option_map] in B; try discriminate; auto.
  assert (X : anon h = anon k) by congruence. exact X.
Qed.
Lemma anon_same (A : Type) (f : header -> A) h k : (forall x, f (anon x) = f x) -> anon h = anon k -> f h = f k.
Proof. intros F E. now rewrite <- (F h), <- (F k), E. Qed.
Lemma check_same utf8 n t u full : strip t = strip u -> check_executable utf8 n t full = check_executable utf8 n u full.
Proof.
  intros E. unfold check_executable. destruct (negb (is_abs full)); auto. rewrite (open_strip utf8 n t u _ E). destruct (open utf8 n u (skipn 1 full)) as [[l g]| |]; auto.
  pose proof (stat_same t u l g E) as X. destruct (stat t l g) as [a|h|], (stat u l g) as [b|k|]; try contradiction; auto.
  now rewrite (anon_same _ mode_is_dir h k (fun _ => eq_refl) X), (anon_same _ mode_perm h k (fun _ => eq_refl) X).
Qed.
Lemma look_in_same c d wd name dirs : (forall s, c s = d s) -> look_in c wd name dirs = look_in d wd name dirs.
Proof. intros H. induction dirs as [|x dirs IH]; cbn [look_in]; auto. now rewrite H, IH. Qed.
Lemma look_same c d wd name dirs : (forall s, c s = d s) -> look c wd name dirs = look d wd name dirs.
Proof. intros H. unfold look. now rewrite H, (look_in_same c d). Qed.
Section through.
  Context (layers layers' : list (list entry)) (I : Forall (Forall in_root) layers) (P : plain_stack layers')
    (A : all_at_target empty_root (all_entries layers) (all_entries layers')).
  Lemma load_links_bare : exists N t t', strip t = strip t' /\ forall n, N <= n -> load_layers n true layers = Ret t /\ load_layers n true layers' = Ret t'.
  Proof.
    destruct (load_links (bare layers) (bare layers')) as (N & t & t' & S & H).
    - now apply bare_Forall.
    - now apply bare_plain.
    - rewrite !all_bare. apply (aat_bare _ _ _ A), empty_alike.
    - exists N, t, t'. split; [exact S|]. intros n L. rewrite !load_bare. now apply H.
  Qed.
  Theorem look_path_through : exists N, forall n, N <= n -> forall utf8 cfg name, look_path utf8 n layers cfg name = look_path utf8 n layers' cfg name.
  Proof.
    destruct load_links_bare as (N & t & t' & S & H). exists N. intros n L utf8 cfg name. unfold look_path. destruct (H n L) as [-> ->].
    apply look_same. intros s. now apply check_same.
  Qed.
  Theorem image_stat_through : exists N t t', (forall n, N <= n -> load_layers n true layers = Ret t /\ load_layers n true layers' = Ret t') /\
    forall utf8 n name, image_stat utf8 n t name = image_stat utf8 n t' name.
  Proof.
    destruct load_links_bare as (N & t & t' & S & H). exists N, t, t'. split; [exact H|]. intros utf8 n name. unfold image_stat.
    destruct (negb (is_abs name)); auto. rewrite (open_strip utf8 n t t' _ S). destruct (open utf8 n t' (skipn 1 name)) as [[l g]| |]; auto.
    pose proof (stat_same t t' l g S) as X. destruct (stat t l g) as [a|h|], (stat t' l g) as [b|k|]; try contradiction; auto.
    now rewrite (anon_same _ owner_of h k (fun _ => eq_refl) X).
  Qed.
End through.
