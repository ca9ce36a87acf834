(** Modes through archive/zip and archive/tar. *)
From Coq Require Import String Ascii List Bool NArith Lia.
From Verif.Model Require Import GoStr Tar Stat WheelFile.
From Verif.Spec Require Import StatSpec.
From Verif.Proofs Require Import Order GoStrFacts StatFacts.
Import ListNotations.
Open Scope N_scope.

Lemma zip_mode_same t a b c perm : perm < 512 -> zip_unix_mode (unix_mode (unix_type t) a b c perm) = to_go (unix_mode (unix_type t) a b c perm).
Proof.
  intros L. apply N.eqb_eq. revert a b c perm L. apply (check4_ok (fun a b c perm => zip_unix_mode (unix_mode (unix_type t) a b c perm) =? to_go (unix_mode (unix_type t) a b c perm))).
  destruct t; vm_compute; reflexivity.
Qed.
Lemma header_mode_ok t a b c perm : perm < 512 -> header_mode (go_mode (sum_bits (go_type_bits t)) a b c perm) = unix_mode 0 a b c perm.
Proof.
  intros L. apply N.eqb_eq. revert a b c perm L. apply (check4_ok (fun a b c perm => header_mode (go_mode (sum_bits (go_type_bits t)) a b c perm) =? unix_mode 0 a b c perm)).
  destruct t; vm_compute; reflexivity.
Qed.
(** the type flags of POSIX tar archives; there is none for sockets *)
Lemma header_type_ok t a b c perm : perm < 512 -> header_type (go_mode (sum_bits (go_type_bits t)) a b c perm) =
  match t with Regular => Some "0"%char | Symlink => Some "2"%char | CharDev => Some "3"%char | BlockDev => Some "4"%char | Dir => Some "5"%char | Fifo => Some "6"%char | Socket => None end.
Proof.
  intros L. set (w := match t with Regular => _ | _ => _ end).
  assert (H : match header_type (go_mode (sum_bits (go_type_bits t)) a b c perm), w with Some x, Some y => byte_eqb x y | None, None => true | _, _ => false end = true).
  { revert a b c perm L. apply (check4_ok (fun a b c perm => match header_type (go_mode (sum_bits (go_type_bits t)) a b c perm), w with Some x, Some y => byte_eqb x y | None, None => true | _, _ => false end)).
    unfold w. destruct t; vm_compute; reflexivity. }
  destruct (header_type _), w; try discriminate; auto. apply byte_eqb_eq in H. now subst.
Qed.
Theorem archived_mode t a b c perm : perm < 512 ->
  let m := unix_mode (unix_type t) a b c perm in
  zip_unix_mode m = to_go m /\ header_mode (to_go m) = m mod 4096 /\
  header_type (to_go m) = match t with Regular => Some "0"%char | Symlink => Some "2"%char | CharDev => Some "3"%char | BlockDev => Some "4"%char | Dir => Some "5"%char | Fifo => Some "6"%char | Socket => None end.
Proof.
  intros L m. unfold m. rewrite to_go_ok by exact L. split; [now rewrite zip_mode_same, to_go_ok|]. split; [|now apply header_type_ok].
  rewrite header_mode_ok by exact L. destruct (unix_mode_parts (unix_type t) a b c perm L) as [_ ->]. destruct (unix_mode_parts 0 a b c perm L) as [D M].
  rewrite (N.div_mod (unix_mode 0 a b c perm) 4096) by discriminate. rewrite D, M. lia.
Qed.

(** *** the exported constants *)
Lemma type_letters m : m < 2 ^ 16 -> Forall (fun '(k, l) => hd_error (mode_string m) = Some l <-> N.land m ModeFmt = k)
  [(ModeFmtNamedPipe, "p"); (ModeFmtCharDevice, "c"); (ModeFmtDir, "d"); (ModeFmtBlockDevice, "b"); (ModeFmtRegular, "-"); (ModeFmtSymlink, "l"); (ModeFmtSocket, "s"); (ModeFmtWhiteout, "w")]%char.
Proof.
  intros L. set (K := [(ModeFmtNamedPipe, "p"); (ModeFmtCharDevice, "c"); (ModeFmtDir, "d"); (ModeFmtBlockDevice, "b"); (ModeFmtRegular, "-"); (ModeFmtSymlink, "l"); (ModeFmtSocket, "s"); (ModeFmtWhiteout, "w")]%char).
  assert (H : below_pow 16 (fun m => let c := at_index $"?pc?d?b?-?l?s?w?" (N.shiftr m 12) in let t := N.land m ModeFmt in
    forallb (fun '(k, l) => Bool.eqb (Ascii.eqb c l) (t =? k)) K) = true) by (vm_compute; reflexivity).
  apply (below_pow_ok 16 _ H) in L. cbv zeta in L. rewrite forallb_forall in L. apply Forall_forall. intros [k l] I. apply L in I. apply Bool.eqb_prop in I.
  rewrite <- N.eqb_eq, <- I, Ascii.eqb_eq. unfold mode_string. cbn [hd_error]. split; congruence.
Qed.
