(** C44 to C47, C67: file modes and attributes.  [zip_raw] and [zip_parse] are Raw
    and ParseZIPExternalAttributes; [to_go], [mode_from_go], [mode_string] are
    StatMode.ToGo, ModeFromGo and StatMode.String; [to_dos] is
    StatFileAttribute.ToDOS.  A StatMode is a number below 2^16. *)
From Coq Require Import String Ascii List Bool NArith Lia.
From Verif.Model Require Import GoStr Stat WheelFile.
From Verif.Spec Require Import StatSpec.
From Verif.Proofs Require Import StatFacts TarModes.
Import ListNotations.
Open Scope N_scope.

(** ** C44: external attributes *)
Theorem C44_raw_of_parsed : forall raw, raw < 2 ^ 32 -> zip_raw (zip_parse raw) = raw.
Proof. exact raw_parse. Qed.
Print Assumptions C44_raw_of_parsed.
Theorem C44_parsed_of_raw : forall a, za_unix a < 2 ^ 16 -> za_unused a < 2 ^ 8 -> za_dos a < 2 ^ 8 ->
  zip_parse (zip_raw a) = a /\ zip_raw a < 2 ^ 32.
Proof. exact parse_raw. Qed.
Print Assumptions C44_parsed_of_raw.
(** Beside C44: a directory with mode 0755 and the DOS flag. *)
Example C44_case : zip_parse 1106051088 = mkZipAttr 16877 0 16 /\ zip_raw (mkZipAttr 16877 0 16) = 1106051088.
Proof. vm_compute. auto. Qed.

(** ** C45: modes and Go modes *)

(** The modes of the seven types correspond bit by bit. *)
Theorem C45_to_go : forall t setuid setgid sticky perm, perm < 512 ->
  to_go (unix_mode (unix_type t) setuid setgid sticky perm) = go_mode (sum_bits (go_type_bits t)) setuid setgid sticky perm.
Proof. exact to_go_ok. Qed.
Print Assumptions C45_to_go.
Theorem C45_from_go : forall t setuid setgid sticky perm, perm < 512 ->
  mode_from_go (go_mode (sum_bits (go_type_bits t)) setuid setgid sticky perm) = unix_mode (unix_type t) setuid setgid sticky perm.
Proof. exact from_go_ok. Qed.
Print Assumptions C45_from_go.
Theorem C45_round_trip : forall m, m < 2 ^ 16 -> (exists t, m / 4096 = unix_type t) -> mode_from_go (to_go m) = m.
Proof. exact round_trip. Qed.
Print Assumptions C45_round_trip.
(** The twelve permission bits are kept for every type. *)
Theorem C45_permissions : forall m, m < 2 ^ 16 -> mode_from_go (to_go m) mod 4096 = m mod 4096.
Proof. exact permissions_kept. Qed.
Print Assumptions C45_permissions.
(** The other types become irregular files, and lose their type on the way back. *)
Theorem C45_other_types : forall m, m < 2 ^ 16 -> (forall t, m / 4096 <> unix_type t) ->
  mode_from_go (to_go m) / 4096 = 0 /\ N.testbit (to_go m) 19 = true.
Proof. exact other_round_trip. Qed.
Print Assumptions C45_other_types.
Theorem C45_type_tests : forall m, m < 2 ^ 16 ->
  (is_dir m = true <-> m / 4096 = unix_type Dir) /\ (is_regular m = true <-> m / 4096 = unix_type Regular).
Proof. exact type_tests. Qed.
Print Assumptions C45_type_tests.
(** Go's archive/zip reads modes as ToGo does, and archive/tar writes the twelve permission bits of what they give, with
    the type as POSIX numbers it: [zip_unix_mode], [header_mode] and [header_type] model these. *)
Theorem C45_archived : forall t setuid setgid sticky perm, perm < 512 ->
  let m := unix_mode (unix_type t) setuid setgid sticky perm in
  WheelFile.zip_unix_mode m = to_go m /\ WheelFile.header_mode (to_go m) = m mod 4096 /\
  WheelFile.header_type (to_go m) = match t with
    | Regular => Some "0"%char | Symlink => Some "2"%char | CharDev => Some "3"%char | BlockDev => Some "4"%char
    | Dir => Some "5"%char | Fifo => Some "6"%char | Socket => None end.
Proof. exact archived_mode. Qed.
Print Assumptions C45_archived.
(** Beside C45: a setuid program; a whiteout. *)
Example C45_case : to_go 35309 = 2 ^ 23 + 493 /\ mode_from_go (2 ^ 23 + 493) = 35309 /\ 35309 / 4096 = unix_type Regular /\
  (forall t, 57725 / 4096 <> unix_type t).
Proof. repeat split; try (vm_compute; reflexivity). intros []; discriminate. Qed.

(** ** C46: ls -l *)
Theorem C46_string : forall m, m < 2 ^ 16 -> mode_string m = ls_text m.
Proof. exact mode_string_ok. Qed.
Print Assumptions C46_string.
(** The first letter tells which of the exported types the mode has. *)
Theorem C46_types : forall m, m < 2 ^ 16 -> Forall (fun '(k, l) => hd_error (mode_string m) = Some l <-> N.land m ModeFmt = k)
  [(ModeFmtNamedPipe, "p"); (ModeFmtCharDevice, "c"); (ModeFmtDir, "d"); (ModeFmtBlockDevice, "b"); (ModeFmtRegular, "-");
   (ModeFmtSymlink, "l"); (ModeFmtSocket, "s"); (ModeFmtWhiteout, "w")]%char.
Proof. exact type_letters. Qed.
Print Assumptions C46_types.
Example C46_case : mode_string 35309 = $"-rwsr-xr-x" /\ mode_string 17407 = $"drwxrwxrwt" /\ mode_string 16895 = $"drwxrwxrwx" /\ mode_string 33280 = $"---------T".
Proof. vm_compute. auto. Qed.

(** ** C47: Windows attributes *)

(** The constants for the lowest byte have their values. *)
Theorem C47_low_byte_partial :
  [FileAttributeReadonly; FileAttributeHidden; FileAttributeSystem; FileAttributeDirectory; FileAttributeArchive; FileAttributeDevice; FileAttributeNormal]
  = map snd (firstn 7 windows_attributes).
Proof. reflexivity. Qed.
Print Assumptions C47_low_byte_partial.
(** All the others are wrong. *)
Theorem C47_others_refuted :
  Forall2 (fun value documented => value <> snd documented)
    [FileAttributeTemporary; FileAttributeSparseFile; FileAttributeReparsePoint; FileAttributeCompressed; FileAttributeOffline;
     FileAttributeNotContentIndexed; FileAttributeEncrypted; FileAttributeIntegrityStream; FileAttributeVirtual; FileAttributeNoScrubData;
     FileAttributeRecallOnOpen; FileAttributeRecallOnDataAccess]
    (skipn 7 windows_attributes).
Proof. cbn [skipn windows_attributes]. repeat (constructor; [vm_compute; discriminate|]). constructor. Qed.
Print Assumptions C47_others_refuted.
(** What they are: shifted by eight bits, and the last one is the 28th bit. *)
Theorem C47_exact_partial :
  [FileAttributeTemporary; FileAttributeSparseFile; FileAttributeReparsePoint; FileAttributeCompressed; FileAttributeOffline;
   FileAttributeNotContentIndexed; FileAttributeEncrypted; FileAttributeIntegrityStream; FileAttributeVirtual; FileAttributeNoScrubData;
   FileAttributeRecallOnOpen]
  = map (fun a => 2 ^ 8 * snd a) (firstn 11 (skipn 7 windows_attributes)) /\ FileAttributeRecallOnDataAccess = 2 ^ 28.
Proof. split; reflexivity. Qed.
Print Assumptions C47_exact_partial.
(** For instance, the value of Temporary is the one of VIRTUAL. *)
Theorem C47_temporary_refuted : FileAttributeTemporary = 2 ^ 16 /\ In ($"TEMPORARY", 2 ^ 8) windows_attributes /\ In ($"VIRTUAL", FileAttributeTemporary) windows_attributes.
Proof. repeat split; vm_compute; auto 20. Qed.
Print Assumptions C47_temporary_refuted.

(** ** C67: DOS attributes *)

(** ToDOS keeps exactly read-only, hidden, system, directory and archive. *)
Theorem C67_to_dos : forall fa i, N.testbit (to_dos fa) i = N.testbit fa i && existsb (N.eqb i) [0; 1; 2; 4; 5].
Proof. exact to_dos_bits. Qed.
Print Assumptions C67_to_dos.
Example C67_case : to_dos 255 = 55 /\ to_dos (FileAttributeNormal + FileAttributeDirectory) = 16.
Proof. vm_compute. auto. Qed.
