(** What a platform file means. *)
From Coq Require Import String Ascii List Bool ZArith.
From Verif.Model Require Import GoStr WheelName Platform Inspect.
From Verif.Spec Require Import InspectSpec.
Import ListNotations.

(** The value for a key, in any spelling *)
Definition given (name : str) (l : list (str * doc)) : option doc :=
  option_map snd (find (fun x => str_eqb (to_lower name) (to_lower (fst x))) l).
(** No key is there twice, in any spelling, in the document and in its parts. *)
Definition distinct_keys (l : list (str * doc)) : Prop := NoDup (map (fun x => to_lower (fst x)) l).
Definition unambiguous (l : list (str * doc)) : Prop := distinct_keys l /\ forall k m, In (k, DMap m) l -> distinct_keys m.

(** Values of one kind *)
Definition is_text (d : doc) (s : str) : Prop := d = DStr s \/ exists z, d = DInt z /\ s = itoa z.
Definition is_int (d : doc) (z : Z) : Prop := d = DInt z.
Definition is_byte (d : doc) (c : ascii) : Prop := d = DInt (Z.of_nat (nat_of_ascii c)).
Definition is_tag (d : doc) (t : tag) : Prop := d = DStr (t_python t ++ $"-" ++ t_abi t ++ $"-" ++ t_platform t) /\ tag_parts t.
Definition is_list {A} (P : doc -> A -> Prop) (d : doc) (l : list A) : Prop := exists ds, d = DSeq ds /\ Forall2 P ds l.
(** A value that may be left out *)
Definition reads {A} (P : doc -> A -> Prop) (default : A) (o : option doc) (a : A) : Prop := match o with Some d => P d a | None => a = default end.

Definition no_scheme : scheme := mkScheme [] [] [] [] [].
Definition is_scheme (d : doc) (s : scheme) : Prop := exists l, d = DMap l /\ only_keys scheme_keys l /\
  reads is_text [] (given $"purelib" l) (s_purelib s) /\ reads is_text [] (given $"platlib" l) (s_platlib s) /\ reads is_text [] (given $"headers" l) (s_headers s) /\
  reads is_text [] (given $"scripts" l) (s_scripts s) /\ reads is_text [] (given $"data" l) (s_data s).
Definition no_version : version_info := mkVI 0 0 0 [] 0.
Definition is_version (d : doc) (v : version_info) : Prop := exists l, d = DMap l /\ only_keys version_keys l /\
  reads is_int 0%Z (given $"major" l) (vi_major v) /\ reads is_int 0%Z (given $"minor" l) (vi_minor v) /\ reads is_int 0%Z (given $"micro" l) (vi_micro v) /\
  reads is_text [] (given $"releaselevel" l) (vi_level v) /\ reads is_int 0%Z (given $"serial" l) (vi_serial v).
Definition is_plat (l : list (str * doc)) (p : plat_file) : Prop := only_keys plat_keys l /\
  reads is_text [] (given $"ConsoleShebang" l) (pl_console (pf_platform p)) /\ reads is_text [] (given $"GraphicalShebang" l) (pl_graphical (pf_platform p)) /\
  reads is_scheme no_scheme (given $"Scheme" l) (pl_scheme (pf_platform p)) /\
  reads is_int 0%Z (given $"UID" l) (pl_uid (pf_platform p)) /\ reads is_int 0%Z (given $"GID" l) (pl_gid (pf_platform p)) /\
  reads is_text [] (given $"UName" l) (pl_uname (pf_platform p)) /\ reads is_text [] (given $"GName" l) (pl_gname (pf_platform p)) /\
  reads is_version no_version (given $"VersionInfo" l) (pf_version p) /\ reads (is_list is_byte) [] (given $"MagicNumber" l) (pf_magic p) /\
  reads (is_list is_tag) [] (given $"Tags" l) (pf_tags p) /\ reads (is_list is_text) [] (given $"PyCompile" l) (pf_compile p).
