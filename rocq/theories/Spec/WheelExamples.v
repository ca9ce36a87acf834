(** Example wheels and platforms, to show that the hypotheses of the theorems can be met
    and where the claims fail. *)
From Coq Require Import String Ascii List Bool NArith ZArith.
From Verif.Model Require Import GoStr GoPath Tar Stat Layer ConfigParser Platform WheelFile Wheel.
From Verif.Spec Require Import SimpleAPISpec.
Import ListNotations.

(** A comma and newline only CSV reader, an ideal hash that gives the whole text, a compiler
    that compiles one file, a hook that writes one. *)
Definition ex_csv (text : str) : option (list (list str)) := Some (map (split_on ","%char) (removelast (split_on nl text))).
Definition ex_compile (t : option Z) (l : list vref) : option (list vref) :=
  if existsb (fun r => str_eqb (ref_full r) $"usr/lib/foo/a.py") l
  then Some [mem_reg $"usr/lib/foo/__pycache__/a.pyc" 420 t $"compiled"] else Some [].
Definition ex_hook (t : option Z) (fs : vfs) (_ : str) : option vfs :=
  Some (set_key $"usr/lib/foo-1.0.dist-info/INSTALLER" (mem_reg $"usr/lib/foo-1.0.dist-info/INSTALLER" 420 t $"me") fs).
Definition ex_out : outside :=
  mkOut ex_csv (fun _ text => text) (fun text => Some ($"1.0", text)) 0 ex_compile ex_hook (fun _ => true)
    (map fst) (map fst) (fun t => t) (fun fs => fs) (fun fs => fs) insertion_sort.
(** All maps in the other order *)
Definition ex_out_rev : outside :=
  mkOut ex_csv (fun _ text => text) (fun text => Some ($"1.0", text)) 0 ex_compile ex_hook (fun _ => true)
    (fun fs => rev (map fst fs)) (fun fs => rev (map fst fs)) (@rev _) (@rev _) (@rev _) insertion_sort.
(** Map loops that visit the new keys of one example as well *)
Definition ex_out_more : outside :=
  mkOut ex_csv (fun _ text => text) (fun text => Some ($"1.0", text)) 0 ex_compile ex_hook (fun _ => true)
    (fun fs => map fst fs ++ [$"usr/lib/foo-1.0.data/scripts/run"]) (map fst) (fun t => t) (fun fs => fs) (fun fs => fs) insertion_sort.

Definition ex_platform : platform :=
  mkPlatform $"/bin/python3.9" $"/bin/pythonw3.9"
    (mkScheme $"/usr/lib" $"/usr/lib64" $"/usr/include" $"/usr/bin" $"/usr") 7 8 $"u" $"g".
(** purelib and platlib are the same *)
Definition ex_platform_same : platform :=
  mkPlatform $"/bin/python3.9" $"/bin/pythonw3.9"
    (mkScheme $"/usr/lib" $"/usr/lib" $"/usr/include" $"/usr/bin" $"/usr") 7 8 $"u" $"g".
(** two slashes *)
Definition ex_platform_slashes : platform :=
  mkPlatform $"/bin/python3.9" $"/bin/pythonw3.9"
    (mkScheme $"//usr/lib" $"//usr/lib64" $"//usr/include" $"//usr/bin" $"//usr") 7 8 $"u" $"g".

(** 12 and a half seconds *)
Definition ex_time : Z := 12500000000.
Definition ex_file (name : str) (mode : N) (text : str) : zfile :=
  mkZFile (mkZ name (N.of_nat (length text)) (N.shiftl mode 16) 768 (Some ex_time)) (Bytes text true).
Definition ex_dir (name : str) : zfile := ex_file name (N.lor ModeFmtDir 493) [].
Definition ex_reg (name text : str) : zfile := ex_file name (N.lor ModeFmtRegular 420) text.
Definition ex_row (f : str * str) : str :=
  fst f ++ $",sha256=" ++ snd f ++ $"," ++ itoa (Z.of_nat (length (snd f))) ++ [nl].
(** The RECORD file with these rows and one for itself *)
Definition ex_record (rows : list (str * str)) : zfile :=
  ex_reg $"foo-1.0.dist-info/RECORD" (concat (map ex_row rows) ++ $"foo-1.0.dist-info/RECORD,," ++ [nl]).
(** Files with these names and texts *)
Definition ex_wheel (files : list (str * str)) : list zfile :=
  let files := ($"foo-1.0.dist-info/WHEEL", $"true") :: files in
  map (fun f => ex_reg (fst f) (snd f)) files ++ [ex_record files].

Definition ex_files : list (str * str) :=
  [($"foo/a.py", $"code"); ($"foo-1.0.data/scripts/run", $"#!python -E"); ($"foo-1.0.data/scripts/wrun", $"#!pythonw");
   ($"foo-1.0.data/scripts/sh", $"#!/bin/sh"); ($"foo-1.0.data/headers/foo.h", $"int x")].
(** with some directories *)
Definition ex_good : list zfile := [ex_dir $"foo/"; ex_dir $"foo-1.0.data/"] ++ ex_wheel ex_files.

(** Two entries with the same name: the check looks at the first, the second is installed *)
Definition ex_twice : list zfile := ex_wheel [($"foo/a.py", $"code")] ++ [ex_reg $"foo/a.py" $"evil"].
(** A file whose mode says that it is a directory *)
Definition ex_dirmode : list zfile := ex_wheel [($"foo/a.py", $"code")] ++ [ex_file $"foo/b.py" (N.lor ModeFmtDir 493) $"evil"].
Definition ex_outside : list zfile := ex_wheel [($"../../etc/passwd", $"evil")].
Definition ex_whole : list zfile := ex_wheel [($"foo-1.0.data/scripts", $"evil")].
Definition ex_file_above : list zfile := ex_wheel [($"foo", $"text"); ($"foo/a.py", $"code")].
Definition ex_clash : list zfile := ex_wheel [($"foo-1.0.data/purelib/a", $"one"); ($"foo-1.0.data/platlib/a", $"two")].
Definition ex_nested : list zfile := ex_wheel [($"foo-1.0.data/purelib/foo-1.0.data/scripts/run", $"#!python")].
