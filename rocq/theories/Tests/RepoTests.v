(** The tables of the unit tests of the repository, computed with the model.
    Written by tools/repotests.py from the files named below.  These are tests of the model, not proofs of
    properties: they show that it gives what the authors of the code expect of the code. *)
From Coq Require Import String Ascii List Bool ZArith.
From Verif.Model Require Import GoStr GoPath Tar Squash Pep440 Specifier Pep345 DirectURL Wrap Help.
From Verif.Spec Require Import SimpleAPISpec.
Import ListNotations.

(** pkg/python/pep440/01_version_scheme_test.go TestSort: each version of a list is less than the next *)
Fixpoint ascending (l : list str) : bool :=
  match l with
  | a :: ((b :: _) as l') => (match parse_version a, parse_version b with Some x, Some y => (cmp x y <? 0)%Z && (0 <? cmp y x)%Z | _, _ => false end) && ascending l'
  | _ => true
  end.
Example sort_tests : forallb ascending
  [[$"0.9"; $"0.9.1"; $"0.9.2"; $"0.9.10"; $"0.9.11"; $"1.0"; $"1.0.1"; $"1.1"; $"2.0"; $"2.0.1"];
   [$"2012.4"; $"2012.7"; $"2012.10"; $"2013.1"; $"2013.6"];
   [$"4.3a2"; $"4.3b2"; $"4.3rc2"; $"4.3"];
   [$"4.3a2.post1"; $"4.3b2.post1"; $"4.3rc2.post1"];
   [$"4.3a2.dev1"; $"4.3b2.dev1"; $"4.3rc2.dev1"; $"4.3.post2.dev1"];
   [$"1.0"; $"1.1"; $"2.0"; $"2013.10"; $"2014.04"];
   [$"2013.10"; $"2014.04"; $"1!1.0"; $"1!1.1"; $"1!2.0"];
   [$"0.1"; $"0.2"; $"0.3"; $"1.0"; $"1.1"];
   [$"1.1.0"; $"1.1.1"; $"1.1.2"; $"1.2.0"];
   [$"0.9"; $"1.0a1"; $"1.0a2"; $"1.0b1"; $"1.0rc1"; $"1.0"; $"1.1a1"];
   [$"0.9"; $"1.0.dev1"; $"1.0.dev2"; $"1.0.dev3"; $"1.0.dev4"; $"1.0c1"; $"1.0c2"; $"1.0"; $"1.0.post1"; $"1.1.dev1"];
   [$"2012.1"; $"2012.2"; $"2012.3"; $"2012.15"; $"2013.1"; $"2013.2"];
   [$"1.0.dev456"; $"1.0a1"; $"1.0a2.dev456"; $"1.0a12.dev456"; $"1.0a12"; $"1.0b1.dev456"; $"1.0b2"; $"1.0b2.post345.dev456"; $"1.0b2.post345"; $"1.0rc1.dev456"; $"1.0rc1"; $"1.0"; $"1.0+abc.5"; $"1.0+abc.7"; $"1.0+5"; $"1.0.post456.dev34"; $"1.0.post456"; $"1.1.dev1"];
   [$"1.0"; $"1.0+a"; $"1.0+b"; $"1.0+bar"; $"1.0+c"; $"1.0+d"; $"1.0+e"; $"1.0+f"; $"1.0+z"; $"1.0+0"; $"1.0+0.z"; $"1.0+0.0"; $"1.0+0.0.0"; $"1.0+1"; $"1.0+2"; $"1.0+10"; $"1.1"]] = true.
Proof. vm_compute. reflexivity. Qed.

(** TestNormalize *)
Example normalize_tests : map (fun s => option_map version_string (parse_version s))
  [$"1.1RC1"; $"00"; $"09000"; $"1.0+foo0100"; $"1.1.a1"; $"1.1-a1"; $"1.0a.1"; $"1.1alpha1"; $"1.1beta2"; $"1.1c3"; $"1.2a"; $"1.2-post2"; $"1.2post2"; $"1.2.post.2"; $"1.0-r4"; $"1.2.post"; $"1.0-1"; $"1.0-"; $"1.0_1"; $"1.2-dev2"; $"1.2dev2"; $"1.2.dev"; $"1.0+ubuntu-1"; $"v1.0"; ($"1.0" ++ ["010"%char] ++ $"")] =
  [Some $"1.1rc1"; Some $"0"; Some $"9000"; Some $"1.0+foo0100"; Some $"1.1a1"; Some $"1.1a1"; Some $"1.0a1"; Some $"1.1a1"; Some $"1.1b2"; Some $"1.1rc3"; Some $"1.2a0"; Some $"1.2.post2"; Some $"1.2.post2"; Some $"1.2.post2"; Some $"1.0.post4"; Some $"1.2.post0"; Some $"1.0.post1"; None; None; Some $"1.2.dev2"; Some $"1.2.dev2"; Some $"1.2.dev0"; Some $"1.0+ubuntu.1"; Some $"1.0"; Some $"1.0"].
Proof. vm_compute. reflexivity. Qed.

(** TestUtilMethods *)
Example util_tests : map (fun s => option_map (fun v =>
    ((major (pub v), minor (pub v), micro (pub v), is_prerelease (pub v)), (version_string v, is_final v), (public_string (pub v), public_is_final (pub v)))) (parse_version s))
  [$"1           "; $"1+par       "; $"1.2         "; $"1.2.3       "; $"1.2rc2      "; $"1.2rc2.post3"; $"1.2rc2+par  "] =
  [Some ((1, 0, 0, false), ($"1", true), ($"1", true));
   Some ((1, 0, 0, false), ($"1+par", false), ($"1", true));
   Some ((1, 2, 0, false), ($"1.2", true), ($"1.2", true));
   Some ((1, 2, 3, false), ($"1.2.3", true), ($"1.2.3", true));
   Some ((1, 2, 0, true), ($"1.2rc2", false), ($"1.2rc2", false));
   Some ((1, 2, 0, true), ($"1.2rc2.post3", false), ($"1.2rc2.post3", false));
   Some ((1, 2, 0, true), ($"1.2rc2+par", false), ($"1.2rc2", false))]%Z.
Proof. vm_compute. reflexivity. Qed.

(** TestSymmetry *)
Example symmetry_tests : forallb (fun '(a, b) => match parse_version a, parse_version b with Some x, Some y => (cmp x y =? - cmp y x)%Z | _, _ => false end)
  [($"1.0+1.0", $"1.0+1.0.0"); ($"1.0+1.foo", $"1.0+1.bar")] = true.
Proof. vm_compute. reflexivity. Qed.

(** pkg/python/pep440/02_version_specifiers_test.go TestParseSpecifier *)
Example parse_specifier_tests : map (fun s => match parse_specifier s with Ok cs => Ok (map (fun c => (c_op c, Some (c_ver c))) cs) | Err => Err | Panic => Panic end)
  [$""; $"  "; $", ,"; $"==1.0"; $"1.0"; $"==1"; $"~=1"; $"==1.0dev.*"; $"==1.0+loc.*"] =
  [Ok []; Ok []; Ok []; Ok [(OpStrictMatch, parse_version $"1.0")]; Err; Ok [(OpStrictMatch, parse_version $"1")]; Err; Err; Err].
Proof. vm_compute. reflexivity. Qed.

(** TestSpecifiers *)
Example specifier_tests : map (fun '(v, s) => match parse_version v, parse_specifier s with Some v, Ok cs => Some (match_specifier cs v) | _, _ => None end)
  [($"1.1.post1", $"== 1.1"); ($"1.1.post1", $"== 1.1.post1"); ($"1.1.post1", $"== 1.1.*"); ($"1.1a1", $"== 1.1"); ($"1.1a1", $"== 1.1a1"); ($"1.1a1", $"== 1.1.*"); ($"1.1", $"== 1.1"); ($"1.1", $"== 1.1.0"); ($"1.1", $"== 1.1.dev1"); ($"1.1", $"== 1.1a1"); ($"1.1", $"== 1.1.post1"); ($"1.1", $"== 1.1.*"); ($"1.1.post1", $"!= 1.1"); ($"1.1.post1", $"!= 1.1.post1"); ($"1.1.post1", $"!= 1.1.*"); ($"1.7.2", $"> 1.7"); ($"1.7a1", $"< 1.7"); ($"1!1.2", $"== 1.*"); ($"1.2", $"== 1.*"); ($"1.2", $"== 1!1.*"); ($"1.0", $"<= 2.0"); ($"1.1rc0", $"== 1.1rc.*"); ($"1.1rc1", $"== 1.1rc.*"); ($"1.1post0", $"== 1.1post.*"); ($"1.1post1", $"== 1.1post.*"); ($"1rc1", $"")] =
  map Some [false; true; true; false; true; true; true; true; false; false; false; true; true; false; false; true; true; false; true; false; true; true; false; true; false; true].
Proof. vm_compute. reflexivity. Qed.

(** pkg/python/pep345/metadata_test.go TestHaveRequiredPython *)
Example required_python_tests : map (fun '(v, s) => match parse_version v with Some v => have_required_python v s | None => None end)
  [($"2.5a1", $"~=2.5"); ($"3.1", $"3.1"); ($"3.1.0", $"3.1"); ($"3.1a1", $"3.1"); ($"3.1.5a1", $"3.1"); ($"3.1.5", $"3.1"); ($"3.2", $"3.1"); ($"3.1.2post2", $"3.1"); ($"3.1.2dev3", $"3.1"); ($"3.1", $"3.1.0"); ($"3.1.0", $"3.1.0"); ($"3.1.0a1", $"3.1"); ($"3.1.0.5a1", $"3.1"); ($"3.1.0.5", $"3.1"); ($"3.1.2", $"3.1"); ($"3.1.0.2post2", $"3.1"); ($"3.1.0.2dev3", $"3.1"); ($"3", $"3"); ($"3.0.0", $"3"); ($"3.7", $"3"); ($"3.7a1", $"3"); ($"3.7-rc3", $"3"); ($"4.1", $"3"); ($"2.7", $"3"); ($"2.6rc1", $">=2.6,<3"); ($"2.6", $">=2.6,<3"); ($"2.6.0", $">=2.6,<3"); ($"2.6post1", $">=2.6,<3"); ($"2.6.1a1", $">=2.6,<3"); ($"2.7", $">=2.6,<3"); ($"2.7rc1", $">=2.6,<3"); ($"2.7rc1", $">=2.6,<3"); ($"3.0rc2", $">=2.6,<3"); ($"3.0", $">=2.6,<3"); ($"2.6.2", $"2.6.2"); ($"2.6.1", $"2.6.2"); ($"2.6.3", $"2.6.2"); ($"2.6.2.1", $"2.6.2"); ($"2.6.2.1rc1", $"2.6.2"); ($"2.5.0", $"2.5.0"); ($"2.5", $"2.5.0"); ($"2.5rc1", $"2.5.0"); ($"2.5.0rc1", $"2.5.0"); ($"2.5.1rc1", $"2.5.0"); ($"2.5.1", $"2.5.0"); ($"3.1", $"3.1,!=3.1.3"); ($"3.1.3", $"3.1,!=3.1.3"); ($"3.1.3.2", $"3.1,!=3.1.3"); ($"3.1.2rc2", $"3.1,!=3.1.3"); ($"3.1.2", $"3.1,!=3.1.3"); ($"3.1dev2", $"==3.1dev2"); ($"3.1rc1", $"==3.1dev2"); ($"3.1rc1", $"==3.1rc1"); ($"3.1post", $">3.1"); ($"3.1", $">=3.1")] =
  [None; Some true; Some true; Some false; Some false; Some true; Some false; Some false; Some false; Some true; Some true; Some false; Some false; Some true; Some true; Some false; Some false; Some true; Some true; Some true; Some false; Some false; Some false; Some false; Some false; Some true; Some true; Some true; Some true; Some true; Some true; Some true; Some false; Some false; Some true; Some false; Some false; Some true; Some false; Some true; Some true; Some false; Some false; Some false; Some false; Some true; Some false; Some false; Some false; Some true; Some true; Some false; Some true; Some true; Some true].
Proof. vm_compute. reflexivity. Qed.

(** pkg/squash/squash_test.go TestSquash: names, types and link texts *)
Definition test_entry (e : str * ascii * str) : entry :=
  let '(name, type, link) := e in (mkHeader type name link 0 420 0 0 [] [] None None None 0 0 [] 0, []).
Definition squash_test (layers : list (list (str * ascii * str))) : run (list (str * ascii * str)) :=
  bind (squash 40 insertion_sort (fun _ l => l) (map (map test_entry) layers))
    (fun out => Ret (map (fun e => (th_name (fst e), th_type (fst e), th_link (fst e))) out)).
Example squash_sanitize : squash_test
  [[($".", "5"%char, $""); ($"./foo/bar", "0"%char, $""); ($"foo/./baz", "0"%char, $""); ($"foo/.aaa", "0"%char, $""); ($"foo/../foo/.wh.qux", "0"%char, $""); ($"foo", "5"%char, $""); ($"foo/bar/sub/../../zap", "0"%char, $""); ($"foo/d/x", "0"%char, $""); ($"foo/d", "0"%char, $""); ($"sym", "2"%char, $"foo"); ($"sym/moved", "0"%char, $"")]] =
  Ret [($"./", "5"%char, $""); ($"foo/", "5"%char, $""); ($"foo/.wh.qux", "0"%char, $""); ($"foo/.aaa", "0"%char, $""); ($"foo/bar", "0"%char, $""); ($"foo/baz", "0"%char, $""); ($"foo/d", "0"%char, $""); ($"foo/moved", "0"%char, $""); ($"foo/zap", "0"%char, $""); ($"sym", "2"%char, $"foo")].
Proof. vm_compute. reflexivity. Qed.
Example squash_opaque : squash_test
  [[($"dir/foo", "0"%char, $"")];
   [($"dir/bar", "0"%char, $""); ($"dir/.wh..wh..opq", "0"%char, $"")]] =
  Ret [($"dir/.wh..wh..opq", "0"%char, $""); ($"dir/bar", "0"%char, $"")].
Proof. vm_compute. reflexivity. Qed.
Example squash_opaque_implicit_1 : squash_test
  [[($"dir/foo", "0"%char, $"")];
   [($"dir", "0"%char, $"")];
   [($"dir/bar", "0"%char, $"")]] =
  Ret [($"dir/.wh..wh..opq", "0"%char, $""); ($"dir/bar", "0"%char, $"")].
Proof. vm_compute. reflexivity. Qed.
Example squash_opaque_implicit_2 : squash_test
  [[($"dir/foo", "0"%char, $"")];
   [($"dir", "0"%char, $"")];
   [($"dir", "5"%char, $"")]] =
  Ret [($"dir/", "5"%char, $""); ($"dir/.wh..wh..opq", "0"%char, $"")].
Proof. vm_compute. reflexivity. Qed.
Example squash_symlink_to_file : squash_test
  [[($"foo", "2"%char, $"bar")];
   [($"foo", "0"%char, $"")]] =
  Ret [($"foo", "0"%char, $"")].
Proof. vm_compute. reflexivity. Qed.
Example squash_symlink_to_symlink : squash_test
  [[($"foo", "2"%char, $"bar")];
   [($"foo", "2"%char, $"baz")]] =
  Ret [($"foo", "2"%char, $"baz")].
Proof. vm_compute. reflexivity. Qed.
Example squash_symlink_in_dir_simple : squash_test
  [[($"lnkdir", "2"%char, $"tgtdir"); ($"tgtdir", "5"%char, $""); ($"lnkdir/file", "0"%char, $"")]] =
  Ret [($"lnkdir", "2"%char, $"tgtdir"); ($"tgtdir/", "5"%char, $""); ($"tgtdir/file", "0"%char, $"")].
Proof. vm_compute. reflexivity. Qed.
Example squash_symlink_in_dir_dne : squash_test
  [[($"lnkdir", "2"%char, $"tgtdir"); ($"lnkdir/file", "0"%char, $"")]] =
  Ret [($"lnkdir", "2"%char, $"tgtdir"); ($"tgtdir/file", "0"%char, $"")].
Proof. vm_compute. reflexivity. Qed.
Example squash_symlink_in_dir_outside : squash_test
  [[($"lnkdir", "2"%char, $"../tgtdir"); ($"tgtdir", "5"%char, $"")];
   [($"lnkdir/file", "0"%char, $"")]] =
  Ret [($"lnkdir", "2"%char, $"../tgtdir"); ($"tgtdir/", "5"%char, $""); ($"tgtdir/file", "0"%char, $"")].
Proof. vm_compute. reflexivity. Qed.
Example squash_symlink_in_dir_absolute : squash_test
  [[($"dir", "5"%char, $""); ($"dir/lnkdir", "2"%char, $"/tgtdir"); ($"tgtdir", "5"%char, $"")];
   [($"dir/lnkdir/file", "0"%char, $"")]] =
  Ret [($"dir/", "5"%char, $""); ($"dir/lnkdir", "2"%char, $"/tgtdir"); ($"tgtdir/", "5"%char, $""); ($"tgtdir/file", "0"%char, $"")].
Proof. vm_compute. reflexivity. Qed.
Example squash_overwrite_links : squash_test
  [[($"bin", "5"%char, $""); ($"bin/busybox", "0"%char, $""); ($"bin/wget", "2"%char, $"busybox")];
   [($"bin/busybox", "3"%char, $""); ($"bin/wget", "2"%char, $"busybox")];
   [($"bin/busybox", "4"%char, $"")]] =
  Ret [($"bin/", "5"%char, $""); ($"bin/busybox", "4"%char, $""); ($"bin/wget", "2"%char, $"busybox")].
Proof. vm_compute. reflexivity. Qed.

(** pkg/python/pypa/direct_url/json_test.go TestJSONDumps *)
Example json_test : url_text (mkUrl $"file:///run/user/1000/tmpdir/TestPIPFlask-1.1.2-py2.py3-none-any.whl2100032774/001/Flask-1.1.2-py2.py3-none-any.whl" None (Some []) None) =
  $"{""archive_info"": {}, ""url"": ""file:///run/user/1000/tmpdir/TestPIPFlask-1.1.2-py2.py3-none-any.whl2100032774/001/Flask-1.1.2-py2.py3-none-any.whl""}".
Proof. vm_compute. reflexivity. Qed.

(** pkg/cliutil/cobra_tmpl_test.go TestHelpTemplate; the table of flags, which is made by pflag, is taken from the
    expected text *)
Example help_basic : help 80 (mkCommand $"frobnicate [flags] VARS_ARE_UNDERSCORE_AND_CAPITAL"
  $"One line description of program, no period"
  $"Longer description of program.  This is a paragraph.  Because it is a paragraph, it may be quite long and may need to be word-wrapped."
  None [] $"frobnicate" []
  (Some (fun _ => ($"  -b, --bar                 Barzooble the baz" ++ ["010"%char] ++ $"  -f, --filename FILENAME   Use FILENAME for the complex thing that" ++ ["010"%char] ++ $"                            requires a long explanation that will need to" ++ ["010"%char] ++ $"                            be wrapped on multiple lines" ++ ["010"%char] ++ $""))) None) =
  Some ($"Usage: frobnicate [flags] VARS_ARE_UNDERSCORE_AND_CAPITAL" ++ ["010"%char] ++ $"One line description of program, no period" ++ ["010"%char] ++ $"" ++ ["010"%char] ++ $"Longer description of program.  This is a paragraph.  Because it is a" ++ ["010"%char] ++ $"paragraph, it may be quite long and may need to be word-wrapped." ++ ["010"%char] ++ $"" ++ ["010"%char] ++ $"Flags:" ++ ["010"%char] ++ $"  -b, --bar                 Barzooble the baz" ++ ["010"%char] ++ $"  -f, --filename FILENAME   Use FILENAME for the complex thing that" ++ ["010"%char] ++ $"                            requires a long explanation that will need to" ++ ["010"%char] ++ $"                            be wrapped on multiple lines" ++ ["010"%char] ++ $"").
Proof. vm_compute. reflexivity. Qed.
Example help_no_short : help 80 (mkCommand $"frobnicate [flags] VARS_ARE_UNDERSCORE_AND_CAPITAL"
  []
  $"Longer description of program.  This is a paragraph.  Because it is a paragraph, it may be quite long and may need to be word-wrapped."
  None [] $"frobnicate" []
  (Some (fun _ => ($"  -b, --bar                 Barzooble the baz" ++ ["010"%char] ++ $"  -f, --filename FILENAME   Use FILENAME for the complex thing that" ++ ["010"%char] ++ $"                            requires a long explanation that will need to" ++ ["010"%char] ++ $"                            be wrapped on multiple lines" ++ ["010"%char] ++ $""))) None) =
  Some ($"Usage: frobnicate [flags] VARS_ARE_UNDERSCORE_AND_CAPITAL" ++ ["010"%char] ++ $"" ++ ["010"%char] ++ $"Longer description of program.  This is a paragraph.  Because it is a" ++ ["010"%char] ++ $"paragraph, it may be quite long and may need to be word-wrapped." ++ ["010"%char] ++ $"" ++ ["010"%char] ++ $"Flags:" ++ ["010"%char] ++ $"  -b, --bar                 Barzooble the baz" ++ ["010"%char] ++ $"  -f, --filename FILENAME   Use FILENAME for the complex thing that" ++ ["010"%char] ++ $"                            requires a long explanation that will need to" ++ ["010"%char] ++ $"                            be wrapped on multiple lines" ++ ["010"%char] ++ $"").
Proof. vm_compute. reflexivity. Qed.
Example help_no_long : help 80 (mkCommand $"frobnicate [flags] VARS_ARE_UNDERSCORE_AND_CAPITAL"
  $"One line description of program, no period"
  []
  None [] $"frobnicate" []
  (Some (fun _ => ($"  -b, --bar                 Barzooble the baz" ++ ["010"%char] ++ $"  -f, --filename FILENAME   Use FILENAME for the complex thing that" ++ ["010"%char] ++ $"                            requires a long explanation that will need to" ++ ["010"%char] ++ $"                            be wrapped on multiple lines" ++ ["010"%char] ++ $""))) None) =
  Some ($"Usage: frobnicate [flags] VARS_ARE_UNDERSCORE_AND_CAPITAL" ++ ["010"%char] ++ $"One line description of program, no period" ++ ["010"%char] ++ $"" ++ ["010"%char] ++ $"Flags:" ++ ["010"%char] ++ $"  -b, --bar                 Barzooble the baz" ++ ["010"%char] ++ $"  -f, --filename FILENAME   Use FILENAME for the complex thing that" ++ ["010"%char] ++ $"                            requires a long explanation that will need to" ++ ["010"%char] ++ $"                            be wrapped on multiple lines" ++ ["010"%char] ++ $"").
Proof. vm_compute. reflexivity. Qed.
Example help_subcommandWrap : help 80 (mkCommand $"frobnicate [flags] VARS_ARE_UNDERSCORE_AND_CAPITAL"
  $"One line description of program, no period"
  $"Longer description of program.  This is a paragraph.  Because it is a paragraph, it may be quite long and may need to be word-wrapped."
  None [] $"frobnicate" [mkSub $"example-subcommand" $"frobnicate example-subcommand" $"One line description of subcommand, one line on own, but wrapped in table" true false]
  (Some (fun _ => ($"  -b, --bar                 Barzooble the baz" ++ ["010"%char] ++ $"  -f, --filename FILENAME   Use FILENAME for the complex thing that" ++ ["010"%char] ++ $"                            requires a long explanation that will need to" ++ ["010"%char] ++ $"                            be wrapped on multiple lines" ++ ["010"%char] ++ $""))) None) =
  Some ($"Usage: frobnicate [flags] VARS_ARE_UNDERSCORE_AND_CAPITAL" ++ ["010"%char] ++ $"One line description of program, no period" ++ ["010"%char] ++ $"" ++ ["010"%char] ++ $"Longer description of program.  This is a paragraph.  Because it is a" ++ ["010"%char] ++ $"paragraph, it may be quite long and may need to be word-wrapped." ++ ["010"%char] ++ $"" ++ ["010"%char] ++ $"Available Commands:" ++ ["010"%char] ++ $"  example-subcommand   One line description of subcommand, one line on" ++ ["010"%char] ++ $"                       own, but wrapped in table" ++ ["010"%char] ++ $"" ++ ["010"%char] ++ $"Flags:" ++ ["010"%char] ++ $"  -b, --bar                 Barzooble the baz" ++ ["010"%char] ++ $"  -f, --filename FILENAME   Use FILENAME for the complex thing that" ++ ["010"%char] ++ $"                            requires a long explanation that will need to" ++ ["010"%char] ++ $"                            be wrapped on multiple lines" ++ ["010"%char] ++ $"" ++ ["010"%char] ++ $"Use ""frobnicate [command] --help"" for more information about a command." ++ ["010"%char] ++ $"").
Proof. vm_compute. reflexivity. Qed.
