(** Random cases with the results of Python, computed with the specifications and the model.
    Written by tools/pythontests.py with the modules packaging, configparser, stat, csv, json, posixpath and urllib.  These are tests of
    the specifications, not proofs of properties: they show that the specifications say what Python does. *)
From Coq Require Import String Ascii List Bool Arith ZArith NArith Lia.
From Verif.Model Require Import GoStr GoPath Pep440 Specifier WheelName ConfigParser Stat DirectURL SimpleAPI Record.
From Verif.Spec Require Import Pep440Spec SpecifierSpec PyConfigSpec DirectURLSpec RecordSpec PyNameSpec.
Import ListNotations.

Definition same_text (a b : option str) : bool := match a, b with Some a, Some b => str_eqb a b | None, None => true | _, _ => false end.
(** str(Version(s)), or None if s is no version *)
Example versions : forallb (fun '(s, e) => same_text (option_map version_string (parse_version s)) e)
  [($"0.1.2024.1-2024_dev3", Some $"0.1.2024.1.post2024.dev3");
   ($"v2024-A.1Dev", Some $"2024a1.dev0");
   ($"3-A_0 _dea", None);
   ($"00-Dev", Some $"0.dev0");
   ($"0.3_POST_1+ubuntu.ABC", Some $"0.3.post1+ubuntu.abc");
   ($"2.c.0-0", Some $"2rc0.post0");
   ($"V1.12-1.Dev01+1a.01.ABC", Some $"1.12.post1.dev1+1a.1.abc");
   ($"12!12.12.b_2-2024+a1", Some $"12!12.12b2.post2024+a1");
   ($"9", Some $"9");
   ($"0.0-DEV-01+abc.a1", Some $"0.0.dev1+abc.a1");
   ($"01.1-10", Some $"1.1.post10");
   ($"2_Beta.9Dev2024", Some $"2b9.dev2024");
   ((["010"%char] ++ $"2024.3 "), Some $"2024.3");
   ($"10.2024.2_dev2+2_ubuntu_1", Some $"10.2024.2.dev2+2.ubuntu.1");
   ($"2024.alpha1", Some $"2024a1");
   ($"2024.2024-Dev.12", Some $"2024.2024.dev12");
   ($"00-dev+0.01", Some $"0.dev0+0.1");
   ($"V01.10-b-Dev-2024+2", Some $"1.10b0.dev2024+2");
   ($"10.2", Some $"10.2");
   ($"v1r12", Some $"1.post12");
   ($"v00.alpha-dev-0+abc_ubuntu_0", Some $"0a0.dev0+abc.ubuntu.0");
   ((["010"%char] ++ $"12.2024.10.2024.c+ABC_1a_01 "), Some $"12.2024.10.2024rc0+abc.1a.1");
   ($"00.rc", Some $"0rc0");
   ($"01+2", Some $"1+2");
   ($"V9_D_*V", None);
   ($"0.9.3rc_12-0", Some $"0.9.3rc12.post0");
   ($"V00.cDev.1", Some $"0rc0.dev1");
   ($"12!12prE+ABC", Some $"12!12rc0+abc");
   ($"V2024!00.10.b2+a1.abc.0", Some $"2024!0.10b2+a1.abc.0");
   ($"v12.10.00.2-dev+1.ABC.ABC", Some $"12.10.0.2.dev0+1.abc.abc");
   ((["010"%char] ++ $"10.00-rev-DEV10 "), Some $"10.0.post0.dev10");
   ($"12.!_DEV_", None);
   ($"v2024*!2024.3", None);
   ($"3.0.10-DEV", Some $"3.0.10.dev0");
   ($"1.pre_12_Rev_0", Some $"1rc12.post0");
   ($"2prE_1-0-Dev+1", Some $"2rc1.post0.dev0+1");
   ($"12_Dev-0+1a_2_ABC", Some $"12.dev0+1a.2.abc");
   ($"01.10.01.10-prE1_dev-00", Some $"1.10.1.10rc1.dev0");
   ($"10!3.pre", Some $"10!3rc0");
   ($"1a.0.00", None);
   ($"3!01.00_dev+0-1-1a", Some $"3!1.0.dev0+0.1.1a");
   ($"1.0RC-01-01+1a_ABC", Some $"1.0rc1.post1+1a.abc");
   ($"V00.2.9.3-preview-9_dev+2", Some $"0.2.9.3rc9.dev0+2");
   ($"v3.2024.1-r-00.dev.00", Some $"3.2024.1.post0.dev0");
   ($"12-12.Dev", Some $"12.post12.dev0");
   ($"1_", None);
   ($"V0!2024.12pre+1-ABC", Some $"2024.12rc0+1.abc");
   ($"01 3_10.10.3dev", None);
   ($"00.2_d.ev-+", None);
   ($"2.9_A.10Rev01", Some $"2.9a10.post1");
   ($"10.01_DEV", Some $"10.1.dev0");
   ($"V12.dev-2024+01_1", Some $"12.dev2024+1.1");
   ($"2", Some $"2");
   ($"01!00.2.01-12+01.ABC", Some $"1!0.2.1.post12+1.abc");
   ($"V2024!aa1", None);
   ($"3.2-DEV -0+1a-1a-ubuntu", None);
   ($"v1.2024-Revdev.12+A*C.1a.ABCa", None);
   ($"0d!ev9+x.ubuntu.1a", None);
   ($".024.0+01_a!bc", None);
   ($"2024.00.b-3-rev_01", Some $"2024.0b3.post1");
   ($" 0.0.10-00dev.01", Some $"0.0.10.post0.dev1");
   ($"9!3.2024-10Dev-12+ABC", Some $"9!3.2024.post10.dev12+abc");
   ($"V01", Some $"1");
   ($"2024!01-9+a1", Some $"2024!1.post9+a1");
   ($"9.01+abc.0.01", Some $"9.1+abc.0.1");
   ($"v1.10", Some $"1.10");
   ($"2024.2.10+x_1_a1", Some $"2024.2.10+x.1.a1");
   ($"01.2.12+abc-ubuntu-abc", Some $"1.2.12+abc.ubuntu.abc");
   ($"2.3.01.9-01", Some $"2.3.1.9.post1");
   ($"1.00.3.10-10_dev", Some $"1.0.3.10.post10.dev0");
   ($"3.2.1+1a", Some $"3.2.1+1a");
   ($"0.9", Some $"0.9");
   ($"V01.rc-1_De ", None);
   ($"10.0_pre-9", Some $"10.0rc9");
   ($"2_Rev+__1_0_a1", None);
   ((["009"%char] ++ $"01.3"), Some $"1.3");
   ($"9!2.2024dev", Some $"9!2.2024.dev0");
   ($"V3Dev", Some $"3.dev0");
   ($"1.00.10.preview+x.1.01", Some $"1.0.10rc0+x.1.1");
   ($"01.10-Dev0", Some $"1.10.dev0");
   ($"2.0_Beta", Some $"2.0b0");
   ($"00.01+abc_0", Some $"0.1+abc.0");
   ((["009"%char] ++ $"1.0.10+1"), Some $"1.0.10+1");
   ($"2.9.1_Beta", Some $"2.9.1b0");
   ($"00. ", None);
   ($"10!9.2.1 2_dev+2_2_abc", None);
   ((["010"%char] ++ $"01 "), Some $"1");
   ($"0Beta-00", Some $"0b0");
   ($"2.2_POSTDev-9", Some $"2.2.post0.dev9");
   ($"10.10+ABC.ABC", Some $"10.10+abc.abc");
   ($"00", Some $"0");
   ($"01.2024_pre.3+1-1a-0", Some $"1.2024rc3+1.1a.0");
   ($"10!2024.00.2024. c2-POST.3+2_01", None);
   ($" v12.9.9-pre12 ", Some $"12.9.9rc12");
   ($"9+abc-2-ubuntu", Some $"9+abc.2.ubuntu");
   ($"v2-beta", Some $"2b0");
   ($"12.1.12-pre01", Some $"12.1.12rc1");
   ($"3-prE.12", Some $"3rc12");
   ($"3!0.2.12.2024_DEV.2+01-ABC", Some $"3!0.2.12.2024.dev2+1.abc");
   ((["009"%char] ++ $"2024!3.DEV_00 "), Some $"2024!3.dev0");
   ($"V0!2024.01", Some $"2024.1");
   ($"V2.2.2.Rev.Dev+ubuntu.1a.1", Some $"2.2.2.post0.dev0+ubuntu.1a.1");
   ($"1.0-dev+x_x", Some $"1.0.dev0+x.x");
   ($"1_-R!ev00+1", None);
   ($"v9.12.2024_b-12+x", Some $"9.12.2024b12+x");
   ($"10!10.9.9.2024beta.01", Some $"10!10.9.9.2024b1");
   ($"2024!01_Beta01.Rev3", Some $"2024!1b1.post3");
   ($"0", Some $"0");
   ($"v0.11.3-00", Some $"0.11.3.post0");
   ($"a2024.00.12.9 Rev", None);
   ($"01.12.00.alpha0", Some $"1.12.0a0");
   ($"3.2.10-rc.9", Some $"3.2.10rc9");
   ($"10POST_9+a_1a_0", Some $"10.post9+a.1a.0");
   ($"01.0.12.10-00", Some $"1.0.12.10.post0");
   ((["010"%char] ++ $"0.0_alpha_2024 "), Some $"0.0a2024");
   ($"v10", Some $"10");
   ($"9.01.2024-01+1a-01-ubuntu", Some $"9.1.2024.post1+1a.1.ubuntu");
   ($"", None);
   ($"10.1_Dev*-2024", None);
   ($"v12.1!2.9", None);
   ($"v1.01.3_Dev12-", None);
   ($"1.3", Some $"1.3");
   ($"v2!10.2-pre", Some $"2!10.2rc0");
   ($"00.01alpha.3-Rev", Some $"0.1a3.post0");
   ($"3.00.12-12", Some $"3.0.12.post12");
   ((["009"%char] ++ $"00!10.0.9.2_prE2-Dev-3"), Some $"10.0.9.2rc2.dev3");
   ((["009"%char] ++ $"2.00-Beta-+10"), Some $"2.0b0+10");
   ($"10*", None);
   ($"01.0*.1Dev3+1a1", None);
   ((["010"%char] ++ $"01.2024"), Some $"1.2024");
   ($"12-+2024+2-avc", None);
   ($"01.00.2.2+_rev+a1", None);
   ($"2_RC-00-12", Some $"2rc0.post12");
   ($"0!+01", None);
   ($"v00!9.01.10.2.Dev-00+1a.1.abc", Some $"9.1.10.2.dev0+1a.1.abc");
   ($"V1.2.3.2_b12_dev-1", Some $"1.2.3.2b12.dev1");
   ($"2-Rev.12", Some $"2.post12");
   ($"V1.0.01._r ", None);
   ($"2024.3.dev", Some $"2024.3.dev0");
   ($"3.2024-2024", Some $"3.2024.post2024");
   ($"9-01.DEV-1", Some $"9.post1.dev1");
   ((["010"%char] ++ $"_01.2.01.0 1-dev "), None);
   ($"0.9+*11", None);
   ($"01!12+x.1a.0", Some $"1!12+x.1a.0");
   ($"2024.1.01.alpha.9", Some $"2024.1.1a9");
   ($"01.3_RC-2024", Some $"1.3rc2024");
   ($"1-prE.01", Some $"1rc1");
   ($"3POST", Some $"3.post0");
   ($"01.1.3.9", Some $"1.1.3.9");
   ($"12.alpha2.post_12", Some $"12a2.post12");
   ($"1+ubuntu.1", Some $"1+ubuntu.1");
   ($"0.12.10.9_dev", Some $"0.12.10.9.dev0");
   ($"01-dev0+a1", Some $"1.dev0+a1");
   ($"2.9.9-prE-2024-dev+abc", Some $"2.9.9rc2024.dev0+abc");
   ($"0-2", Some $"0.post2");
   ($"10.12b 1-10_dev.01", None);
   ((["009"%char] ++ $"2.00-a.01+a1"), Some $"2.0a1+a1");
   ($"V2.Rev-1+1a-a1-1 ", Some $"2.post1+1a.a1.1");
   ($"0.0.01.1-12+ubuntu_2_ubuntu", Some $"0.0.1.1.post12+ubuntu.2.ubuntu");
   ($"3-2", Some $"3.post2");
   ($"v00.2024.01", Some $"0.2024.1");
   ($"10.10+x_1a", Some $"10.10+x.1a");
   ($"9!0", Some $"9!0");
   ($"12.2024.01.9", Some $"12.2024.1.9");
   ($"V01.1.2024.*3_De-", None);
   ($"12.2.0.01+ABC.1a.2", Some $"12.2.0.1+abc.1a.2");
   ($"1.00.10.00", Some $"1.0.10.0");
   ($"v3.9.01.dev-0", Some $"3.9.1.dev0");
   ((["009"%char] ++ $"1.2024_DEV "), Some $"1.2024.dev0");
   ($"10.Rev-1+1a-ubuntu", Some $"10.post1+1a.ubuntu");
   ($"91", Some $"91");
   ($"v*.10.a024.0-01+abc", None);
   ($"10!2.A-10+ubuntu-_BC", None);
   ($"9.2.01.01prE10.DEV-3", Some $"9.2.1.1rc10.dev3");
   ($"0a.1", Some $"0a1");
   ($"2024-3", Some $"2024.post3");
   ($"2_alpha-2024-R-ev..2", None);
   ($"0r_0 1", None);
   ($"9post-3-DEV_.2", None);
   ($"v10.12.0prv", None);
   ($"v3!2_dev+.9", None);
   ($"202.4.3+.1preview.3", None);
   ($"01!0.alpha-1-10dev.3", Some $"1!0a1.post10.dev3");
   ($"9-POST01", Some $"9.post1");
   ($"12.9.2.10", Some $"12.9.2.10");
   ($"00_Dev.12", Some $"0.dev12");
   ($"10.1-Beta", Some $"10.1b0");
   ($"2024!1+01.0", Some $"2024!1+1.0");
   ($"0.10.2.10.beta", Some $"0.10.2.10b0");
   ($"2024.0.b-01_rev-10", Some $"2024.0b1.post10");
   ($"0.12.12Dev", Some $"0.12.12.dev0");
   ($"01!2.0DEV", Some $"1!2.0.dev0");
   ($"V10.12 01.00_a-2.r", None);
   ($"00.01.10.01.Dev", Some $"0.1.10.1.dev0");
   ($"V10.1.00+.a0+ABC", None);
   ($"9!10.1.00.2", Some $"9!10.1.0.2");
   ($"10.10", Some $"10.10");
   ($"2.3pre9-10", Some $"2.3rc9.post10");
   ($"10.00.2.10-*1", None);
   ($"*2.12preview-Rev.3", None);
   ($"00!1.9.1a10", Some $"1.9.1a10");
   ($"V12.9_dev-3", Some $"12.9.dev3");
   ($"v2024Dev+uauntu.ABC.ubuntu", Some $"2024.dev0+uauntu.abc.ubuntu");
   ($"12", Some $"12");
   ($"V2.1.r-0", Some $"2.1.post0");
   ($"2.2aprEDEV", None);
   ($"v2!_12", None);
   ($"9.2_RC_1", Some $"9.2rc1");
   ($"v-0pre2024+0*", None);
   ($"10.0.1", Some $"10.0.1");
   ($"0!+2024.9.00_.12-3", None);
   ($"V2.12+2", Some $"2.12+2");
   ($"9.9", Some $"9.9");
   ($"2!0.2.r-01+0.x.a1", Some $"2!0.2.post1+0.x.a1");
   ($"_ 0.3+*a1-a1 ", None);
   ($" 00-2 ", Some $"0.post2");
   ((["010"%char] ++ $"1+1.2.a1"), Some $"1+1.2.a1");
   ($"12.2_rev+2", Some $"12.2.post0+2");
   ($"3rc--0+2-x-x", Some $"3rc0.post0+2.x.x");
   ((["010"%char] ++ $"01.Rev3"), Some $"1.post3");
   ($"12a-12", Some $"12a12");
   ($" 3!00 ", Some $"3!0");
   ((["009"%char] ++ $"1.0.Dev-3+.0-01 "), None);
   ($"2.v2024Beta.12+1-a1-01", None);
   ($"3-RC_0_rev+0", Some $"3rc0.post0+0");
   ($"0-.10 Beta9-Dev+2.ABC.1a", None);
   ($"12!00.9+2_1", Some $"12!0.9+2.1");
   ($"00_post_00-Dev.10", Some $"0.post0.dev10");
   ($"3.10.01.2024prE_3", Some $"3.10.1.2024rc3");
   ($"01.3_POST", Some $"1.3.post0");
   ($"0", Some $"0");
   ($"10.01_prE2", Some $"10.1rc2");
   ($"01Dev._9+ubuntu.1a.ubuntu", None);
   ($"v3.0.0.1c-1_DEV-0+2", Some $"3.0.0.1rc1.dev0+2");
   ($"01.01.2024.12rc_10_dev9+0_abc", Some $"1.1.2024.12rc10.dev9+0.abc");
   ($"3-12-dev", Some $"3.post12.dev0");
   ($"V00.10.01.2024-9.DEV+ubuntu_a1_0", Some $"0.10.1.2024.post9.dev0+ubuntu.a1.0");
   ($"v1_.1.preview_01", None);
   ($"v9_!00", None);
   ($"2.2024_DEV-01", Some $"2.2024.dev1");
   ($"V9+abc.0.2", Some $"9+abc.0.2");
   ($"2024!2.9.prE-3+1-1-a1", Some $"2024!2.9rc3+1.1.a1");
   ($"01-9*dev_9", None);
   ($"3", Some $"3");
   ($"2024!0.2024.12.01", Some $"2024!0.2024.12.1");
   ($"v0RC", Some $"0rc0");
   ($"01.00", Some $"1.0");
   ($"V3.3.3.01", Some $"3.3.3.1");
   ($"2-2024_dev+ubuntu-01", Some $"2.post2024.dev0+ubuntu.1");
   ($"av2024.2RC3-2024_dev", None);
   ($"3.2024.Rev12", Some $"3.2024.post12");
   ($"v10-2.01", None);
   ($"2.3-post", Some $"2.3.post0");
   ($"9.2024.c-10_DEV+1_01_a1", Some $"9.2024rc10.dev0+1.1.a1");
   ($"a1-2024.", None);
   ($" 00.0.01-2024", Some $"0.0.1.post2024");
   ((["010"%char] ++ $"V10rc2"), Some $"10rc2");
   ($"0!1-prE.1-rev+1.01", Some $"1rc1.post0+1.1");
   ($"0.12.2024.9POST+ubuntu.01.0", Some $"0.12.2024.9.post0+ubuntu.1.0");
   ($"2024!01", Some $"2024!1");
   ($"2. 1.10.Beta-01-dev_00", None);
   ((["009"%char] ++ $"0.*!10 "), None);
   ($"00.12.01.10+ABC.1.x", Some $"0.12.1.10+abc.1.x");
   ((["009"%char] ++ $"10!00post0 "), Some $"10!0.post0");
   ($"1.2.2024.00.c_3-9_DEV10", Some $"1.2.2024.0rc3.post9.dev10");
   ($"V1.2024.01.10", Some $"1.2024.1.10");
   ($"V01.2.01", Some $"1.2.1");
   ($"2.01.0_b-9", Some $"2.1.0b9");
   ($"9-prE.9.Rev3", Some $"9rc9.post3");
   ($"v00A.0.post!1", None);
   ($"0", Some $"0");
   ($"00.2024.rc", Some $"0.2024rc0");
   ($"v3.post", Some $"3.post0");
   ($"3.0.9r01+01", Some $"3.0.9.post1+1");
   ($"2024!2.9prE.0.Dev_2", Some $"2024!2.9rc0.dev2");
   ($"V3!10...3.10-beta-3-1v", None);
   ($"9.DEV.0", Some $"9.dev0");
   ($"2.011_DEV.0+abc_01", Some $"2.11.dev0+abc.1");
   ($"0!1.00", Some $"1.0");
   ($"2024.3.00", Some $"2024.3.0");
   ($"2.2024.0-DEV", Some $"2.2024.0.dev0");
   ($"00.10_r+abc-abc-1a", Some $"0.10.post0+abc.abc.1a");
   ($"2024.0_a.DEV01+01", Some $"2024.0a0.dev1+1");
   ($"2.01.prE-0", Some $"2.1rc0");
   ($"Va0+1a.01", None);
   ((["009"%char] ++ $"v3.alpha"), Some $"3a0");
   ($"v01.0.POST.01", Some $"1.0.post1");
   ($"0.0+ubuntu_1a", Some $"0.0+ubuntu.1a");
   ($"12.1.00.12dev", Some $"12.1.0.12.dev0");
   ($"2.1.2024.2024+a1-x", Some $"2.1.2024.2024+a1.x");
   ($"01!01", Some $"1!1");
   ($"3._10.Beta_01-12+", None);
   ($"2024.2.9.2.Dev_9+abc-ubuntu", Some $"2024.2.9.2.dev9+abc.ubuntu");
   ($"12.01.9.2", Some $"12.1.9.2");
   ($"v2024.2.0._.1a12-2+x", None);
   ($"2024.0Dev_9", Some $"2024.0.dev9");
   ($"00.rc-10-01", Some $"0rc10.post1");
   ($"10.2_Rev.3", Some $"10.2.post3");
   ($"V3.01.10", Some $"3.1.10");
   ($"2.*00.1.10", None)] = true.
Proof. vm_compute. reflexivity. Qed.

Definition parsed (s : str) : version :=
  match parse_version s with Some v => v | None => mkVersion (mkPublic 0 [] None None None) [] end.
Definition same_order (a b : comparison) : bool := match a, b with Lt, Lt | Eq, Eq | Gt, Gt => true | _, _ => false end.
(** the order of packaging *)
Example order : (let vs := map parsed [$"10.00.prE_9-2024"; $"9.3-post_1dev3+2-ABC"; $"3.01_b01rev.01"; $"9"; $"10Dev.12"; $"V0.0_Beta"; $"00!10"; $"00.2024r01"; $"V10.1-3"; (["009"%char] ++ $"9.00.DEV.1 "); $"1-00.Dev.1"; $"V12.00"; $"9.0-1+a1-ABC-ubuntu"; $"2024!01.3+abc-1a"; $"3.10.12.rc-Dev+ABC"; $"V10.0.3+ubuntu_ABC_1a"; $"2.2024"; $"01-12"; $"v2024.beta-00_dev_12"; $"3!00.3preview-Rev1"; $"2.3-RC-9"; $"00.00.10.2024"; (["009"%char] ++ $"2.preview+0"); (["010"%char] ++ $"V1.10.3+0-1a-1a"); $"3.3a_12+a1-1-1a"; (["010"%char] ++ $"2.2+ubuntu_x "); $"0.2DEV"; $"1.2_RC_2"; $"1.2.0.0c2"; (["010"%char] ++ $"2.0.0_beta-DEV0"); (["009"%char] ++ $"1!1-0+1"); $"2.2"; $"0.2.2.1-RC.0dev"; $"0.1.0_rc.0+1-1a-0"; $"1.2.1+ABC"; $"1!1.1_alpha-1.Dev_0"; $"2.0_Dev"; $"1.2.2-Beta1"; $"2.0.DEV"; $"1.1alpha_1+ubuntu_ubuntu_1a"; $"1.0.1.2+abc"; (["010"%char] ++ $"1.2.0rc.2 "); $"0_r-1.dev"; $"0.0.1"; $"0.0"; $"0.2"; $"0!0.2.2"; $"1"; $"0.2.1.2_Dev.2"; $"V0.2.0.0.post"] in
  forallb (fun '(ab, c) => same_order (pep440_compare (fst ab) (snd ab)) c) (combine (list_prod vs vs)
  [Eq;Gt;Gt;Gt;Gt;Gt;Lt;Gt;Lt;Gt;Gt;Lt;Gt;Lt;Gt;Lt;Gt;Gt;Lt;Lt;Gt;Gt;Gt;Gt;Gt;Gt;Gt;Gt;Gt;Gt;Lt;Gt;Gt;Gt;Gt;Lt;Gt;Gt;Gt;Gt;Gt;Gt;Gt;Gt;Gt;Gt;Gt;Gt;Gt;Gt;Lt;Eq;Gt;Gt;Lt;Gt;Lt;Gt;Lt;Gt;Gt;Lt;Gt;Lt;Gt;Lt;Gt;Gt;Lt;Lt;Gt;Gt;Gt;Gt;Gt;Gt;Gt;Gt;Gt;Gt;Lt;Gt;Gt;Gt;Gt;Lt;Gt;Gt;Gt;Gt;Gt;Gt;Gt;Gt;Gt;Gt;Gt;Gt;Gt;Gt;Lt;Lt;Eq;Lt;Lt;Gt;Lt;Gt;Lt;Lt;Gt;Lt;Lt;Lt;Lt;Lt;Gt;Gt;Lt;Lt;Gt;Gt;Gt;Gt;Lt;Gt;Gt;Gt;Gt;Gt;Lt;Gt;Gt;Gt;Gt;Lt;Gt;Gt;Gt;Gt;Gt;Gt;Gt;Gt;Gt;Gt;Gt;Gt;Gt;Gt;Lt;Lt;Gt;Eq;Lt;Gt;Lt;Gt;Lt;Gt;Gt;Lt;Lt;Lt;Gt;Lt;Gt;Gt;Lt;Lt;Gt;Gt;Gt;Gt;Gt;Gt;Gt;Gt;Gt;Gt;Lt;Gt;Gt;Gt;Gt;Lt;Gt;Gt;Gt;Gt;Gt;Gt;Gt;Gt;Gt;Gt;Gt;Gt;Gt;Gt;Lt;Gt;Gt;Gt;Eq;Gt;Lt;Gt;Lt;Gt;Gt;Lt;Gt;Lt;Gt;Lt;Gt;Gt;Lt;Lt;Gt;Gt;Gt;Gt;Gt;Gt;Gt;Gt;Gt;Gt;Lt;Gt;Gt;Gt;Gt;Lt;Gt;Gt;Gt;Gt;Gt;Gt;Gt;Gt;Gt;Gt;Gt;Gt;Gt;Gt;Lt;Lt;Lt;Lt;Lt;Eq;Lt;Lt;Lt;Lt;Lt;Lt;Lt;Lt;Lt;Lt;Lt;Lt;Lt;Lt;Lt;Lt;Lt;Lt;Lt;Lt;Lt;Lt;Lt;Lt;Lt;Lt;Lt;Lt;Lt;Lt;Lt;Lt;Lt;Lt;Lt;Lt;Lt;Lt;Lt;Lt;Lt;Lt;Lt;Lt;Gt;Gt;Gt;Gt;Gt;Gt;Eq;Gt;Lt;Gt;Gt;Lt;Gt;Lt;Gt;Lt;Gt;Gt;Lt;Lt;Gt;Gt;Gt;Gt;Gt;Gt;Gt;Gt;Gt;Gt;Lt;Gt;Gt;Gt;Gt;Lt;Gt;Gt;Gt;Gt;Gt;Gt;Gt;Gt;Gt;Gt;Gt;Gt;Gt;Gt;Lt;Lt;Lt;Lt;Lt;Gt;Lt;Eq;Lt;Lt;Lt;Lt;Lt;Lt;Lt;Lt;Lt;Lt;Lt;Lt;Lt;Gt;Lt;Lt;Lt;Lt;Gt;Lt;Lt;Lt;Lt;Lt;Gt;Gt;Lt;Lt;Lt;Lt;Lt;Lt;Lt;Lt;Gt;Gt;Gt;Gt;Gt;Lt;Gt;Gt;Gt;Gt;Gt;Gt;Gt;Gt;Gt;Gt;Eq;Gt;Gt;Lt;Gt;Lt;Gt;Gt;Gt;Gt;Lt;Lt;Gt;Gt;Gt;Gt;Gt;Gt;Gt;Gt;Gt;Gt;Lt;Gt;Gt;Gt;Gt;Lt;Gt;Gt;Gt;Gt;Gt;Gt;Gt;Gt;Gt;Gt;Gt;Gt;Gt;Gt;Lt;Lt;Gt;Lt;Lt;Gt;Lt;Gt;Lt;Eq;Gt;Lt;Lt;Lt;Gt;Lt;Gt;Gt;Lt;Lt;Gt;Gt;Gt;Gt;Gt;Gt;Gt;Gt;Gt;Gt;Lt;Gt;Gt;Gt;Gt;Lt;Gt;Gt;Gt;Gt;Gt;Gt;Gt;Gt;Gt;Gt;Gt;Gt;Gt;Gt;Lt;Lt;Lt;Lt;Lt;Gt;Lt;Gt;Lt;Lt;Eq;Lt;Lt;Lt;Lt;Lt;Lt;Lt;Lt;Lt;Lt;Gt;Lt;Lt;Lt;Lt;Gt;Lt;Lt;Lt;Lt;Lt;Gt;Gt;Lt;Lt;Lt;Lt;Lt;Lt;Lt;Lt;Gt;Gt;Gt;Gt;Gt;Gt;Gt;Gt;Gt;Gt;Gt;Gt;Gt;Gt;Gt;Gt;Gt;Gt;Gt;Eq;Gt;Lt;Gt;Gt;Gt;Gt;Lt;Lt;Gt;Gt;Gt;Gt;Gt;Gt;Gt;Gt;Gt;Gt;Lt;Gt;Gt;Gt;Gt;Lt;Gt;Gt;Gt;Gt;Gt;Gt;Gt;Gt;Gt;Gt;Gt;Gt;Gt;Gt;Lt;Lt;Gt;Gt;Lt;Gt;Lt;Gt;Lt;Gt;Gt;Lt;Eq;Lt;Gt;Lt;Gt;Gt;Lt;Lt;Gt;Gt;Gt;Gt;Gt;Gt;Gt;Gt;Gt;Gt;Lt;Gt;Gt;Gt;Gt;Lt;Gt;Gt;Gt;Gt;Gt;Gt;Gt;Gt;Gt;Gt;Gt;Gt;Gt;Gt;Gt;Gt;Gt;Gt;Gt;Gt;Gt;Gt;Gt;Gt;Gt;Gt;Gt;Eq;Gt;Gt;Gt;Gt;Gt;Gt;Gt;Gt;Gt;Gt;Gt;Gt;Gt;Gt;Gt;Gt;Gt;Gt;Gt;Gt;Gt;Gt;Gt;Gt;Gt;Gt;Gt;Gt;Gt;Gt;Gt;Gt;Gt;Gt;Gt;Gt;Lt;Lt;Gt;Lt;Lt;Gt;Lt;Gt;Lt;Lt;Gt;Lt;Lt;Lt;Eq;Lt;Gt;Gt;Lt;Lt;Gt;Gt;Gt;Gt;Gt;Gt;Gt;Gt;Gt;Gt;Lt;Gt;Gt;Gt;Gt;Lt;Gt;Gt;Gt;Gt;Gt;Gt;Gt;Gt;Gt;Gt;Gt;Gt;Gt;Gt;Gt;Gt;Gt;Gt;Gt;Gt;Gt;Gt;Lt;Gt;Gt;Lt;Gt;Lt;Gt;Eq;Gt;Gt;Lt;Lt;Gt;Gt;Gt;Gt;Gt;Gt;Gt;Gt;Gt;Gt;Lt;Gt;Gt;Gt;Gt;Lt;Gt;Gt;Gt;Gt;Gt;Gt;Gt;Gt;Gt;Gt;Gt;Gt;Gt;Gt;Lt;Lt;Lt;Lt;Lt;Gt;Lt;Gt;Lt;Lt;Gt;Lt;Lt;Lt;Lt;Lt;Eq;Gt;Lt;Lt;Gt;Gt;Gt;Gt;Lt;Gt;Gt;Gt;Gt;Gt;Lt;Gt;Gt;Gt;Gt;Lt;Gt;Gt;Gt;Gt;Gt;Gt;Gt;Gt;Gt;Gt;Gt;Gt;Gt;Gt;Lt;Lt;Lt;Lt;Lt;Gt;Lt;Gt;Lt;Lt;Gt;Lt;Lt;Lt;Lt;Lt;Lt;Eq;Lt;Lt;Lt;Gt;Lt;Lt;Lt;Lt;Gt;Lt;Lt;Lt;Lt;Lt;Gt;Gt;Lt;Lt;Lt;Lt;Lt;Lt;Lt;Lt;Gt;Gt;Gt;Gt;Gt;Gt;Gt;Gt;Gt;Gt;Gt;Gt;Gt;Gt;Gt;Gt;Gt;Gt;Gt;Gt;Gt;Lt;Gt;Gt;Gt;Gt;Eq;Lt;Gt;Gt;Gt;Gt;Gt;Gt;Gt;Gt;Gt;Gt;Lt;Gt;Gt;Gt;Gt;Lt;Gt;Gt;Gt;Gt;Gt;Gt;Gt;Gt;Gt;Gt;Gt;Gt;Gt;Gt;Gt;Gt;Gt;Gt;Gt;Gt;Gt;Gt;Gt;Gt;Gt;Gt;Gt;Lt;Gt;Gt;Gt;Gt;Gt;Eq;Gt;Gt;Gt;Gt;Gt;Gt;Gt;Gt;Gt;Gt;Gt;Gt;Gt;Gt;Gt;Gt;Gt;Gt;Gt;Gt;Gt;Gt;Gt;Gt;Gt;Gt;Gt;Gt;Gt;Gt;Lt;Lt;Lt;Lt;Lt;Gt;Lt;Gt;Lt;Lt;Gt;Lt;Lt;Lt;Lt;Lt;Lt;Gt;Lt;Lt;Eq;Gt;Gt;Gt;Lt;Gt;Gt;Gt;Gt;Gt;Lt;Gt;Gt;Gt;Gt;Lt;Gt;Gt;Gt;Gt;Gt;Gt;Gt;Gt;Gt;Gt;Gt;Gt;Gt;Gt;Lt;Lt;Lt;Lt;Lt;Gt;Lt;Lt;Lt;Lt;Lt;Lt;Lt;Lt;Lt;Lt;Lt;Lt;Lt;Lt;Lt;Eq;Lt;Lt;Lt;Lt;Lt;Lt;Lt;Lt;Lt;Lt;Lt;Lt;Lt;Lt;Lt;Lt;Lt;Lt;Lt;Lt;Gt;Gt;Gt;Lt;Lt;Lt;Lt;Lt;Lt;Lt;Lt;Lt;Lt;Gt;Lt;Gt;Lt;Lt;Gt;Lt;Lt;Lt;Lt;Lt;Lt;Gt;Lt;Lt;Lt;Gt;Eq;Gt;Lt;Lt;Gt;Gt;Gt;Gt;Lt;Lt;Gt;Gt;Gt;Lt;Gt;Gt;Gt;Gt;Gt;Gt;Gt;Gt;Gt;Gt;Gt;Gt;Gt;Gt;Lt;Lt;Lt;Lt;Lt;Gt;Lt;Gt;Lt;Lt;Gt;Lt;Lt;Lt;Lt;Lt;Lt;Gt;Lt;Lt;Lt;Gt;Lt;Eq;Lt;Lt;Gt;Gt;Gt;Lt;Lt;Lt;Gt;Gt;Gt;Lt;Lt;Gt;Lt;Gt;Gt;Gt;Gt;Gt;Gt;Gt;Gt;Gt;Gt;Gt;Lt;Lt;Gt;Lt;Lt;Gt;Lt;Gt;Lt;Lt;Gt;Lt;Lt;Lt;Lt;Lt;Gt;Gt;Lt;Lt;Gt;Gt;Gt;Gt;Eq;Gt;Gt;Gt;Gt;Gt;Lt;Gt;Gt;Gt;Gt;Lt;Gt;Gt;Gt;Gt;Gt;Gt;Gt;Gt;Gt;Gt;Gt;Gt;Gt;Gt;Lt;Lt;Lt;Lt;Lt;Gt;Lt;Gt;Lt;Lt;Gt;Lt;Lt;Lt;Lt;Lt;Lt;Gt;Lt;Lt;Lt;Gt;Gt;Gt;Lt;Eq;Gt;Gt;Gt;Gt;Lt;Gt;Gt;Gt;Gt;Lt;Gt;Gt;Gt;Gt;Gt;Gt;Gt;Gt;Gt;Gt;Gt;Gt;Gt;Gt;Lt;Lt;Lt;Lt;Lt;Gt;Lt;Lt;Lt;Lt;Lt;Lt;Lt;Lt;Lt;Lt;Lt;Lt;Lt;Lt;Lt;Gt;Lt;Lt;Lt;Lt;Eq;Lt;Lt;Lt;Lt;Lt;Lt;Gt;Lt;Lt;Lt;Lt;Lt;Lt;Lt;Lt;Gt;Gt;Gt;Lt;Lt;Lt;Lt;Lt;Lt;Lt;Lt;Lt;Lt;Gt;Lt;Gt;Lt;Lt;Gt;Lt;Lt;Lt;Lt;Lt;Lt;Gt;Lt;Lt;Lt;Gt;Lt;Lt;Lt;Lt;Gt;Eq;Eq;Lt;Lt;Lt;Gt;Gt;Lt;Lt;Lt;Lt;Lt;Gt;Gt;Eq;Gt;Gt;Gt;Gt;Gt;Gt;Gt;Gt;Lt;Lt;Lt;Lt;Lt;Gt;Lt;Gt;Lt;Lt;Gt;Lt;Lt;Lt;Lt;Lt;Lt;Gt;Lt;Lt;Lt;Gt;Lt;Lt;Lt;Lt;Gt;Eq;Eq;Lt;Lt;Lt;Gt;Gt;Lt;Lt;Lt;Lt;Lt;Gt;Gt;Eq;Gt;Gt;Gt;Gt;Gt;Gt;Gt;Gt;Lt;Lt;Lt;Lt;Lt;Gt;Lt;Gt;Lt;Lt;Gt;Lt;Lt;Lt;Lt;Lt;Lt;Gt;Lt;Lt;Lt;Gt;Lt;Gt;Lt;Lt;Gt;Gt;Gt;Eq;Lt;Lt;Gt;Gt;Gt;Lt;Gt;Gt;Gt;Gt;Gt;Gt;Gt;Gt;Gt;Gt;Gt;Gt;Gt;Gt;Gt;Gt;Gt;Gt;Gt;Gt;Gt;Gt;Gt;Gt;Gt;Gt;Gt;Lt;Gt;Gt;Gt;Gt;Gt;Lt;Gt;Gt;Gt;Gt;Gt;Gt;Gt;Gt;Gt;Gt;Eq;Gt;Gt;Gt;Gt;Lt;Gt;Gt;Gt;Gt;Gt;Gt;Gt;Gt;Gt;Gt;Gt;Gt;Gt;Gt;Lt;Lt;Lt;Lt;Lt;Gt;Lt;Gt;Lt;Lt;Gt;Lt;Lt;Lt;Lt;Lt;Lt;Gt;Lt;Lt;Lt;Gt;Gt;Gt;Lt;Lt;Gt;Gt;Gt;Gt;Lt;Eq;Gt;Gt;Gt;Lt;Gt;Gt;Gt;Gt;Gt;Gt;Gt;Gt;Gt;Gt;Gt;Gt;Gt;Gt;Lt;Lt;Lt;Lt;Lt;Gt;Lt;Lt;Lt;Lt;Lt;Lt;Lt;Lt;Lt;Lt;Lt;Lt;Lt;Lt;Lt;Gt;Lt;Lt;Lt;Lt;Gt;Lt;Lt;Lt;Lt;Lt;Eq;Gt;Lt;Lt;Lt;Lt;Lt;Lt;Lt;Lt;Gt;Gt;Gt;Gt;Gt;Lt;Gt;Gt;Lt;Lt;Lt;Lt;Lt;Gt;Lt;Lt;Lt;Lt;Lt;Lt;Lt;Lt;Lt;Lt;Lt;Lt;Lt;Lt;Lt;Gt;Lt;Lt;Lt;Lt;Lt;Lt;Lt;Lt;Lt;Lt;Lt;Eq;Lt;Lt;Lt;Lt;Lt;Lt;Lt;Lt;Gt;Gt;Gt;Lt;Lt;Lt;Lt;Lt;Lt;Lt;Lt;Lt;Lt;Gt;Lt;Gt;Lt;Lt;Gt;Lt;Lt;Lt;Lt;Lt;Lt;Gt;Lt;Lt;Lt;Gt;Lt;Lt;Lt;Lt;Gt;Gt;Gt;Lt;Lt;Lt;Gt;Gt;Eq;Lt;Lt;Lt;Lt;Gt;Gt;Gt;Gt;Gt;Gt;Gt;Gt;Gt;Gt;Gt;Gt;Gt;Gt;Gt;Gt;Gt;Gt;Gt;Gt;Gt;Gt;Gt;Gt;Lt;Gt;Gt;Gt;Gt;Gt;Lt;Gt;Gt;Gt;Gt;Gt;Gt;Gt;Gt;Gt;Gt;Gt;Gt;Gt;Gt;Gt;Eq;Gt;Gt;Gt;Gt;Gt;Gt;Gt;Gt;Gt;Gt;Gt;Gt;Gt;Gt;Lt;Lt;Lt;Lt;Lt;Gt;Lt;Gt;Lt;Lt;Gt;Lt;Lt;Lt;Lt;Lt;Lt;Gt;Lt;Lt;Lt;Gt;Lt;Gt;Lt;Lt;Gt;Gt;Gt;Lt;Lt;Lt;Gt;Gt;Gt;Lt;Eq;Gt;Eq;Gt;Gt;Gt;Gt;Gt;Gt;Gt;Gt;Gt;Gt;Gt;Lt;Lt;Lt;Lt;Lt;Gt;Lt;Gt;Lt;Lt;Gt;Lt;Lt;Lt;Lt;Lt;Lt;Gt;Lt;Lt;Lt;Gt;Lt;Lt;Lt;Lt;Gt;Gt;Gt;Lt;Lt;Lt;Gt;Gt;Gt;Lt;Lt;Eq;Lt;Gt;Gt;Gt;Gt;Gt;Gt;Gt;Gt;Gt;Gt;Gt;Lt;Lt;Lt;Lt;Lt;Gt;Lt;Gt;Lt;Lt;Gt;Lt;Lt;Lt;Lt;Lt;Lt;Gt;Lt;Lt;Lt;Gt;Lt;Gt;Lt;Lt;Gt;Gt;Gt;Lt;Lt;Lt;Gt;Gt;Gt;Lt;Eq;Gt;Eq;Gt;Gt;Gt;Gt;Gt;Gt;Gt;Gt;Gt;Gt;Gt;Lt;Lt;Lt;Lt;Lt;Gt;Lt;Gt;Lt;Lt;Gt;Lt;Lt;Lt;Lt;Lt;Lt;Gt;Lt;Lt;Lt;Gt;Lt;Lt;Lt;Lt;Gt;Lt;Lt;Lt;Lt;Lt;Gt;Gt;Lt;Lt;Lt;Lt;Lt;Eq;Gt;Lt;Gt;Gt;Gt;Gt;Gt;Gt;Gt;Gt;Lt;Lt;Lt;Lt;Lt;Gt;Lt;Gt;Lt;Lt;Gt;Lt;Lt;Lt;Lt;Lt;Lt;Gt;Lt;Lt;Lt;Gt;Lt;Lt;Lt;Lt;Gt;Lt;Lt;Lt;Lt;Lt;Gt;Gt;Lt;Lt;Lt;Lt;Lt;Lt;Eq;Lt;Gt;Gt;Gt;Gt;Gt;Gt;Gt;Gt;Lt;Lt;Lt;Lt;Lt;Gt;Lt;Gt;Lt;Lt;Gt;Lt;Lt;Lt;Lt;Lt;Lt;Gt;Lt;Lt;Lt;Gt;Lt;Lt;Lt;Lt;Gt;Eq;Eq;Lt;Lt;Lt;Gt;Gt;Lt;Lt;Lt;Lt;Lt;Gt;Gt;Eq;Gt;Gt;Gt;Gt;Gt;Gt;Gt;Gt;Lt;Lt;Lt;Lt;Lt;Gt;Lt;Lt;Lt;Lt;Lt;Lt;Lt;Lt;Lt;Lt;Lt;Lt;Lt;Lt;Lt;Lt;Lt;Lt;Lt;Lt;Lt;Lt;Lt;Lt;Lt;Lt;Lt;Lt;Lt;Lt;Lt;Lt;Lt;Lt;Lt;Lt;Eq;Lt;Gt;Lt;Lt;Lt;Lt;Lt;Lt;Lt;Lt;Lt;Lt;Gt;Lt;Lt;Lt;Lt;Lt;Lt;Lt;Lt;Lt;Lt;Lt;Lt;Lt;Lt;Lt;Lt;Lt;Lt;Lt;Lt;Lt;Lt;Lt;Lt;Lt;Lt;Lt;Lt;Lt;Lt;Lt;Lt;Lt;Lt;Lt;Lt;Gt;Eq;Gt;Lt;Lt;Lt;Lt;Lt;Lt;Lt;Lt;Lt;Lt;Gt;Lt;Lt;Lt;Lt;Lt;Lt;Lt;Lt;Lt;Lt;Lt;Lt;Lt;Lt;Lt;Lt;Lt;Lt;Lt;Lt;Lt;Lt;Lt;Lt;Lt;Lt;Lt;Lt;Lt;Lt;Lt;Lt;Lt;Lt;Lt;Lt;Lt;Lt;Eq;Lt;Lt;Lt;Lt;Lt;Lt;Lt;Lt;Lt;Lt;Gt;Lt;Lt;Lt;Lt;Lt;Lt;Lt;Lt;Lt;Lt;Lt;Lt;Lt;Lt;Lt;Gt;Lt;Lt;Lt;Lt;Gt;Lt;Lt;Lt;Lt;Lt;Lt;Gt;Lt;Lt;Lt;Lt;Lt;Lt;Lt;Lt;Gt;Gt;Gt;Eq;Lt;Lt;Lt;Lt;Lt;Lt;Lt;Lt;Lt;Gt;Lt;Lt;Lt;Lt;Lt;Lt;Lt;Lt;Lt;Lt;Lt;Lt;Lt;Lt;Lt;Gt;Lt;Lt;Lt;Lt;Gt;Lt;Lt;Lt;Lt;Lt;Lt;Gt;Lt;Lt;Lt;Lt;Lt;Lt;Lt;Lt;Gt;Gt;Gt;Gt;Eq;Lt;Gt;Gt;Lt;Lt;Lt;Lt;Lt;Gt;Lt;Gt;Lt;Lt;Lt;Lt;Lt;Lt;Lt;Lt;Lt;Lt;Lt;Lt;Lt;Gt;Lt;Lt;Lt;Lt;Gt;Lt;Lt;Lt;Lt;Lt;Gt;Gt;Lt;Lt;Lt;Lt;Lt;Lt;Lt;Lt;Gt;Gt;Gt;Gt;Gt;Eq;Gt;Gt;Lt;Lt;Lt;Lt;Lt;Gt;Lt;Lt;Lt;Lt;Lt;Lt;Lt;Lt;Lt;Lt;Lt;Lt;Lt;Lt;Lt;Gt;Lt;Lt;Lt;Lt;Gt;Lt;Lt;Lt;Lt;Lt;Lt;Gt;Lt;Lt;Lt;Lt;Lt;Lt;Lt;Lt;Gt;Gt;Gt;Gt;Lt;Lt;Eq;Gt;Lt;Lt;Lt;Lt;Lt;Gt;Lt;Lt;Lt;Lt;Lt;Lt;Lt;Lt;Lt;Lt;Lt;Lt;Lt;Lt;Lt;Gt;Lt;Lt;Lt;Lt;Gt;Lt;Lt;Lt;Lt;Lt;Lt;Gt;Lt;Lt;Lt;Lt;Lt;Lt;Lt;Lt;Gt;Gt;Gt;Gt;Lt;Lt;Lt;Eq])) = true.
Proof. vm_compute. reflexivity. Qed.

(** The predicates of Spec/SpecifierSpec.v, decided *)
Definition same_release_b (a b : list Z) : bool := forallb (fun i => (nth i a 0 =? nth i b 0)%Z) (seq 0 (max (length a) (length b))).
Lemma same_release_dec a b : same_release_b a b = true <-> same_release a b.
Proof.
  unfold same_release_b, same_release. rewrite forallb_forall. split; intros H i.
  - destruct (lt_dec i (max (length a) (length b))) as [L|L].
    + apply Z.eqb_eq, H, in_seq. lia.
    + rewrite !nth_overflow by lia. reflexivity.
  - intros _. apply Z.eqb_eq, H.
Qed.
Definition same_base_b (a b : version) : bool := (epoch (pub a) =? epoch (pub b))%Z && same_release_b (release (pub a)) (release (pub b)).
Lemma same_base_dec a b : same_base_b a b = true <-> same_base a b.
Proof. unfold same_base_b, same_base. rewrite andb_true_iff, Z.eqb_eq, same_release_dec. reflexivity. Qed.
Definition some {A} (o : option A) : bool := match o with Some _ => true | None => false end.
Lemma some_dec {A} (o : option A) : some o = true <-> o <> None.
Proof. destruct o; cbn; intuition congruence. Qed.
Definition pre_or_dev_b (v : version) : bool := some (pre (pub v)) || some (dev (pub v)).
Lemma pre_or_dev_dec v : pre_or_dev_b v = true <-> pre_or_dev v.
Proof. unfold pre_or_dev_b, pre_or_dev. rewrite orb_true_iff, !some_dec. reflexivity. Qed.
Definition below_b (V v : version) : bool :=
  match pep440_compare v V with Lt => negb (pre_or_dev_b v && negb (pre_or_dev_b V) && same_base_b v V) | _ => false end.
Lemma below_dec V v : below_b V v = true <-> below V v.
Proof.
  unfold below_b, below. rewrite <- !pre_or_dev_dec, <- same_base_dec.
  destruct (pep440_compare v V), (pre_or_dev_b v), (pre_or_dev_b V), (same_base_b v V); cbn; intuition congruence.
Qed.
Definition above_b (V v : version) : bool :=
  match pep440_compare v V with
  | Gt => negb (some (post (pub v)) && negb (some (post (pub V))) && same_base_b v V) && negb (match local v with [] => false | _ => true end && same_base_b v V)
  | _ => false
  end.
Lemma above_dec V v : above_b V v = true <-> above V v.
Proof.
  unfold above_b, above, is_post. rewrite <- !some_dec, <- same_base_dec.
  destruct (pep440_compare v V), (some (post (pub v))), (some (post (pub V))), (same_base_b v V), (local v); cbn; intuition congruence.
Qed.
Definition at_most_b (V v : version) : bool := match public_compare (pub v) (pub V) with Gt => false | _ => true end.
Definition at_least_b (V v : version) : bool := match public_compare (pub v) (pub V) with Lt => false | _ => true end.
Lemma at_most_dec V v : at_most_b V v = true <-> at_most V v.
Proof. unfold at_most_b, at_most. destruct (public_compare _ _); cbn; intuition congruence. Qed.
Lemma at_least_dec V v : at_least_b V v = true <-> at_least V v.
Proof. unfold at_least_b, at_least. destruct (public_compare _ _); cbn; intuition congruence. Qed.
Definition strictly_equal_b (V v : version) : bool :=
  match local V with [] => same_order (public_compare (pub V) (pub v)) Eq | _ => same_order (pep440_compare V v) Eq end.
Lemma strictly_equal_dec V v : strictly_equal_b V v = true <-> strictly_equal V v.
Proof. unfold strictly_equal_b, strictly_equal. destruct (local V); [destruct (public_compare _ _)|destruct (pep440_compare _ _)]; cbn; intuition congruence. Qed.
(** prefixes without pre-release and post-release *)
Definition prefix_b (p v : version) : bool :=
  (epoch (pub p) =? epoch (pub v))%Z && forallb (fun i => (nth i (release (pub v)) 0 =? nth i (release (pub p)) 0)%Z) (seq 0 (length (release (pub p)))).
Lemma prefix_dec p v : pre (pub p) = None -> post (pub p) = None -> prefix_b p v = true <-> prefix_agrees p v.
Proof.
  intros E F. unfold prefix_b, prefix_agrees. rewrite E, F, andb_true_iff, Z.eqb_eq, forallb_forall. apply and_iff_compat_l. split; intros H i.
  - intros L. apply Z.eqb_eq, H, in_seq. lia.
  - intros I. apply Z.eqb_eq, H. apply in_seq in I. lia.
Qed.

(** Specifier("<V").contains(v, prereleases=True) *)
Example below_cases : forallb (fun '(V, v, e) => Bool.eqb (below_b (parsed V) (parsed v)) e)
  [($"v2.1.0.2Dev", $"1-0-dev", true);
   ($"0-c0-1", $"V1-0", false);
   ($"0.0.1", $"0.0.1.0.0", false);
   ($"0.0.1", $"0.0.1a1", false);
   ($"v1!0-Dev2", $"V1_rc_0-dev", true);
   ($"0.2.1-1_DEV-0", $"V1", false);
   ($"1_DEV-0", $"1_DEV-0", false);
   ($"0!0.0_Dev", $"0.1.0.1-prE.2.DEV+1a.ABC.ubuntu", false);
   ($"1", $"1a1", false);
   ($"2_DEV", $"v0.0.1", true);
   ($"V1.RC.0.dev_2", $"V1.RC.0.dev_2+x", false);
   ($"2.0", $"1", true);
   ($"1.0preview_2", $"v1.1", false);
   ($"v0.2.dev-2", $"v0.2.dev-2", false);
   ($"1.0.2c", $"1.0.2c+x", false);
   ($"1.1.dev_1", $"v1dev", true);
   ($"1.prE.2-1", $"1-0-DEV", false);
   ($"2!0.0.2_alpha-0", $"1", true);
   ($"1", $"0.1-2", true);
   ($"0-post_1", $"0.2.1.alpha.2.DEV", false);
   ($"0", $"0a1", false);
   ($"2.0.0.2", $"2.0.0.2.dev1", false);
   ($"0-1", $"1_prE.1-post", false);
   ($"2.2DEV_0", $"2.0.1.2", true);
   ($"2-c_rev-2", $"2-c_rev-2.dev1", true);
   ($"0", $"2.1.2.0+1a", false);
   ($"0.1.0.2c.0_r", $"0.1.0.2c.0_r", false);
   ($"v0.1.0-2", $"0.0RC_Rev+x-ubuntu-x", true);
   ($"v2.0", $"2.0.0-2-Dev_2", false);
   ($"0.2", $"0.2.0.0", false);
   ($"1", $"1.0.0.post-dev_2", false);
   ($"v1.2", $"v1.2+x", false);
   ($"2.2-0", $"2!1+a1-1-ABC", false);
   ($"2.1", $"0.0_rc", true);
   ($"0Dev", $"1-c.2", false);
   ($"1c", $"1!0-dev_0", false);
   ($"2pre_0.DEV-2", $"0!2.2.0alphadev-2+2_2_ubuntu", false);
   ($"V0", $"0.0.2A1", false);
   ($"2.0.0prE_0", $"2a.2r+ubuntu", true);
   ($"2.2-b-0", $"1", true);
   ($"0", $"0.2.0prE", false);
   ($"2.2.0-1", $"0.1.2.0.dev+a1_a1", true);
   ($"0.1-2", $"1.2_rev+0.ABC", false);
   ($"0", $"0+x", false);
   ($"1.2.0-Dev_2", $"v2", false);
   ($"0", $"1.2DEV2", false);
   ($"2", $"2.0", false);
   ($"1.2", $"0.2.1.0.b.0", true);
   ($"1.1", $"1.2.1.2_prE-2Dev", false);
   ($"2!2.0.Rev-Dev", $"2!2.0.Rev-Dev+x", false);
   ($"V1.2.1-Betar.2", $"V1.2.1-Betar.2", false);
   ($"1!0", $"1!0.0.0", false);
   ($"2.2.1.1", $"0!2-1.dev_2", true);
   ($"1.0-dev", $"1.0-dev.1", false);
   ($"2", $"0.1", true);
   ($"v2!0.1.2-a2", $"1_A-1.POST", true);
   ($"2.0", $"0.0.0", true);
   ($"0.2.0.1pre", $"0.2.0.1pre.0", false);
   ($"0.1.2.0_pre_2.dev", $"2-0+abc-01", false);
   ($"0.0", $"0.0.dev1", false)] = true.
Proof. vm_compute. reflexivity. Qed.

(** Specifier(">V").contains(v, prereleases=True) *)
Example above_cases : forallb (fun '(V, v, e) => Bool.eqb (above_b (parsed V) (parsed v)) e)
  [($"1", $"1.0", false);
   ($"1.2.2", $"2.DEV-1+x.abc.ABC", true);
   ($"0.2-1-Dev-0", $"2!1.2.0.0.Dev", true);
   ($"2!0.2.2pre_2_post", $"2.2", false);
   ($"2.2.RC-2_dev_0", $"2-Beta", false);
   ($"1!2.0.1.2-prE2Dev", $"2!1.2.2.1+1a", true);
   ($"1.1-RC.0", $"1", false);
   ($"0.2.0.2_rev", $"2rc-1", true);
   ($"0.2.1", $"2.0_DEV.1+x-2-2", true);
   ($"1-Beta-1.post-1", $"1-Beta-1.post-1.dev1", false);
   ($"2.1.1.1r", $"1", false);
   ($"0.2.1.0", $"0.2.1.0.post1", false);
   ($"2-DEV", $"2.0", true);
   ($"v1!0.1.2DEV", $"v1!0.1.2DEV.1", true);
   ($"V0.2.1.1.RC-1", $"2.0.1c-2", true);
   ($"0", $"0+x", false);
   ($"V2.0.2r", $"0.2beta-post", false);
   ($"1.2.0.0-rc", $"1.2.0.0-rc.0", false);
   ($"1-preview_2", $"2.A.DEV", true);
   ($"0.1.2.1", $"2.1Beta.1.DEV_0", true);
   ($"2-1.DEV_2", $"v2.2.2-1", true);
   ($"0!2-1", $"0!2-1", false);
   ($"0.2beta-0.rev-1", $"2", true);
   ($"2.1", $"0.0", false);
   ($"v0.2_Dev", $"v0.2_Dev", false);
   ($"v1.dev-1", $"v0.1.0-c.0-Dev.1+a1-01", false);
   ($"0!1_A_Dev", $"0!1_A_Dev.0", false);
   ($"1.1rev.0dev-2", $"0!2.1.0-c.2", true);
   ($"2", $"2a1", false);
   ($"0!2-c1-DEV", $"0!2-c1-DEV.1", true);
   ($"2.1.1.1-a-2rev", $"2.1.1.1-a-2rev.0", false);
   ($"2beta-dev1", $"1!0.b1.dev.1", true);
   ($"0.0_RC-2", $"2", true);
   ($"1.0.2", $"2", true);
   ($"V1", $"V1", false);
   ($"0.1.pre.2-dev-2", $"2!0.2.0.0", true);
   ($"2.1", $"0-prE+2", false);
   ($"2", $"V2.2.2", true);
   ($"v0.0-2", $"1.1.0.Dev2+a1", true);
   ($"0", $"0a1", false);
   ($"2.1.0.1_prE_1", $"0-1+2.a1.01", false);
   ($"0.2", $"0.2.post1", false);
   ($"v0-0", $"V1.rc-0.Dev-1", true);
   ($"V1.0-prE_2_DEV_0", $"v2.2c_2-rev.2_Dev_2", true);
   ($"1.2.DEV", $"1.2.DEV", false);
   ($"2.0.2.0", $"2.0.2.0.post1", false);
   ($"2!2.0.Dev", $"0.A-1_Dev0", false);
   ($"v2!1.1", $"V0!1", false);
   ($"1_RC-DEV", $"1!0.2_beta.0-1", true);
   ($"1.1-Rev-0", $"2.2", true);
   ($"1.2DEV.0", $"0!1.1-pre-dev", false);
   ($"V0.1.2.1", $"0.0.RC.0", false);
   ($"0!0.0", $"0.1_alphaDev-1", true);
   ($"2.0.0.2_a", $"2.0.0.2_a.dev1", false);
   ($"0.2.POST_0", $"1.0.2.0dev", true);
   ($"V2.2", $"v1.0.0.1", false);
   ($"0.POST-DEV-1", $"0.POST-DEV-1", false);
   ($"2!1.1.0.0", $"2!0_DEV+a1", false);
   ($"1_alpha", $"0!2-0", true);
   ($"V1", $"0.2.0.2-1-DEV_1", false)] = true.
Proof. vm_compute. reflexivity. Qed.

(** Specifier("<=V").contains(v, prereleases=True) *)
Example at_most_cases : forallb (fun '(V, v, e) => Bool.eqb (at_most_b (parsed V) (parsed v)) e)
  [($"v2", $"1!1.2RC0+1a", false);
   ($"1", $"2-2Dev_0", false);
   ($"1!2.0_pre2", $"1.2", true);
   ($"0", $"1", false);
   ($"2-c-1_r-0", $"v0+0.ubuntu.ubuntu", true);
   ($"2-post2", $"0.0", true);
   ($"v1.1.1", $"2.0a-2", false);
   ($"2_DEV", $"2_DEV+x", true);
   ($"2!2.1.1.0", $"2!2.1.1.0.0.0", true);
   ($"2!0.1.1", $"2!0.1.1.0", true);
   ($"0A-2-dev", $"2.2", false);
   ($"1.1", $"1.1+x", true);
   ($"2.0", $"0!0.2+abc-x", true);
   ($"1.1b1post", $"1.1b1post+x", true);
   ($"2!0", $"1!1.0.1.0-0.DEV.2+abc_abc_abc", true);
   ($"1!2.2.2.1prE-2", $"1!2.2.2.1prE-2", true);
   ($"0.0.2_preview-0.dev.0", $"0.0.2_preview-0.dev.0+x", true);
   ($"1", $"1.0", true);
   ($"2.2.1.1", $"2.2.1.1.dev1", true);
   ($"1.1.Beta", $"0.1.2.2", true);
   ($"2.2.2", $"2.2.2a1", true);
   ($"v2-beta_0-revDEV", $"2.1.2.1", false);
   ($"0.0.0.0.dev", $"1.2.1.2-RC_0", false);
   ($"0.2.2.1.post0", $"1Beta+x", false);
   ($"0!0.0-0", $"0!0.0-0", true);
   ($"2.0.2.0", $"2.0.2.0.1", false);
   ($"v1c_2", $"V1.0.0_a_0", true);
   ($"1_rc0_dev", $"v2", false);
   ($"2.0.A_0Dev.0", $"2.0.A_0Dev.0+x", true);
   ($"2.2-pre2-Rev_0_DEV", $"0.0-1+1", true);
   ($"v0.0.1.0_A.1", $"V2.1-2-Dev+ubuntu", false);
   ($"v2.2.1", $"v2.2.1a1", true);
   ($"0!2.0.2-Rev", $"2.0.1.1", true);
   ($"0.0_pre_Dev0", $"2!1.c", false);
   ($"1.1_post-2", $"1.1_post-2", true);
   ($"2", $"2.0", true);
   ($"v2.1.0-DEV", $"0", true);
   ($"2.1", $"1.2", true);
   ($"0.2.2.1", $"1.2", false);
   ($"1.2.2.c-0DEV", $"1_beta0", true);
   ($"1-2.Dev.1", $"0!2.prE.1", false);
   ($"1!0.beta-dev", $"1.2.1_rev-0-Dev", true);
   ($"1-Dev-0", $"1.rev+1", false);
   ($"2.Beta2", $"V0-0", true);
   ($"1.2.2", $"2.1.1DEV", false);
   ($"V2-DEV_0", $"2", false);
   ($"1.1", $"1.1.0.0", true);
   ($"0.1-2-Dev", $"0.1-2-Dev+x", true);
   ($"1!1.2_pre-1", $"1!1.2_pre-1.dev1", true);
   ($"V1.2.a-1", $"0-Beta_1", true);
   ($"1.0.2_RC.Dev", $"1.0.2_RC.Dev.0", true);
   ($"1.2.pre-0-1", $"2!2", false);
   ($"0.1.Dev.2", $"1.1.1", false);
   ($"1_rc.1.DEV", $"v2.1.1-alpha-0_DEV.2", false);
   ($"2-alpha2.rev0", $"0.2.1.1_dev", true);
   ($"1_DEV", $"2!0.0", false);
   ($"0.2c-2", $"v2.2.1-a", false);
   ($"2.0_post.dev.1", $"2!2.0.0.c-2", false);
   ($"1!0-RC.1", $"0.1.2.2-2", true);
   ($"1", $"0.2.1.a.2", true)] = true.
Proof. vm_compute. reflexivity. Qed.

(** Specifier(">=V").contains(v, prereleases=True) *)
Example at_least_cases : forallb (fun '(V, v, e) => Bool.eqb (at_least_b (parsed V) (parsed v)) e)
  [($"v0", $"0!0.2.preview-2-rev", true);
   ($"2.0-alpharev_1", $"1.dev", false);
   ($"V0.2.0.beta.2", $"0!2", true);
   ($"0.0", $"0.0.dev1", false);
   ($"0.a-2", $"V2-prE2", true);
   ($"1!0.alpha-1", $"1!0.alpha-1.post1", true);
   ($"V0.0.1.0alpha-1", $"V0.0.1.0alpha-1.post1", true);
   ($"1.0", $"1.0+x", true);
   ($"1.2.2.0", $"1.2.2.0.0", true);
   ($"2.1", $"V2.0.0.0Dev", false);
   ($"2.0", $"2.0_DEV+ABC.1", false);
   ($"1!0_rc_rev-0", $"2.2.1.0", false);
   ($"2!2_Dev", $"V1!2-DEV+1.01", false);
   ($"2.2.0.beta-2", $"1.0.1.1.POST-0", false);
   ($"1.0", $"1.2.1.2.POST", true);
   ($"1-b", $"2!1.1.2.0_Dev2", true);
   ($"1.0.1.2", $"1.0.1.2.post1", true);
   ($"1.2.0.2", $"1.2.0.2+x", true);
   ($"1!2.2-1", $"1", false);
   ($"0!2.0_DEV", $"v0.1.DEV-2", false);
   ($"2.2Rev", $"2.2Rev.0", true);
   ($"1!2.0.0", $"1!2.0.0.1", true);
   ($"2.1-Dev", $"1.0.0_rc_1_DEV", false);
   ($"2.0.2_dev_2", $"v1!0.0-RC-Rev", true);
   ($"2.0.1_Dev-0", $"v2!1.1.2", true);
   ($"1!1", $"0.1.0-Dev", false);
   ($"2_RC-1_dev_2", $"2_RC-1_dev_2+x", true);
   ($"2.2.0.2", $"1.0.2.0-1+0", false);
   ($"1!0.0.2.0-Beta", $"1!0.0.2.0-Beta.post1", true);
   ($"V0!0", $"0.1.2_A_dev", true);
   ($"2!2.2", $"2!2.2.post1", true);
   ($"0!1.2b", $"0!1.2b", true);
   ($"2.0.1.0", $"2.0.0.0.dev", false);
   ($"1-Beta-1rev", $"0+1a_1_2", false);
   ($"0.1_DEV", $"1_alpha1revDev.1", true);
   ($"V1", $"V1.dev1", false);
   ($"0.0.1.1", $"0.0.1.1", true);
   ($"1pre.0DEV", $"2-POST+0_1", true);
   ($"0.0.0post_0", $"1!1.1.2.1prE-Dev", true);
   ($"0.0Rev", $"v1.0.1_rc-2.DEV.1", true);
   ($"0.2.2", $"1!0.2.2.1_preview1dev", true);
   ($"2-2", $"2.1.beta-0+01-2", true);
   ($"0-b.rev-0", $"1+ABC", true);
   ($"0.2.1-Beta-2", $"0", false);
   ($"V0!1.r", $"V1.1.0.1-1+ABC", true);
   ($"1", $"V1!0.2-1+x-1-2", true);
   ($"2.1.0post", $"V2+1_abc_0", false);
   ($"V2_b_1dev_2", $"0.0_b-2", false);
   ($"1.1_alpha.0.DEV", $"2!2.1-1+abc", true);
   ($"v0.0", $"v0.0.post1", true);
   ($"1.2_beta_0", $"0.1.1.alpha2.r-DEV1", false);
   ($"0.0_rc.2", $"0.1.0beta_1-1-dev", true);
   ($"0", $"0a1", false);
   ($"0!1.1.2b.1", $"0!1.1.2b.1+x", true);
   ($"2.2", $"2.2.1", true);
   ($"1.0", $"1.0.0", true);
   ($"2A-2DEV", $"2A-2DEV", true);
   ($"2.0.0", $"2.0.0.dev1", false);
   ($"0!0.1", $"0!0.1.dev1", false);
   ($"0", $"1.2_post", true)] = true.
Proof. vm_compute. reflexivity. Qed.

(** Specifier("==V").contains(v, prereleases=True) *)
Example equal_cases : forallb (fun '(V, v, e) => Bool.eqb (strictly_equal_b (parsed V) (parsed v)) e)
  [($"1.1", $"0.alpha_dev-0", false);
   ($"2.0-1", $"2.1.1.2-1+a1", false);
   ($"2!0.1_dev-2", $"0!1.2.post.0+ABC.1", false);
   ($"0!1.1", $"1.2.2.0-dev2+1a-0-ubuntu", false);
   ($"1.0.1.2-a", $"1.0.1.2-a.dev1", false);
   ($"2-c.1.DEV_2+x.1a.2", $"0.0.2-0.Dev", false);
   ($"2.2DEV", $"0.0.1-b_2+01-1a-x", false);
   ($"1.1", $"1.1", true);
   ($"1.2.0", $"0.1-POST_1", false);
   ($"V2.1", $"1.0prE-1", false);
   ($"v0.1.prePOST+ABC-a1-01", $"v0.1.prePOST+ABC-a1-01.0", false);
   ($"0_beta_0", $"v2.1", false);
   ($"0.0.1", $"0.2.2.1-beta_rev.Dev1", false);
   ($"0.2.0.1", $"0.2.0.1+x", true);
   ($"1.rev0", $"V2.2", false);
   ($"v2.1_POST", $"2!2.2.1-1", false);
   ($"1.2.0_pre_2", $"2.0-0_DEV0", false);
   ($"1-b", $"1-b", true);
   ($"1.0", $"0!0.2", false);
   ($"2!2.2.0.2", $"2!2.2.0.2+x", true);
   ($"0.0.1.DEV.0", $"v0_preview_1+0_1_01", false);
   ($"0_Rev+01_0", $"1.2", false);
   ($"0Beta+2.0.abc", $"v2.2.Dev", false);
   ($"0_DEV+1a", $"1.0.0_Dev.2", false);
   ($"2-Dev-0", $"2!2.1-rc2.POST", false);
   ($"2", $"0.2.1.2_a2+ubuntu.x", false);
   ($"2.1.2_alpha_1.Rev-Dev2+0", $"2.1.2_alpha_1.Rev-Dev2+0.0", false);
   ($"1.2.0.RC2", $"1.2.2-b+x", false);
   ($"2.2", $"V0.0.1", false);
   ($"0", $"2.2prE-1", false);
   ($"V2.2.a2", $"V2.2.a2.dev1", false);
   ($"V2.0.1.1", $"V2.0.1.1.1", false);
   ($"2.2-A1-2", $"2.2-A1-2+x", true);
   ($"0.post_DEV1+x.abc", $"0.post_DEV1+x.abc.0", false);
   ($"1.1.1.2", $"v1.2-dev", false);
   ($"0", $"0+x", true);
   ($"1", $"1.2", false);
   ($"v0-preview.0", $"2.2.1.0_alpha-2-DEV+0-abc", false);
   ($"0.2.0.rc-2-postDEV+1-1a-ABC", $"v1-1+0", false);
   ($"1.2RC-1_dev-2+2-abc", $"0.preview", false);
   ($"v2", $"v2.0", true);
   ($"2!2.1.DEV.1", $"2rc_1", false);
   ($"1.1.2Dev", $"V2!1.1", false);
   ($"0.r.0DEV+x", $"2.2.2.2", false);
   ($"V1.2.1_Beta-2", $"2.0.0Beta-0-dev0+1-1a", false);
   ($"2_POST", $"v1.0.0.0.Beta_DEV2", false);
   ($"1.0", $"1.0.0", true);
   ($"v0-prE.2", $"v0-prE.2.post1", false);
   ($"v2", $"0_dev_0", false);
   ($"2!2.2beta1-2", $"1.0.0RC0.DEV.2+ABC", false);
   ($"2.2.0.0-2", $"0.1.1.0.Beta_2", false);
   ($"2.0.1+a1.x.ubuntu", $"1!2POST-1", false);
   ($"0.0+a1", $"V2.0-RC.1+ABC.0.01", false);
   ($"2.1.0.1-1+a1_ubuntu", $"0.0-Dev", false);
   ($"2.1_DEV+x", $"0.0c", false);
   ($"v1!2.2_a1-DEV", $"v1!2.2_a1-DEV.1", false);
   ($"1+2", $"2.0.2.1+0-ABC", false);
   ($"V2.0.2.0.a0_dev", $"0.2-DEV-1", false);
   ($"0.2.prE-1+01_ABC", $"v1.2", false);
   ($"1.dev2+x.abc", $"v2_Beta.1-2DEV", false)] = true.
Proof. vm_compute. reflexivity. Qed.

(** Specifier("~=V").contains(v, prereleases=True) *)
Example compatible_cases : forallb (fun '(V, v, e) => Bool.eqb (at_least_b (parsed V) (parsed v) && prefix_b (series (parsed V)) (parsed v)) e)
  [($"2.1.2a1.post0.dev0", $"0.1.1.1", false);
   ($"2.2", $"2.2.0", true);
   ($"1.0.post0", $"1.0.0_A0-2", false);
   ($"1.0.1.dev0", $"V2-pre", false);
   ($"2.2.1.0.post1", $"2.2.1.0-1", true);
   ($"2.1rc0.post1", $"0.0+1_1a_1", false);
   ($"0.0.2.0rc0.dev2", $"1-rc_0", false);
   ($"2.1", $"V0.2.0.0-Rev", false);
   ($"0.0.0.2b0.post0", $"0.1", false);
   ($"1.0.2.0", $"V1-a_2", false);
   ($"1.1.2", $"1.1.2.post1", true);
   ($"2!2.2a2", $"1_prE", false);
   ($"1.1", $"2.1-2", false);
   ($"1.2.0", $"1.2.0.0.0", true);
   ($"0.2.2.2", $"V0.2.2.Beta_1", false);
   ($"2.1rc0.dev0", $"v1.2DEV.1+a1-abc", false);
   ($"1.0.1rc2.dev0", $"V0.1.0.2Beta.2", false);
   ($"0.0.dev2", $"2.2b_1", false);
   ($"2.0", $"0.1.1.1", false);
   ($"2.2.0.dev0", $"1!1.0_Dev-1", false);
   ($"0.1.post0.dev0", $"2!0.0_DEV1+01", false);
   ($"2.1b0", $"2", false);
   ($"2.1.dev2", $"2.1", true);
   ($"2.2.2.0b0", $"v2.1-b+x-abc-ABC", false);
   ($"1.0.1.1", $"2RC+1a.x", false);
   ($"0.1a1", $"0.1.a_1.post1", true);
   ($"1.1.2.0rc2.dev2", $"2.0-POST_0+x.1a.1a", false);
   ($"0.2", $"2!0-c-2", false);
   ($"0.2.0.1", $"0.2.0.1.post1", true);
   ($"0.2.1.1rc0", $"V2-b_2", false);
   ($"1.2.2b1.post0", $"2.0_c.2-1+1a.x", false);
   ($"2!1.1rc0", $"1-rev-1", false);
   ($"0.2.1.post2", $"2.2.1_rc1", false);
   ($"2.1.1.0rc1", $"2!1.0.Dev_1", false);
   ($"1.2.1.2b1.post0.dev0", $"0!1.2.1.2-beta_1revDev_0+x", true);
   ($"2.0.2", $"v2.1.1-0-Dev-2+x_2_01", false);
   ($"0.1.2.0", $"0.1.2.0a1", false);
   ($"2.1.0rc0.post1", $"2.RC-2", false);
   ($"0.1.2", $"0.1", false);
   ($"0.0b0", $"v0.0-Beta.dev1", false);
   ($"2.2b2", $"V2.2.beta.2.post1", true);
   ($"2.0", $"0+ABC_1a_a1", false);
   ($"1.0", $"1.0.dev1", false);
   ($"0.2.1.2a1.post0.dev0", $"0.2.1.2_A.1.POST_dev", true);
   ($"2.2.1.1rc2", $"v0!0.1.2.1-c-2", false);
   ($"2.0.post1.dev2", $"1.Dev", false);
   ($"2.0.post1", $"1+x_1", false);
   ($"1.0.post1", $"0-2", false);
   ($"2.1.2.1rc1", $"0.2", false);
   ($"1.2rc1.post2", $"1prE_0-0-DEV", false);
   ($"1.0.1", $"2.2+ABC-ABC-0", false);
   ($"0.2.dev0", $"V1b-0.dev", false);
   ($"1.0.2.post0", $"v2.0.1+ABC.01.ABC", false);
   ($"2.1.2.0", $"v2.1.2.0.0", true);
   ($"2.1.1rc0", $"2.1.1.rc.1", true);
   ($"2!0.1rc1", $"2!1.1.1", false);
   ($"2.0.1.1", $"1!1prE1.Dev+01", false);
   ($"1!1.1", $"v1!1.1.dev1", false);
   ($"1.0.post2", $"v0!1.0", false);
   ($"1.0.2.2.post0", $"2.post.DEV.1", false)] = true.
Proof. vm_compute. reflexivity. Qed.

(** Specifier("==V.*").contains(v, prereleases=True) *)
Example prefix_cases : forallb (fun '(V, v, e) => Bool.eqb (prefix_b (parsed V) (parsed v)) e)
  [($"1", $"1.0.Beta.post", true);
   ($"0.1.1.2", $"2.1-POST.0", false);
   ($"0", $"2.1.1.2+ubuntu", false);
   ($"0", $"V0.1.0.preDEV+ABC_0", true);
   ($"2.1", $"2.1.0", true);
   ($"0", $"0.0", true);
   ($"2.1", $"v0.0.0.1rc_post", false);
   ($"1", $"V1.0.0", true);
   ($"1", $"0_r", false);
   ($"2.2.2", $"2.2.2", true);
   ($"1.2.2", $"1.2.2", true);
   ($"2.1", $"0!2post1", false);
   ($"0", $"v0!1.0.RC2+1.abc.abc", false);
   ($"1", $"V1.post1", true);
   ($"1!0", $"1!0.1", true);
   ($"1.1.1", $"2.1", false);
   ($"1!1.0", $"v1!1.0.0", true);
   ($"0.1", $"2.2b-2", false);
   ($"2.0.2", $"2.0.2.0", true);
   ($"0.1.1", $"2.0.2+1", false);
   ($"0.2.0", $"1.1-prE", false);
   ($"2!0", $"2!0.1", true);
   ($"2", $"2a1", true);
   ($"2.1.2.1", $"2.2-1", false);
   ($"0.1", $"1.0-r", false);
   ($"1.0", $"1.0.dev1", true);
   ($"2.0", $"2.0.0", true);
   ($"0", $"2.1-2_Dev.2", false);
   ($"0.1", $"0.1.dev1", true);
   ($"2", $"2.0r1", true);
   ($"2", $"2.post1", true);
   ($"1.0", $"2", false);
   ($"1", $"1.post1", true);
   ($"0.2.1.2", $"2.1.2.rev-1", false);
   ($"0.0.2", $"0.0.2", true);
   ($"2.1.0", $"2.1.0.0", true);
   ($"0.1", $"V1.1.0_RC-2", false);
   ($"1", $"1.0.0", true);
   ($"1!1", $"1!1.1", true);
   ($"1.2.1.0", $"2.0.1+ubuntu", false);
   ($"1.1", $"1.1.dev1", true);
   ($"2.2", $"2.2.1.2-2+abc.1", true);
   ($"2", $"2.dev1", true);
   ($"0.0", $"0.0", true);
   ($"0.1", $"0.1_Rev_2-dev", true);
   ($"0.2", $"V0.2.1", true);
   ($"0", $"0", true);
   ($"1!1.2", $"2.2.1.0-pre0", false);
   ($"1", $"1", true);
   ($"0.1.1", $"V2!0+1_1_1", false);
   ($"0.1.1.0", $"0.1.1.0.0", true);
   ($"1.1", $"1.1", true);
   ($"1", $"0!2.2_Rev.DEV", false);
   ($"1", $"v1+x", true);
   ($"0.2.1.2", $"V2.2_rev", false);
   ($"2.0.0.2", $"1.beta-0dev-1+a1.1a.abc", false);
   ($"0.1", $"0.1.0", true);
   ($"0.0", $"0.0a1", true);
   ($"2", $"1!1.0-2", false);
   ($"1", $"2.1-2+01-ubuntu-a1", false)] = true.
Proof. vm_compute. reflexivity. Qed.

Definition same_section (a b : list (str * str)) : bool :=
  Nat.eqb (length a) (length b) && forallb (fun '(x, y) => str_eqb (fst x) (fst y) && str_eqb (snd x) (snd y)) (combine a b).
Definition same_config (a b : option (list (str * list (str * str)))) : bool :=
  match a, b with
  | Some a, Some b => Nat.eqb (length a) (length b) && forallb (fun '(x, y) => str_eqb (fst x) (fst y) && same_section (snd x) (snd y)) (combine a b)
  | None, None => true
  | _, _ => false
  end.
(** RawConfigParser(strict).read_file; the sections with the defaults *)
Example configs : forallb (fun '(t, s, e) => same_config (py_read [$"="; $":"] [$"#"; $";"] s to_lower t) e)
  [(($"[DEFAULT]" ++ ["010"%char] ++ $" ; c" ++ ["013"%char] ++ ["010"%char] ++ $"   K = w" ++ ["010"%char] ++ $"  ; c" ++ ["010"%char] ++ $"# c" ++ ["010"%char] ++ $"# c" ++ ["010"%char] ++ $"   a: b"), true, Some []);
   (($"[s0]" ++ ["013"%char] ++ $"[t]" ++ ["013"%char] ++ ["010"%char] ++ $"# c" ++ ["013"%char] ++ $"[s]" ++ ["010"%char] ++ $"K = w" ++ ["010"%char] ++ ["009"%char] ++ $"k = v" ++ ["010"%char] ++ $"K = w" ++ ["010"%char] ++ $" k = v" ++ ["013"%char] ++ ["009"%char] ++ $"[t]" ++ ["013"%char]), true, None);
   (($"[s0]" ++ ["010"%char] ++ $"   [q]:3" ++ ["010"%char] ++ $"a: b" ++ ["013"%char] ++ ["010"%char] ++ $"K = w" ++ ["013"%char] ++ $"[u]" ++ ["010"%char] ++ ["009"%char] ++ $"b=c" ++ ["010"%char] ++ $"# c" ++ ["010"%char] ++ $"   ; c" ++ ["010"%char]), false, Some [($"s0", []); ($"q", [($"a", $"b"); ($"k", $"w")]); ($"u", [($"b", $"c")])]);
   (($"[s0]" ++ ["010"%char] ++ ["010"%char] ++ $"  c" ++ ["013"%char] ++ ["010"%char] ++ $"c" ++ ["013"%char] ++ ["010"%char] ++ $"   ; c" ++ ["013"%char]), true, None);
   (($"[s0]" ++ ["010"%char] ++ $"# c" ++ ["010"%char] ++ ["010"%char] ++ $"   " ++ ["013"%char] ++ $"[t]" ++ ["010"%char] ++ $" " ++ ["010"%char] ++ $"K = w" ++ ["010"%char]), true, Some [($"s0", []); ($"t", [($"k", $"w")])]);
   (($"[DEFAULT]" ++ ["010"%char] ++ $"  a: b" ++ ["010"%char] ++ $"   [u]" ++ ["013"%char] ++ ["010"%char] ++ $"d = e # f" ++ ["010"%char] ++ $"# c" ++ ["010"%char] ++ $"[t]" ++ ["010"%char] ++ $"[t]" ++ ["010"%char] ++ ["010"%char] ++ $" b=c" ++ ["013"%char] ++ ["010"%char]), false, Some [($"t", [($"a", ($"b" ++ ["010"%char] ++ $"[u]")); ($"d", $"e # f"); ($"b", $"c")])]);
   (($"[s0]" ++ ["010"%char] ++ $"   " ++ ["013"%char] ++ ["010"%char] ++ $"   ; c" ++ ["010"%char]), true, Some [($"s0", [])]);
   (($"   " ++ ["028"%char] ++ $"q = r" ++ ["010"%char] ++ ["009"%char] ++ $"[t]" ++ ["013"%char]), true, None);
   (($"  " ++ ["010"%char] ++ ["009"%char] ++ $"b=c" ++ ["013"%char] ++ ["010"%char] ++ $"[DEFAULT]" ++ ["010"%char] ++ $"[]x]" ++ ["013"%char]), true, None);
   (($"[DEFAULT]" ++ ["013"%char] ++ $" [s]" ++ ["013"%char] ++ $"a: b" ++ ["013"%char] ++ $"   [u]" ++ ["010"%char] ++ $"  k = v" ++ ["010"%char]), false, Some [($"s", [($"a", ($"b" ++ ["010"%char] ++ $"[u]" ++ ["010"%char] ++ $"k = v"))])]);
   (($"[s0]" ++ ["013"%char] ++ ["010"%char] ++ $"  " ++ ["010"%char] ++ $"[u]" ++ ["010"%char] ++ $"   # c" ++ ["010"%char] ++ $"k = v" ++ ["010"%char] ++ $"  " ++ ["010"%char] ++ ["009"%char] ++ $"e =" ++ ["010"%char]), true, Some [($"s0", []); ($"u", [($"k", ($"v" ++ ["010"%char] ++ ["010"%char] ++ $"e ="))])]);
   (($"[s0]" ++ ["010"%char] ++ $"   d = e # f" ++ ["010"%char] ++ $"[t]" ++ ["010"%char] ++ ["010"%char] ++ ["010"%char]), true, Some [($"s0", [($"d", $"e # f")]); ($"t", [])]);
   (($"[s0]" ++ ["010"%char] ++ $"  " ++ ["013"%char] ++ ["010"%char] ++ $"; c" ++ ["013"%char] ++ ["010"%char] ++ ["009"%char] ++ $"; c" ++ ["010"%char] ++ $"[s]" ++ ["010"%char] ++ $"[u]" ++ ["010"%char] ++ ["009"%char] ++ $"# c" ++ ["010"%char]), false, Some [($"s0", []); ($"s", []); ($"u", [])]);
   (($"[]=3" ++ ["010"%char] ++ ["009"%char] ++ $"[t]" ++ ["010"%char]), true, None);
   (($"[s0]" ++ ["013"%char] ++ $" d = e # f" ++ ["010"%char] ++ $"[s]" ++ ["010"%char] ++ $"; c" ++ ["010"%char]), false, Some [($"s0", [($"d", $"e # f")]); ($"s", [])]);
   (($"[s0]" ++ ["010"%char] ++ $" m=1" ++ ["013"%char] ++ $"  k = v" ++ ["013"%char] ++ ["010"%char]), true, Some [($"s0", [($"m", ($"1" ++ ["010"%char] ++ $"k = v"))])]);
   (($"[s0]" ++ ["010"%char] ++ $"  ; c" ++ ["010"%char] ++ $"[ s ]" ++ ["013"%char]), true, Some [($"s0", []); ($" s ", [])]);
   (($"[s0]" ++ ["013"%char] ++ $"  " ++ ["013"%char] ++ ["010"%char] ++ $"c" ++ ["010"%char] ++ $"; c" ++ ["010"%char] ++ ["009"%char] ++ $"a: b"), true, None);
   (($"[t]" ++ ["010"%char] ++ $" = f" ++ ["010"%char] ++ $"  # c" ++ ["010"%char] ++ $"a: b" ++ ["010"%char] ++ $"  a:" ++ ["013"%char] ++ ["010"%char] ++ $"a: b"), false, None);
   (($"[s0]" ++ ["010"%char] ++ ["009"%char] ++ $"a: b" ++ ["013"%char] ++ ["010"%char] ++ ["009"%char] ++ $"d = e # f" ++ ["010"%char] ++ $"[s]" ++ ["010"%char] ++ $"[u]" ++ ["010"%char] ++ $"g = h : i" ++ ["010"%char] ++ $"   "), false, Some [($"s0", [($"a", $"b"); ($"d", $"e # f")]); ($"s", []); ($"u", [($"g", $"h : i")])]);
   (($"[s0]" ++ ["013"%char] ++ $"   b=c" ++ ["010"%char] ++ $"d = e # f" ++ ["010"%char]), false, Some [($"s0", [($"b", $"c"); ($"d", $"e # f")])]);
   (($"[DEFAULT]" ++ ["013"%char] ++ $"   [t]" ++ ["010"%char] ++ $"  ; c" ++ ["010"%char] ++ ["010"%char] ++ $" # c"), false, Some [($"t", [])]);
   (($"[s0]" ++ ["013"%char] ++ ["010"%char] ++ $"# c" ++ ["010"%char] ++ $"   K = w" ++ ["010"%char] ++ $"e =" ++ ["010"%char] ++ $"[s]" ++ ["013"%char] ++ ["010"%char] ++ $"   [t]" ++ ["010"%char] ++ $"[]x]" ++ ["013"%char] ++ ["010"%char] ++ $"  n=2" ++ ["013"%char] ++ $"a: b" ++ ["013"%char]), false, Some [($"s0", [($"k", $"w"); ($"e", $"")]); ($"s", []); ($"t", []); ($"]x", [($"n", $"2"); ($"a", $"b")])]);
   (($"   k = v" ++ ["013"%char] ++ $" = f" ++ ["010"%char] ++ $"a: b" ++ ["013"%char] ++ ["010"%char] ++ $"k = v"), false, None);
   (($"[s0]" ++ ["013"%char] ++ $"a: b" ++ ["013"%char] ++ ["010"%char] ++ $"[t]" ++ ["013"%char] ++ ["010"%char] ++ ["009"%char] ++ $"[]x]" ++ ["013"%char] ++ ["010"%char] ++ ["009"%char] ++ $"; c" ++ ["010"%char] ++ ["009"%char] ++ $"# c" ++ ["010"%char] ++ $"; c"), false, Some [($"s0", [($"a", $"b")]); ($"t", []); ($"]x", [])]);
   (($"[s0]" ++ ["010"%char] ++ $" d = e # f" ++ ["013"%char] ++ ["010"%char] ++ $"[t]" ++ ["010"%char] ++ $"   " ++ ["010"%char] ++ $"   k = v" ++ ["013"%char] ++ $"   [s]" ++ ["010"%char] ++ $"K = w" ++ ["010"%char]), false, Some [($"s0", [($"d", $"e # f")]); ($"t", [($"k", $"v")]); ($"s", [($"k", $"w")])]);
   (($"[s0]" ++ ["013"%char] ++ $"  ; c" ++ ["010"%char] ++ ["009"%char] ++ $"[u]" ++ ["013"%char] ++ ["010"%char] ++ $"a: b" ++ ["010"%char]), false, Some [($"s0", []); ($"u", [($"a", $"b")])]);
   (($"k = v" ++ ["013"%char] ++ ["010"%char] ++ $"   d = e # f" ++ ["010"%char] ++ $"  b=c" ++ ["013"%char] ++ ["010"%char]), true, None);
   (($"[s0]" ++ ["013"%char] ++ ["010"%char] ++ $"; c" ++ ["010"%char] ++ $"b=c" ++ ["013"%char] ++ ["010"%char]), true, Some [($"s0", [($"b", $"c")])]);
   (($"[s0]" ++ ["013"%char] ++ ["010"%char] ++ ["009"%char] ++ $"d = e # f" ++ ["010"%char] ++ $"  ; c" ++ ["010"%char] ++ $"  [u]" ++ ["010"%char] ++ $"  # c" ++ ["013"%char] ++ ["010"%char] ++ $"  ; c" ++ ["010"%char] ++ $"   K = w"), false, Some [($"s0", [($"d", ($"e # f" ++ ["010"%char] ++ $"[u]" ++ ["010"%char] ++ $"K = w"))])]);
   (($"[s0]" ++ ["010"%char] ++ $"[x" ++ ["013"%char] ++ $"k = v" ++ ["013"%char] ++ $"[s]" ++ ["010"%char] ++ $"; c" ++ ["013"%char] ++ ["010"%char] ++ $"k = v" ++ ["010"%char] ++ $" " ++ ["013"%char]), true, None);
   (($"[s0]" ++ ["010"%char] ++ $"   ; c" ++ ["010"%char] ++ $"d = e # f" ++ ["013"%char] ++ $" c" ++ ["010"%char]), true, Some [($"s0", [($"d", ($"e # f" ++ ["010"%char] ++ $"c"))])]);
   ((["009"%char] ++ $"[s]" ++ ["010"%char] ++ $"x = =" ++ ["010"%char] ++ ["013"%char] ++ ["010"%char]), false, Some [($"s", [($"x", $"=")])]);
   ((["010"%char] ++ $"   [s]" ++ ["010"%char] ++ $"  []x]"), true, Some [($"s", []); ($"]x", [])]);
   (($"[s]" ++ ["010"%char] ++ ["009"%char] ++ ["010"%char]), false, Some [($"s", [])]);
   (($"[s0]" ++ ["013"%char] ++ ["009"%char] ++ $"a:" ++ ["010"%char] ++ ["010"%char] ++ $"d = e # f" ++ ["010"%char] ++ $"  ; c" ++ ["010"%char]), false, Some [($"s0", [($"a", $""); ($"d", $"e # f")])]);
   ((["009"%char] ++ $"[] " ++ ["013"%char] ++ $"  K = w"), false, None);
   (($"[s0]" ++ ["010"%char] ++ $"b=c" ++ ["010"%char] ++ $"  [u]" ++ ["010"%char]), false, Some [($"s0", [($"b", ($"c" ++ ["010"%char] ++ $"[u]"))])]);
   (($"[s0]" ++ ["010"%char] ++ $"  [t]" ++ ["010"%char] ++ ["009"%char] ++ $"[s]"), false, Some [($"s0", []); ($"t", []); ($"s", [])]);
   (($"k = v" ++ ["013"%char] ++ ["009"%char] ++ $"[s]" ++ ["013"%char] ++ $"   # c" ++ ["010"%char] ++ $" [s]" ++ ["010"%char] ++ $"; c" ++ ["010"%char] ++ $"[s] # c"), true, None);
   (($"[s0]" ++ ["010"%char] ++ $"a: b" ++ ["010"%char] ++ $"   " ++ ["013"%char] ++ ["010"%char] ++ $"  c" ++ ["013"%char] ++ ["010"%char] ++ $"[] " ++ ["013"%char] ++ $"K = w" ++ ["013"%char] ++ $"b=c" ++ ["010"%char] ++ $"[s]]x" ++ ["010"%char]), false, None);
   (($"[s0]" ++ ["010"%char] ++ $"a: b" ++ ["013"%char] ++ $"d = e # f" ++ ["013"%char] ++ ["010"%char] ++ $"; c" ++ ["013"%char] ++ $"p=4" ++ ["010"%char] ++ $"o=3" ++ ["013"%char] ++ $"d = e # f" ++ ["013"%char]), true, None);
   (($"n=2" ++ ["013"%char] ++ ["013"%char] ++ ["010"%char] ++ ["009"%char] ++ $"; c" ++ ["010"%char]), true, None);
   (($"[s0]" ++ ["010"%char] ++ $"  k = v" ++ ["010"%char] ++ ["013"%char] ++ ["010"%char] ++ $"  [] " ++ ["013"%char] ++ ["010"%char] ++ $"K = w" ++ ["013"%char] ++ ["010"%char] ++ $"p=4" ++ ["013"%char] ++ ["010"%char] ++ $" d = e # f" ++ ["010"%char]), false, None);
   (($"[DEFAULT]" ++ ["010"%char] ++ $"   k = v" ++ ["013"%char] ++ ["010"%char] ++ $"   a:" ++ ["010"%char] ++ $"[u]" ++ ["010"%char] ++ $"[s]" ++ ["013"%char] ++ ["010"%char] ++ $" k = v" ++ ["013"%char] ++ $"  a:" ++ ["010"%char] ++ $"m=1" ++ ["010"%char] ++ $"b=c" ++ ["013"%char]), true, Some [($"u", [($"k", $"v"); ($"a", $"")]); ($"s", [($"k", ($"v" ++ ["010"%char] ++ $"a:")); ($"a", $""); ($"m", $"1"); ($"b", $"c")])]);
   (($"[DEFAULT]" ++ ["010"%char] ++ ["009"%char] ++ $"[]x]" ++ ["010"%char] ++ $"k = v" ++ ["013"%char] ++ ["010"%char] ++ $"[]x]" ++ ["013"%char] ++ ["010"%char]), false, Some [($"]x", [($"k", $"v")])]);
   (($"[s0]" ++ ["010"%char] ++ $"[s]" ++ ["013"%char] ++ ["010"%char] ++ $"   a: b" ++ ["010"%char] ++ $"[] " ++ ["010"%char]), true, None);
   (($"[s0]" ++ ["010"%char] ++ $"c" ++ ["013"%char] ++ $" c" ++ ["010"%char] ++ ["009"%char] ++ $"[s] # c" ++ ["010"%char] ++ $"b=c" ++ ["010"%char] ++ $"[s] # c" ++ ["010"%char] ++ $"k = v" ++ ["010"%char] ++ $"c" ++ ["013"%char] ++ ["010"%char] ++ $"[u]" ++ ["013"%char] ++ ["010"%char]), false, None);
   (($"[s0]" ++ ["010"%char] ++ $"[t]" ++ ["010"%char] ++ $"  " ++ ["010"%char]), true, Some [($"s0", []); ($"t", [])]);
   (($"[DEFAULT]" ++ ["013"%char] ++ $"  = f" ++ ["013"%char] ++ ["010"%char] ++ $"; c" ++ ["010"%char] ++ $"   k = v"), false, None);
   (($"[DEFAULT]" ++ ["013"%char] ++ ["010"%char] ++ $"k = v" ++ ["010"%char] ++ $"; c" ++ ["013"%char] ++ ["010"%char] ++ $"   c" ++ ["010"%char] ++ $" b=c" ++ ["013"%char] ++ $" " ++ ["010"%char] ++ ["009"%char] ++ $"; c" ++ ["010"%char]), false, Some []);
   (($"[s0]" ++ ["013"%char] ++ ["009"%char] ++ $"[t]" ++ ["013"%char] ++ ["010"%char] ++ $"; c" ++ ["013"%char] ++ ["010"%char]), true, Some [($"s0", []); ($"t", [])]);
   (($"[s0]" ++ ["010"%char] ++ $"   []=3" ++ ["013"%char] ++ ["010"%char] ++ ["010"%char] ++ $"   [t]" ++ ["010"%char] ++ $"b=c" ++ ["013"%char] ++ $" " ++ ["013"%char] ++ ["009"%char] ++ $"[t]" ++ ["013"%char]), false, Some [($"s0", [($"[]", $"3")]); ($"t", [($"b", ($"c" ++ ["010"%char] ++ ["010"%char] ++ $"[t]"))])]);
   (($"[s0]" ++ ["010"%char] ++ $"k = v" ++ ["013"%char] ++ ["010"%char] ++ $"   d = e # f" ++ ["013"%char] ++ ["010"%char] ++ $"  ; c" ++ ["013"%char]), false, Some [($"s0", [($"k", ($"v" ++ ["010"%char] ++ $"d = e # f"))])]);
   (($"[s0]" ++ ["013"%char] ++ $"K = w" ++ ["010"%char] ++ ["009"%char] ++ $"a: b"), false, Some [($"s0", [($"k", ($"w" ++ ["010"%char] ++ $"a: b"))])]);
   (($"[DEFAULT]" ++ ["010"%char] ++ $"# c" ++ ["013"%char] ++ ["010"%char] ++ ["009"%char] ++ $"b=c" ++ ["010"%char] ++ $":" ++ ["010"%char] ++ ["010"%char] ++ $" c" ++ ["010"%char] ++ ["009"%char] ++ $"; c" ++ ["010"%char]), false, None);
   (($"[u]" ++ ["010"%char] ++ ["009"%char] ++ $"K = w" ++ ["010"%char] ++ ["010"%char]), false, Some [($"u", [($"k", $"w")])]);
   (($":" ++ ["013"%char] ++ $" [s]"), false, None);
   (($"[s0]" ++ ["010"%char] ++ $"k = v" ++ ["010"%char] ++ $" m=1"), true, Some [($"s0", [($"k", ($"v" ++ ["010"%char] ++ $"m=1"))])]);
   (($"[s0]" ++ ["010"%char] ++ $" b=c" ++ ["010"%char] ++ $"k = v" ++ ["013"%char] ++ ["010"%char] ++ ["009"%char] ++ $"; c" ++ ["013"%char] ++ $" a:" ++ ["010"%char] ++ $"; c" ++ ["010"%char] ++ $"[t]" ++ ["013"%char] ++ $"  K = w" ++ ["013"%char] ++ ["010"%char] ++ $"# c" ++ ["010"%char]), false, Some [($"s0", [($"b", $"c"); ($"k", ($"v" ++ ["010"%char] ++ $"a:"))]); ($"t", [($"k", $"w")])]);
   ((["009"%char] ++ ["010"%char] ++ $"  " ++ ["013"%char] ++ ["010"%char] ++ $" k = v" ++ ["010"%char] ++ $"  K = w" ++ ["013"%char]), true, None);
   (($"[t]" ++ ["010"%char] ++ $"k = v" ++ ["010"%char] ++ $"[s]]x" ++ ["010"%char] ++ $"k = v" ++ ["013"%char] ++ $"c" ++ ["010"%char] ++ $"c" ++ ["013"%char] ++ ["010"%char] ++ $" k = v" ++ ["013"%char] ++ ["009"%char] ++ ["013"%char] ++ ["010"%char]), true, None);
   (($"[s0]" ++ ["013"%char] ++ $"  " ++ ["013"%char] ++ ["010"%char] ++ $"a: b" ++ ["010"%char]), false, Some [($"s0", [($"a", $"b")])]);
   (($" ; c" ++ ["010"%char] ++ $"d = e # f" ++ ["010"%char] ++ $"  [t]" ++ ["010"%char] ++ $"  c" ++ ["013"%char] ++ $"p=4" ++ ["013"%char] ++ ["010"%char] ++ $"c" ++ ["010"%char] ++ $" p=4" ++ ["013"%char] ++ $"d = e # f" ++ ["013"%char] ++ ["010"%char]), false, None);
   (($"[s0]" ++ ["010"%char] ++ $"  K = w" ++ ["010"%char] ++ $"; c" ++ ["013"%char] ++ ["010"%char] ++ $"; c" ++ ["010"%char] ++ $"d = e # f" ++ ["013"%char] ++ ["010"%char] ++ $"   K = w" ++ ["010"%char] ++ $"  ; c" ++ ["010"%char] ++ $"b=c" ++ ["013"%char] ++ $"[s]" ++ ["010"%char]), true, Some [($"s0", [($"k", $"w"); ($"d", ($"e # f" ++ ["010"%char] ++ $"K = w")); ($"b", $"c")]); ($"s", [])]);
   (($"[DEFAULT]" ++ ["010"%char] ++ ["010"%char] ++ $" "), false, Some []);
   (($"[DEFAULT]" ++ ["013"%char] ++ $"[s]" ++ ["010"%char] ++ $"  c" ++ ["010"%char] ++ $"[t]" ++ ["013"%char] ++ ["010"%char] ++ $"  [s]" ++ ["010"%char]), false, None);
   (($"[s0]" ++ ["013"%char] ++ ["010"%char] ++ $"  # c" ++ ["010"%char] ++ $" " ++ ["010"%char] ++ ["009"%char] ++ $"e =" ++ ["013"%char] ++ ["010"%char] ++ $"[u]" ++ ["010"%char] ++ ["010"%char] ++ $"; c" ++ ["010"%char]), true, Some [($"s0", [($"e", $"")]); ($"u", [])]);
   (($"[s0]" ++ ["013"%char] ++ ["010"%char] ++ $"   [s]" ++ ["013"%char] ++ $"[t]" ++ ["010"%char] ++ $"b=c" ++ ["010"%char] ++ $"# c" ++ ["010"%char] ++ $"  [t]" ++ ["010"%char] ++ $"[u]"), true, Some [($"s0", []); ($"s", []); ($"t", [($"b", ($"c" ++ ["010"%char] ++ $"[t]"))]); ($"u", [])]);
   (($"[s]" ++ ["010"%char] ++ $"   a:" ++ ["010"%char]), false, Some [($"s", [($"a", $"")])]);
   (($"[s0]" ++ ["013"%char] ++ ["010"%char] ++ ["009"%char] ++ $"c" ++ ["010"%char] ++ $"   c" ++ ["010"%char] ++ $"[u]" ++ ["013"%char] ++ ["010"%char] ++ $"   b=c" ++ ["013"%char] ++ ["010"%char] ++ $"  # c" ++ ["013"%char] ++ ["013"%char] ++ ["010"%char]), false, None);
   (($"[s0]" ++ ["013"%char] ++ $"  ; c" ++ ["013"%char] ++ ["010"%char] ++ $"  # c" ++ ["013"%char] ++ ["010"%char] ++ $" a: b" ++ ["010"%char] ++ ["010"%char] ++ $"[]x]" ++ ["010"%char] ++ $"[s]" ++ ["010"%char] ++ $"  ; c" ++ ["013"%char] ++ ["010"%char] ++ $" c" ++ ["013"%char]), true, None);
   (($"[s0]" ++ ["010"%char] ++ $"# c" ++ ["010"%char] ++ $"b=c" ++ ["013"%char] ++ ["009"%char] ++ $"[s]" ++ ["010"%char] ++ $"   [s]]x" ++ ["010"%char]), true, Some [($"s0", [($"b", ($"c" ++ ["010"%char] ++ $"[s]" ++ ["010"%char] ++ $"[s]]x"))])]);
   (($"[DEFAULT]" ++ ["013"%char] ++ ["010"%char] ++ $"b=c" ++ ["013"%char] ++ $"[u]" ++ ["010"%char] ++ $" k = v" ++ ["010"%char] ++ $"[u]" ++ ["010"%char] ++ $"   b=c" ++ ["010"%char] ++ $"; c"), true, None);
   (($"[s0]" ++ ["013"%char] ++ $"[u]" ++ ["013"%char] ++ $"[u]" ++ ["010"%char] ++ $"   [u]" ++ ["010"%char] ++ $"[]x]" ++ ["013"%char] ++ ["010"%char] ++ $" c" ++ ["013"%char] ++ ["010"%char] ++ ["010"%char] ++ $"  p=4" ++ ["013"%char] ++ ["010"%char] ++ $" [u]" ++ ["010"%char]), true, None);
   ((["009"%char] ++ $"d = e # f" ++ ["010"%char] ++ $"; c" ++ ["013"%char] ++ $"[u]" ++ ["010"%char] ++ ["013"%char] ++ ["010"%char] ++ $"  k = v" ++ ["010"%char] ++ ["010"%char] ++ $"k = v" ++ ["010"%char] ++ $"  [s]" ++ ["013"%char]), true, None);
   (($"[DEFAULT]" ++ ["010"%char] ++ $"c" ++ ["010"%char] ++ $"; c" ++ ["010"%char] ++ $"   " ++ ["010"%char] ++ $" [s]" ++ ["013"%char] ++ ["010"%char]), true, None);
   (($"[s0]" ++ ["013"%char] ++ $"   K = w" ++ ["010"%char] ++ $"d = e # f" ++ ["013"%char] ++ ["010"%char] ++ $" a:" ++ ["010"%char] ++ $"   ; c" ++ ["013"%char] ++ ["010"%char] ++ $"c" ++ ["010"%char] ++ $"  c" ++ ["013"%char] ++ ["010"%char] ++ $"  [t]" ++ ["010"%char] ++ $"; c"), false, None);
   (($"[DEFAULT]" ++ ["010"%char] ++ $"  [u]" ++ ["013"%char] ++ $"d = e # f" ++ ["010"%char] ++ ["009"%char] ++ $"; c" ++ ["013"%char] ++ $" b=c" ++ ["010"%char]), false, Some [($"u", [($"d", ($"e # f" ++ ["010"%char] ++ $"b=c"))])]);
   (($"[s0]" ++ ["010"%char] ++ $"[u]" ++ ["013"%char] ++ ["013"%char] ++ ["010"%char] ++ $"; c" ++ ["010"%char] ++ $" c" ++ ["010"%char] ++ $"[u]" ++ ["013"%char]), true, None);
   (($"a: b" ++ ["010"%char] ++ $"   k = v" ++ ["010"%char] ++ $"   b=c" ++ ["010"%char]), true, None);
   (($"   K = w" ++ ["010"%char] ++ $"  g = h : i" ++ ["010"%char] ++ $"a: b" ++ ["010"%char] ++ $"= f" ++ ["010"%char] ++ ["013"%char] ++ $"k = v" ++ ["010"%char] ++ $"n=2" ++ ["010"%char] ++ $"a: b"), true, None);
   (($"[s0]" ++ ["010"%char] ++ ["010"%char] ++ $"   m=1" ++ ["013"%char]), true, Some [($"s0", [($"m", $"1")])]);
   (($"[DEFAULT]" ++ ["010"%char] ++ $"K = w" ++ ["013"%char] ++ ["009"%char] ++ $"K = w" ++ ["010"%char] ++ $"k = v" ++ ["013"%char]), false, Some []);
   (($"[s0]" ++ ["010"%char] ++ $"[u]" ++ ["010"%char] ++ $"b=c" ++ ["010"%char] ++ $"  [s]]x" ++ ["010"%char] ++ $"  c" ++ ["013"%char] ++ ["010"%char]), false, Some [($"s0", []); ($"u", [($"b", ($"c" ++ ["010"%char] ++ $"[s]]x" ++ ["010"%char] ++ $"c"))])]);
   (($"[s0]" ++ ["013"%char] ++ ["010"%char] ++ $"a: b" ++ ["010"%char] ++ ["010"%char] ++ ["013"%char]), false, Some [($"s0", [($"a", $"b")])]);
   (($"[s0]" ++ ["010"%char] ++ $"   b=c" ++ ["010"%char] ++ $"K = w" ++ ["013"%char] ++ ["009"%char] ++ $"b=c" ++ ["010"%char] ++ $"a:" ++ ["013"%char] ++ ["010"%char] ++ $"a: b" ++ ["013"%char] ++ $"k = v" ++ ["013"%char] ++ ["010"%char]), false, Some [($"s0", [($"b", $"c"); ($"k", $"v"); ($"a", $"b")])]);
   (($"[DEFAULT]" ++ ["010"%char] ++ ["009"%char] ++ ["013"%char] ++ ["010"%char] ++ $"  # c" ++ ["010"%char] ++ ["010"%char] ++ $"   [] " ++ ["010"%char] ++ $"[u]" ++ ["013"%char] ++ ["010"%char] ++ $"[s]"), true, None);
   (($"[s0]" ++ ["010"%char] ++ $"k = v" ++ ["010"%char] ++ $"[] " ++ ["010"%char] ++ $"   b=c" ++ ["013"%char]), true, None);
   (($"[s0]" ++ ["010"%char] ++ $"   # c" ++ ["010"%char] ++ ["013"%char] ++ ["010"%char] ++ $"K = w" ++ ["013"%char] ++ $"a:" ++ ["010"%char] ++ $"  [u]" ++ ["010"%char] ++ $"[u]" ++ ["010"%char]), true, Some [($"s0", [($"k", $"w"); ($"a", (["010"%char] ++ $"[u]"))]); ($"u", [])]);
   (($"a: b" ++ ["010"%char] ++ $"[u]" ++ ["013"%char] ++ ["010"%char]), true, None);
   (($"[DEFAULT]" ++ ["010"%char] ++ ["009"%char] ++ $"[ s ]" ++ ["010"%char] ++ $"   [s]" ++ ["010"%char] ++ $"[u]" ++ ["010"%char] ++ $" d = e # f" ++ ["013"%char]), true, Some [($" s ", []); ($"s", []); ($"u", [($"d", $"e # f")])]);
   (($"[s0]" ++ ["013"%char] ++ ["009"%char] ++ $"; c" ++ ["010"%char] ++ $" b=c" ++ ["013"%char] ++ $" ; c" ++ ["013"%char] ++ ["009"%char] ++ $"b=c" ++ ["010"%char] ++ ["009"%char] ++ $"# c" ++ ["013"%char] ++ ["010"%char] ++ $"K = w" ++ ["010"%char] ++ $"c" ++ ["010"%char] ++ $" " ++ ["010"%char]), false, None);
   (($"[u]" ++ ["013"%char] ++ ["010"%char] ++ $"   [s]" ++ ["010"%char] ++ $"n=2" ++ ["010"%char] ++ $" b=c" ++ ["010"%char] ++ $"   b=c" ++ ["010"%char] ++ $" c" ++ ["013"%char] ++ $" " ++ ["028"%char] ++ $"q = r" ++ ["010"%char] ++ $" b=c"), false, Some [($"u", []); ($"s", [($"n", ($"2" ++ ["010"%char] ++ $"b=c" ++ ["010"%char] ++ $"b=c" ++ ["010"%char] ++ $"c" ++ ["010"%char] ++ $"q = r" ++ ["010"%char] ++ $"b=c"))])]);
   (($"[s0]" ++ ["010"%char] ++ $" " ++ ["013"%char] ++ $"  " ++ ["013"%char]), true, Some [($"s0", [])]);
   (($"[DEFAULT]" ++ ["010"%char] ++ $"a: b" ++ ["010"%char] ++ $":" ++ ["010"%char]), true, None);
   (($"[s0]" ++ ["010"%char] ++ $"  [q]:3" ++ ["010"%char] ++ $"   K = w" ++ ["013"%char] ++ ["010"%char] ++ $"K = w" ++ ["010"%char] ++ $" [s]" ++ ["013"%char] ++ ["010"%char] ++ $" [t]" ++ ["013"%char] ++ $"  a: b" ++ ["013"%char] ++ ["013"%char] ++ ["010"%char]), true, None);
   (($"a:" ++ ["013"%char] ++ ["010"%char] ++ $"[t]" ++ ["010"%char] ++ $"[q]:3" ++ ["010"%char] ++ $"b=c" ++ ["010"%char] ++ $"k = v" ++ ["010"%char] ++ $" [t]"), true, None);
   (($"[DEFAULT]" ++ ["010"%char] ++ $"  [s]" ++ ["010"%char] ++ $"[s]" ++ ["010"%char]), true, None);
   (($"[s0]" ++ ["013"%char] ++ ["009"%char] ++ $"d = e # f" ++ ["013"%char] ++ $" ; c" ++ ["010"%char] ++ $"k = v" ++ ["010"%char] ++ $"[u]" ++ ["010"%char]), true, Some [($"s0", [($"d", $"e # f"); ($"k", $"v")]); ($"u", [])]);
   (($"[s0]" ++ ["013"%char] ++ ["010"%char] ++ $"c" ++ ["013"%char] ++ ["010"%char] ++ $"b=c" ++ ["010"%char] ++ $"[u]" ++ ["010"%char]), false, None);
   (($"b=c" ++ ["013"%char] ++ ["010"%char] ++ $"[u]" ++ ["013"%char] ++ ["010"%char]), false, None);
   ((["009"%char] ++ $"[u]" ++ ["010"%char] ++ ["009"%char] ++ $"[ s ]" ++ ["010"%char] ++ $"b=c" ++ ["013"%char] ++ ["010"%char] ++ $"[s] # c" ++ ["013"%char] ++ ["010"%char]), true, Some [($"u", []); ($" s ", [($"b", $"c")]); ($"s", [])]);
   (($"[s0]" ++ ["010"%char] ++ $"   # c" ++ ["010"%char] ++ $"k = v" ++ ["010"%char] ++ ["013"%char] ++ ["009"%char] ++ $"[u]" ++ ["010"%char] ++ $" # c" ++ ["010"%char] ++ $" [u]" ++ ["010"%char]), false, Some [($"s0", [($"k", ($"v" ++ ["010"%char] ++ ["010"%char] ++ $"[u]" ++ ["010"%char] ++ $"[u]"))])]);
   (($" a: b" ++ ["010"%char] ++ $"; c" ++ ["013"%char] ++ ["009"%char] ++ $"c" ++ ["010"%char] ++ ["010"%char] ++ $"[u]" ++ ["010"%char] ++ ["013"%char]), true, None);
   (($"[s0]" ++ ["010"%char] ++ $"c" ++ ["013"%char] ++ $"  c" ++ ["010"%char]), false, None);
   (($"[s]]x" ++ ["010"%char] ++ $"  [t]" ++ ["010"%char]), true, Some [($"s]", []); ($"t", [])]);
   (($"[DEFAULT]" ++ ["013"%char] ++ ["010"%char] ++ ["009"%char] ++ $"[t]" ++ ["013"%char] ++ $" b=c" ++ ["013"%char] ++ ["010"%char] ++ $"k = v" ++ ["013"%char] ++ ["028"%char] ++ $"q = r"), true, Some [($"t", [($"b", $"c"); ($"k", ($"v" ++ ["010"%char] ++ $"q = r"))])]);
   (($"  d = e # f" ++ ["010"%char] ++ $"; c" ++ ["010"%char]), false, None);
   (($"[DEFAULT]" ++ ["010"%char] ++ $" g = h : i" ++ ["010"%char] ++ $"  " ++ ["013"%char] ++ ["010"%char] ++ $"[t]" ++ ["010"%char] ++ $"   " ++ ["013"%char] ++ ["010"%char] ++ ["009"%char] ++ ["013"%char] ++ ["009"%char] ++ $"; c" ++ ["013"%char] ++ ["010"%char]), true, Some [($"t", [($"g", $"h : i")])]);
   (($"[s0]" ++ ["010"%char] ++ $" [u]" ++ ["010"%char] ++ $"[t]" ++ ["013"%char] ++ $"  K = w" ++ ["010"%char]), false, Some [($"s0", []); ($"u", []); ($"t", [($"k", $"w")])]);
   (($"[s]" ++ ["010"%char] ++ ["013"%char] ++ $"K = w" ++ ["010"%char] ++ $"b=c" ++ ["013"%char]), false, Some [($"s", [($"k", $"w"); ($"b", $"c")])]);
   (($"   []x]" ++ ["010"%char] ++ $" []=3" ++ ["013"%char] ++ ["010"%char] ++ ["009"%char] ++ $"b=c" ++ ["013"%char]), true, Some [($"]x", [($"[]", $"3"); ($"b", $"c")])]);
   (($"  [q]:3" ++ ["013"%char] ++ ["010"%char] ++ $"  # c" ++ ["010"%char] ++ $"  # c" ++ ["013"%char]), true, Some [($"q", [])]);
   (($"[s0]" ++ ["013"%char] ++ $"k = v" ++ ["010"%char] ++ $"   [s]" ++ ["010"%char]), true, Some [($"s0", [($"k", ($"v" ++ ["010"%char] ++ $"[s]"))])]);
   (($"[s0]" ++ ["013"%char] ++ ["010"%char] ++ $"   K = w" ++ ["010"%char] ++ $"[t]" ++ ["010"%char] ++ $"k = v" ++ ["010"%char] ++ $":" ++ ["013"%char] ++ ["010"%char] ++ $"  c" ++ ["013"%char] ++ $"   b=c" ++ ["010"%char] ++ $"K = w" ++ ["013"%char] ++ ["010"%char] ++ ["009"%char] ++ $"d = e # f" ++ ["010"%char]), true, None);
   (($"[DEFAULT]" ++ ["013"%char] ++ ["010"%char] ++ $"   d = e # f" ++ ["010"%char] ++ $"[t]" ++ ["010"%char] ++ $"; c" ++ ["010"%char] ++ ["009"%char] ++ $"; c" ++ ["010"%char] ++ $" " ++ ["010"%char] ++ ["009"%char] ++ $"# c" ++ ["013"%char] ++ $" " ++ ["013"%char] ++ $"   [] " ++ ["010"%char]), true, None);
   (($"[s0]" ++ ["013"%char] ++ ["010"%char] ++ $"y" ++ ["011"%char] ++ $" = " ++ ["012"%char] ++ $"z" ++ ["013"%char] ++ ["009"%char] ++ ["010"%char] ++ $"k = v" ++ ["010"%char] ++ ["009"%char] ++ $"b=c" ++ ["013"%char] ++ ["010"%char] ++ ["009"%char] ++ $"k = v" ++ ["010"%char] ++ $"K = w" ++ ["010"%char] ++ $"[q]:3" ++ ["010"%char] ++ $" "), true, None);
   (($"[s0]" ++ ["013"%char] ++ ["010"%char] ++ $"[s]" ++ ["010"%char] ++ $"k = v" ++ ["013"%char] ++ $"[u]"), true, Some [($"s0", []); ($"s", [($"k", $"v")]); ($"u", [])]);
   (($"[s0]" ++ ["010"%char] ++ $"[u]" ++ ["013"%char] ++ ["010"%char] ++ $"b=c" ++ ["010"%char] ++ $"d = e # f" ++ ["013"%char] ++ ["010"%char] ++ $"d = e # f" ++ ["013"%char] ++ ["010"%char] ++ $"[] " ++ ["010"%char] ++ $"   [u]" ++ ["013"%char] ++ ["010"%char] ++ $" k = v" ++ ["013"%char] ++ ["010"%char] ++ $"k = v" ++ ["013"%char]), true, None);
   (($"[s0]" ++ ["013"%char] ++ $" b=c" ++ ["010"%char] ++ $"; c" ++ ["010"%char] ++ $"  # c" ++ ["010"%char] ++ $"[s]" ++ ["013"%char]), true, Some [($"s0", [($"b", $"c")]); ($"s", [])]);
   (($"[s0]" ++ ["013"%char] ++ $"   ; c" ++ ["013"%char] ++ ["010"%char] ++ ["009"%char] ++ $"d = e # f" ++ ["013"%char] ++ ["010"%char]), true, Some [($"s0", [($"d", $"e # f")])]);
   (($"[s0]" ++ ["010"%char] ++ $"# c" ++ ["010"%char] ++ $" "), true, Some [($"s0", [])]);
   (($"[s0]" ++ ["010"%char] ++ ["009"%char] ++ ["010"%char] ++ $"b=c" ++ ["010"%char] ++ $"   o=3" ++ ["010"%char] ++ $"# c" ++ ["010"%char] ++ $"   c" ++ ["010"%char] ++ $"b=c" ++ ["010"%char]), true, None);
   (($"[DEFAULT]" ++ ["013"%char] ++ $"# c" ++ ["010"%char] ++ $"  c" ++ ["010"%char] ++ $"   ; c" ++ ["013"%char] ++ $"   # c" ++ ["010"%char] ++ ["009"%char] ++ $"a: b" ++ ["010"%char] ++ $"# c"), true, None);
   (($"[s0]" ++ ["013"%char] ++ $" " ++ ["013"%char] ++ $" # c" ++ ["010"%char]), true, Some [($"s0", [])]);
   (($"   " ++ ["010"%char] ++ $"[s]" ++ ["013"%char] ++ ["010"%char] ++ $" " ++ ["010"%char] ++ ["009"%char] ++ $"K = w" ++ ["013"%char] ++ ["010"%char] ++ $"   # c" ++ ["010"%char] ++ ["010"%char]), false, Some [($"s", [($"k", $"w")])]);
   (($"[DEFAULT]" ++ ["013"%char] ++ ["009"%char] ++ $"[s]" ++ ["013"%char] ++ $"   [s]" ++ ["010"%char] ++ $"[x" ++ ["013"%char] ++ $"x = =" ++ ["010"%char] ++ $" # c" ++ ["010"%char] ++ $"d = e # f" ++ ["010"%char] ++ ["009"%char] ++ $"[t]" ++ ["013"%char] ++ $"   d = e # f" ++ ["013"%char]), true, None);
   (($"[s0]" ++ ["010"%char] ++ $"   [s]" ++ ["010"%char] ++ $"[]x]" ++ ["010"%char] ++ $"[u]" ++ ["010"%char] ++ $"[u]" ++ ["013"%char] ++ ["010"%char]), true, None);
   (($"o=3" ++ ["010"%char] ++ $" d = e # f" ++ ["013"%char] ++ $"[t]" ++ ["010"%char]), true, None);
   (($"   o=3" ++ ["010"%char] ++ $"  b=c" ++ ["010"%char] ++ $"K = w" ++ ["010"%char] ++ $"  d = e # f" ++ ["010"%char] ++ $"d = e # f" ++ ["013"%char] ++ $"K = w" ++ ["010"%char]), false, None);
   (($"[s0]" ++ ["013"%char] ++ ["010"%char] ++ $"# c" ++ ["013"%char] ++ ["010"%char] ++ $"e =" ++ ["013"%char] ++ ["010"%char] ++ ["010"%char]), false, Some [($"s0", [($"e", $"")])]);
   (($"[DEFAULT]" ++ ["010"%char] ++ $"b=c" ++ ["013"%char] ++ $"  [t]" ++ ["013"%char] ++ $":" ++ ["013"%char]), false, None);
   (($"   d = e # f" ++ ["013"%char] ++ ["010"%char] ++ $"k = v" ++ ["013"%char] ++ $"k = v" ++ ["010"%char]), true, None);
   (($"[s0]" ++ ["013"%char] ++ $" # c" ++ ["010"%char] ++ $"[s]" ++ ["013"%char] ++ ["010"%char] ++ $"  [t]" ++ ["013"%char] ++ ["010"%char] ++ ["009"%char] ++ $"d = e # f" ++ ["013"%char] ++ $"[]=3" ++ ["010"%char] ++ $"  [s]" ++ ["013"%char] ++ ["010"%char]), false, Some [($"s0", []); ($"s", []); ($"t", [($"d", $"e # f"); ($"[]", ($"3" ++ ["010"%char] ++ $"[s]"))])]);
   (($"[s0]" ++ ["013"%char] ++ $"   m=1" ++ ["013"%char] ++ ["010"%char] ++ $"; c" ++ ["010"%char] ++ $"K = w" ++ ["010"%char] ++ ["013"%char] ++ ["009"%char] ++ $"[s]" ++ ["010"%char] ++ ["009"%char] ++ $"y" ++ ["011"%char] ++ $" = " ++ ["012"%char] ++ $"z" ++ ["010"%char]), false, Some [($"s0", [($"m", $"1"); ($"k", ($"w" ++ ["010"%char] ++ ["010"%char] ++ $"[s]" ++ ["010"%char] ++ $"y" ++ ["011"%char] ++ $" = " ++ ["012"%char] ++ $"z"))])]);
   (($"p=4" ++ ["010"%char] ++ $"d = e # f" ++ ["010"%char] ++ $"  [t]" ++ ["013"%char] ++ ["010"%char] ++ $"c" ++ ["010"%char] ++ $" d = e # f" ++ ["010"%char] ++ $"y" ++ ["011"%char] ++ $" = " ++ ["012"%char] ++ $"z" ++ ["010"%char]), true, None);
   (($"[DEFAULT]" ++ ["013"%char] ++ ["010"%char] ++ ["009"%char] ++ $"[s]" ++ ["010"%char] ++ $"[x" ++ ["010"%char] ++ $"   K = w" ++ ["010"%char] ++ $"b=c" ++ ["013"%char] ++ ["010"%char]), false, None);
   (($"[s0]" ++ ["013"%char] ++ ["010"%char] ++ $"   x = =" ++ ["013"%char] ++ $" # c" ++ ["010"%char] ++ ["009"%char] ++ ["013"%char]), true, Some [($"s0", [($"x", $"=")])]);
   (($" b=c" ++ ["010"%char] ++ $"[u]" ++ ["010"%char] ++ $"x = =" ++ ["010"%char] ++ $"  d = e # f"), false, None);
   (($"[s0]" ++ ["010"%char] ++ $" K = w" ++ ["013"%char] ++ ["010"%char] ++ $"[s]" ++ ["013"%char] ++ $"c"), false, None);
   (($"[DEFAULT]" ++ ["010"%char] ++ $"   a: b" ++ ["013"%char] ++ ["010"%char] ++ ["013"%char] ++ $"[ s ]"), false, Some [($" s ", [($"a", $"b")])]);
   (($"[s0]" ++ ["013"%char] ++ ["010"%char] ++ ["013"%char] ++ ["010"%char] ++ $"b=c" ++ ["013"%char] ++ ["010"%char] ++ $"   d = e # f" ++ ["013"%char] ++ $"[]x]" ++ ["010"%char] ++ $"   k = v" ++ ["010"%char] ++ $"[s]" ++ ["010"%char]), false, Some [($"s0", [($"b", ($"c" ++ ["010"%char] ++ $"d = e # f"))]); ($"]x", [($"k", $"v")]); ($"s", [])]);
   (($"[s0]" ++ ["013"%char] ++ ["010"%char] ++ ["009"%char] ++ $"[t]" ++ ["013"%char] ++ ["010"%char] ++ $" " ++ ["013"%char] ++ $"a: b" ++ ["013"%char] ++ $"b=c" ++ ["010"%char] ++ $"c" ++ ["013"%char] ++ ["010"%char] ++ ["009"%char] ++ ["010"%char]), true, None);
   (($"[s0]" ++ ["010"%char] ++ $" # c" ++ ["010"%char] ++ $"[t]" ++ ["010"%char] ++ ["010"%char] ++ $" [t]" ++ ["010"%char] ++ $" d = e # f" ++ ["010"%char] ++ $"  a: b" ++ ["013"%char]), true, None);
   (($"  " ++ ["010"%char] ++ $"b=c"), false, None);
   (($"   a: b" ++ ["010"%char] ++ $"   c" ++ ["010"%char] ++ $"  [s]" ++ ["010"%char] ++ $"b=c" ++ ["013"%char]), true, None);
   (($"[DEFAULT]" ++ ["010"%char] ++ $" # c" ++ ["010"%char] ++ $"[s]" ++ ["010"%char] ++ $"[s]" ++ ["013"%char] ++ ["010"%char] ++ $"   K = w" ++ ["013"%char] ++ ["010"%char] ++ $"# c" ++ ["013"%char] ++ $"[s] # c"), false, Some [($"s", [($"k", $"w")])]);
   (($"[s0]" ++ ["013"%char] ++ ["010"%char] ++ ["010"%char] ++ $"   K = w" ++ ["010"%char]), true, Some [($"s0", [($"k", $"w")])]);
   (($"[DEFAULT]" ++ ["010"%char] ++ ["009"%char] ++ $"# c" ++ ["010"%char] ++ $"[]=3"), true, Some []);
   (($"[s0]" ++ ["010"%char] ++ $"  ; c" ++ ["013"%char] ++ ["010"%char] ++ ["009"%char] ++ $"[ s ]" ++ ["010"%char] ++ $"   " ++ ["013"%char] ++ ["010"%char] ++ $"   [t]" ++ ["013"%char] ++ ["010"%char] ++ $"   [t]" ++ ["013"%char] ++ ["010"%char] ++ ["009"%char] ++ ["013"%char] ++ ["010"%char] ++ $"K = w" ++ ["010"%char] ++ $"a:"), true, None);
   (($"[s0]" ++ ["010"%char] ++ $"b=c" ++ ["010"%char] ++ $"K = w" ++ ["010"%char]), true, Some [($"s0", [($"b", $"c"); ($"k", $"w")])]);
   (($"[s0]" ++ ["013"%char] ++ $"# c" ++ ["010"%char] ++ $" # c" ++ ["010"%char] ++ $"   [s]"), true, Some [($"s0", []); ($"s", [])]);
   (($"[s0]" ++ ["010"%char] ++ $"   d = e # f" ++ ["010"%char] ++ $" K = w"), true, Some [($"s0", [($"d", $"e # f"); ($"k", $"w")])]);
   (($"[s0]" ++ ["010"%char] ++ $"K = w" ++ ["013"%char] ++ ["010"%char] ++ $"b=c" ++ ["010"%char] ++ $"  [u]" ++ ["010"%char]), false, Some [($"s0", [($"k", $"w"); ($"b", ($"c" ++ ["010"%char] ++ $"[u]"))])]);
   (($"[s0]" ++ ["010"%char] ++ $" d = e # f" ++ ["010"%char] ++ $"# c" ++ ["010"%char] ++ ["009"%char] ++ $"b=c" ++ ["010"%char] ++ $"  " ++ ["010"%char] ++ $"# c" ++ ["013"%char] ++ ["010"%char] ++ ["028"%char] ++ $"q = r" ++ ["013"%char] ++ ["010"%char] ++ $"[q]:3" ++ ["013"%char] ++ ["028"%char] ++ $"q = r"), true, Some [($"s0", [($"d", $"e # f"); ($"b", $"c"); ($"q", $"r")]); ($"q", [($"q", $"r")])]);
   (($"[s0]" ++ ["010"%char] ++ $"[s]" ++ ["010"%char] ++ $"   []x]" ++ ["013"%char] ++ ["009"%char] ++ ["010"%char] ++ $"   a: b" ++ ["013"%char] ++ ["010"%char]), true, Some [($"s0", []); ($"s", []); ($"]x", [($"a", $"b")])]);
   (($"[DEFAULT]" ++ ["010"%char] ++ $"c" ++ ["010"%char] ++ $"[] " ++ ["013"%char]), true, None);
   (($"[s0]" ++ ["013"%char] ++ $"  K = w" ++ ["010"%char] ++ $"   [] " ++ ["010"%char] ++ $"k = v" ++ ["010"%char]), true, None);
   (($"[DEFAULT]" ++ ["010"%char] ++ $"   [s]" ++ ["010"%char] ++ ["009"%char] ++ $"[s]" ++ ["010"%char] ++ $"K = w" ++ ["013"%char] ++ $"; c" ++ ["013"%char] ++ $"d = e # f" ++ ["010"%char] ++ $" " ++ ["013"%char] ++ ["010"%char]), true, None);
   (($"[s0]" ++ ["013"%char] ++ $"  [t]" ++ ["010"%char] ++ $"   k = v" ++ ["010"%char] ++ ["009"%char] ++ $"[u]" ++ ["010"%char] ++ ["009"%char] ++ $"[]x]" ++ ["013"%char] ++ $" c" ++ ["013"%char] ++ $"# c"), true, None);
   (($"[s0]" ++ ["010"%char] ++ $"b=c" ++ ["010"%char] ++ $"a: b" ++ ["010"%char]), false, Some [($"s0", [($"b", $"c"); ($"a", $"b")])]);
   (($"c" ++ ["010"%char] ++ $"  [u]" ++ ["013"%char] ++ ["010"%char] ++ $"[]=3" ++ ["013"%char]), true, None);
   (($"[DEFAULT]" ++ ["010"%char] ++ $" [x" ++ ["013"%char] ++ $"   [t]" ++ ["010"%char] ++ ["009"%char] ++ $"[t]" ++ ["013"%char] ++ ["010"%char]), true, None);
   (($"[s0]" ++ ["013"%char] ++ ["010"%char] ++ $"k = v" ++ ["010"%char] ++ $"   c" ++ ["010"%char] ++ $"p=4" ++ ["013"%char]), false, Some [($"s0", [($"k", ($"v" ++ ["010"%char] ++ $"c")); ($"p", $"4")])]);
   (($"[s0]" ++ ["013"%char] ++ ["010"%char] ++ ["010"%char] ++ $"[]=3" ++ ["013"%char] ++ $"   k = v" ++ ["010"%char] ++ ["009"%char] ++ $"[s]" ++ ["010"%char] ++ $"[t]" ++ ["010"%char] ++ $" c" ++ ["010"%char]), true, None);
   (($"[s0]" ++ ["013"%char] ++ ["010"%char] ++ $" c" ++ ["013"%char] ++ ["010"%char] ++ ["013"%char] ++ $"  [u]" ++ ["010"%char] ++ $" [t]" ++ ["010"%char] ++ $"; c" ++ ["013"%char] ++ ["010"%char] ++ ["009"%char] ++ $"# c" ++ ["010"%char] ++ $"c" ++ ["010"%char] ++ $"[u]" ++ ["010"%char]), true, None);
   (($"[s0]" ++ ["013"%char] ++ ["010"%char] ++ $"   []x]" ++ ["010"%char] ++ $" [t]" ++ ["010"%char] ++ $"c" ++ ["010"%char] ++ ["009"%char] ++ $"a: b" ++ ["013"%char] ++ $"   y" ++ ["011"%char] ++ $" = " ++ ["012"%char] ++ $"z" ++ ["010"%char] ++ $"   ; c" ++ ["010"%char] ++ $"k = v" ++ ["013"%char] ++ $"   c" ++ ["010"%char]), true, None);
   ((["010"%char] ++ $"k = v" ++ ["010"%char]), true, None);
   (($"[s0]" ++ ["010"%char] ++ $" ; c" ++ ["013"%char] ++ ["010"%char] ++ $"b=c"), false, Some [($"s0", [($"b", $"c")])]);
   (($"[s0]" ++ ["013"%char] ++ $" [s]" ++ ["013"%char] ++ ["010"%char] ++ $"[s]]x" ++ ["013"%char] ++ ["010"%char]), false, Some [($"s0", []); ($"s", []); ($"s]", [])]);
   (($"[s0]" ++ ["010"%char] ++ $"  k = v" ++ ["010"%char] ++ ["009"%char] ++ $"# c" ++ ["013"%char] ++ ["010"%char] ++ ["009"%char] ++ $"[u]" ++ ["013"%char] ++ $"K = w" ++ ["010"%char] ++ ["009"%char] ++ $"[t]" ++ ["013"%char] ++ ["010"%char] ++ $" # c" ++ ["010"%char] ++ ["009"%char] ++ $"c" ++ ["010"%char] ++ $"  d = e # f"), false, Some [($"s0", [($"k", $"v")]); ($"u", [($"k", ($"w" ++ ["010"%char] ++ $"[t]" ++ ["010"%char] ++ $"c" ++ ["010"%char] ++ $"d = e # f"))])]);
   (($"[s0]" ++ ["010"%char] ++ $"  k = v" ++ ["013"%char] ++ ["010"%char] ++ ["010"%char] ++ ["009"%char] ++ $"[s] # c" ++ ["010"%char] ++ ["009"%char] ++ $"k = v" ++ ["013"%char] ++ $"q = r" ++ ["029"%char] ++ ["013"%char] ++ $"  K = w" ++ ["010"%char] ++ $"[u]" ++ ["010"%char] ++ $"; c" ++ ["013"%char]), true, Some [($"s0", [($"k", $"v")]); ($"s", [($"k", $"v"); ($"q", ($"r" ++ ["010"%char] ++ $"K = w"))]); ($"u", [])]);
   (($" c" ++ ["010"%char] ++ ["013"%char] ++ ["013"%char]), false, None);
   (($"[DEFAULT]" ++ ["010"%char] ++ $"[s]" ++ ["013"%char] ++ ["010"%char] ++ $"  [q]:3" ++ ["010"%char]), true, Some [($"s", []); ($"q", [])]);
   (($"[s0]" ++ ["013"%char] ++ ["010"%char] ++ $"  " ++ ["010"%char] ++ ["009"%char] ++ $"a: b" ++ ["013"%char] ++ ["010"%char] ++ $"c" ++ ["010"%char] ++ $" [s]" ++ ["010"%char] ++ $"  " ++ ["010"%char] ++ $" K = w"), false, None);
   (($"[s0]" ++ ["013"%char] ++ $"[t]" ++ ["010"%char] ++ $"d = e # f" ++ ["013"%char] ++ $"; c" ++ ["013"%char] ++ $"a: b" ++ ["010"%char] ++ $"   o=3" ++ ["010"%char] ++ $"[u]" ++ ["013"%char] ++ ["010"%char] ++ $" [s]" ++ ["013"%char] ++ $"k = v" ++ ["010"%char]), false, Some [($"s0", []); ($"t", [($"d", $"e # f"); ($"a", ($"b" ++ ["010"%char] ++ $"o=3"))]); ($"u", []); ($"s", [($"k", $"v")])]);
   (($"[s0]" ++ ["013"%char] ++ ["010"%char] ++ $"[s]" ++ ["013"%char] ++ $" K = w" ++ ["010"%char] ++ ["028"%char] ++ $"q = r"), false, Some [($"s0", []); ($"s", [($"k", $"w"); ($"q", $"r")])]);
   (($"[DEFAULT]" ++ ["010"%char] ++ $"   c" ++ ["013"%char] ++ $"k = v" ++ ["013"%char] ++ ["010"%char] ++ $"b=c" ++ ["013"%char] ++ ["010"%char] ++ ["009"%char] ++ $"b=c" ++ ["010"%char] ++ ["009"%char] ++ $"[t]" ++ ["013"%char] ++ ["010"%char] ++ $"# c" ++ ["010"%char] ++ $"   [s]" ++ ["010"%char]), false, None);
   (($"[s0]" ++ ["010"%char] ++ $" " ++ ["010"%char] ++ $"d = e # f" ++ ["010"%char] ++ $"[t]" ++ ["010"%char] ++ $"[s]" ++ ["013"%char] ++ ["010"%char] ++ $"  " ++ ["010"%char] ++ ["013"%char]), true, Some [($"s0", [($"d", $"e # f")]); ($"t", []); ($"s", [])]);
   (($"[q]:3" ++ ["010"%char] ++ $"q = r" ++ ["029"%char] ++ ["013"%char] ++ ["010"%char] ++ $"   " ++ ["013"%char] ++ ["010"%char] ++ ["010"%char]), true, Some [($"q", [($"q", $"r")])]);
   (($"[DEFAULT]" ++ ["010"%char] ++ $"   ; c" ++ ["010"%char] ++ $"   ; c" ++ ["013"%char] ++ ["010"%char] ++ $"a: b" ++ ["010"%char] ++ $"e =" ++ ["010"%char] ++ $"   p=4" ++ ["010"%char] ++ $"b=c" ++ ["010"%char]), false, Some []);
   (($"[s0]" ++ ["010"%char] ++ ["009"%char] ++ ["013"%char] ++ ["010"%char] ++ $" " ++ ["013"%char] ++ ["010"%char] ++ $"  ; c" ++ ["010"%char] ++ $"  " ++ ["013"%char] ++ ["010"%char]), true, Some [($"s0", [])]);
   (($"[DEFAULT]" ++ ["013"%char] ++ ["010"%char] ++ $"[t]" ++ ["010"%char] ++ $" # c" ++ ["010"%char]), false, Some [($"t", [])]);
   (($"[DEFAULT]" ++ ["010"%char] ++ $"  g = h : i" ++ ["013"%char] ++ ["010"%char] ++ $"   "), true, Some []);
   (($"[s0]" ++ ["013"%char] ++ ["010"%char] ++ ["009"%char] ++ $"[t]" ++ ["010"%char] ++ ["009"%char] ++ ["013"%char]), true, Some [($"s0", []); ($"t", [])]);
   (($" " ++ ["010"%char] ++ $"[t]" ++ ["010"%char] ++ $"# c" ++ ["010"%char] ++ $"c" ++ ["010"%char] ++ ["010"%char] ++ $"[q]:3" ++ ["010"%char] ++ $"   " ++ ["013"%char] ++ ["009"%char] ++ ["010"%char]), true, None);
   (($"[s0]" ++ ["010"%char] ++ $"[u]" ++ ["013"%char] ++ ["009"%char] ++ $"# c" ++ ["013"%char] ++ ["010"%char] ++ $"k = v" ++ ["010"%char]), false, Some [($"s0", []); ($"u", [($"k", $"v")])]);
   (($"[s0]" ++ ["013"%char] ++ $"y" ++ ["011"%char] ++ $" = " ++ ["012"%char] ++ $"z" ++ ["013"%char] ++ ["010"%char] ++ $"[t]" ++ ["010"%char] ++ $"K = w" ++ ["010"%char] ++ $"o=3" ++ ["013"%char]), false, Some [($"s0", [($"y", $"z")]); ($"t", [($"k", $"w"); ($"o", $"3")])]);
   (($"[]=3" ++ ["013"%char] ++ ["010"%char] ++ ["009"%char] ++ $"n=2" ++ ["013"%char] ++ ["010"%char] ++ $"k = v" ++ ["010"%char] ++ $"  [u]" ++ ["010"%char] ++ $"e =" ++ ["010"%char] ++ ["010"%char]), false, None);
   (($"[s0]" ++ ["010"%char] ++ ["010"%char] ++ $"y" ++ ["011"%char] ++ $" = " ++ ["012"%char] ++ $"z" ++ ["013"%char] ++ ["010"%char]), false, Some [($"s0", [($"y", $"z")])]);
   (($"[DEFAULT]" ++ ["010"%char] ++ $"  [t]" ++ ["013"%char] ++ ["010"%char] ++ $"k = v" ++ ["010"%char] ++ ["009"%char] ++ ["013"%char] ++ ["010"%char] ++ $"k = v" ++ ["013"%char]), false, Some [($"t", [($"k", $"v")])]);
   (($"  K = w" ++ ["013"%char] ++ ["010"%char] ++ ["009"%char] ++ $"n=2" ++ ["013"%char] ++ $"d = e # f" ++ ["010"%char] ++ $"c" ++ ["010"%char] ++ ["009"%char] ++ $"d = e # f" ++ ["010"%char] ++ $"  d = e # f"), true, None);
   (($"[s0]" ++ ["013"%char] ++ ["010"%char] ++ $" k = v" ++ ["013"%char] ++ ["010"%char] ++ $"[t]" ++ ["010"%char] ++ $"  a: b" ++ ["010"%char] ++ ["009"%char] ++ $" " ++ ["010"%char] ++ ["009"%char] ++ $"k = v" ++ ["013"%char] ++ ["010"%char] ++ ["009"%char] ++ $"# c" ++ ["013"%char] ++ ["010"%char]), true, Some [($"s0", [($"k", $"v")]); ($"t", [($"a", $"b"); ($"k", $"v")])]);
   (($"[s0]" ++ ["010"%char] ++ $"   [x" ++ ["010"%char] ++ $"# c" ++ ["010"%char]), false, None);
   (($"[s0]" ++ ["010"%char] ++ $"k = v" ++ ["010"%char] ++ $"g = h : i" ++ ["013"%char] ++ ["010"%char] ++ $"   [t]" ++ ["010"%char]), true, Some [($"s0", [($"k", $"v"); ($"g", ($"h : i" ++ ["010"%char] ++ $"[t]"))])]);
   (($"   K = w" ++ ["010"%char] ++ $"   []x]" ++ ["010"%char] ++ $"   x = =" ++ ["013"%char] ++ $"  "), true, None);
   ((["009"%char] ++ $"[u]" ++ ["010"%char] ++ $"  [t]" ++ ["013"%char] ++ ["010"%char] ++ $"d = e # f" ++ ["010"%char] ++ ["013"%char] ++ ["010"%char]), false, Some [($"u", []); ($"t", [($"d", $"e # f")])]);
   (($"[s0]" ++ ["010"%char] ++ $"a: b" ++ ["010"%char] ++ $"  c" ++ ["013"%char] ++ ["010"%char] ++ $"   k = v" ++ ["013"%char] ++ ["010"%char] ++ $"   b=c" ++ ["010"%char] ++ $"   " ++ ["013"%char] ++ $"d = e # f" ++ ["010"%char]), false, Some [($"s0", [($"a", ($"b" ++ ["010"%char] ++ $"c" ++ ["010"%char] ++ $"k = v" ++ ["010"%char] ++ $"b=c")); ($"d", $"e # f")])]);
   (($"[s0]" ++ ["010"%char] ++ $"[q]:3" ++ ["010"%char] ++ $"  c" ++ ["010"%char] ++ ["009"%char] ++ $"a: b" ++ ["010"%char] ++ $"   ; c" ++ ["010"%char] ++ $"x = =" ++ ["013"%char] ++ ["010"%char] ++ $"c" ++ ["010"%char]), true, None);
   (($"[DEFAULT]" ++ ["010"%char] ++ $"k = v" ++ ["013"%char] ++ ["010"%char] ++ $"b=c" ++ ["013"%char] ++ $"k = v" ++ ["010"%char]), true, None);
   (($"[s0]" ++ ["010"%char] ++ $"K = w" ++ ["013"%char] ++ $" " ++ ["010"%char]), false, Some [($"s0", [($"k", $"w")])]);
   (($"[DEFAULT]" ++ ["010"%char] ++ $"  " ++ ["010"%char] ++ $"  [u]"), false, Some [($"u", [])]);
   (($"[s0]" ++ ["013"%char] ++ ["009"%char] ++ $"b=c" ++ ["013"%char] ++ $"; c" ++ ["010"%char] ++ $"k = v" ++ ["013"%char] ++ ["010"%char] ++ $"  b=c" ++ ["013"%char] ++ $"a: b" ++ ["010"%char] ++ $"   k = v" ++ ["013"%char] ++ ["010"%char] ++ ["009"%char] ++ $"k = v" ++ ["013"%char] ++ ["010"%char] ++ ["009"%char] ++ $"[ s ]" ++ ["010"%char]), false, Some [($"s0", [($"b", $"c"); ($"k", ($"v" ++ ["010"%char] ++ $"b=c")); ($"a", ($"b" ++ ["010"%char] ++ $"k = v" ++ ["010"%char] ++ $"k = v" ++ ["010"%char] ++ $"[ s ]"))])]);
   (($"[u]" ++ ["010"%char] ++ $"b=c" ++ ["010"%char] ++ $"[]=3" ++ ["010"%char] ++ $"b=c" ++ ["010"%char]), true, None);
   (($"[s0]" ++ ["010"%char] ++ $"   b=c" ++ ["010"%char] ++ $"a: b" ++ ["013"%char] ++ ["010"%char] ++ ["009"%char] ++ $"# c" ++ ["013"%char] ++ $" x = =" ++ ["010"%char]), false, Some [($"s0", [($"b", $"c"); ($"a", ($"b" ++ ["010"%char] ++ $"x = ="))])]);
   (($"[s0]" ++ ["010"%char] ++ $" d = e # f" ++ ["010"%char] ++ $"c" ++ ["010"%char] ++ $"c" ++ ["010"%char] ++ $" [t]" ++ ["010"%char] ++ $"a: b" ++ ["010"%char] ++ ["009"%char] ++ ["013"%char] ++ $"  " ++ ["010"%char] ++ $"   a: b" ++ ["013"%char] ++ ["010"%char]), true, None);
   (($"[s0]" ++ ["010"%char] ++ $"  ; c" ++ ["010"%char] ++ $"p=4" ++ ["013"%char] ++ ["010"%char] ++ $"  b=c" ++ ["010"%char] ++ ["009"%char] ++ $"c" ++ ["010"%char] ++ $"  [s]]x" ++ ["010"%char] ++ $"   n=2" ++ ["010"%char]), false, Some [($"s0", [($"p", ($"4" ++ ["010"%char] ++ $"b=c" ++ ["010"%char] ++ $"c" ++ ["010"%char] ++ $"[s]]x" ++ ["010"%char] ++ $"n=2"))])]);
   (($"[DEFAULT]" ++ ["013"%char] ++ ["009"%char] ++ $"= f" ++ ["010"%char] ++ ["013"%char]), true, None);
   (($"[s0]" ++ ["013"%char] ++ ["009"%char] ++ $"; c" ++ ["013"%char] ++ $"k = v" ++ ["010"%char] ++ $"  [s]" ++ ["013"%char] ++ $" g = h : i" ++ ["013"%char] ++ $"  k = v" ++ ["013"%char] ++ $"a:" ++ ["010"%char] ++ ["009"%char] ++ $"b=c" ++ ["013"%char] ++ ["010"%char] ++ ["010"%char]), true, Some [($"s0", [($"k", ($"v" ++ ["010"%char] ++ $"[s]" ++ ["010"%char] ++ $"g = h : i" ++ ["010"%char] ++ $"k = v")); ($"a", (["010"%char] ++ $"b=c"))])]);
   (($"[s0]" ++ ["010"%char] ++ ["028"%char] ++ $"q = r" ++ ["010"%char] ++ $"  [u]" ++ ["010"%char] ++ $"; c" ++ ["013"%char]), true, Some [($"s0", [($"q", ($"r" ++ ["010"%char] ++ $"[u]"))])]);
   (($"[DEFAULT]" ++ ["013"%char] ++ ["010"%char] ++ ["010"%char] ++ $"  [s]" ++ ["010"%char] ++ ["009"%char] ++ $"k = v"), true, Some [($"s", [($"k", $"v")])]);
   (($"[s0]" ++ ["010"%char] ++ $"[u]" ++ ["013"%char] ++ $" c" ++ ["010"%char] ++ $"   c" ++ ["010"%char] ++ $"   ; c" ++ ["013"%char]), true, None);
   (($"[DEFAULT]" ++ ["010"%char] ++ $"[s]" ++ ["013"%char] ++ ["010"%char] ++ $"    " ++ ["013"%char] ++ ["010"%char]), true, Some [($"s", [])]);
   (($"   " ++ ["010"%char] ++ $" # c" ++ ["010"%char]), false, Some []);
   (($"[s0]" ++ ["013"%char] ++ $"   c" ++ ["013"%char] ++ ["010"%char]), true, None);
   (($"[DEFAULT]" ++ ["010"%char] ++ ["009"%char] ++ $"d = e # f" ++ ["010"%char] ++ $"  ; c" ++ ["013"%char] ++ $" [ s ]" ++ ["010"%char] ++ ["013"%char] ++ ["010"%char] ++ $"a: b" ++ ["010"%char] ++ $" # c" ++ ["010"%char]), false, Some [($" s ", [($"d", $"e # f"); ($"a", $"b")])]);
   (($"[DEFAULT]" ++ ["013"%char] ++ $"# c" ++ ["013"%char] ++ ["010"%char] ++ ["009"%char] ++ ["013"%char] ++ ["010"%char] ++ ["009"%char] ++ $"[q]:3" ++ ["010"%char] ++ $" " ++ ["028"%char] ++ $"q = r" ++ ["010"%char] ++ $" K = w" ++ ["013"%char] ++ $"[s]"), false, Some [($"q", [($"q", $"r"); ($"k", $"w")]); ($"s", [])]);
   (($"[s0]" ++ ["013"%char] ++ ["010"%char] ++ $"g = h : i" ++ ["013"%char] ++ ["010"%char] ++ $"[u]" ++ ["010"%char] ++ $" ; c" ++ ["010"%char] ++ $"[s]" ++ ["010"%char] ++ $"[] " ++ ["013"%char] ++ ["010"%char] ++ $"   K = w" ++ ["013"%char] ++ ["010"%char]), true, None);
   (($"[s0]" ++ ["010"%char] ++ $"# c" ++ ["013"%char] ++ $"  k = v" ++ ["010"%char] ++ ["009"%char] ++ $"[t]" ++ ["013"%char] ++ ["010"%char] ++ $"  d = e # f" ++ ["013"%char] ++ $" k = v" ++ ["013"%char] ++ ["010"%char] ++ $"c" ++ ["013"%char] ++ $"  " ++ ["010"%char]), false, None);
   (($"[s0]" ++ ["010"%char] ++ $"K = w" ++ ["010"%char] ++ $"[s]" ++ ["013"%char] ++ ["009"%char] ++ $"a: b" ++ ["010"%char] ++ ["009"%char] ++ $"[u]" ++ ["010"%char]), true, Some [($"s0", [($"k", $"w")]); ($"s", [($"a", $"b")]); ($"u", [])]);
   (($"[s0]" ++ ["010"%char] ++ $" a: b" ++ ["010"%char] ++ $"[t]" ++ ["013"%char] ++ $"   [s]" ++ ["013"%char] ++ $" []x]" ++ ["010"%char] ++ $"[s]]x" ++ ["013"%char] ++ ["010"%char] ++ $"c"), true, None);
   (($"[DEFAULT]" ++ ["013"%char] ++ ["009"%char] ++ $" " ++ ["010"%char] ++ $"  [s]]x" ++ ["013"%char] ++ ["010"%char] ++ $":" ++ ["010"%char] ++ $" K = w" ++ ["010"%char] ++ $"[u]" ++ ["013"%char] ++ ["010"%char] ++ $" K = w" ++ ["010"%char]), true, None);
   (($"[s0]" ++ ["013"%char] ++ ["009"%char] ++ $"a: b" ++ ["010"%char] ++ $"  # c" ++ ["013"%char] ++ $"  k = v"), false, Some [($"s0", [($"a", ($"b" ++ ["010"%char] ++ $"k = v"))])]);
   (($"k = v" ++ ["010"%char] ++ $"c" ++ ["013"%char] ++ ["010"%char]), false, None);
   (($"[s0]" ++ ["010"%char] ++ ["010"%char] ++ $"  c" ++ ["013"%char] ++ $"# c" ++ ["013"%char] ++ ["010"%char] ++ $"   [t]" ++ ["013"%char]), true, None);
   ((["010"%char] ++ $"a: b" ++ ["010"%char] ++ $"a:" ++ ["010"%char]), false, None);
   ((["009"%char] ++ $"[DEFAULT]" ++ ["010"%char] ++ $"K = w" ++ ["010"%char] ++ $"   k = v"), true, Some []);
   (($"[s0]" ++ ["010"%char] ++ $"  d = e # f" ++ ["010"%char] ++ ["010"%char] ++ $" # c" ++ ["010"%char]), false, Some [($"s0", [($"d", $"e # f")])]);
   (($"[s0]" ++ ["010"%char] ++ ["009"%char] ++ $"c" ++ ["010"%char] ++ $"c" ++ ["013"%char] ++ ["010"%char] ++ $"  ; c" ++ ["013"%char] ++ ["010"%char]), true, None);
   (($" d = e # f" ++ ["010"%char] ++ $"b=c" ++ ["010"%char] ++ $"c" ++ ["010"%char] ++ $"K = w" ++ ["010"%char] ++ $"  c" ++ ["013"%char] ++ $" " ++ ["013"%char] ++ ["010"%char] ++ $"  " ++ ["010"%char] ++ $"   # c" ++ ["013"%char] ++ ["010"%char]), true, None);
   (($"[s0]" ++ ["010"%char] ++ $"  [s]" ++ ["010"%char] ++ $"K = w" ++ ["010"%char] ++ ["009"%char] ++ ["010"%char] ++ $"  c" ++ ["010"%char]), true, Some [($"s0", []); ($"s", [($"k", ($"w" ++ ["010"%char] ++ ["010"%char] ++ $"c"))])]);
   (($"[DEFAULT]" ++ ["010"%char] ++ $" o=3" ++ ["013"%char] ++ ["010"%char] ++ $"k = v" ++ ["013"%char] ++ ["010"%char] ++ $" a: b" ++ ["010"%char] ++ $"a: b"), true, Some []);
   (($"  [s]" ++ ["010"%char] ++ $"# c" ++ ["010"%char] ++ $"   " ++ ["010"%char] ++ $"  q = r" ++ ["029"%char]), false, Some [($"s", [($"q", $"r")])]);
   (($"p=4" ++ ["010"%char] ++ $"   d = e # f" ++ ["010"%char] ++ $"  " ++ ["013"%char] ++ ["010"%char] ++ ["009"%char] ++ $"d = e # f" ++ ["010"%char] ++ $"   [u]" ++ ["013"%char]), true, None);
   ((["009"%char] ++ $"k = v" ++ ["010"%char] ++ $"   " ++ ["013"%char] ++ ["010"%char] ++ $"  [t]" ++ ["013"%char]), true, None);
   (($"[DEFAULT]" ++ ["010"%char] ++ ["009"%char] ++ $"; c" ++ ["010"%char] ++ ["010"%char] ++ $"[t]" ++ ["010"%char] ++ $" d = e # f"), true, Some [($"t", [($"d", $"e # f")])]);
   (($"[DEFAULT]" ++ ["010"%char] ++ ["009"%char] ++ $"[s]" ++ ["013"%char] ++ $"   " ++ ["010"%char] ++ ["009"%char] ++ $"d = e # f" ++ ["010"%char] ++ $"   k = v"), false, Some [($"s", [($"d", ($"e # f" ++ ["010"%char] ++ $"k = v"))])]);
   (($"[DEFAULT]" ++ ["010"%char] ++ $"  ; c" ++ ["010"%char] ++ $"[t]" ++ ["010"%char] ++ ["009"%char] ++ $"[u]" ++ ["013"%char] ++ ["010"%char]), false, Some [($"t", []); ($"u", [])]);
   (($"[s0]" ++ ["013"%char] ++ $"c" ++ ["013"%char] ++ $"  d = e # f" ++ ["013"%char] ++ $"c" ++ ["010"%char] ++ $"  " ++ ["010"%char]), true, None);
   (($"[s0]" ++ ["010"%char] ++ $"   b=c" ++ ["010"%char] ++ $"  [t]" ++ ["013"%char] ++ $" " ++ ["010"%char]), true, Some [($"s0", [($"b", $"c")]); ($"t", [])]);
   (($"[DEFAULT]" ++ ["010"%char] ++ $" d = e # f" ++ ["010"%char] ++ $"k = v" ++ ["010"%char] ++ $"k = v" ++ ["010"%char] ++ ["009"%char] ++ $"[u]" ++ ["013"%char] ++ ["010"%char] ++ $"  c" ++ ["013"%char] ++ ["010"%char] ++ $"   [s]" ++ ["010"%char]), true, None);
   (($"[s0]" ++ ["010"%char] ++ $"# c" ++ ["013"%char] ++ ["010"%char] ++ $"  [u]" ++ ["013"%char] ++ ["010"%char] ++ $"   # c" ++ ["010"%char] ++ $"[]x]" ++ ["013"%char]), false, Some [($"s0", []); ($"u", []); ($"]x", [])]);
   (($"[s0]" ++ ["013"%char] ++ ["009"%char] ++ $"= f" ++ ["010"%char] ++ $"k = v" ++ ["010"%char] ++ $"  [s]" ++ ["010"%char] ++ $"[s]]x" ++ ["010"%char] ++ $"   [u]" ++ ["010"%char] ++ $"d = e # f" ++ ["010"%char]), false, None);
   (($"[s0]" ++ ["013"%char] ++ $"[u]" ++ ["013"%char] ++ ["009"%char] ++ $"c" ++ ["010"%char] ++ $"[x" ++ ["010"%char] ++ $" b=c" ++ ["010"%char]), true, None);
   (($"[s0]" ++ ["013"%char] ++ $"   a: b" ++ ["010"%char] ++ ["010"%char] ++ $"[t]" ++ ["010"%char] ++ $"[s]" ++ ["010"%char]), true, Some [($"s0", [($"a", $"b")]); ($"t", []); ($"s", [])]);
   (($"[DEFAULT]" ++ ["010"%char] ++ $"# c" ++ ["013"%char] ++ $"   []x]" ++ ["010"%char] ++ $"  " ++ ["013"%char] ++ ["010"%char] ++ ["009"%char] ++ $"b=c" ++ ["013"%char] ++ $"[s]" ++ ["010"%char] ++ $"d = e # f" ++ ["013"%char] ++ ["010"%char] ++ $" y" ++ ["011"%char] ++ $" = " ++ ["012"%char] ++ $"z" ++ ["010"%char] ++ $"[q]:3"), false, Some [($"]x", [($"b", $"c")]); ($"s", [($"d", ($"e # f" ++ ["010"%char] ++ $"y" ++ ["011"%char] ++ $" = " ++ ["012"%char] ++ $"z"))]); ($"q", [])]);
   (($"[u]" ++ ["010"%char] ++ $" " ++ ["013"%char]), true, Some [($"u", [])]);
   (($"[s]" ++ ["010"%char] ++ ["009"%char] ++ $"a: b" ++ ["010"%char] ++ $"d = e # f" ++ ["013"%char] ++ $"K = w" ++ ["013"%char]), false, Some [($"s", [($"a", $"b"); ($"d", $"e # f"); ($"k", $"w")])]);
   (($"[DEFAULT]" ++ ["010"%char] ++ $"# c" ++ ["013"%char] ++ ["009"%char] ++ $"c" ++ ["010"%char] ++ $" ; c" ++ ["010"%char]), false, None)] = true.
Proof. vm_compute. reflexivity. Qed.

(** stat.filemode *)
Example modes : forallb (fun '(m, e) => str_eqb (mode_string m) e)
  [(35079%N, $"-r-S---rwx"); (35299%N, $"-rwsr---wx"); (34128%N, $"-r-x-wS---"); (35582%N, $"--wsrwxrwT"); (34695%N, $"-rw---Srwt"); (36317%N, $"-rws-wsr-x"); (35755%N, $"-rwSr-x-wt"); (36290%N, $"-rws--S-w-"); (35177%N, $"-r-sr-x--x"); (35931%N, $"---s-ws-wx"); (33977%N, $"--w-rws--x"); (34074%N, $"-r---ws-w-"); (33664%N, $"-rw------T"); (35083%N, $"-r-S--x-wx"); (35531%N, $"--ws--x-wt"); (33386%N, $"---xr-x-wT"); (35155%N, $"-r-s-w--wx"); (35526%N, $"--ws---rwT"); (32805%N, $"----r--r-x"); (34374%N, $"---x--SrwT"); (20220%N, $"d-wsrwsr-T"); (19574%N, $"d--srwSrw-"); (19491%N, $"d--Sr-S-wx"); (17841%N, $"drw-rwS--x"); (16995%N, $"d--xr---wt"); (19895%N, $"drwSrwSrwx"); (20061%N, $"d--s-wsr-t"); (20065%N, $"d--sr-S--t"); (19004%N, $"d--Srwxr-T"); (18151%N, $"d-wxr-Srwt"); (17292%N, $"drw---xr-T"); (17147%N, $"d-wxrwx-wt"); (18647%N, $"d-ws-w-rwx"); (19597%N, $"d-wS--sr-x"); (20181%N, $"d-ws-wSr-t"); (17300%N, $"drw--w-r-T"); (18165%N, $"d-wxrwSr-t"); (16788%N, $"drw--w-r--"); (19448%N, $"drwsrwx--T"); (19449%N, $"drwsrwx--t"); (42532%N, $"l---r-Sr-T"); (42396%N, $"lrw--wsr--"); (43587%N, $"l--s----wt"); (43934%N, $"lrwS-wxrwT"); (41581%N, $"l--xr-xr-t"); (43937%N, $"lrwSr----t"); (42204%N, $"l-wx-wsr--"); (44664%N, $"l--srws--T"); (44780%N, $"l-wsr-sr-T"); (42233%N, $"l-wxrws--x"); (43244%N, $"l-wsr-xr--"); (41671%N, $"l-wx---rwt"); (41053%N, $"l--x-wxr-x"); (44677%N, $"l-wS--Sr-t"); (43856%N, $"lr-s-w---T"); (41525%N, $"l---rw-r-t"); (43297%N, $"lr-Sr----x"); (43361%N, $"lr-sr----x"); (41318%N, $"lr-xr--rw-"); (42581%N, $"l--x-wSr-t"); (26700%N, $"b--s--xr--"); (24754%N, $"b-w-rw--w-"); (24582%N, $"b------rw-"); (26767%N, $"b-wS--xrwx"); (25577%N, $"brwxr-x--t"); (28217%N, $"b--Srws--t"); (27193%N, $"b--Srwx--t"); (26067%N, $"brwx-wS-wx"); (24935%N, $"br-xr--rwx"); (24604%N, $"b----wxr--"); (25126%N, $"b---r--rwT"); (27026%N, $"brwS-w--w-"); (26464%N, $"br-xr-S--T"); (25868%N, $"br----sr--"); (26083%N, $"brwxr-S-wx"); (27024%N, $"brwS-w----"); (26105%N, $"brwxrws--x"); (25538%N, $"brwx----wT"); (28205%N, $"b--Sr-sr-t"); (27295%N, $"b-wS-wxrwt"); (8908%N, $"c-wx--xr-T"); (8596%N, $"crw--w-r--"); (10685%N, $"crwSrwxr-x"); (11563%N, $"cr-Sr-s-wx"); (10298%N, $"c--Srwx-w-"); (9878%N, $"c-w--wSrwT"); (12071%N, $"cr-Sr-Srwt"); (9843%N, $"c--xrwS-wt"); (8219%N, $"c----wx-wx"); (10349%N, $"c--sr-xr-x"); (12000%N, $"c-wsr-S--T"); (9107%N, $"crw--w--wt"); (11941%N, $"c-wSr-Sr-t"); (10251%N, $"c--S--x-wx"); (8489%N, $"cr--r-x--x"); (8672%N, $"crwxr-----"); (8975%N, $"cr----xrwt"); (9815%N, $"c--x-wSrwt"); (11112%N, $"cr-sr-x--T"); (8878%N, $"c-w-r-xrwT"); (6269%N, $"p--srwxr-x"); (4598%N, $"prwxrw-rw-"); (4255%N, $"p-w--wxrwx"); (4888%N, $"pr---wx--T"); (5214%N, $"p--x-wsrw-"); (5321%N, $"p-wx--s--x"); (7461%N, $"pr-Sr-Sr-x"); (6580%N, $"prwSrw-r--"); (5358%N, $"p-wxr-srw-"); (5544%N, $"prw-r-s---"); (7800%N, $"p--srws--T"); (5773%N, $"p-w---sr-t"); (6728%N, $"p--s--x--T"); (7590%N, $"prwSr-Srw-"); (4117%N, $"p----w-r-x"); (4954%N, $"pr-x-wx-wT"); (6563%N, $"prwSr---wx"); (7738%N, $"p--Srws-wT"); (6614%N, $"prws-w-rw-"); (6010%N, $"pr-xrws-wT"); (50332%N, $"s-w--wsr--"); (49754%N, $"s--x-wx-wT"); (52862%N, $"s--srwsrwT"); (51311%N, $"s--sr-xrwx"); (51511%N, $"sr-Srw-rwx"); (51073%N, $"srw---S--t"); (52729%N, $"srwsrws--x"); (50158%N, $"srwxr-xrwT"); (50641%N, $"srwx-wS--x"); (51356%N, $"s-wS-wxr--"); (51340%N, $"s-wS--xr--"); (53054%N, $"sr-SrwsrwT"); (51557%N, $"sr-sr--r-x"); (52300%N, $"s--s--sr--"); (49222%N, $"s--x---rw-"); (51762%N, $"s--Srw--wT"); (52951%N, $"s-ws-wSrwt"); (51831%N, $"s--srw-rwt"); (52187%N, $"srws-wx-wt"); (50405%N, $"s-wxr-Sr-x")] = true.
Proof. vm_compute. reflexivity. Qed.

Definition same_row (a b : list str) : bool := Nat.eqb (length a) (length b) && forallb (fun '(x, y) => str_eqb x y) (combine a b).
Definition same_table (a b : list (list str)) : bool := Nat.eqb (length a) (length b) && forallb (fun '(x, y) => same_row x y) (combine a b).
(** csv.writer(f).writerows(table) *)
Example tables : forallb (fun '(t, e) => match rfc4180 t with Some r => same_table r e | None => false end)
  [(($"""a"""""", ,"",""" ++ ["013"%char] ++ ["010"%char]), [[$"a"""; $" "; $","]]);
   (($",""a,""" ++ ["013"%char] ++ ["010"%char]), [[$""; $"a,"]]);
   (($"1,""b""""""" ++ ["013"%char] ++ ["010"%char] ++ $"x,""1,""""x""," ++ ["013"%char] ++ ["010"%char]), [[$"1"; $"b"""]; [$"x"; $"1,""x"; $""]]);
   ($"", []);
   ($"", []);
   (($"""1,x "",x,""x,""" ++ ["013"%char] ++ ["010"%char] ++ $""", "",1 " ++ ["013"%char] ++ ["010"%char]), [[$"1,x "; $"x"; $"x,"]; [$", "; $"1 "]]);
   (($""","",1" ++ ["013"%char] ++ ["010"%char] ++ $",,""""""" ++ ["013"%char] ++ ["010"%char] ++ $"""" ++ ["013"%char] ++ ["010"%char]), [[$","; $"1"]; [$""; $""; ($"""" ++ ["013"%char] ++ ["010"%char])]]);
   ($"", []);
   (($"x ,""a,"",""""""" ++ ["013"%char] ++ ["010"%char] ++ ["013"%char] ++ ["010"%char] ++ $"a""" ++ ["013"%char] ++ ["010"%char] ++ $","","","",""" ++ ["013"%char] ++ ["010"%char]), [[$"x "; $"a,"; ($"""" ++ ["013"%char] ++ ["010"%char] ++ ["013"%char] ++ ["010"%char] ++ $"a")]; [$""; $","; $","]]);
   (($"""" ++ ["013"%char] ++ ["010"%char] ++ $""",,""" ++ ["013"%char] ++ ["010"%char] ++ $"1""" ++ ["013"%char] ++ ["010"%char] ++ $"""xa""""""," ++ ["013"%char] ++ ["010"%char] ++ $""","",""" ++ ["013"%char] ++ ["010"%char] ++ $"""" ++ ["013"%char] ++ ["010"%char]), [[(["013"%char] ++ ["010"%char]); $""; (["013"%char] ++ ["010"%char] ++ $"1")]; [$"xa"""; $""]; [$","; (["013"%char] ++ ["010"%char])]]);
   (($" ,b,x1b" ++ ["013"%char] ++ ["010"%char] ++ $",""""""""," ++ ["013"%char] ++ ["010"%char] ++ $"x,"", ,b""" ++ ["013"%char] ++ ["010"%char]), [[$" "; $"b"; $"x1b"]; [$""; $""""; $""]; [$"x"; $", ,b"]]);
   (($","""""""",a" ++ ["013"%char] ++ ["010"%char] ++ $"""" ++ ["013"%char] ++ ["010"%char] ++ ["013"%char] ++ ["010"%char] ++ $""","",x"",""""""""" ++ ["013"%char] ++ ["010"%char] ++ $"a," ++ ["013"%char] ++ ["010"%char]), [[$""; $""""; $"a"]; [(["013"%char] ++ ["010"%char] ++ ["013"%char] ++ ["010"%char]); $",x"; $""""]; [$"a"; $""]]);
   ($"", []);
   ($"", []);
   (($"," ++ ["013"%char] ++ ["010"%char]), [[$""; $""]]);
   ($"", []);
   (($"b," ++ ["013"%char] ++ ["010"%char] ++ $", ,"" ,""""a""" ++ ["013"%char] ++ ["010"%char]), [[$"b"; $""]; [$""; $" "; $" ,""a"]]);
   (($""",b1"""""", ,1" ++ ["013"%char] ++ ["010"%char] ++ $"1,"" " ++ ["013"%char] ++ ["010"%char] ++ $"""" ++ ["013"%char] ++ ["010"%char]), [[$",b1"""; $" "; $"1"]; [$"1"; ($" " ++ ["013"%char] ++ ["010"%char])]]);
   (($""","""""",""""""" ++ ["013"%char] ++ ["010"%char] ++ $"b "",""""""""" ++ ["013"%char] ++ ["010"%char] ++ $" ,""" ++ ["013"%char] ++ ["010"%char] ++ $",1b"",a" ++ ["013"%char] ++ ["010"%char] ++ $"""1" ++ ["013"%char] ++ ["010"%char] ++ $"a1"",""" ++ ["013"%char] ++ ["010"%char] ++ $"""" ++ ["013"%char] ++ ["010"%char]), [[$","""; ($"""" ++ ["013"%char] ++ ["010"%char] ++ $"b "); $""""]; [$" "; (["013"%char] ++ ["010"%char] ++ $",1b"); $"a"]; [($"1" ++ ["013"%char] ++ ["010"%char] ++ $"a1"); (["013"%char] ++ ["010"%char])]]);
   ($"", []);
   ($"", []);
   (($"a,b " ++ ["013"%char] ++ ["010"%char] ++ $"""x,"", " ++ ["013"%char] ++ ["010"%char]), [[$"a"; $"b "]; [$"x,"; $" "]]);
   (($",x, " ++ ["013"%char] ++ ["010"%char]), [[$""; $"x"; $" "]]);
   (($"""""""b"",""a" ++ ["013"%char] ++ ["010"%char] ++ $"b" ++ ["013"%char] ++ ["010"%char] ++ $"""" ++ ["013"%char] ++ ["010"%char]), [[$"""b"; ($"a" ++ ["013"%char] ++ ["010"%char] ++ $"b" ++ ["013"%char] ++ ["010"%char])]]);
   (($"b,"",""" ++ ["013"%char] ++ ["010"%char] ++ $","""""",1""" ++ ["013"%char] ++ ["010"%char] ++ $"""""""ax"""""",b,b" ++ ["013"%char] ++ ["010"%char]), [[$"b"; $","]; [$""; $""",1"]; [$"""ax"""; $"b"; $"b"]]);
   (($",""x"""" """ ++ ["013"%char] ++ ["010"%char] ++ $"""a,""," ++ ["013"%char] ++ ["010"%char]), [[$""; $"x"" "]; [$"a,"; $""]]);
   (($"a,"",""" ++ ["013"%char] ++ ["010"%char] ++ $"""ab""""x""," ++ ["013"%char] ++ ["010"%char] ++ $""""""""",""1 ,""" ++ ["013"%char] ++ ["010"%char]), [[$"a"; $","]; [$"ab""x"; $""]; [$""""; $"1 ,"]]);
   (($","",1x""" ++ ["013"%char] ++ ["010"%char] ++ $"""a" ++ ["013"%char] ++ ["010"%char] ++ $"x"",x " ++ ["013"%char] ++ ["010"%char]), [[$""; $",1x"]; [($"a" ++ ["013"%char] ++ ["010"%char] ++ $"x"); $"x "]]);
   (($"""x,"",b,""a" ++ ["013"%char] ++ ["010"%char] ++ $"xx""" ++ ["013"%char] ++ ["010"%char]), [[$"x,"; $"b"; ($"a" ++ ["013"%char] ++ ["010"%char] ++ $"xx")]]);
   (($","","",""""""," ++ ["013"%char] ++ ["010"%char] ++ $"1""" ++ ["013"%char] ++ ["010"%char] ++ $",""b""""bb""" ++ ["013"%char] ++ ["010"%char] ++ $""","",a " ++ ["013"%char] ++ ["010"%char]), [[$""; $","; ($"""," ++ ["013"%char] ++ ["010"%char] ++ $"1")]; [$""; $"b""bb"]; [$","; $"a "]]);
   ($"", []);
   (($""""""",""," ++ ["013"%char] ++ ["010"%char] ++ $""",x"",,"" b""""" ++ ["013"%char] ++ ["010"%char] ++ $"""" ++ ["013"%char] ++ ["010"%char]), [[$""","; $""]; [$",x"; $""; ($" b""" ++ ["013"%char] ++ ["010"%char])]]);
   (($"ab,""""""""" ++ ["013"%char] ++ ["010"%char] ++ $"b1b1," ++ ["013"%char] ++ ["010"%char] ++ $"""""""a"",xax" ++ ["013"%char] ++ ["010"%char]), [[$"ab"; $""""]; [$"b1b1"; $""]; [$"""a"; $"xax"]]);
   (($"""b," ++ ["013"%char] ++ ["010"%char] ++ $"a"",""" ++ ["013"%char] ++ ["010"%char] ++ $""",""11,,""" ++ ["013"%char] ++ ["010"%char]), [[($"b," ++ ["013"%char] ++ ["010"%char] ++ $"a"); (["013"%char] ++ ["010"%char]); $"11,,"]]);
   ($"", []);
   (($""","",""" ++ ["013"%char] ++ ["010"%char] ++ $"a"","",""" ++ ["013"%char] ++ ["010"%char]), [[$","; (["013"%char] ++ ["010"%char] ++ $"a"); $","]]);
   ($"", []);
   (($" ,""" ++ ["013"%char] ++ ["010"%char] ++ $"""""""" ++ ["013"%char] ++ ["010"%char] ++ $",""" ++ ["013"%char] ++ ["010"%char] ++ ["013"%char] ++ ["010"%char] ++ $""",a" ++ ["013"%char] ++ ["010"%char] ++ $"1," ++ ["013"%char] ++ ["010"%char]), [[$" "; (["013"%char] ++ ["010"%char] ++ $"""")]; [$""; (["013"%char] ++ ["010"%char] ++ ["013"%char] ++ ["010"%char]); $"a"]; [$"1"; $""]]);
   (($"x 1,""aax" ++ ["013"%char] ++ ["010"%char] ++ $"""" ++ ["013"%char] ++ ["010"%char]), [[$"x 1"; ($"aax" ++ ["013"%char] ++ ["010"%char])]]);
   (($",""a,x""" ++ ["013"%char] ++ ["010"%char]), [[$""; $"a,x"]]);
   (($""""""" "", ,"",11x""" ++ ["013"%char] ++ ["010"%char] ++ $"""""""x"",ba,x " ++ ["013"%char] ++ ["010"%char]), [[$""" "; $" "; $",11x"]; [$"""x"; $"ba"; $"x "]]);
   (($"b,"""""""","""""" """ ++ ["013"%char] ++ ["010"%char] ++ $"""b" ++ ["013"%char] ++ ["010"%char] ++ $","",""1,,""" ++ ["013"%char] ++ ["010"%char]), [[$"b"; $""""; $""" "]; [($"b" ++ ["013"%char] ++ ["010"%char] ++ $","); $"1,,"]]);
   (($"""" ++ ["013"%char] ++ ["010"%char] ++ $"b"",a" ++ ["013"%char] ++ ["010"%char] ++ $"xx b,,xa" ++ ["013"%char] ++ ["010"%char]), [[(["013"%char] ++ ["010"%char] ++ $"b"); $"a"]; [$"xx b"; $""; $"xa"]]);
   ($"", []);
   (($"b1,," ++ ["013"%char] ++ ["010"%char]), [[$"b1"; $""; $""]]);
   (($",b,1axa" ++ ["013"%char] ++ ["010"%char] ++ $""""""""","",x"","", """ ++ ["013"%char] ++ ["010"%char] ++ $"," ++ ["013"%char] ++ ["010"%char]), [[$""; $"b"; $"1axa"]; [$""""; $",x"; $", "]; [$""; $""]]);
   (($"a," ++ ["013"%char] ++ ["010"%char] ++ $"""a,a"",""" ++ ["013"%char] ++ ["010"%char] ++ $" a""" ++ ["013"%char] ++ ["010"%char] ++ $",," ++ ["013"%char] ++ ["010"%char]), [[$"a"; $""]; [$"a,a"; (["013"%char] ++ ["010"%char] ++ $" a")]; [$""; $""; $""]]);
   ($"", []);
   (($""",x" ++ ["013"%char] ++ ["010"%char] ++ $""",b,""" ++ ["013"%char] ++ ["010"%char] ++ $"""" ++ ["013"%char] ++ ["010"%char]), [[($",x" ++ ["013"%char] ++ ["010"%char]); $"b"; (["013"%char] ++ ["010"%char])]]);
   (($"x,""""""""" ++ ["013"%char] ++ ["010"%char] ++ $"""1," ++ ["013"%char] ++ ["010"%char] ++ $"b"",1a,  " ++ ["013"%char] ++ ["010"%char]), [[$"x"; $""""]; [($"1," ++ ["013"%char] ++ ["010"%char] ++ $"b"); $"1a"; $"  "]]);
   ($"", []);
   ($"", []);
   (($"b ," ++ ["013"%char] ++ ["010"%char] ++ $",""""""""""""" ++ ["013"%char] ++ ["010"%char] ++ $"a,"" """"x "",b" ++ ["013"%char] ++ ["010"%char]), [[$"b "; $""]; [$""; $""""""]; [$"a"; $" ""x "; $"b"]]);
   (($"""""""a"","" ,""" ++ ["013"%char] ++ ["010"%char]), [[$"""a"; $" ,"]]);
   (($"1,ab1" ++ ["013"%char] ++ ["010"%char] ++ $"1a,""a" ++ ["013"%char] ++ ["010"%char] ++ $"""" ++ ["013"%char] ++ ["010"%char]), [[$"1"; $"ab1"]; [$"1a"; ($"a" ++ ["013"%char] ++ ["010"%char])]]);
   ($"", []);
   (($""" """"b,""," ++ ["013"%char] ++ ["010"%char] ++ $"b ," ++ ["013"%char] ++ ["010"%char] ++ $""","",""xb1,""" ++ ["013"%char] ++ ["010"%char]), [[$" ""b,"; $""]; [$"b "; $""]; [$","; $"xb1,"]]);
   (($""""""""","""""""""",""," ++ ["013"%char] ++ ["010"%char] ++ $"a,"",""" ++ ["013"%char] ++ ["010"%char]), [[$""""; $""""","; $""]; [$"a"; $","]]);
   (($"," ++ ["013"%char] ++ ["010"%char] ++ $"1,b" ++ ["013"%char] ++ ["010"%char] ++ $"1,a ,""1""""""" ++ ["013"%char] ++ ["010"%char]), [[$""; $""]; [$"1"; $"b"]; [$"1"; $"a "; $"1"""]]);
   (($",""""""a"", 1bb" ++ ["013"%char] ++ ["010"%char] ++ $",a," ++ ["013"%char] ++ ["010"%char] ++ $",""" ++ ["013"%char] ++ ["010"%char] ++ $"a"""""",a" ++ ["013"%char] ++ ["010"%char]), [[$""; $"""a"; $" 1bb"]; [$""; $"a"; $""]; [$""; (["013"%char] ++ ["010"%char] ++ $"a"""); $"a"]])] = true.
Proof. vm_compute. reflexivity. Qed.

(** json.dumps(v, sort_keys=True) *)
Example json_texts : forallb (fun '(v, e) => str_eqb (py_dumps v) e)
  [(JAtom $"""""", $"""""");
   (JArr [], $"[]");
   (JArr [JAtom $"0"; JAtom $"17"], $"[0, 17]");
   (JAtom $"""""", $"""""");
   (JObj [($"""b""", JArr [JAtom $"""x"""; JAtom $"""y z"""])], $"{""b"": [""x"", ""y z""]}");
   (JAtom $"""x""", $"""x""");
   (JArr [JAtom $"0"; JArr []; JObj [($"""c""", JObj [($"""a""", JAtom $"false"); ($"""c""", JAtom $"""y z"""); ($"""d""", JAtom $"true")])]], $"[0, [], {""c"": {""a"": false, ""c"": ""y z"", ""d"": true}}]");
   (JAtom $"null", $"null");
   (JAtom $"null", $"null");
   (JAtom $"""x""", $"""x""");
   (JArr [JArr [JArr [JAtom $"true"]; JAtom $"""y z"""; JArr []]; JObj [($"""b""", JAtom $"false"); ($"""c""", JAtom $""""""); ($"""d""", JAtom $"""""")]], $"[[[true], ""y z"", []], {""b"": false, ""c"": """", ""d"": """"}]");
   (JAtom $"""x""", $"""x""");
   (JArr [JObj [($"""a""", JAtom $"false"); ($"""b""", JArr []); ($"""d""", JArr [JAtom $"true"; JAtom $"""x"""])]; JObj [($"""b""", JArr [])]; JAtom $"false"], $"[{""a"": false, ""b"": [], ""d"": [true, ""x""]}, {""b"": []}, false]");
   (JAtom $"0", $"0");
   (JArr [JArr [JArr [JAtom $""""""; JAtom $"0"; JAtom $"true"]; JObj []]], $"[[["""", 0, true], {}]]");
   (JObj [($"""d""", JAtom $"""y z""")], $"{""d"": ""y z""}");
   (JArr [JAtom $""""""; JObj [($"""a""", JAtom $"""y z"""); ($"""b""", JAtom $"false"); ($"""d""", JAtom $"""y z""")]], $"["""", {""a"": ""y z"", ""b"": false, ""d"": ""y z""}]");
   (JAtom $"""y z""", $"""y z""");
   (JAtom $"17", $"17");
   (JObj [($"""b""", JAtom $"0")], $"{""b"": 0}");
   (JArr [JArr [JArr [JAtom $""""""; JAtom $"17"]; JArr [JAtom $"null"]]; JObj [($"""a""", JAtom $"17"); ($"""b""", JArr []); ($"""c""", JArr [JAtom $"true"; JAtom $"""y z"""; JAtom $""""""])]], $"[[["""", 17], [null]], {""a"": 17, ""b"": [], ""c"": [true, ""y z"", """"]}]");
   (JObj [($"""a""", JArr [JAtom $"""x"""; JAtom $"false"; JAtom $"""x"""]); ($"""b""", JArr [JArr []; JObj [($"""a""", JAtom $""""""); ($"""b""", JAtom $"""y z"""); ($"""c""", JAtom $"17")]; JObj [($"""b""", JAtom $"0"); ($"""c""", JAtom $"""x"""); ($"""d""", JAtom $"false")]]); ($"""c""", JAtom $"null")], $"{""a"": [""x"", false, ""x""], ""b"": [[], {""a"": """", ""b"": ""y z"", ""c"": 17}, {""b"": 0, ""c"": ""x"", ""d"": false}], ""c"": null}");
   (JArr [], $"[]");
   (JArr [JAtom $"false"; JArr [JObj []; JArr [JAtom $"false"; JAtom $"""x"""]]], $"[false, [{}, [false, ""x""]]]");
   (JAtom $"""""", $"""""");
   (JAtom $"""""", $"""""");
   (JArr [JAtom $"true"; JArr []], $"[true, []]");
   (JAtom $"""""", $"""""");
   (JObj [($"""a""", JObj [($"""b""", JObj [($"""a""", JAtom $"""x""")]); ($"""c""", JAtom $"""y z""")]); ($"""c""", JArr [])], $"{""a"": {""b"": {""a"": ""x""}, ""c"": ""y z""}, ""c"": []}");
   (JAtom $"""y z""", $"""y z""");
   (JArr [JObj [($"""a""", JArr [JAtom $"""y z"""; JAtom $"""y z"""]); ($"""b""", JArr [JAtom $"true"; JAtom $"0"]); ($"""c""", JAtom $"""y z""")]], $"[{""a"": [""y z"", ""y z""], ""b"": [true, 0], ""c"": ""y z""}]");
   (JAtom $"""x""", $"""x""");
   (JArr [JArr [JAtom $"null"; JAtom $"true"; JAtom $"""y z"""]; JArr [JAtom $""""""; JArr [JAtom $"17"]; JAtom $"17"]; JAtom $"""y z"""], $"[[null, true, ""y z""], ["""", [17], 17], ""y z""]");
   (JAtom $"null", $"null");
   (JArr [JArr [JArr [JAtom $"true"; JAtom $"""y z"""]; JArr [JAtom $"0"]]; JAtom $"false"], $"[[[true, ""y z""], [0]], false]");
   (JAtom $"""x""", $"""x""");
   (JObj [], $"{}");
   (JArr [JObj [($"""a""", JAtom $"""""")]; JArr [JArr [JAtom $"false"; JAtom $""""""]; JAtom $"null"]; JAtom $"null"], $"[{""a"": """"}, [[false, """"], null], null]");
   (JObj [], $"{}");
   (JObj [($"""b""", JAtom $"""y z"""); ($"""c""", JArr [JObj []; JArr [JAtom $"""y z"""]; JArr []]); ($"""d""", JAtom $"false")], $"{""b"": ""y z"", ""c"": [{}, [""y z""], []], ""d"": false}");
   (JArr [JObj [($"""b""", JObj [($"""a""", JAtom $"17")]); ($"""c""", JAtom $"""x"""); ($"""d""", JArr [JAtom $""""""; JAtom $""""""; JAtom $"""x"""])]; JArr [JAtom $"17"; JArr [JAtom $"0"; JAtom $"false"]]], $"[{""b"": {""a"": 17}, ""c"": ""x"", ""d"": ["""", """", ""x""]}, [17, [0, false]]]");
   (JObj [($"""d""", JAtom $"false")], $"{""d"": false}");
   (JAtom $"""""", $"""""");
   (JObj [($"""a""", JObj [($"""a""", JArr [JAtom $"""y z"""; JAtom $""""""]); ($"""b""", JObj []); ($"""d""", JObj [($"""c""", JAtom $""""""); ($"""d""", JAtom $"0")])])], $"{""a"": {""a"": [""y z"", """"], ""b"": {}, ""d"": {""c"": """", ""d"": 0}}}");
   (JArr [JAtom $"""x"""; JObj [($"""a""", JArr [JAtom $"0"]); ($"""c""", JArr [])]; JArr [JArr [JAtom $"true"]; JArr []]], $"[""x"", {""a"": [0], ""c"": []}, [[true], []]]");
   (JArr [JArr []; JAtom $""""""; JObj [($"""b""", JArr [JAtom $"false"; JAtom $"false"]); ($"""d""", JAtom $"17")]], $"[[], """", {""b"": [false, false], ""d"": 17}]");
   (JAtom $"""x""", $"""x""");
   (JAtom $"""y z""", $"""y z""");
   (JArr [JAtom $"true"; JArr [JArr [JAtom $""""""]]], $"[true, [[""""]]]");
   (JArr [JArr [JArr [JAtom $"17"]]; JAtom $"0"], $"[[[17]], 0]");
   (JArr [JAtom $"false"], $"[false]");
   (JArr [JAtom $"null"; JAtom $"null"], $"[null, null]");
   (JAtom $"""y z""", $"""y z""");
   (JAtom $"""""", $"""""");
   (JObj [($"""a""", JObj []); ($"""d""", JArr [JAtom $""""""; JArr [JAtom $"true"; JAtom $"null"; JAtom $"""x"""]; JArr []])], $"{""a"": {}, ""d"": ["""", [true, null, ""x""], []]}");
   (JAtom $"""x""", $"""x""");
   (JArr [JArr [JArr [JAtom $"""x"""; JAtom $"""x"""; JAtom $"""y z"""]]; JAtom $""""""; JObj []], $"[[[""x"", ""x"", ""y z""]], """", {}]");
   (JObj [($"""b""", JArr []); ($"""c""", JAtom $"17")], $"{""b"": [], ""c"": 17}");
   (JArr [], $"[]");
   (JAtom $"null", $"null")] = true.
Proof. vm_compute. reflexivity. Qed.

(** json.loads of a string literal, None if it is none *)
Example json_strings : forallb (fun '(t, e) => same_text (string_value t) e)
  [($"""bb\u003C""", Some $"bb<");
   ($"""b\fb", None);
   ($"""\b", None);
   ($"""bb\x""", None);
   ($"""\x""", None);
   ($"""""", Some $"");
   ($"""b", None);
   ($"""\t bab""", Some (["009"%char] ++ $" bab"));
   ($"""""", Some $"");
   ($"""b", None);
   ($"""\rb\/""", Some (["013"%char] ++ $"b/"));
   ($"""", None);
   ($"""bb\u0026""", Some $"bb&");
   ($"""""", Some $"");
   ($"""b""b""", None);
   ($"""b", None);
   ($"""b""", Some $"b");
   ($"""""""", None);
   ($"""\rbb""", Some (["013"%char] ++ $"bb"));
   ($"""b\f ba""", Some ($"b" ++ ["012"%char] ++ $" ba"));
   ($"""\fbb", None);
   (($""" " ++ ["009"%char] ++ $"bb\f"""), None);
   ($"""\b\u00a< ", None);
   (($"""\t" ++ ["009"%char] ++ $"bbb"""), None);
   ($"""bb\/a\u0026""", Some $"bb/a&");
   ($"""a\/\\""", Some $"a/\");
   ($"""bb\r""", Some ($"bb" ++ ["013"%char]));
   (($"""b" ++ ["009"%char] ++ $" b\/"), None);
   ($"""""", Some $"");
   ($"""\u00""", None);
   ($"""""", Some $"");
   ($"""\r""", Some ["013"%char]);
   ($"""\u0026'bb\t""", Some ($"&'bb" ++ ["009"%char]));
   ($"""""", Some $"");
   ($"""a", None);
   ($"""""", Some $"");
   ($"""<\n\n""", Some ($"<" ++ ["010"%char] ++ ["010"%char]));
   ($"""""", Some $"");
   ($"""a""", Some $"a");
   ($"""""", Some $"");
   ($"""bbbbb""", Some $"bbbbb");
   ($"""b""", Some $"b");
   ($"""""", Some $"");
   ($"""\u003C""", Some $"<");
   ($""" b\r'\u00""", None);
   ($"""""", Some $"");
   ($"""b\\b", None);
   ($"""b""", Some $"b");
   (($"""\\b" ++ ["009"%char] ++ $"\""" ++ ["009"%char] ++ $""""), None);
   ($"""""", Some $"");
   ($"""""", Some $"");
   ($"""b""", Some $"b");
   ($"""a\tb""", Some ($"a" ++ ["009"%char] ++ $"b"));
   ($"""""", Some $"");
   ($"""""", Some $"");
   ($"""""", Some $"");
   ($"""bb""", Some $"bb");
   ($"""\\\nb", None);
   ($"""""""", None)] = true.
Proof. vm_compute. reflexivity. Qed.

(** packaging.utils.canonicalize_name *)
Example names : forallb (fun '(n, e) => str_eqb (normalize n) e)
  [($"aaY91.", $"aay91-"); ($"1Y_Xaa", $"1y-xaa"); ($"__1bb1", $"-1bb1"); ($"b", $"b"); ($"b9a", $"b9a"); ($"a", $"a"); ($"19bbX9", $"19bbx9"); ($"X-1XXa._Y", $"x-1xxa-y"); ($"aX_YY-", $"ax-yy-"); ($"X", $"x"); ($"-", $"-"); ($"9", $"9"); ($"aX.11Yaba", $"ax-11yaba"); ($"ab__Y-99a", $"ab-y-99a"); ($"bXa.1-1X-", $"bxa-1-1x-"); ($"bYX", $"byx"); ($"a._1_Y_9Y", $"a-1-y-9y"); ($".Y99.b-1a", $"-y99-b-1a"); ($"9.1", $"9-1"); ($"_9X", $"-9x"); ($"_1_YX_", $"-1-yx-"); ($".9.", $"-9-"); ($"9Y.", $"9y-"); ($"119a1_-b_", $"119a1-b-"); ($"_b1", $"-b1"); ($"9YYXa.", $"9yyxa-"); ($"X", $"x"); ($"X__-X-", $"x-x-"); ($"b", $"b"); ($"1", $"1"); ($"1XX.Xbab_", $"1xx-xbab-"); ($"9bbb9Y", $"9bbb9y"); ($".1b9Y1", $"-1b9y1"); ($"_XX1b_", $"-xx1b-"); ($"-", $"-"); ($"a", $"a"); ($"_-_", $"-"); ($"aa.b_a", $"aa-b-a"); ($"9", $"9"); ($"1", $"1"); ($".._", $"-"); ($"aXX", $"axx"); ($"-b-b-_", $"-b-b-"); ($"..a_a_Xa9", $"-a-a-xa9"); ($"X", $"x"); ($"_--", $"-"); ($"b", $"b"); ($"Y.1bY1", $"y-1by1"); ($"-a9_..9.X", $"-a9-9-x"); ($"Y", $"y"); ($"._11.Ybb1", $"-11-ybb1"); ($"9-11bb", $"9-11bb"); ($"_XY-bXb9b", $"-xy-bxb9b"); ($"_91a-_1..", $"-91a-1-"); ($"X9-Xa1_-9", $"x9-xa1-9"); ($"YY.", $"yy-"); ($".9-9-b__1", $"-9-9-b-1"); ($"9", $"9"); ($"1Y99_---Y", $"1y99-y"); ($"11._1b-X1", $"11-1b-x1")] = true.
Proof. vm_compute. reflexivity. Qed.

(** packaging.tags.parse_tag; the elements of a set *)
Example tags : forallb (fun '(t, e) => match parse_tag t with
    | Some t => let l := map tag_string (decompress t) in Nat.eqb (length l) (length e) && forallb (fun x => existsb (str_eqb x) l) e
    | None => false
    end)
  [($"cp39-none-linux_x86_64", [$"cp39-none-linux_x86_64"]);
   ($"pp37-abi3.none.cp39m-any.linux_x86_64", [$"pp37-abi3-any"; $"pp37-none-linux_x86_64"; $"pp37-abi3-linux_x86_64"; $"pp37-cp39m-any"; $"pp37-cp39m-linux_x86_64"; $"pp37-none-any"]);
   ($"py3.pp37-abi3-win32", [$"pp37-abi3-win32"; $"py3-abi3-win32"]);
   ($"py3.cp39.py2-abi3-manylinux1_i686.any", [$"py3-abi3-any"; $"py2-abi3-manylinux1_i686"; $"py3-abi3-manylinux1_i686"; $"py2-abi3-any"; $"cp39-abi3-manylinux1_i686"; $"cp39-abi3-any"]);
   ($"py3-cp39m-any", [$"py3-cp39m-any"]);
   ($"cp39-abi3-linux_x86_64.manylinux1_i686", [$"cp39-abi3-manylinux1_i686"; $"cp39-abi3-linux_x86_64"]);
   ($"cp39.pp37-cp39m.none.abi3-linux_x86_64.any.manylinux1_i686", [$"cp39-cp39m-manylinux1_i686"; $"pp37-none-linux_x86_64"; $"cp39-none-manylinux1_i686"; $"pp37-none-manylinux1_i686"; $"pp37-cp39m-linux_x86_64"; $"cp39-cp39m-any"; $"cp39-abi3-linux_x86_64"; $"pp37-abi3-linux_x86_64"; $"pp37-cp39m-manylinux1_i686"; $"cp39-abi3-manylinux1_i686"; $"cp39-none-any"; $"pp37-abi3-manylinux1_i686"; $"pp37-none-any"; $"pp37-cp39m-any"; $"cp39-abi3-any"; $"pp37-abi3-any"; $"cp39-cp39m-linux_x86_64"; $"cp39-none-linux_x86_64"]);
   ($"cp39-cp39m-manylinux1_i686", [$"cp39-cp39m-manylinux1_i686"]);
   ($"pp37-cp39m.abi3.none-linux_x86_64", [$"pp37-none-linux_x86_64"; $"pp37-abi3-linux_x86_64"; $"pp37-cp39m-linux_x86_64"]);
   ($"cp39.py3-abi3-win32", [$"py3-abi3-win32"; $"cp39-abi3-win32"]);
   ($"pp37.cp39-cp39m-any", [$"pp37-cp39m-any"; $"cp39-cp39m-any"]);
   ($"py2.pp37-cp39m.none.abi3-any.manylinux1_i686.win32", [$"py2-cp39m-any"; $"pp37-cp39m-win32"; $"py2-none-any"; $"pp37-abi3-win32"; $"pp37-none-manylinux1_i686"; $"py2-abi3-manylinux1_i686"; $"pp37-cp39m-manylinux1_i686"; $"py2-abi3-any"; $"py2-cp39m-win32"; $"pp37-abi3-manylinux1_i686"; $"pp37-none-any"; $"py2-none-win32"; $"pp37-cp39m-any"; $"py2-cp39m-manylinux1_i686"; $"pp37-abi3-any"; $"py2-abi3-win32"; $"py2-none-manylinux1_i686"; $"pp37-none-win32"]);
   ($"py3-none-manylinux1_i686.win32", [$"py3-none-win32"; $"py3-none-manylinux1_i686"]);
   ($"cp39.pp37.py2-none-linux_x86_64", [$"pp37-none-linux_x86_64"; $"cp39-none-linux_x86_64"; $"py2-none-linux_x86_64"]);
   ($"py2.pp37.py3-cp39m-linux_x86_64", [$"py2-cp39m-linux_x86_64"; $"pp37-cp39m-linux_x86_64"; $"py3-cp39m-linux_x86_64"]);
   ($"py2-cp39m.none.abi3-linux_x86_64", [$"py2-abi3-linux_x86_64"; $"py2-none-linux_x86_64"; $"py2-cp39m-linux_x86_64"]);
   ($"py2.pp37.py3-none-linux_x86_64", [$"py3-none-linux_x86_64"; $"py2-none-linux_x86_64"; $"pp37-none-linux_x86_64"]);
   ($"pp37.py2.cp39-abi3-win32", [$"pp37-abi3-win32"; $"py2-abi3-win32"; $"cp39-abi3-win32"]);
   ($"pp37-abi3-manylinux1_i686.linux_x86_64.any", [$"pp37-abi3-any"; $"pp37-abi3-linux_x86_64"; $"pp37-abi3-manylinux1_i686"]);
   ($"pp37.cp39-abi3-linux_x86_64", [$"pp37-abi3-linux_x86_64"; $"cp39-abi3-linux_x86_64"]);
   ($"py3.pp37.cp39-cp39m-any.linux_x86_64.win32", [$"pp37-cp39m-win32"; $"py3-cp39m-linux_x86_64"; $"cp39-cp39m-win32"; $"pp37-cp39m-any"; $"pp37-cp39m-linux_x86_64"; $"cp39-cp39m-any"; $"py3-cp39m-win32"; $"cp39-cp39m-linux_x86_64"; $"py3-cp39m-any"]);
   ($"py3.cp39.py2-cp39m.none-win32.linux_x86_64", [$"py2-none-win32"; $"py2-cp39m-linux_x86_64"; $"py3-cp39m-linux_x86_64"; $"cp39-cp39m-win32"; $"py2-none-linux_x86_64"; $"py3-none-win32"; $"cp39-none-win32"; $"py3-cp39m-win32"; $"py2-cp39m-win32"; $"cp39-cp39m-linux_x86_64"; $"py3-none-linux_x86_64"; $"cp39-none-linux_x86_64"]);
   ($"py2-none-linux_x86_64.manylinux1_i686", [$"py2-none-linux_x86_64"; $"py2-none-manylinux1_i686"]);
   ($"py3.pp37.cp39-cp39m.abi3-linux_x86_64.any.manylinux1_i686", [$"cp39-cp39m-manylinux1_i686"; $"py3-cp39m-linux_x86_64"; $"py3-abi3-linux_x86_64"; $"pp37-cp39m-linux_x86_64"; $"cp39-cp39m-any"; $"py3-cp39m-manylinux1_i686"; $"cp39-abi3-linux_x86_64"; $"pp37-abi3-linux_x86_64"; $"py3-abi3-manylinux1_i686"; $"pp37-cp39m-manylinux1_i686"; $"cp39-abi3-manylinux1_i686"; $"py3-cp39m-any"; $"pp37-abi3-manylinux1_i686"; $"py3-abi3-any"; $"pp37-cp39m-any"; $"cp39-abi3-any"; $"pp37-abi3-any"; $"cp39-cp39m-linux_x86_64"]);
   ($"pp37-cp39m-win32", [$"pp37-cp39m-win32"]);
   ($"py2.cp39.pp37-abi3-win32", [$"pp37-abi3-win32"; $"py2-abi3-win32"; $"cp39-abi3-win32"]);
   ($"cp39.py3.py2-cp39m-win32", [$"py2-cp39m-win32"; $"py3-cp39m-win32"; $"cp39-cp39m-win32"]);
   ($"py3-abi3.none-any.win32.manylinux1_i686", [$"py3-none-any"; $"py3-abi3-any"; $"py3-none-manylinux1_i686"; $"py3-abi3-manylinux1_i686"; $"py3-none-win32"; $"py3-abi3-win32"]);
   ($"py2.pp37-cp39m-linux_x86_64.manylinux1_i686.win32", [$"py2-cp39m-linux_x86_64"; $"pp37-cp39m-win32"; $"pp37-cp39m-manylinux1_i686"; $"py2-cp39m-win32"; $"pp37-cp39m-linux_x86_64"; $"py2-cp39m-manylinux1_i686"]);
   ($"cp39.py2-abi3-linux_x86_64", [$"py2-abi3-linux_x86_64"; $"cp39-abi3-linux_x86_64"]);
   ($"py3.cp39-cp39m-win32", [$"py3-cp39m-win32"; $"cp39-cp39m-win32"]);
   ($"py2.pp37-none-linux_x86_64", [$"py2-none-linux_x86_64"; $"pp37-none-linux_x86_64"]);
   ($"pp37-none.abi3-manylinux1_i686.any", [$"pp37-abi3-any"; $"pp37-none-manylinux1_i686"; $"pp37-abi3-manylinux1_i686"; $"pp37-none-any"]);
   ($"py3-none-any.win32", [$"py3-none-any"; $"py3-none-win32"]);
   ($"cp39.py2.pp37-abi3-manylinux1_i686", [$"cp39-abi3-manylinux1_i686"; $"py2-abi3-manylinux1_i686"; $"pp37-abi3-manylinux1_i686"]);
   ($"cp39-none-manylinux1_i686", [$"cp39-none-manylinux1_i686"]);
   ($"py3-none-manylinux1_i686", [$"py3-none-manylinux1_i686"]);
   ($"pp37.cp39-cp39m.none-any.manylinux1_i686.win32", [$"cp39-cp39m-manylinux1_i686"; $"pp37-cp39m-win32"; $"cp39-cp39m-win32"; $"cp39-none-manylinux1_i686"; $"pp37-cp39m-any"; $"pp37-none-manylinux1_i686"; $"cp39-cp39m-any"; $"cp39-none-win32"; $"pp37-cp39m-manylinux1_i686"; $"pp37-none-win32"; $"cp39-none-any"; $"pp37-none-any"]);
   ($"cp39.pp37.py3-cp39m.abi3.none-linux_x86_64", [$"pp37-none-linux_x86_64"; $"py3-cp39m-linux_x86_64"; $"pp37-cp39m-linux_x86_64"; $"py3-abi3-linux_x86_64"; $"cp39-abi3-linux_x86_64"; $"pp37-abi3-linux_x86_64"; $"cp39-cp39m-linux_x86_64"; $"py3-none-linux_x86_64"; $"cp39-none-linux_x86_64"]);
   ($"cp39-cp39m.abi3-any", [$"cp39-abi3-any"; $"cp39-cp39m-any"])] = true.
Proof. vm_compute. reflexivity. Qed.

(** packaging.utils.parse_wheel_filename *)
Example wheel_names : forallb (fun '(t, e) => match parse_wheel_filename t, e with
    | Some w, Some (n, v, b, l) =>
        str_eqb (pw_name w) n && str_eqb (version_string (pw_version w)) v &&
        match pw_build w, b with Some (x, y), Some (x', y') => N.eqb x x' && str_eqb y y' | None, None => true | _, _ => false end &&
        Nat.eqb (length (pw_tags w)) (length l) && forallb (fun x => existsb (fun '(p, a, q) => str_eqb x (p ++ $"-" ++ a ++ $"-" ++ q)) (pw_tags w)) l
    | None, None => true
    | _, _ => false
    end)
  [($"p+q-1.0-1--none-any.whl", None);
   ($"A.b-x-b-PY2.py3--win32-z.zip", None);
   ($"A.b-2!1.post3-PY2.py3--Linux_x86_64.any.whl", Some ($"a-b", $"2!1.post3", None, [$"py2--any"; $"py3--any"; $"py2--linux_x86_64"; $"py3--linux_x86_64"]));
   ($"-2!1.post3-12b3---win32.whl", Some ($"", $"2!1.post3", Some (12%N, $"b3"), [$"--win32"]));
   ($"x__y-1.0-007--abi3.none-Linux_x86_64.any.whl", None);
   ($"x__y-1.0RC1-b-cp39--Linux_x86_64.any.whl", None);
   ($"p+q-1.0-007-cp39--win32.whl", None);
   ($"x_y-x-PY2.py3-none-win32.whl", None);
   ($"x__y-1.0RC1-PY2.py3--Linux_x86_64.any.whl", None);
   ($"-2!1.post3-b-PY2.py3-none-win32.whl", None);
   ($"x_y-1.0RC1--abi3.none-Linux_x86_64.any-z.whl", None);
   ($"p+q-2!1.post3--py3-none-any-z.whl", None);
   ($"p+q-1.0-1-cp39--Linux_x86_64.any.whl", None);
   ($"x__y-1.0-007-cp39-abi3.none-win32-z.zip", None);
   ($"A.b-1.0-b-cp39--any.zip", None);
   ($"-1.0RC1-PY2.py3-abi3.none-win32.whl", Some ($"", $"1.0rc1", None, [$"py2-none-win32"; $"py2-abi3-win32"; $"py3-none-win32"; $"py3-abi3-win32"]));
   ($"Foo-1.0RC1-py3-none-win32-z.whl", None);
   ($"x__y-1.0--py3-abi3.none-win32-z.whl", None);
   ($"x__y-1.0RC1-b-py3-abi3.none-win32-z.zip", None);
   ($"a-2!1.post3---win32.whl", Some ($"a", $"2!1.post3", None, [$"--win32"]));
   ($"-1.0RC1-b-PY2.py3-abi3.none-any-z.whl", None);
   ($"x_y-1.0-1-py3-none-win32.whl", Some ($"x-y", $"1.0", Some (1%N, $""), [$"py3-none-win32"]));
   ($"p+q-x-1--none-any-z.whl", None);
   ($"Foo-x-007-py3--any.whl", None);
   ($"x__y-2!1.post3-12b3---win32-z.whl", None);
   ($"x__y-x-007-PY2.py3--any.whl", None);
   ($"Foo-1.0-1-PY2.py3--win32.whl", Some ($"foo", $"1.0", Some (1%N, $""), [$"py2--win32"; $"py3--win32"]));
   ($"Foo-1.0-1-cp39--any.whl", Some ($"foo", $"1.0", Some (1%N, $""), [$"cp39--any"]));
   ($"A.b-1.0RC1--py3-none-any.whl", None);
   ($"x_y-1.0RC1-12b3---Linux_x86_64.any.whl", Some ($"x-y", $"1.0rc1", Some (12%N, $"b3"), [$"--any"; $"--linux_x86_64"]));
   ($"a-x-PY2.py3-abi3.none-win32.zip", None);
   ($"Foo-x-PY2.py3-abi3.none-any.whl", None);
   ($"Foo-x-12b3-cp39-abi3.none-Linux_x86_64.any.whl", None);
   ($"A.b-x-007-PY2.py3-abi3.none-win32.whl", None);
   ($"p+q-1.0-007-cp39--Linux_x86_64.any-z.whl", None);
   ($"x__y-1.0RC1-1-py3-none-win32.whl", None);
   ($"x__y-1.0---none-Linux_x86_64.any.whl", None);
   ($"Foo-1.0RC1-PY2.py3-abi3.none-win32.zip", None);
   ($"Foo-1.0-007-cp39-none-Linux_x86_64.any.whl", Some ($"foo", $"1.0", Some (7%N, $""), [$"cp39-none-any"; $"cp39-none-linux_x86_64"]));
   ($"x_y-1.0RC1-007-PY2.py3-none-Linux_x86_64.any.whl", Some ($"x-y", $"1.0rc1", Some (7%N, $""), [$"py3-none-any"; $"py2-none-linux_x86_64"; $"py3-none-linux_x86_64"; $"py2-none-any"]));
   ($"-x-b-py3-none-any.zip", None);
   ($"A.b-1.0-PY2.py3-none-Linux_x86_64.any.whl", Some ($"a-b", $"1.0", None, [$"py3-none-any"; $"py2-none-linux_x86_64"; $"py3-none-linux_x86_64"; $"py2-none-any"]));
   ($"Foo-2!1.post3-12b3--abi3.none-Linux_x86_64.any.zip", None);
   ($"p+q-x-PY2.py3-abi3.none-win32.whl", None);
   ($"x_y-2!1.post3-12b3-cp39-abi3.none-win32.whl", Some ($"x-y", $"2!1.post3", Some (12%N, $"b3"), [$"cp39-none-win32"; $"cp39-abi3-win32"]));
   ($"a-1.0RC1-b--abi3.none-any.whl", None);
   ($"-1.0RC1-12b3-cp39-none-win32.whl", Some ($"", $"1.0rc1", Some (12%N, $"b3"), [$"cp39-none-win32"]));
   ($"a-1.0-cp39--win32.zip", None);
   ($"a-1.0-b-cp39-abi3.none-any.whl", None);
   ($"x_y-2!1.post3-cp39-abi3.none-win32.whl", Some ($"x-y", $"2!1.post3", None, [$"cp39-none-win32"; $"cp39-abi3-win32"]));
   ($"A.b-1.0-007---any.zip", None);
   ($"p+q-1.0-PY2.py3--win32-z.whl", None);
   ($"p+q-x-12b3-PY2.py3-none-any.whl", None);
   ($"Foo-x---abi3.none-win32.whl", None);
   ($"A.b-x-12b3--abi3.none-Linux_x86_64.any-z.whl", None);
   ($"-2!1.post3--PY2.py3--Linux_x86_64.any-z.whl", None);
   ($"-1.0RC1---win32-z.whl", None);
   ($"a-1.0-007---any.zip", None);
   ($"a-2!1.post3-007-PY2.py3-abi3.none-Linux_x86_64.any.whl", Some ($"a", $"2!1.post3", Some (7%N, $""), [$"py3-abi3-any"; $"py2-none-any"; $"py2-none-linux_x86_64"; $"py3-abi3-linux_x86_64"; $"py3-none-any"; $"py2-abi3-any"; $"py3-none-linux_x86_64"; $"py2-abi3-linux_x86_64"]));
   ($"A.b-1.0-1-cp39--Linux_x86_64.any.zip", None);
   ($"p+q-1.0-1-cp39-none-Linux_x86_64.any-z.whl", None);
   ($"Foo-1.0RC1-PY2.py3--any.zip", None);
   ($"Foo-x-1--none-any-z.zip", None);
   ($"Foo-2!1.post3-12b3-cp39--any.zip", None);
   ($"x__y-1.0RC1-12b3-py3-none-win32.whl", None);
   ($"x__y-2!1.post3-b-cp39-none-any.whl", None);
   ($"-1.0--py3-none-Linux_x86_64.any-z.zip", None);
   ($"x__y-2!1.post3-12b3-cp39--any-z.whl", None);
   ($"A.b-2!1.post3-PY2.py3--win32-z.whl", None);
   ($"-x--py3-none-Linux_x86_64.any.zip", None);
   ($"A.b-2!1.post3-12b3--none-any-z.whl", None);
   ($"A.b-2!1.post3-py3-none-win32-z.zip", None);
   ($"x__y-2!1.post3-b-cp39-none-Linux_x86_64.any-z.whl", None);
   ($"-2!1.post3-1-PY2.py3-abi3.none-Linux_x86_64.any.whl", Some ($"", $"2!1.post3", Some (1%N, $""), [$"py3-abi3-any"; $"py2-none-any"; $"py2-none-linux_x86_64"; $"py3-abi3-linux_x86_64"; $"py3-none-any"; $"py2-abi3-any"; $"py3-none-linux_x86_64"; $"py2-abi3-linux_x86_64"]));
   ($"a-1.0-007-py3-none-win32.whl", Some ($"a", $"1.0", Some (7%N, $""), [$"py3-none-win32"]));
   ($"x__y-x-1-py3-none-Linux_x86_64.any.whl", None);
   ($"p+q-2!1.post3-007-PY2.py3-abi3.none-Linux_x86_64.any-z.whl", None);
   ($"x_y-1.0RC1-b--abi3.none-any.zip", None);
   ($"x_y-2!1.post3-b-py3--win32-z.zip", None);
   ($"A.b-1.0RC1-py3-none-win32.whl", Some ($"a-b", $"1.0rc1", None, [$"py3-none-win32"]))] = true.
Proof. vm_compute. reflexivity. Qed.

(** posixpath.normpath *)
Example clean_paths : forallb (fun '(p, e) => str_eqb (clean p) e)
  [($"..b/..", $"."); ($"c/b....", $"c/b...."); ($".....caa..", $".....caa.."); ($"b/..", $"."); ($"///../", $"/"); ($"/a....b", $"/a....b"); ($"c.//..b/", $"c./..b"); ($"/.c..a//.", $"/.c..a"); ($".//", $"."); ($"acc/bb./", $"acc/bb."); ($"..c.....b/b", $"..c.....b/b"); ($"abaa.", $"abaa."); ($"b......bc/", $"b......bc"); ($".", $"."); ($"..////", $".."); ($"a.c", $"a.c"); ($"cac", $"cac"); ($"/c..b", $"/c..b"); ($".........ca", $".........ca"); ($"c", $"c"); ($"/", $"/"); ($".//", $"."); ($"b/..", $"."); ($"/aa", $"/aa"); ($"b", $"b"); ($"ca/..c", $"ca/..c"); ($"/.b/c", $"/.b/c"); ($"./b//", $"b"); ($"/.b", $"/.b"); ($"a/b", $"a/b"); ($"babba/./", $"babba"); ($"ac//c", $"ac/c"); ($"cccbab../", $"cccbab.."); ($"b/b", $"b/b"); ($"c/a..", $"c/a.."); ($"a", $"a"); ($"aac.cb/.", $"aac.cb"); ($"caabc/./", $"caabc"); ($"c...", $"c..."); ($"...//..b/.", $".../..b"); ($"/...//..b/", $"/.../..b"); ($".c......aa/", $".c......aa"); ($"aa../a", $"aa../a"); ($"a/b.b", $"a/b.b"); ($"acc..b", $"acc..b"); ($"a/c", $"a/c"); ($"b", $"b"); ($"/b.a..b/c", $"/b.a..b/c"); ($"aaab..", $"aaab.."); ($"/", $"/"); ($"b", $"b"); ($"b/b", $"b/b"); ($"/", $"/"); ($".", $"."); ($"b..a..c/..", $"."); ($"..b../a", $"..b../a"); ($"./c..a", $"c..a"); ($"bbaa../a", $"bbaa../a"); ($"/bb", $"/bb"); ($"c./", $"c."); ($"a", $"a"); ($"..//", $".."); ($"cbca.", $"cbca."); ($"/bc.a", $"/bc.a"); ($"b", $"b"); ($"bb/", $"bb"); ($"c.//..a/..", $"c."); ($"/a//.././", $"/"); ($"a", $"a"); ($"../...a", $"../...a"); ($"c", $"c"); ($"aa/ba", $"aa/ba"); ($"/", $"/"); ($"c./", $"c."); ($".a.cb", $".a.cb"); ($"a", $"a"); ($"///", $"/"); ($"cc./a", $"cc./a"); ($"///", $"/"); ($"..", $".."); ($"aa//.", $"aa"); ($"../c..../a.", $"../c..../a."); ($"a", $"a"); ($"c.b..a//.", $"c.b..a"); ($"/./.c", $"/.c"); ($"..", $".."); ($"caab../ab", $"caab../ab")] = true.
Proof. vm_compute. reflexivity. Qed.

(** posixpath.relpath(t, b) *)
Example relative_paths : forallb (fun '(b, t, e) => str_eqb (rel_abs b t) e)
  [($"/abc/..bac/", $"/acb..b/cac", $"../../acb..b/cac");
   ($"/a..ab/c//a", $"/aa", $"../../../aa");
   ($"/a/..b..", $"/a./cca./c", $"../../a./cca./c");
   ($"/ab", $"/abc/b/", $"../abc/b");
   ($"/aa/cbc", $"/a/a/..b", $"../../a/a/..b");
   ($"/a////ab./", $"/aa//..c./a", $"../../aa/..c./a");
   ($"/a.././.../..", $"/a..", $".");
   ($"/ab/....cb/c", $"/a..", $"../../../a..");
   ($"/aaca", $"/a.ca", $"../a.ca");
   ($"/aa", $"/ac....", $"../ac....");
   ($"/a///", $"/a/", $".");
   ($"/aa...//c/.", $"/a..cc", $"../../a..cc");
   ($"/a...a.///c", $"/a//c/a.aa", $"../../a/c/a.aa");
   ($"/a...b../", $"/aa", $"../aa");
   ($"/aa/.", $"/ab", $"../ab");
   ($"/a/", $"/a.", $"../a.");
   ($"/aa", $"/ab", $"../ab");
   ($"/abbaab..a.", $"/a/aa.b/bb", $"../a/aa.b/bb");
   ($"/a..c.../", $"/a../", $"../a..");
   ($"/a..///", $"/aa...", $"../aa...");
   ($"/a/a..a/..a", $"/ac./....c./", $"../../../ac./....c.");
   ($"/ac....", $"/ab/..a/", $"../ab/..a");
   ($"/aa.c./", $"/a//b", $"../a/b");
   ($"/a//....ab..b", $"/a//a../", $"../a..");
   ($"/aa", $"/ac", $"../ac");
   ($"/ac.c", $"/a.b/..a", $"../a.b/..a");
   ($"/ac/..", $"/ab", $"ab");
   ($"/a/c....", $"/ac/../", $"../..");
   ($"/a.", $"/acb.a.", $"../acb.a.");
   ($"/aa...../c/c", $"/abbc/c", $"../../../abbc/c");
   ($"/a/.bab/....", $"/a../a..", $"../../../a../a..");
   ($"/abbc", $"/a/aa//", $"../a/aa");
   ($"/ab...", $"/a/a/", $"../a/a");
   ($"/a.cb...c...", $"/a/b../.a..", $"../a/b../.a..");
   ($"/a/", $"/a....", $"../a....");
   ($"/aa", $"/ac...", $"../ac...");
   ($"/a../", $"/ac", $"../ac");
   ($"/a...././a..c", $"/ac", $"../../ac");
   ($"/a.", $"/a..", $"../a..");
   ($"/a/", $"/a.", $"../a.");
   ($"/ab", $"/aa", $"../aa");
   ($"/a/.bab", $"/a/.ca.ca..", $"../.ca.ca..");
   ($"/a.bbaa", $"/ab", $"../ab");
   ($"/ac/..c....//", $"/a....", $"../../a....");
   ($"/ac", $"/a/", $"../a");
   ($"/a.", $"/aa", $"../aa");
   ($"/acb.bb..b/", $"/a..", $"../a..");
   ($"/aa..a", $"/a/..../ac/..", $"../a/....");
   ($"/a..b.ca", $"/aaa//b", $"../aaa/b");
   ($"/aa//", $"/a....", $"../a....");
   ($"/ac", $"/aa..c", $"../aa..c");
   ($"/ab...//", $"/a..", $"../a..");
   ($"/aab.", $"/a..", $"../a..");
   ($"/a./cab", $"/a/ab/b", $"../../a/ab/b");
   ($"/ac/..", $"/ab/.", $"ab");
   ($"/a....", $"/a//c....a.", $"../a/c....a.");
   ($"/a/b/", $"/aa.abc//c", $"../../aa.abc/c");
   ($"/a.c.....", $"/a..a.", $"../a..a.");
   ($"/a/./../c/..", $"/acaa", $"acaa");
   ($"/a/cc", $"/ab//c..bb", $"../../ab/c..bb")] = true.
Proof. vm_compute. reflexivity. Qed.

(** urllib.parse.parse_qsl(q, keep_blank_values=True) *)
Example queries : forallb (fun '(q, e) => let '(l, ok) := parse_query q in ok && same_section l e)
  [($"%3d%3d&a%3da%41ac+c%3d", [($"==", $""); ($"a=aAac c=", $"")]);
   ($"=", [($"", $"")]);
   ($"=&%2Bc=%41=%41", [($"", $""); ($"+c", $"A=A")]);
   ($"&", []);
   ($"c%3da%3dc%3dc+=%41==", [($"c=a=c=c ", $"A==")]);
   ($"%26aa&", [($"&aa", $"")]);
   ($"=%2Bca", [($"", $"+ca")]);
   ($"=", [($"", $"")]);
   ($"+&+%3d", [($" ", $""); ($" =", $"")]);
   ($"%2B&++%41++%3d=a%3dc", [($"+", $""); ($"  A  =", $"a=c")]);
   ($"cc%3d&=cab", [($"cc=", $""); ($"", $"cab")]);
   ($"%41%26%26=%3d=%3d%3d+c%41%3d", [($"A&&", $"==== cA=")]);
   ($"=&c%3d&+a&", [($"", $""); ($"c=", $""); ($" a", $"")]);
   ($"b&%3dc&b++%3da=&", [($"b", $""); ($"=c", $""); ($"b  =a", $"")]);
   ($"+", [($" ", $"")]);
   ($"=", [($"", $"")]);
   ($"%26%41=%2B&=%26+&=%26%26", [($"&A", $"+"); ($"", $"& "); ($"", $"&&")]);
   ($"+b&&%26b&%3d", [($" b", $""); ($"&b", $""); ($"=", $"")]);
   ($"%26", [($"&", $"")]);
   ($"ab%2Ba", [($"ab+a", $"")]);
   ($"%2B", [($"+", $"")]);
   ($"a", [($"a", $"")]);
   ($"&c%3d=c&b&&%26c&", [($"c=", $"c"); ($"b", $""); ($"&c", $"")]);
   ($"=", [($"", $"")]);
   ($"%26c&&+&&c", [($"&c", $""); ($" ", $""); ($"c", $"")]);
   ($"%2Ba&bb+&%41", [($"+a", $""); ($"bb ", $""); ($"A", $"")]);
   ($"%3d%3d=%2B%3d%41=&", [($"==", $"+=A=")]);
   ($"a%41%3da", [($"aA=a", $"")]);
   ($"%3d%3d%26%2B", [($"==&+", $"")]);
   ($"&+aba%26&%3d%3d%26%3d&", [($" aba&", $""); ($"==&=", $"")]);
   ($"%2B%3d=%2B%3d%3d=&", [($"+=", $"+===")]);
   ($"b", [($"b", $"")]);
   ($"a&b%41%26c+a%3d%2B=%41", [($"a", $""); ($"bA&c a=+", $"A")]);
   ($"+&&=", [($" ", $""); ($"", $"")]);
   ($"==c%41%3d%2B%26%2B+ac=", [($"", $"=cA=+&+ ac=")]);
   ($"b&b%41cc%41+", [($"b", $""); ($"bAccA ", $"")]);
   ($"c%3d%41ab+=c", [($"c=Aab ", $"c")]);
   ($"ab+%3d", [($"ab =", $"")]);
   ($"b%41%41%2B", [($"bAA+", $"")]);
   ($"%3d%41a&&c%26&%26%26=&", [($"=Aa", $""); ($"c&", $""); ($"&&", $"")]);
   ($"=", [($"", $"")]);
   ($"%26%26+%3d%3d&++", [($"&& ==", $""); ($"  ", $"")]);
   ($"b", [($"b", $"")]);
   ($"%41b==%2Bb=%3d&%3da%26", [($"Ab", $"=+b=="); ($"=a&", $"")]);
   ($"%3dcc&a&=b&=a%2B", [($"=cc", $""); ($"a", $""); ($"", $"b"); ($"", $"a+")]);
   ($"&b&%3db=&&", [($"b", $""); ($"=b", $"")]);
   ($"%3d%26+%2B", [($"=& +", $"")]);
   ($"&&aa%41=+%2B", [($"aaA", $" +")]);
   ($"b&%3db", [($"b", $""); ($"=b", $"")]);
   ($"%41bc=%2B&%3d%2B%26cc%2B", [($"Abc", $"+"); ($"=+&cc+", $"")]);
   ($"%26%26b=", [($"&&b", $"")]);
   ($"b%41&%3d%3d+a&", [($"bA", $""); ($"== a", $"")]);
   ($"=", [($"", $"")]);
   ($"%2Bb+&&=cb", [($"+b ", $""); ($"", $"cb")]);
   ($"a&bc", [($"a", $""); ($"bc", $"")]);
   ($"%26&=+%2Bc&%3da%26b%3d", [($"&", $""); ($"", $" +c"); ($"=a&b=", $"")]);
   ($"%2B+bb", [($"+ bb", $"")]);
   ($"+b+%26", [($" b &", $"")]);
   ($"&", []);
   ($"=ac&%2Baa%26", [($"", $"ac"); ($"+aa&", $"")])] = true.
Proof. vm_compute. reflexivity. Qed.
