(** What can be said of the layer for any wheel. *)
From Coq Require Import String Ascii List Bool NArith ZArith.
From Verif.Model Require Import GoStr GoPath Tar Stat Layer ConfigParser Platform WheelFile Wheel.
From Verif.Spec Require Import WheelSpec WheelExamples.
Import ListNotations.

(** [e] was made by the compiler, given Python files at the time [t], or by the hook. *)
Definition by_tools (o : outside) (pl : platform) (min t : option Z) (wh : list zfile) (e : entry) : Prop :=
  (exists refs outs r, o_compile o t refs = Some outs /\ Forall (fun x => has_suffix $".py" (path_base (ref_full x)) = true) refs /\
     In r outs /\ entry_of_ref r e) \/
  (exists fs fs' k r, hooks o pl min t wh fs fs' /\ In (k, r) fs' /\ ~ In (k, r) fs /\ entry_of_ref r e).
(** [e] has the bytes of [f], perhaps with another interpreter in the first line. *)
Definition bytes_of (pl : platform) (f : zfile) (e : entry) : Prop :=
  exists text, zf_content f = Bytes text true /\ (snd e = text \/ snd e = shebang_line (pl_console pl) (pl_graphical pl) text).

(** A script and another file with the same destination, and one with a later time. *)
Definition ex_shared : list zfile := ex_wheel [($"foo-1.0.data/scripts/run", $"#!python -E"); ($"foo-1.0.data/data/bin/run", $"text")].
(** A link, a device, and a program that sets the user. *)
Definition ex_special : list zfile :=
  let files := [($"foo-1.0.dist-info/WHEEL", $"true"); ($"foo/link", $"/etc/passwd"); ($"foo/disk", []); ($"foo/su", $"code")] in
  [ex_reg $"foo-1.0.dist-info/WHEEL" $"true"; ex_file $"foo/link" 41471 $"/etc/passwd"; ex_file $"foo/disk" 25008 []; ex_file $"foo/su" 35309 $"code"; ex_record files].
