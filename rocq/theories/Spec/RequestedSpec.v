(** The REQUESTED file of PEP 376. *)
From Coq Require Import String Ascii List Bool NArith ZArith.
From Verif.Model Require Import GoStr GoPath Pep440 Tar Stat Layer ConfigParser Platform WheelFile Wheel DirectURL Record.
From Verif.Spec Require Import SimpleAPISpec WheelExamples RecordExamples.
Import ListNotations.

(** It is empty, or a line with the comment. *)
Definition marker (comment text : str) : Prop :=
  (comment = [] /\ text = []) \/ (comment <> [] /\ text = comment ++ ["010"%char]).

(** Example: the hooks of the project's test against pip, with a comment, in this order and in the other *)
Definition ex_record : hook := record_hook (has_prefix $" ") ex_digest (fun m => m) insertion_sort $"sha256" $"pip" None.
Definition ex_hooked (hooks : list hook) : outside :=
  let o := ex_tools_of ex_out in
  mkOut (o_csv o) (o_digest o) (o_wheel o) (o_now o) (o_compile o) (run_hooks hooks) (o_encodable o)
    (o_spread o) (o_parents o) (o_types o) (o_py o) (o_refs o) (o_sort o).
Definition ex_asked (hooks : list hook) : ires (list entry) := install_wheel (ex_hooked hooks) 9 ex_platform None None ex_command.
Definition asked : hook := requested_hook $"# by hand".
(** A wheel with a file outside the root directory that RECORD calls REQUESTED *)
Definition ex_lure : list zfile := ex_rows [($"../../../usr/lib/foo-1.0.dist-info/REQUESTED", $"lure")].
