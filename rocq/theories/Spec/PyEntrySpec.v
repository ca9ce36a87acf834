(** The entry points of a wheel as Python reads them: ConfigParser(delimiters="=") with optionxform = str,
    as the specification of entry points has it (C102). *)
From Coq Require Import String Ascii List Bool NArith ZArith.
From Verif.Model Require Import GoStr Layer ConfigParser Platform WheelFile.
From Verif.Spec Require Import PyConfigSpec EntryPointsSpec.
Import ListNotations.

Definition py_entry_points (text : str) : option (list (str * list (str * str))) :=
  py_read [$"="] [$"#"; $";"] true (fun k => k) text.
(** A text on which the two readers agree *)
Definition agreed_text (text : str) : Prop :=
  Forall usual_byte text /\ whole_ends text /\ Forall (agreed_line [$"="]) (py_lines text).
(** [file] is the script named [name] for the object [f] of the module [m] *)
Definition launcher (name shebang m f : str) (time : option Z) (file : vref) : Prop :=
  ref_full file = name /\ ref_mode file = 493%N /\ ref_mtime file = time /\
  exists script, ref_content file = Bytes script true /\ ref_size file = Z.of_nat (length script) /\
    (~ In "."%char f -> script = wanted_script shebang m f).
(** Examples *)
Definition ex_entry_points : str :=
  text_of [$"# made by hand"; $"[console_scripts]"; $"Foo = pkg.mod:main [x]"; []; $"[other]"; $"a = b"; $"[gui_scripts]"; $"; windows"; $"bar= m:f"].
Definition ex_twice_entry_points : str := text_of [$"[console_scripts]"; $"foo = m:f"; $"foo = m:g"].
