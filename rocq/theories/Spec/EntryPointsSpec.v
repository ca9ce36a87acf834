(** What an entry point refers to and what its script has to say. *)
From Coq Require Import String Ascii List Bool NArith ZArith.
From Verif.Model Require Import GoStr GoPath Regex Layer ConfigParser Platform WheelFile.
Import ListNotations.

(** Letters, digits and underscores *)
Definition word_byte (c : ascii) : Prop :=
  (48 <= code c <= 57 \/ 65 <= code c <= 90 \/ 97 <= code c <= 122 \/ code c = 95)%N.
Definition identifier (w : str) : Prop := w <> [] /\ Forall word_byte w.
(** identifiers with dots between them *)
Definition dotted (s : str) : Prop := exists ws, ws <> [] /\ Forall identifier ws /\ s = join $"." ws.
(** nothing, or spaces and brackets *)
Definition extras (e : str) : Prop :=
  e = [] \/ exists sp t, e = sp ++ $"[" ++ t ++ $"]" /\ forallb cls_re_space sp = true /\ ~ In nl t.
(** [val] is "module:object", perhaps with extras *)
Definition refers (val m f : str) : Prop :=
  dotted m /\ dotted f /\ exists e, extras e /\ val = m ++ $":" ++ f ++ e.

(** The script of pip and distlib: it imports the first part of the object and
    calls the object *)
Definition wanted_script (shebang m f : str) : str :=
  concat (map (fun l => l ++ [nl])
    [$"#!" ++ shebang;
     $"# -*- coding: utf-8 -*-";
     $"import re";
     $"import sys";
     $"from " ++ m ++ $" import " ++ hd [] (split_on "." f);
     $"if __name__ == '__main__':";
     $"    sys.argv[0] = re.sub(r'(-script\.pyw|\.exe)?$', '', sys.argv[0])";
     $"    sys.exit(" ++ f ++ $"())"]).

(** The entries: section, interpreter, key, value *)
Definition entries_of (cfg : config) (sect : str) : section :=
  match get_key sect cfg with Some items => items | None => [] end.
Definition script_name (scripts key : str) : str := path_join [tl scripts; key].
Definition all_entries (cfg : config) : section := entries_of cfg $"console_scripts" ++ entries_of cfg $"gui_scripts".

(** An example: a platform, and an installation with the given entry_points.txt *)
Definition example_platform : platform :=
  mkPlatform $"/usr/bin/python3" []
    (mkScheme $"/usr/lib/python3/site-packages" $"/usr/lib64/python3/site-packages" $"/usr/include/python3" $"/usr/bin" $"/usr")
    0 0 $"root" $"root".
Definition example_vfs (text : str) : vfs :=
  [($"lib/p-1.dist-info/entry_points.txt", mem_reg $"lib/p-1.dist-info/entry_points.txt" 420 (Some 5%Z) text)].
