(** Examples for the recording of installations. *)
From Coq Require Import String Ascii List Bool NArith ZArith.
From Verif.Model Require Import GoStr GoPath Pep440 Tar Stat Layer ConfigParser Platform WheelFile EntryPoints Wheel DirectURL Record LayerWheel.
From Verif.Spec Require Import SimpleAPISpec WheelExamples.
Import ListNotations.

(** A wheel with scripts, a compiled module and entry points *)
Definition ex_points : str := $"[console_scripts]" ++ [nl] ++ $"foo = foo.a:main" ++ [nl] ++ $"[gui_scripts]" ++ [nl] ++ $"foow = foo.a:App.run".
(** A hash that leaves out newlines *)
Definition ex_digest (_ text : str) : str := filter (fun c => negb (byte_eqb c nl)) text.
Definition ex_tools_of (o : outside) : outside :=
  mkOut (o_csv o) ex_digest (o_wheel o) (o_now o) (o_compile o) (o_hook o) (o_encodable o)
    (o_spread o) (o_parents o) (o_types o) (o_py o) (o_refs o) (o_sort o).
Definition ex_rows (files : list (str * str)) : list zfile :=
  let files := ($"foo-1.0.dist-info/WHEEL", $"true") :: files in
  map (fun f => ex_reg (fst f) (snd f)) files ++
  [ex_reg $"foo-1.0.dist-info/RECORD"
     (concat (map (fun f => fst f ++ $",sha256=" ++ ex_digest [] (snd f) ++ $"," ++ itoa (Z.of_nat (length (snd f))) ++ [nl]) files) ++
      $"foo-1.0.dist-info/RECORD,," ++ [nl])].
Definition ex_command : list zfile :=
  [ex_dir $"foo/"] ++ ex_rows [($"foo/a.py", $"code"); ($"foo-1.0.data/scripts/run", $"#!python"); ($"foo-1.0.dist-info/entry_points.txt", ex_points)].
(** Two ways in which the runtime can choose *)
Definition ex_layer (wh : list zfile) : ires (list entry) :=
  layer_wheel (ex_tools_of ex_out) (has_prefix $" ") (fun m => m) insertion_sort (fun l => l) (fun _ l => l) 9 ex_platform wh.
Definition ex_layer_rev (wh : list zfile) : ires (list entry) :=
  layer_wheel (ex_tools_of ex_out_rev) (has_prefix $" ") (@rev _) insertion_sort (@rev _) (fun _ => @rev _) 9 ex_platform wh.
Definition text_of (name : str) (r : ires (list entry)) : option str :=
  match r with IOk l => option_map snd (find (fun e => str_eqb (th_name (fst e)) name) l) | _ => None end.
(** A file whose name has a CR in it *)
Definition ex_cr_name : list zfile :=
  [ex_reg $"foo-1.0.dist-info/WHEEL" $"true"; ex_reg ($"a" ++ [cr] ++ $"b") $"text";
   ex_reg $"foo-1.0.dist-info/RECORD" ($"foo-1.0.dist-info/WHEEL,sha256=true,4" ++ [nl] ++ $"a" ++ [cr] ++ $"b,sha256=text,4" ++ [nl] ++ $"foo-1.0.dist-info/RECORD,," ++ [nl])].
(** An entry point whose name leads to RECORD *)
Definition ex_points_record : str := $"[console_scripts]" ++ [nl] ++ $"../lib/foo-1.0.dist-info/RECORD = foo.a:main".
Definition ex_record_point : list zfile := ex_rows [($"foo/a.py", $"code"); ($"foo-1.0.dist-info/entry_points.txt", ex_points_record)].

(** JSON *)
Definition ex_nested_arrays : json := JArr [JArr []; JArr []].
Definition ex_url : direct_url :=
  mkUrl $"https://example.com/a?b&c=""d""" (Some (mkVcs $"git" $"v1.0" $"0123abcd")) None (Some true).
