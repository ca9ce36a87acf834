(** pkg/python/pypa/entry_points/entry_points.go *)
From Coq Require Import String Ascii List Bool NArith ZArith.
From Verif.Model Require Import GoStr GoPath Regex Layer ConfigParser Platform WheelFile.
Import ListNotations.

(** entry_points.go:36-41 *)
Definition ep_parser : parser := mkParser [$"="] [$"#"; $";"] [] true true (fun k => k).

(** \w *)
Definition is_word (c : ascii) : bool :=
  (is_digit c || is_lower_alpha (lower c) || byte_eqb c "_")%bool.
(** entry_points.go:45 reFuncRef: words separated by ":" or "." as the group
    "callable", and optionally spaces and something in brackets; the dot of the
    regular expression does not match a newline *)
Definition r_word : re := RPlus (RChr is_word).
Definition r_callable : re :=
  RSeq r_word (RStar (RSeq (RChr (fun c => byte_eqb c ":" || byte_eqb c ".")) r_word)).
Definition r_extras : re :=
  RSeqs [RStar (RChr cls_re_space); RChr (byte_eqb "["); RStar (RChr (fun c => negb (byte_eqb c nl))); RChr (byte_eqb "]")].
Definition re_func_ref : re := RSeq (RGrp "callable" r_callable) (ROpt r_extras).

(** entry_points.go:24-34 scriptTmpl *)
Definition script_text (shebang module func : str) : str :=
  $"#!" ++ shebang ++ [nl] ++
  $"# -*- coding: utf-8 -*-" ++ [nl] ++
  $"import re" ++ [nl] ++
  $"import sys" ++ [nl] ++
  $"from " ++ module ++ $" import " ++ func ++ [nl] ++
  $"if __name__ == '__main__':" ++ [nl] ++
  $"    sys.argv[0] = re.sub(r'(-script\.pyw|\.exe)?$', '', sys.argv[0])" ++ [nl] ++
  $"    sys.exit(" ++ func ++ $"())" ++ [nl].

Inductive eerror := EInit | EOpen | EParse (e : cerror) | ENotFunc (section key value : str).

(** entry_points.go:83-102: the module and the function *)
Definition func_ref (val : str) : option (str * str) :=
  match full_match re_func_ref val with
  | None => None
  | Some c =>
      match split_on ":" (group c "callable") with
      | [m; f] => Some (m, f)
      | _ => None
      end
  end.

(** entry_points.go:103-114 *)
Definition script_ref (scripts key : str) (clamp_time : option Z) (text : str) : str * vref :=
  let name := path_join [tl scripts; key] in
  (name, mem_reg name 493 clamp_time text).

(** entry_points.go:82-115, the entries in the order in which the map gives them *)
Fixpoint add_scripts (scripts shebang sect : str) (clamp_time : option Z) (items : section) (fs : vfs) : vfs + eerror :=
  match items with
  | [] => inl fs
  | (key, val) :: items =>
      match func_ref val with
      | None => inr (ENotFunc sect key val)
      | Some (m, f) =>
          let '(name, r) := script_ref scripts key clamp_time (script_text shebang m f) in
          add_scripts scripts shebang sect clamp_time items (set_key name r fs)
      end
  end.
(** entry_points.go:72-116 *)
Fixpoint add_sections (order : str -> section -> section) (scripts : str) (clamp_time : option Z) (cfg : config)
    (interesting : list (str * str)) (fs : vfs) : vfs + eerror :=
  match interesting with
  | [] => inl fs
  | (sect, shebang) :: rest =>
      match get_key sect cfg with
      | None => add_sections order scripts clamp_time cfg rest fs
      | Some items =>
          match add_scripts scripts shebang sect clamp_time (order sect items) fs with
          | inl fs => add_sections order scripts clamp_time cfg rest fs
          | inr e => inr e
          end
      end
  end.

(** entry_points.go:48-119 CreateScripts.  [outer] and [order] are the orders in
    which Go ranges over the map of the two sections and over each section. *)
Definition create_scripts (outer : list (str * str) -> list (str * str)) (order : str -> section -> section)
    (pl : platform) (clamp_time : option Z) (fs : vfs) (dist_info : str) : vfs + eerror :=
  match plat_init pl with
  | None => inr EInit
  | Some pl =>
      match get_key (path_join [dist_info; $"entry_points.txt"]) fs with
      | None => inl fs
      | Some r =>
          let parsed :=
            match ref_content r with
            | OpenErr => inr EOpen
            | ReadErr => inr (EParse CRead)
            | Bytes text _ =>
                match parse_config ep_parser text false with COk c => inl c | CErr e => inr (EParse e) end
            end in
          match parsed with
          | inr e => inr e
          | inl cfg =>
              add_sections order (s_scripts (pl_scheme pl)) clamp_time cfg
                (outer [($"console_scripts", pl_console pl); ($"gui_scripts", pl_graphical pl)]) fs
          end
      end
  end.
