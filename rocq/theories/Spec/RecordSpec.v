(** RECORD files: CSV as in RFC 4180, and what the rows say. *)
From Coq Require Import String Ascii List Bool NArith ZArith Sorted.
From Verif.Model Require Import GoStr GoPath Pep440 Tar Stat Layer ConfigParser Platform WheelFile Wheel.
From Verif.Spec Require Import PathSpec SimpleAPISpec LayerSpec WheelSpec.
Import ListNotations.

(** ** RFC 4180: fields separated by commas, lines ended by CR LF, fields in double quotes may
    contain anything, with double quotes doubled.  [field] and [row] are reversed. *)
Inductive csv_state := FieldStart | InField | InQuotes | QuoteSeen | CrSeen.
Fixpoint read_csv (st : csv_state) (field : str) (row : list str) (s : str) : option (list (list str)) :=
  match s with
  | [] => match st, row with FieldStart, [] => Some [] | _, _ => None end
  | c :: s =>
      let next := read_csv FieldStart [] (rev field :: row) s in
      match st with
      | InQuotes => if byte_eqb c """" then read_csv QuoteSeen field row s else read_csv InQuotes (c :: field) row s
      | CrSeen => if byte_eqb c "010" then option_map (cons (rev (rev field :: row))) (read_csv FieldStart [] [] s) else None
      | _ =>
          if byte_eqb c "," then next
          else if byte_eqb c "013" then read_csv CrSeen field row s
          else if byte_eqb c """" then
            match st with
            | FieldStart => read_csv InQuotes [] row s
            | QuoteSeen => read_csv InQuotes (c :: field) row s
            | _ => None
            end
          else if byte_eqb c "010" then None
          else match st with
               | QuoteSeen => None
               | _ => read_csv InField (c :: field) row s
               end
      end
  end.
Definition rfc4180 (s : str) : option (list (list str)) := read_csv FieldStart [] [] s.
(** Line ends in a field become CR LF. *)
Definition crlf (f : str) : str :=
  concat (map (fun c => if byte_eqb c "013" then [] else if byte_eqb c "010" then ["013"; "010"]%char else [c]) f).

(** ** Rows *)
(** Starting from the directory [base], [name] leads to [file]. *)
Definition leads_to (base name file : str) : Prop := clean_comps ($"/" ++ base ++ $"/" ++ name) = clean_comps ($"/" ++ file).
(** [name] is the shortest such name. *)
Definition names (base name file : str) : Prop :=
  leads_to base name file /\ clean_path name /\ is_abs name = false /\
  forall other, is_abs other = false -> leads_to base other file -> (length (clean_comps name) <= length (clean_comps other))%nat.
(** The row for a file: nothing but the name for compiled files, otherwise size and digest of the
    content, or what was recorded for a script before its first line was changed. *)
Definition describes (digest : str -> str -> str) (algo base : str) (r : vref) (row : list str) : Prop :=
  exists name hash size, row = [name; hash; size] /\ names base name (ref_full r) /\
  match r with
  | RecRef _ _ h s => hash = h /\ size = itoa s
  | _ => if has_suffix $".pyc" name then hash = [] /\ size = []
         else exists text ok, ref_content r = Bytes text ok /\ hash = algo ++ $"=" ++ digest algo text /\ size = itoa (ref_size r)
  end.
Definition row_name_of (row : list str) : str := hd [] row.
Definition row_before (a b : list str) : Prop := str_compare (row_name_of a) (row_name_of b) = Lt.
Definition hash_used (algo : str) : str := match algo with [] => $"sha256" | _ => algo end.
(** The names in Python's hashlib.algorithms_guaranteed, except for the families that Go's standard library does not have *)
Definition python_hashes : list str := map (app $"sha") [$"1"; $"224"; $"256"; $"384"; $"512"] ++ [$"md5"].
(** [rows] list the files in [fs] except RECORD, [info] being the name of the .dist-info
    directory: there is a row for RECORD itself, every other row is for a file, every file has
    exactly one row, and the rows are in order. *)
Definition parent (info : str) : str := join $"/" (removelast (clean_comps info)).
Definition rows_for (digest : str -> str -> str) (algo info : str) (fs : vfs) (rows : list (list str)) : Prop :=
  let record := in_info info $"RECORD" in
  let file k r := get_key k fs = Some r /\ ref_dir r = false /\ k <> record in
  (exists name, In [name; []; []] rows /\ names (parent info) name record /\
     forall row', In row' rows -> leads_to (parent info) (row_name_of row') record -> row' = [name; []; []]) /\
  (forall row, In row rows -> (exists name, row = [name; []; []] /\ names (parent info) name record) \/
     exists k r, file k r /\ describes digest algo (parent info) r row) /\
  (forall k r, file k r -> exists row, In row rows /\ describes digest algo (parent info) r row /\
     forall row', In row' rows -> leads_to (parent info) (row_name_of row') k -> row' = row) /\
  StronglySorted row_before rows.
(** A regular file with mode 0644 and this text *)
Definition plain_file (name : str) (t : option Z) (text : str) (fs : vfs) : Prop :=
  exists r, get_key name fs = Some r /\ ref_full r = name /\ ref_dir r = false /\ ref_mode r = 420%N /\ ref_mtime r = t /\ ref_content r = Bytes text true.

(** ** In the layer *)
Definition only_row (rows : list (list str)) (base file : str) (row : list str) : Prop :=
  In row rows /\ forall row', In row' rows -> leads_to base (row_name_of row') file -> row' = row.
(** A row with size and digest of the content, or with neither for a compiled file *)
Definition right_row (digest : str -> str -> str) (algo base : str) (e : entry) (row : list str) : Prop :=
  exists name hash size, row = [name; hash; size] /\ names base name (th_name (fst e)) /\
  if has_suffix $".pyc" name then hash = [] /\ size = []
  else hash = algo ++ $"=" ++ digest algo (snd e) /\ size = itoa (Z.of_nat (length (snd e))).
(** A row with size and digest of what the script was in the archive *)
Definition script_row (digest : str -> str -> str) (s : scheme) (root data base : str) (wh : list zfile) (e : entry) (row : list str) : Prop :=
  exists f text ok name, In f wh /\ zf_content f = Bytes text ok /\ has_prefix $"#!python" text = true /\
  destination s root data (z_name (zf_header f)) = Some (Some $"scripts", th_name (fst e)) /\
  row = [name; $"sha256=" ++ digest $"sha256" text; itoa (Z.of_nat (length text))] /\ names base name (th_name (fst e)).

(** A directory and a file that are there before RECORD is written *)
Definition ex_before : vfs :=
  [($"lib/foo", mem_dir $"lib/foo" 493 None); ($"lib/foo-1.dist-info/WHEEL", mem_reg $"lib/foo-1.dist-info/WHEEL" 420 None $"text")].
