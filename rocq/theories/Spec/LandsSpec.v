(** Where the files of any wheel are installed, whatever their names. *)
From Coq Require Import String Ascii List Bool NArith ZArith.
From Verif.Model Require Import GoStr GoPath Tar Stat Layer ConfigParser Platform WheelFile Wheel.
From Verif.Spec Require Import LayerSpec WheelSpec.
Import ListNotations.

(** What the archive calls [n] is first below [root]; what is then in a subdirectory of
    [data] goes to the directory of the scheme that the subdirectory names, and so on.
    With the last such subdirectory. *)
Inductive lands (s : scheme) (root data n : str) : option str -> str -> Prop :=
| unpacked : lands s root data n None (path_join [root; n])
| moved key0 key rest dir : lands s root data n key0 (data ++ $"/" ++ key ++ rest) -> ~ In slash key ->
    (rest = [] \/ exists x, rest = slash :: x) ->
    get_key key (key_dirs s) = Some dir -> lands s root data n (Some key) (path_join [dir; skipn 1 rest]).
(** [e] is the regular file that [f] becomes if its last subdirectory of the data directory is [key]. *)
Definition file_from (pl : platform) (key : option str) (f : zfile) (e : entry) : Prop :=
  exists text, zf_content f = Bytes text true /\ entry_is_dir f = false /\
    snd e = (if is_script key then shebang_line (pl_console pl) (pl_graphical pl) text else text) /\
    th_size (fst e) = Z.of_nat (length (snd e)) /\
    th_mode (fst e) = (if marked_executable f || (is_script key && has_prefix $"#!python" text) then 493%Z else 420%Z).
(** [info] is the only top-level directory with metadata. *)
Definition metadata_of (wh : list zfile) (info : str) : Prop :=
  has_suffix $".dist-info" info = true /\
  (exists f, In f wh /\ hd [] (split_on slash (clean (z_name (zf_header f)))) = info) /\
  forall f, In f wh -> has_suffix $".dist-info" (hd [] (split_on slash (clean (z_name (zf_header f))))) = true ->
    hd [] (split_on slash (clean (z_name (zf_header f)))) = info.
(** These are not installed. *)
Definition omitted (root info : str) : list str :=
  map (fun p => path_join (root :: p)) [[info; $"RECORD"]; [info; $"RECORD.jws"]; [info; $"RECORD.p7s"]; [data_name info]].
(** The compiler makes [outs], given at the time [t] only Python files of the archive, as they are installed. *)
Definition compiles_any (o : outside) (pl : platform) (t : option Z) (wh : list zfile) (root info : str) (outs : list vref) : Prop :=
  exists refs, o_compile o t refs = Some outs /\
  Forall (fun r => has_suffix $".py" (path_base (ref_full r)) = true /\
    exists f key name, In f wh /\ lands (pl_scheme pl) root (path_join [root; data_name info]) (z_name (zf_header f)) key name /\
    ref_full r = clean name /\ ~ In name (omitted root info) /\
    forall text ok, zf_content f = Bytes text ok ->
      ref_content r = Bytes (if is_script key then shebang_line (pl_console pl) (pl_graphical pl) text else text) ok) refs.
(** [e] was made by the compiler or by the hook. *)
Definition tools_made (o : outside) (pl : platform) (min t : option Z) (wh : list zfile) (root info : str) (e : entry) : Prop :=
  (exists outs r, compiles_any o pl t wh root info outs /\ In r outs /\ entry_of_ref r e) \/
  (exists fs fs' k r, hooks o pl min t wh fs fs' /\ In (k, r) fs' /\ ~ In (k, r) fs /\ entry_of_ref r e).
