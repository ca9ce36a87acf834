(** pkg/python/py_compile.go: compiling Python files with a program on the host. *)
From Coq Require Import String Ascii List Bool NArith ZArith.
From Verif.Model Require Import GoStr GoPath Tar Stat Layer ConfigParser Platform WheelFile Wheel.
Import ListNotations.

(** *** the file system of the host
    Absolute paths without "." and ".." as lists of components; the first entry for a path counts.
    [NOther]: links, devices and so on, and what reading gives.  Simplified: links are not followed
    when files are written, no permissions, umask 022. *)
Inductive node : Type :=
| NDir
| NFile (mode : N) (mtime : option Z) (text : str)
| NOther (mode : N) (size : Z) (mtime : option Z) (text : option str).
Definition hpath : Type := list str.
Definition hpath_dec : forall p q : hpath, {p = q} + {p <> q} := list_eq_dec (list_eq_dec ascii_dec).
Definition hfs : Type := list (hpath * node).
Fixpoint look (p : hpath) (fs : hfs) : option node :=
  match fs with
  | [] => None
  | (q, n) :: fs => if hpath_dec p q then Some n else look p fs
  end.
Definition put (p : hpath) (n : node) (fs : hfs) : hfs := (p, n) :: fs.
(** [p] is [q] or above it *)
Fixpoint at_or_above (p q : hpath) : bool :=
  match p, q with
  | [], _ => true
  | a :: p, b :: q => str_eqb a b && at_or_above p q
  | _ :: _, [] => false
  end.
(** os.RemoveAll *)
Definition remove_all (p : hpath) (fs : hfs) : hfs := filter (fun e => negb (at_or_above p (fst e))) fs.
(** os.MkdirAll of [above ++ rest] where [above] is there *)
Fixpoint mkdir_all (above rest : hpath) (fs : hfs) : hfs * bool :=
  match rest with
  | [] => (fs, true)
  | c :: rest =>
      let p := above ++ [c] in
      match look p fs with
      | Some NDir => mkdir_all p rest fs
      | None => mkdir_all p rest (put p NDir fs)
      | Some _ => (fs, false)
      end
  end.
(** os.Create: a file that is there keeps its mode *)
Definition create (p : hpath) (fs : hfs) : hfs * bool :=
  match look p fs with
  | None => (put p (NFile 420 None []) fs, true)
  | Some (NFile m _ _) => (put p (NFile m None []) fs, true)
  | _ => (fs, false)
  end.
(** Writing to an open file: what is in the file afterwards *)
Definition filled (p : hpath) (text : str) (fs : hfs) : hfs :=
  match look p fs with
  | Some (NFile m _ _) => put p (NFile m None text) fs
  | _ => fs
  end.
(** os.Chtimes *)
Definition chtimes (p : hpath) (t : option Z) (fs : hfs) : hfs * bool :=
  match look p fs with
  | Some (NFile m _ text) => (put p (NFile m t text) fs, true)
  | _ => (fs, false)
  end.

(** The program that is run *)
Record command : Type := mkCommand { c_exe : str; c_args : list str; c_env : list (str * str) }.
(** os.Getenv: the first value; os/exec: the last value of a variable counts *)
Fixpoint getenv (k : str) (env : list (str * str)) : option str :=
  match env with
  | [] => None
  | (k', v) :: env => if str_eqb k k' then Some v else getenv k env
  end.
Definition child_env (k : str) (env : list (str * str)) : option str := getenv k (rev env).

(** py_compile.go:39-47: ExternalCompiler up to the closure.  [lookpath] is exec.LookPath, [cwd] the
    working directory, cmdline[0] panics for an empty slice. *)
Inductive compiler : Type := Compiler (exe : str) (args : list str) | CompilerErr | CompilerPanic.
Definition external_compiler (lookpath : str -> option str) (cwd : str) (cmdline : list str) : compiler :=
  match cmdline with
  | [] => CompilerPanic
  | name :: args =>
      match lookpath name with
      | None => CompilerErr
      | Some exe => Compiler (if is_abs exe then clean exe else path_join [cwd; exe]) args
      end
  end.

(** py_compile.go:120-142.  A time is in nanoseconds since 1970; [None] is the zero time. *)
Definition python_path_env (tmp : str) (environ : list (str * str)) (python_path : list str) : str :=
  join $":" (map (fun dir => path_join [tmp; dir]) python_path ++
             match getenv $"PYTHONPATH" environ with Some [] | None => [] | Some e => [e] end).
Definition compile_command (exe : str) (args : list str) (tmp : str) (environ : list (str * str)) (clamp_time : option Z) (python_path : list str) : command :=
  mkCommand exe (args ++ [$"-s"; tmp; $"-p"; $"/"; tmp])
    (environ ++ [($"PYTHONHASHSEED", $"0")] ++
     match python_path with [] => [] | _ => [($"PYTHONPATH", python_path_env tmp environ python_path)] end ++
     match clamp_time with None => [] | Some t => [($"SOURCE_DATE_EPOCH", itoa (t / 1000000000))] end).

Section run.
  (** [faults n]: the [n]th system call fails, a write after that many bytes.  [program]: what running
      a command does to the file system, and whether it succeeds.  [order]: the order of the walk. *)
  Context (faults : nat -> option nat) (program : command -> hfs -> hfs * bool) (order : list hpath -> list hpath).

  (** The states of the file system so far, the latest first, and a result or an error *)
  Definition act (A : Type) : Type := list hfs -> list hfs * option A.
  Definition now (st : list hfs) : hfs := hd [] st.
  Definition ret {A} (a : A) : act A := fun st => (st, Some a).
  Definition fail {A} : act A := fun st => (st, None).
  Definition bind {A B} (m : act A) (f : A -> act B) : act B :=
    fun st => match m st with (st, Some a) => f a st | (st, None) => (st, None) end.
  Definition sys (op : hfs -> hfs * bool) : act unit :=
    fun st => match faults (length st) with
              | Some _ => (now st :: st, None)
              | None => let '(fs, ok) := op (now st) in (fs :: st, if ok then Some tt else None)
              end.
  (** io.Copy to a file that has just been created *)
  Definition copy (p : hpath) (text : str) : act unit :=
    fun st => match faults (length st) with
              | Some k => (filled p (firstn k text) (now st) :: st, None)
              | None => (filled p text (now st) :: st, Some tt)
              end.

  (** py_compile.go:71-111 writeFile.  Simplified: a file that cannot be read to its end is empty. *)
  Definition write_file (tmp : str) (r : vref) : act unit :=
    let p := clean_comps (path_join [tmp; ref_full r]) in
    bind (sys (mkdir_all [] (removelast p))) (fun _ =>
    bind (sys (create p)) (fun _ =>
    match ref_content r with
    | OpenErr | ReadErr => fail
    | Bytes text close_ok =>
        bind (copy p text) (fun _ =>
        bind (sys (fun fs => (fs, true))) (fun _ =>
        if close_ok then sys (chtimes p (ref_mtime r)) else fail))
    end)).
  (** py_compile.go:113-117 *)
  Fixpoint write_files (tmp : str) (l : list vref) : act unit :=
    match l with
    | [] => ret tt
    | r :: l => bind (write_file tmp r) (fun _ => write_files tmp l)
    end.

  (** py_compile.go:148-177: the walk.  Simplified: all names are UTF-8. *)
  Definition below_of (dir : hpath) (fs : hfs) : list hpath :=
    filter (at_or_above dir) (nodup hpath_dec (map fst fs)).
  Fixpoint read_back (dir : hpath) (l : list hpath) : act (list vref) :=
    match l with
    | [] => ret []
    | p :: l =>
        fun st =>
        let name := join $"/" (skipn (length dir) p) in
        let file mode size mtime text :=
          bind (sys (fun fs => (fs, true))) (fun _ =>
          match text with
          | None => fail
          | Some text => bind (read_back dir l) (fun refs => ret (MemRef (mkMem name mode size mtime None (Bytes text true)) :: refs))
          end) in
        match look p (now st) with
        | None | Some NDir => read_back dir l st
        | Some (NFile mode mtime text) =>
            if has_suffix $".pyc" name then file mode (Z.of_nat (length text)) mtime (Some text) st else read_back dir l st
        | Some (NOther mode size mtime text) =>
            if has_suffix $".pyc" name then file mode size mtime text st else read_back dir l st
        end
    end.

  (** py_compile.go:48-178: the closure.  [tmp] is the name that os.MkdirTemp finds; [rm_fails]: whether
      os.RemoveAll fails; it removes nothing then. *)
  Definition compile (rm_fails : bool) (tmp exe : str) (args : list str) (environ : list (str * str)) (clamp_time : option Z) (python_path : list str) (l : list vref) : act (list vref) :=
    let dir := clean_comps tmp in
    bind (sys (fun fs => (put dir NDir fs, true))) (fun _ st =>
    let '(st, res) :=
      bind (write_files tmp l) (fun _ =>
      bind (sys (program (compile_command exe args tmp environ clamp_time python_path))) (fun _ st =>
      read_back dir (order (below_of dir (now st))) st)) st in
    if rm_fails then (now st :: st, None) else (remove_all dir (now st) :: st, res)).
End run.

(** *** installing a wheel, with its effects on the host *)
(** [install_vfs] with another compiler *)
Definition with_compiler (o : outside) (c : option Z -> list vref -> option (list vref)) : outside :=
  mkOut (o_csv o) (o_digest o) (o_wheel o) (o_now o) c (o_hook o) (o_encodable o) (o_spread o) (o_parents o) (o_types o) (o_py o) (o_refs o) (o_sort o).
(** binary_distribution_format.go:223-364 installToVFS where the compiler [run] acts on the host: what
    comes before the call (:227-342, which is all of it if the compiler gives no file), the call, and
    the rest (:359-361) *)
Definition install_on_host (o : outside) (pl : platform) (min_time max_t : option Z) (wh : list zfile)
    (run : option Z -> list vref -> act (list vref)) (st : list hfs) : list hfs * ires (vfs * str) :=
  match install_vfs (with_compiler o (fun _ _ => Some [])) pl min_time max_t wh with
  | IOk (fs, info) =>
      match run max_t (filter is_py (map snd (o_py o fs))) st with
      | (st, Some outs) => (st, IOk (fold_left (fun fs r => set_key (ref_full r) r fs) outs fs, info))
      | (st, None) => (st, IErr WCompile)
      end
  | r => (st, r)
  end.
