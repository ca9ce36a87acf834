(** pkg/squash/vfs_fs.go: the loaded tree as an io/fs.FS. *)
From Coq Require Import String Ascii List Bool ZArith.
From Verif.Model Require Import GoStr GoPath Tar Squash.
Import ListNotations.

(** io/fs.ValidPath (standard library); [utf8] is utf8.ValidString *)
Definition valid_path (utf8 : str -> bool) (name : str) : bool :=
  utf8 name &&
  (str_eqb name dot ||
   forallb (fun c => negb (str_eqb c [] || str_eqb c dot || str_eqb c dotdot)) (split_on slash name)).

(** vfs_fs.go:31-57 Open: the nodes [lnk] and [tgt]. *)
Definition open (utf8 : str -> bool) (n : nat) (t : tree) (name : str) : run (pos * pos) :=
  if negb (valid_path utf8 name) then Fail EInvalid
  else bind (fs_get n t [] name false false) (fun '(t, lnk) =>
       bind (get n t lnk dot false true) (fun '(_, tgt) => Ret (lnk, tgt))).

(** vfs_fs.go:73-84 Stat; the result is the header behind the FileInfo.  [lnk.header.Name]
    panics if that header is nil. *)
Inductive stat_result : Type := StatErr (e : err) | StatOk (h : header) | StatPanic.
Definition stat (t : tree) (lnk tgt : pos) : stat_result :=
  match header_at t tgt with
  | None => StatErr EMissing
  | Some h => match header_at t lnk with
              | None => StatPanic
              | Some l => StatOk (with_name h (th_name l))
              end
  end.

(** headerFileInfo.Name of archive/tar (standard library) *)
Definition fi_name (h : header) : str :=
  if byte_eqb (th_type h) TypeDir then path_base (clean (th_name h)) else path_base (th_name h).
(** vfs_fs.go:129-162 a directory entry: the name, and the header unless it is
    a missingDirEntry.  [dirEntry.tgt] is never used. *)
Definition dirent : Type := (str * option header)%type.
(** vfs_fs.go:175-203 the loop over the children in map order.  On an error the
    entries appended so far stay in f.dirents. *)
Fixpoint build (n : nat) (t : tree) (d : pos) (keys : list str) (acc : list dirent) : run (list dirent * option err) :=
  match keys with
  | [] => Ret (acc, None)
  | k :: keys' =>
      if has_prefix wh_prefix k then build n t d keys' acc
      else
        match get n t (d ++ [k]) dot false true with
        | OutOfFuel => OutOfFuel
        | Fail e => Ret (acc, Some e)
        | Ret _ =>
            let e := match header_at t (d ++ [k]) with Some h => (fi_name h, Some h) | None => (k, None) end in
            build n t d keys' (acc ++ [e])
        end
  end.
Definition keys_at (t : tree) (d : pos) : list str :=
  match subtree t d with Some s => map fst (t_children s) | None => [] end.

(** vfs_fs.go:59-70 an open file.  Of the static part only the header and the
    body of [tgt] and the outcome of the loop :175-203 matter. *)
Record handle : Type := mkHandle {
  hd_header : option header;
  hd_body : str;
  hd_built : list dirent * option err
}.
Record rstate : Type := mkState { r_pos : nat; r_closed : bool; r_dirents : option (list dirent) }.
Definition just_opened : rstate := mkState 0 false None.
Inductive call : Type := CRead (size : nat) | CClose | CReadDir (n : Z).
Inductive result : Type := RData (chunk : str) | REntries (l : list dirent) | ROk | RErr (e : err).

Section calls.
  Context (sort : (dirent -> dirent -> bool) -> list dirent -> list dirent) (f : handle).
  (** vfs_fs.go:97-102, 166-168 what is checked before the lock is taken *)
  Definition before_lock (c : call) : option result :=
    match c with
    | CRead _ =>
        match hd_header f with
        | None => Some (RErr EIsDir)
        | Some h =>
            if byte_eqb (th_type h) TypeDir then Some (RErr EIsDir)
            else if (Z.of_nat (length (hd_body f)) <? th_size h)%Z then Some (RErr EMissing)
            else None
        end
    | CClose => None
    | CReadDir _ => if non_dir (hd_header f) then Some (RErr ENotDir) else None
    end.
  (** vfs_fs.go:208-224 the page at the current position *)
  Definition page (s : rstate) (entries : list dirent) (n : Z) : rstate * result :=
    let pos := if (length entries <? r_pos s)%nat then length entries else r_pos s in
    let ret := skipn pos entries in
    if (0 <? n)%Z then
      let ret := if (n <? Z.of_nat (length ret))%Z then firstn (Z.to_nat n) ret else ret in
      match ret with
      | [] => (mkState pos (r_closed s) (r_dirents s), RErr EEOF)
      | _ => (mkState (pos + length ret) (r_closed s) (r_dirents s), REntries ret)
      end
    else (mkState (pos + length ret) (r_closed s) (r_dirents s), REntries ret).
  (** vfs_fs.go:104-115 Read, :119-127 Close, :169-225 ReadDir, with the lock held *)
  Definition in_lock (s : rstate) (c : call) : rstate * result :=
    match c with
    | CRead size =>
        if r_closed s then (s, RErr EClosed)
        else if (r_pos s =? length (hd_body f))%nat then (s, RErr EEOF)
        else
          let chunk := firstn size (skipn (r_pos s) (hd_body f)) in
          (mkState (r_pos s + length chunk) (r_closed s) (r_dirents s), RData chunk)
    | CClose =>
        if r_closed s then (s, RErr EClosed) else (mkState (r_pos s) true (r_dirents s), ROk)
    | CReadDir n =>
        if r_closed s then (s, RErr EClosed)
        else
          match r_dirents s with
          | Some entries => page s entries n
          | None =>
              match hd_built f with
              | (acc, Some e) => (mkState (r_pos s) (r_closed s) (Some acc), RErr e)
              | (acc, None) =>
                  let entries := sort (fun i j => str_ltb (fst i) (fst j)) acc in
                  page (mkState (r_pos s) (r_closed s) (Some entries)) entries n
              end
          end
    end.

  (** Goroutines that share the open file.  A call checks, takes the mutex,
      loads the state, stores the new one and releases the mutex in separate
      steps.  Calls are logged when they return. *)
  Inductive progress : Type :=
  | Idle
  | Waiting (c : call)
  | Locked (c : call)
  | Loaded (c : call) (s : rstate)
  | Stored (c : call) (r : result).
  Record config : Type := mkConfig {
    c_threads : nat -> progress * list call;
    c_lock : option nat;
    c_state : rstate;
    c_log : list (nat * call * result)
  }.
  Definition set_thread (th : nat -> progress * list call) (i : nat) (x : progress * list call) : nat -> progress * list call :=
    fun j => if Nat.eqb j i then x else th j.
  Inductive step : config -> config -> Prop :=
  | step_fail th l s log i c rest r : th i = (Idle, c :: rest) -> before_lock c = Some r ->
      step (mkConfig th l s log) (mkConfig (set_thread th i (Idle, rest)) l s (log ++ [(i, c, r)]))
  | step_call th l s log i c rest : th i = (Idle, c :: rest) -> before_lock c = None ->
      step (mkConfig th l s log) (mkConfig (set_thread th i (Waiting c, rest)) l s log)
  | step_lock th s log i c rest : th i = (Waiting c, rest) ->
      step (mkConfig th None s log) (mkConfig (set_thread th i (Locked c, rest)) (Some i) s log)
  | step_load th l s log i c rest : th i = (Locked c, rest) ->
      step (mkConfig th l s log) (mkConfig (set_thread th i (Loaded c s, rest)) l s log)
  | step_store th l s log i c rest s' : th i = (Loaded c s', rest) ->
      step (mkConfig th l s log) (mkConfig (set_thread th i (Stored c (snd (in_lock s' c)), rest)) l (fst (in_lock s' c)) log)
  | step_unlock th l s log i c rest r : th i = (Stored c r, rest) ->
      step (mkConfig th l s log) (mkConfig (set_thread th i (Idle, rest)) None s (log ++ [(i, c, r)])).
  (** The goroutines run the given calls on a file just opened. *)
  Inductive reachable (programs : nat -> list call) : config -> Prop :=
  | reach_start : reachable programs (mkConfig (fun i => (Idle, programs i)) None just_opened [])
  | reach_step c c' : reachable programs c -> step c c' -> reachable programs c'.
End calls.

(** The handle behind Open. *)
Definition handle_at (n : nat) (order : list str -> list str) (t : tree) (tgt : pos) : run handle :=
  bind (build n t tgt (order (keys_at t tgt)) []) (fun b =>
  Ret (mkHandle (header_at t tgt) (match subtree t tgt with Some s => t_body s | None => [] end) b)).
(** Open and what later calls on the result depend on. *)
Definition open_file (utf8 : str -> bool) (n : nat) (order : list str -> list str) (t : tree) (name : str) : run handle :=
  bind (open utf8 n t name) (fun '(_, tgt) => handle_at n order t tgt).
