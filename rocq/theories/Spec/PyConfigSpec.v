(** Python's configparser: RawConfigParser.read, for texts of ASCII characters.  Written from
    Lib/configparser.py (Python 3.11), with inline_comment_prefixes=None,
    empty_lines_in_values=True and allow_no_value=False. *)
From Coq Require Import String Ascii List Bool Arith NArith.
From Verif.Model Require Import GoStr ConfigParser.
Import ListNotations.

(** str.isspace on characters of ASCII *)
Definition py_space (c : ascii) : bool :=
  let n := N_of_ascii c in ((9 <=? n) && (n <=? 13) || (28 <=? n) && (n <=? 32))%N.
Fixpoint py_lstrip (s : str) : str :=
  match s with
  | [] => []
  | c :: r => if py_space c then py_lstrip r else s
  end.
Definition py_rstrip (s : str) : str := rev (py_lstrip (rev s)).
Definition py_strip (s : str) : str := py_rstrip (py_lstrip s).

(** Iterating over a text file: universal newlines, the ends of lines left out *)
Definition new_line (l : list str) : list str := [] :: l.
Definition in_line (c : ascii) (l : list str) : list str :=
  match l with [] => [[c]] | x :: l => (c :: x) :: l end.
Fixpoint py_lines (s : str) : list str :=
  match s with
  | [] => []
  | c :: r =>
      if Ascii.eqb c "010" then new_line (py_lines r)
      else if Ascii.eqb c "013" then
        match r with
        | d :: r' => if Ascii.eqb d "010" then new_line (py_lines r') else new_line (py_lines r)
        | [] => [[]]
        end
      else in_line c (py_lines r)
  end.

Definition same (a b : str) : bool := if list_eq_dec ascii_dec a b then true else false.
Fixpoint starts (p s : str) : bool :=
  match p, s with
  | [], _ => true
  | c :: p, d :: s => Ascii.eqb c d && starts p s
  | _ :: _, [] => false
  end.

(** dictionaries, in the order of insertion *)
Fixpoint dict_get {V} (k : str) (d : list (str * V)) : option V :=
  match d with
  | [] => None
  | (k', v) :: d => if same k k' then Some v else dict_get k d
  end.
Fixpoint dict_set {V} (k : str) (v : V) (d : list (str * V)) : list (str * V) :=
  match d with
  | [] => [(k, v)]
  | (k', v') :: d => if same k k' then (k', v) :: d else (k', v') :: dict_set k v d
  end.

(** SECTCRE.match: an opening bracket, at least one character, the last closing bracket *)
Fixpoint up_to_bracket (s : str) : option str :=
  match s with
  | [] => None
  | c :: s => match up_to_bracket s with
              | Some h => Some (c :: h)
              | None => if Ascii.eqb c "]" then Some [] else None
              end
  end.
Definition header (value : str) : option str :=
  match value with
  | "["%char :: s => match up_to_bracket s with Some (c :: h) => Some (c :: h) | _ => None end
  | _ => None
  end.
(** OPTCRE.match: up to the first delimiter; of two at the same place the one listed first *)
Fixpoint option_line (delims : list str) (value : str) : option (str * str) :=
  match find (fun d => starts d value) delims with
  | Some d => Some ([], skipn (length d) value)
  | None => match value with
            | [] => None
            | c :: r => match option_line delims r with Some (k, v) => Some (c :: k, v) | None => None end
            end
  end.

(** The variables of _read; [st_bogus] is e.  The dictionary elements_added says which sections and options
    have been read: these are those of [st_sections] and of [st_defaults]. *)
Inductive place := Nowhere | Defaults | Section_ (name : str).
Record state := mkState {
  st_sections : list (str * list (str * list str));
  st_defaults : list (str * list str);
  st_place : place;
  st_option : option str;
  st_indent : nat;
  st_bogus : bool
}.
Definition options (st : state) : list (str * list str) :=
  match st_place st with
  | Nowhere => []
  | Defaults => st_defaults st
  | Section_ n => match dict_get n (st_sections st) with Some o => o | None => [] end
  end.
Definition with_options (o : list (str * list str)) (st : state) : state :=
  match st_place st with
  | Nowhere => st
  | Defaults => mkState (st_sections st) o (st_place st) (st_option st) (st_indent st) (st_bogus st)
  | Section_ n => mkState (dict_set n o (st_sections st)) (st_defaults st) (st_place st) (st_option st) (st_indent st) (st_bogus st)
  end.
(** cursect[optname].append(value) *)
Definition append_line (k value : str) (st : state) : state :=
  with_options (dict_set k (match dict_get k (options st) with Some ls => ls | None => [] end ++ [value]) (options st)) st.
(** cursect is not None and optname *)
Definition current (st : state) : option str :=
  match st_place st, st_option st with
  | Nowhere, _ => None
  | _, Some [] => None
  | _, o => o
  end.
Definition bogus (st : state) : state :=
  mkState (st_sections st) (st_defaults st) (st_place st) (st_option st) (st_indent st) true.

Section Reading.
  Context (delims comments : list str) (strict : bool) (xform : str -> str).

  (** the body of the loop; None: an exception is raised at once *)
  Definition read_line (st : state) (line : str) : option state :=
    let comment := existsb (fun p => starts p (py_strip line)) comments in
    let value := if comment then [] else py_strip line in
    let indent := length line - length (py_lstrip line) in
    match value with
    | [] =>
        match current st with
        | Some k => Some (if comment then st else append_line k [] st)
        | None => Some st
        end
    | _ :: _ =>
        match current st, st_indent st <? indent with
        | Some k, true => Some (append_line k value st)
        | _, _ =>
            let st := mkState (st_sections st) (st_defaults st) (st_place st) (st_option st) indent (st_bogus st) in
            match header value with
            | Some h =>
                if same h $"DEFAULT" then Some (mkState (st_sections st) (st_defaults st) Defaults None indent (st_bogus st))
                else match dict_get h (st_sections st) with
                     | Some _ => if strict then None else Some (mkState (st_sections st) (st_defaults st) (Section_ h) None indent (st_bogus st))
                     | None => Some (mkState (dict_set h [] (st_sections st)) (st_defaults st) (Section_ h) None indent (st_bogus st))
                     end
            | None =>
                match st_place st with
                | Nowhere => None
                | _ =>
                    match option_line delims value with
                    | None => Some (bogus st)
                    | Some (k, v) =>
                        let st := match k with [] => bogus st | _ => st end in
                        let k := xform (py_rstrip k) in
                        match dict_get k (options st), strict with
                        | Some _, true => None
                        | _, _ =>
                            let st := with_options (dict_set k [py_strip v] (options st)) st in
                            Some (mkState (st_sections st) (st_defaults st) (st_place st) (Some k) indent (st_bogus st))
                        end
                    end
                end
            end
        end
    end.
  Fixpoint read_lines (st : state) (lines : list str) : option state :=
    match lines with
    | [] => Some st
    | l :: lines => match read_line st l with Some st => read_lines st lines | None => None end
    end.
  (** _join_multiline_values, and what the sections show: the defaults under their own options *)
  Fixpoint py_join (ls : list str) : str :=
    match ls with [] => [] | [l] => l | l :: ls => l ++ "010"%char :: py_join ls end.
  Definition values (o : list (str * list str)) : list (str * str) :=
    map (fun kv => (fst kv, py_rstrip (py_join (snd kv)))) o.
  Definition py_read (text : str) : option (list (str * list (str * str))) :=
    match read_lines (mkState [] [] Nowhere None 0 false) (py_lines text) with
    | Some st =>
        if st_bogus st then None
        else Some (map (fun s => (fst s, fold_left (fun d kv => dict_set (fst kv) (snd kv) d) (values (snd s)) (values (st_defaults st)))) (st_sections st))
    | None => None
    end.
End Reading.

(** A parser of the repository with the settings above *)
Record plain_parser (p : parser) : Prop := mkPlain {
  pp_inline : p_inline p = [];
  pp_empty : p_empty_lines p = true;
  pp_delims : forall d, In d (p_delims p) -> d <> [];
  pp_comments : forall c, In c (p_comments p) -> c <> [];
  pp_transform : forall k, k <> [] -> p_transform p k <> []
}.
(** ASCII without the four separators that only Python takes for white space *)
Definition usual_byte (c : ascii) : Prop := (N_of_ascii c < 128)%N /\ ~ (28 <= N_of_ascii c <= 31)%N.
(** every carriage return stands before a newline *)
Definition whole_ends (text : str) : Prop :=
  forall a b, text = a ++ "013"%char :: b -> exists b', b = "010"%char :: b'.
(** A line on which the two agree: if it looks like a header to Python it ends with its bracket and is not that of
    the defaults, it is not "[]", and it does not start with a delimiter. *)
Definition agreed_line (delims : list str) (line : str) : Prop :=
  py_strip line <> $"[]" /\
  (forall h, header (py_strip line) = Some h -> py_strip line = $"[" ++ h ++ $"]" /\ h <> $"DEFAULT") /\
  (forall d, In d delims -> starts d (py_strip line) = false).
Definition result {A} (r : cres A) : option A := match r with COk c => Some c | CErr _ => None end.

(** Examples *)
Definition text_of (lines : list str) : str := concat (map (fun l => l ++ ["010"%char]) lines).
Definition ex_ini : str := text_of [$"# scripts"; $"[console_scripts]" ++ ["013"%char]; $"Foo = a.b:c"; $"  [x]"; []; $"bar: d:e"; []; $"[t]"; $"K=1 ; 2"].
Definition ex_bad_ini : str := text_of [$"[a]"; $"k = v"; $"stray"].
