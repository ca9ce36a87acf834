(** pkg/python/configparser.go: the INI reader behind entry_points.txt. *)
From Coq Require Import String Ascii List Bool Arith.
From Verif.Model Require Import GoStr UniSpace.
Import ListNotations.

Definition nl : ascii := "010"%char.

(** configparser.go:13-15.  Go maps as association lists in insertion order; the
    order is not observable in Go. *)
Definition section := list (str * str).
Definition config := list (str * section).

(** [m[k]] and [m[k] = v] *)
Fixpoint get_key {V} (k : str) (m : list (str * V)) : option V :=
  match m with
  | [] => None
  | (k', v) :: m => if str_eqb k k' then Some v else get_key k m
  end.
Fixpoint set_key {V} (k : str) (v : V) (m : list (str * V)) : list (str * V) :=
  match m with
  | [] => [(k, v)]
  | (k', v') :: m => if str_eqb k k' then (k', v) :: m else (k', v') :: set_key k v m
  end.

(** configparser.go:17-29.  [Interpolate] is always NoInterpolation
    (configparser.go:41, 170-172), the identity, and is left out. *)
Record parser := mkParser {
  p_delims : list str;
  p_comments : list str;
  p_inline : list str;
  p_strict : bool;
  p_empty_lines : bool;
  p_transform : str -> str
}.

(** configparser.go:31-43 NewConfigParser *)
Definition new_config_parser : parser :=
  mkParser [$"="; $":"] [$"#"; $";"] [] true true to_lower.

(** strings.Index *)
Fixpoint index_of (sub s : str) : option nat :=
  if has_prefix sub s then Some 0
  else match s with
       | [] => None
       | _ :: s => match index_of sub s with Some i => Some (S i) | None => None end
       end.

Inductive cerror :=
| CRead                     (* configparser.go:70 *)
| CDupSection (name : str)  (* :123 *)
| CNoSection                (* :131 *)
| CInvalidLine (v : str)    (* :144 *)
| CDupKey (key : str).      (* :151 *)
Inductive cres (A : Type) := COk (a : A) | CErr (e : cerror).
Arguments COk {A} a.
Arguments CErr {A} e.

(** configparser.go:48-53, the variables of the loop.  [curSection] points into
    [config], so it is kept as the name of the section; [None] is nil. *)
Record cstate := mkC {
  c_cfg : config;
  c_indent : nat;
  c_sect : option str;
  c_key : str;
  c_val : option (list str)
}.

(** configparser.go:55-61 flushKV; writing into a nil section cannot happen, as
    curVal is only set when curSection is (:130-132) *)
Definition flush_kv (st : cstate) : cstate :=
  match c_val st, c_sect st with
  | Some ls, Some n =>
      let v := trim_right (byte_eqb nl) (join [nl] ls) in
      let sec := match get_key n (c_cfg st) with Some s => s | None => [] end in
      mkC (set_key n (set_key (c_key st) v sec) (c_cfg st)) (c_indent st) (c_sect st) [] None
  | _, _ => st
  end.

(** configparser.go:76-82 *)
Definition inline_start (p : parser) (line : str) : nat :=
  fold_left (fun start c =>
    match index_of c line with
    | Some i => if (0 <? i) && (i <? start) then i else start
    | None => start
    end) (p_inline p) (length line).
(** configparser.go:83-88 *)
Definition comment_start (p : parser) (line : str) : nat :=
  if existsb (fun c => has_prefix c (trim_space_u line)) (p_comments p) then 0 else inline_start p line.

(** configparser.go:104-110: the index of the first rune that is no white space, 0 if there is none *)
Definition indent_level (line : str) : nat :=
  match trim_left_u line with
  | [] => 0
  | rest => length line - length rest
  end.

(** configparser.go:133-142: where the delimiter is and how long it is *)
Definition find_sep (p : parser) (value : str) : nat * nat :=
  fold_left (fun (acc : nat * nat) sep =>
    match index_of sep value with
    | Some i => if i <? fst acc then (i, length sep) else acc
    | None => acc
    end) (p_delims p) (length value, 0).

(** configparser.go:74-153: one line, with its newline if it has one *)
Definition parse_line (p : parser) (st : cstate) (line : str) : cres cstate :=
  let start := comment_start p line in
  let value := trim_space_u (firstn start line) in
  match value with
  | [] =>
      COk (if p_empty_lines p
           then match c_val st with
                | Some ls => if start =? length line
                             then mkC (c_cfg st) (c_indent st) (c_sect st) (c_key st) (Some (ls ++ [value]))
                             else st
                | None => st
                end
           else mkC (c_cfg st) 0 (c_sect st) (c_key st) (c_val st))
  | _ :: _ =>
      let lvl := indent_level line in
      match c_val st, (0 <? lvl) && (c_indent st <? lvl) with
      | Some ls, true => COk (mkC (c_cfg st) (c_indent st) (c_sect st) (c_key st) (Some (ls ++ [value])))
      | _, _ =>
          let fl := flush_kv st in
          if has_prefix $"[" value && has_suffix $"]" value then
            let name := trim_suffix $"]" (trim_prefix $"[" value) in
            match get_key name (c_cfg fl) with
            | None => COk (mkC (set_key name [] (c_cfg fl)) lvl (Some name) (c_key fl) (c_val fl))
            | Some _ => if p_strict p then CErr (CDupSection name)
                        else COk (mkC (c_cfg fl) lvl (Some name) (c_key fl) (c_val fl))
            end
          else
            match c_sect fl with
            | None => CErr CNoSection
            | Some n =>
                let '(pos, len) := find_sep p value in
                if pos =? length value then CErr (CInvalidLine value)
                else
                  let key := p_transform p (trim_space_u (firstn pos value)) in
                  let val := trim_space_u (skipn (pos + len) value) in
                  let sec := match get_key n (c_cfg fl) with Some s => s | None => [] end in
                  match get_key key sec, p_strict p with
                  | Some _, true => CErr (CDupKey key)
                  | _, _ => COk (mkC (c_cfg fl) lvl (Some n) key (Some [val]))
                  end
            end
      end
  end.

(** configparser.go:63-74, the pieces ReadString('\n') returns: every line with its
    newline, and what is left at the end of the file, which may be empty. *)
Fixpoint file_lines (pieces : list str) : list str :=
  match pieces with
  | [] => []
  | [l] => [l]
  | l :: rest => (l ++ [nl]) :: file_lines rest
  end.

Fixpoint parse_lines (p : parser) (st : cstate) (lines : list str) : cres cstate :=
  match lines with
  | [] => COk st
  | l :: lines => match parse_line p st l with COk st => parse_lines p st lines | CErr e => CErr e end
  end.

Definition init_state : cstate := mkC [] 0 None [] None.

(** configparser.go:45-168 Parse.  [fails]: reading the file ends in an error and
    not in io.EOF, after [text]. *)
Definition parse_config (p : parser) (text : str) (fails : bool) : cres config :=
  let lines := file_lines (split_on nl text) in
  let lines := if fails then removelast lines else lines in
  match parse_lines p init_state lines with
  | COk st => if fails then CErr CRead else COk (c_cfg (flush_kv st))
  | CErr e => CErr e
  end.
