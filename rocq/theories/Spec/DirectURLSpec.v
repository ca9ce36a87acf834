(** JSON text in the style of Python's json.dumps, and what its strings mean. *)
From Coq Require Import String Ascii List Bool NArith ZArith.
From Verif.Model Require Import GoStr DirectURL.
Import ListNotations.

(** Separators ", " and ": " *)
Fixpoint py_dumps (v : json) : str :=
  match v with
  | JAtom t => t
  | JArr l => $"[" ++ join $", " (map py_dumps l) ++ $"]"
  | JObj l => $"{" ++ join $", " (map (fun kv => fst kv ++ $": " ++ py_dumps (snd kv)) l) ++ $"}"
  end.
(** Arrays have no arrays or objects in them *)
Definition is_atom (v : json) : bool := match v with JAtom _ => true | _ => false end.
Fixpoint flat_arrays (v : json) : bool :=
  match v with
  | JAtom _ => true
  | JArr l => forallb is_atom l
  | JObj l => forallb (fun kv => flat_arrays (snd kv)) l
  end.

(** The string that a JSON string literal stands for (RFC 8259, section 7), for literals without
    escapes of characters from 128 on. *)
Definition unhex (c : ascii) : option N :=
  let n := N_of_ascii c in
  if (48 <=? n)%N && (n <=? 57)%N then Some (n - 48)%N
  else if (97 <=? n)%N && (n <=? 102)%N then Some (n - 87)%N
  else if (65 <=? n)%N && (n <=? 70)%N then Some (n - 55)%N
  else None.
Definition simple_escapes : list (ascii * ascii) :=
  [("""", """"); ("\", "\"); ("/", "/"); ("b", "008"); ("f", "012"); ("n", "010"); ("r", "013"); ("t", "009")]%char.
Fixpoint unescape (s : str) : option str :=
  match s with
  | [] => None
  | [c] => if byte_eqb c """" then Some [] else None
  | "\"%char :: "u"%char :: a :: b :: c :: d :: s =>
      match unhex a, unhex b, unhex c, unhex d with
      | Some 0%N, Some 0%N, Some x, Some y =>
          if (x <? 8)%N then option_map (cons (ascii_of_N (16 * x + y))) (unescape s) else None
      | _, _, _, _ => None
      end
  | "\"%char :: c :: s =>
      match find (fun e => byte_eqb (fst e) c) simple_escapes with
      | Some (_, x) => option_map (cons x) (unescape s)
      | None => None
      end
  | c :: s => if byte_eqb c """" || (N_of_ascii c <? 32)%N then None else option_map (cons c) (unescape s)
  end.
Definition string_value (literal : str) : option str :=
  match literal with
  | """"%char :: s => unescape s
  | _ => None
  end.

(** The members of direct_url.json (PEP 610), in the order of their names *)
Definition lit (s : string) : str := $"""" ++ list_ascii_of_string s ++ $"""".
Definition obj (members : list (string * str)) : str :=
  $"{" ++ join $", " (map (fun m => lit (fst m) ++ $": " ++ snd m) members) ++ $"}".
Definition url_json (str_lit : str -> str) (u : direct_url) : str :=
  let given key s := match s with [] => [] | _ => [(key, str_lit s)] end in
  obj (match du_archive u with Some hash => [("archive_info"%string, obj (given "hash"%string hash))] | None => [] end ++
       match du_dir u with
       | Some true => [("dir_info"%string, $"{""editable"": true}")]
       | Some false => [("dir_info"%string, $"{}")]
       | None => []
       end ++
       [("url"%string, str_lit (du_url u))] ++
       match du_vcs u with
       | Some v => [("vcs_info"%string, obj ([("commit_id"%string, str_lit (vcs_commit v))] ++
                      given "requested_revision"%string (vcs_requested v) ++ [("vcs"%string, str_lit (vcs v))]))]
       | None => []
       end).
