(** pkg/python/pypa/direct_url *)
From Coq Require Import String Ascii List Bool NArith ZArith.
From Verif.Model Require Import GoStr.
Import ListNotations.

(** ** encoding/json (standard library) *)
(** Values after the round trip: interface{} values, objects with their members in the order
    of the keys.  Atoms are strings, numbers, booleans and null, as json.Marshal writes them. *)
Inductive json :=
| JAtom (text : str)
| JArr (l : list json)
| JObj (l : list (str * json)).
(** json.Token *)
Inductive token := TDelim (c : ascii) | TAtom (text : str).
(** What Decoder.Token gives, in order, on the text of a value; keys are strings *)
Fixpoint tokens (v : json) : list token :=
  match v with
  | JAtom t => [TAtom t]
  | JArr l => TDelim "[" :: flat_map tokens l ++ [TDelim "]"]
  | JObj l => TDelim "{" :: flat_map (fun kv => TAtom (fst kv) :: tokens (snd kv)) l ++ [TDelim "}"]
  end.

(** json.Marshal of a string (standard library, Go 1.17).  Simplified: bytes from 128 on are
    copied, as for valid UTF-8 without U+2028 and U+2029. *)
Definition hex (n : N) : ascii := nth (N.to_nat n) $"0123456789abcdef" "0"%char.
Definition go_quote_byte (c : ascii) : str :=
  let n := N_of_ascii c in
  if byte_eqb c """" || byte_eqb c "\" then ["\"%char; c]
  else if byte_eqb c "010" then $"\n"
  else if byte_eqb c "013" then $"\r"
  else if byte_eqb c "009" then $"\t"
  else if (n <? 32)%N || byte_eqb c "<" || byte_eqb c ">" || byte_eqb c "&" then $"\u00" ++ [hex (n / 16); hex (n mod 16)]
  else [c].
Definition go_quote (s : str) : str := $"""" ++ concat (map go_quote_byte s) ++ $"""".

(** ** json.go:28-84: the loop of jsonDumps.  The head of [stack] is the last element of
    mapStack; the index expressions panic if it is empty. *)
Definition complete (stack : list Z) (out : str) : option (list Z * str) :=
  match stack with
  | [] => None
  | d :: stack =>
      if (d <? 0)%Z then Some ((d - 1)%Z :: stack, out)
      else Some ((d + 1)%Z :: stack, if (d mod 2 =? 1)%Z then out ++ $": " else out)
  end.
Definition dump_token (stack : list Z) (out : str) (t : token) : option (list Z * str) :=
  match t with
  | TDelim c =>
      let r := if byte_eqb c "[" then Some ((-1)%Z :: stack, out)
               else if byte_eqb c "{" then Some (1%Z :: stack, out)
               else if byte_eqb c "}" || byte_eqb c "]" then
                 match stack with [] => None | _ :: stack => complete stack out end
               else Some (stack, out) in
      match r with Some (stack, out) => Some (stack, out ++ [c]) | None => None end
  | TAtom text =>
      match stack with
      | [] => None
      | d :: _ =>
          let out := if (d <? -1)%Z then out ++ $", "
                     else if (1 <? d)%Z && (d mod 2 =? 1)%Z then out ++ $", "
                     else out in
          complete stack (out ++ text)
      end
  end.
Fixpoint dump_tokens (stack : list Z) (out : str) (l : list token) : option (list Z * str) :=
  match l with
  | [] => Some (stack, out)
  | t :: l => match dump_token stack out t with Some (stack, out) => dump_tokens stack out l | None => None end
  end.
(** json.go:11-86 jsonDumps on a value that json.Marshal accepts *)
Definition json_dumps (v : json) : option str := option_map snd (dump_tokens [(-1)%Z] [] (tokens v)).

(** ** direct_url.go:18-37 *)
Record vcs_info := mkVcs { vcs : str; vcs_requested : str; vcs_commit : str }.
Record direct_url := mkUrl {
  du_url : str;
  du_vcs : option vcs_info;
  du_archive : option str;   (* Hash *)
  du_dir : option bool       (* Editable *)
}.
(** The struct tags; members in the order of their names *)
Definition jstring (s : str) : json := JAtom (go_quote s).
Definition member (key : string) (v : json) : str * json := (go_quote (list_ascii_of_string key), v).
(** omitempty *)
Definition optional (key : string) (s : str) : list (str * json) := match s with [] => [] | _ => [member key (jstring s)] end.
Definition url_value (u : direct_url) : json :=
  JObj (match du_archive u with None => [] | Some hash => [member "archive_info" (JObj (optional "hash" hash))] end ++
        match du_dir u with
        | None => []
        | Some editable => [member "dir_info" (JObj (if editable then [member "editable" (JAtom $"true")] else []))]
        end ++
        [member "url" (jstring (du_url u))] ++
        match du_vcs u with
        | None => []
        | Some v => [member "vcs_info" (JObj (member "commit_id" (jstring (vcs_commit v)) ::
                       optional "requested_revision" (vcs_requested v) ++ [member "vcs" (jstring (vcs v))]))]
        end).
(** direct_url.go:45-48.  That the loop does not panic here is proved. *)
Definition url_text (u : direct_url) : str := match json_dumps (url_value u) with Some s => s | None => [] end.
