(** Go package [path] (slash-separated paths) and [path/filepath.Rel] on UNIX,
    modelled from the documented rules at component level. *)
From Coq Require Import String Ascii List Bool.
From Verif.Model Require Import GoStr.
Import ListNotations.

Definition slash : ascii := "/"%char.
Definition dot : str := $".".
Definition dotdot : str := $"..".

Definition is_abs (p : str) : bool := has_prefix $"/" p.

(** One step of the documented algorithm of path.Clean on a component:
    [stack] is the reversed list of components kept so far. *)
Definition clean_step (rooted : bool) (stack : list str) (c : str) : list str :=
  if str_eqb c [] then stack
  else if str_eqb c dot then stack
  else if str_eqb c dotdot then
    match stack with
    | top :: rest => if str_eqb top dotdot then dotdot :: stack else rest
    | [] => if rooted then [] else [dotdot]
    end
  else c :: stack.
(** Components of the cleaned path (without the leading slash). *)
Definition clean_comps (p : str) : list str :=
  rev (fold_left (clean_step (is_abs p)) (split_on slash p) []).

(** path.Clean *)
Definition clean (p : str) : str :=
  let body := join $"/" (clean_comps p) in
  if is_abs p then slash :: body
  else match body with [] => dot | _ => body end.

(** path.Join: empty elements are ignored, the result is cleaned; joining
    nothing gives the empty string. *)
Definition path_join (l : list str) : str :=
  match filter (fun s => negb (str_eqb s [])) l with
  | [] => []
  | l' => clean (join $"/" l')
  end.

(** Index just after the last slash; path.Split. *)
Fixpoint last_slash (s : str) : option (str * str) :=
  match s with
  | [] => None
  | c :: s' =>
      match last_slash s' with
      | Some (a, b) => Some (c :: a, b)
      | None => if byte_eqb c slash then Some ([c], s') else None
      end
  end.
(** path.Split: directory part with trailing slash, and file part *)
Definition path_split (p : str) : str * str :=
  match last_slash p with Some r => r | None => ([], p) end.
(** path.Dir *)
Definition path_dir (p : str) : str := clean (fst (path_split p)).
(** path.Base *)
Fixpoint strip_trailing_slashes (r : str) : str :=
  match r with
  | c :: r' => if byte_eqb c slash then strip_trailing_slashes r' else r
  | [] => []
  end.
Definition path_base (p : str) : str :=
  match p with
  | [] => dot
  | _ =>
      match rev (strip_trailing_slashes (rev p)) with
      | [] => $"/"
      | q => snd (path_split q)
      end
  end.
