(** Wheel file names and compatibility tags, written from PEP 425/427. *)
From Coq Require Import String Ascii List Bool ZArith NArith.
From Verif.Model Require Import GoStr Pep440 WheelName.
From Verif.Spec Require Import Pep440Spec.
Import ListNotations.
Open Scope Z_scope.

(** [x] is one of the pieces of [s] between separators [sep]. *)
Definition piece_by (sep : ascii) (x s : str) : Prop :=
  exists before after, s = before ++ x ++ after /\ ~ In sep x /\
    (before = [] \/ exists b, before = b ++ [sep]) /\
    (after = [] \/ exists a, after = sep :: a).
Definition piece (x s : str) : Prop := piece_by "."%char x s.
(** [x] is one of the simple tags that the compressed tag set [t] stands for. *)
Definition expands (t x : tag) : Prop :=
  piece (t_python x) (t_python t) /\ piece (t_abi x) (t_abi t) /\ piece (t_platform x) (t_platform t).
(** The two tag sets have a simple tag in common. *)
Definition overlap (a b : tag) : Prop := exists x, expands a x /\ expands b x.

(** File names: {distribution}-{version}(-{build})?-{python}-{abi}-{platform}.whl;
    the build is a digit string followed by something not starting with a digit. *)
Record fields := mkFields {
  n_dist : str; n_version : str; n_build : option (str * str);
  n_python : str; n_abi : str; n_platform : str
}.
Definition field (s : str) : Prop := s <> [] /\ ~ In "-"%char s.
Definition build_field (b : str * str) : Prop :=
  fst b <> [] /\ forallb is_digit (fst b) = true /\ ~ In "-"%char (snd b) /\
  match snd b with c :: _ => is_digit c = false | [] => True end.
Definition wf_fields (p : fields) : Prop :=
  field (n_dist p) /\ field (n_version p) /\
  (forall b, n_build p = Some b -> build_field b) /\
  field (n_python p) /\ field (n_abi p) /\ field (n_platform p).
Definition render_fields (p : fields) : str :=
  n_dist p ++ $"-" ++ n_version p
  ++ (match n_build p with Some (n, l) => $"-" ++ n ++ l | None => [] end)
  ++ $"-" ++ n_python p ++ $"-" ++ n_abi p ++ $"-" ++ n_platform p ++ $".whl".

(** What the fields mean. *)
Definition fields_data (p : fields) (v : version) : filename_data :=
  {| f_dist := n_dist p; f_version := v;
     f_build := match n_build p with
                | Some (n, l) => Some (mkBuild (Z.min (Z.of_N (dec_val n)) (2 ^ 63 - 1)) l)
                | None => None
                end;
     f_tag := mkTag (n_python p) (n_abi p) (n_platform p) |}.

(** Data that can be written as a file name. *)
Definition wf_build (b : buildtag) : Prop :=
  0 <= b_int b < 2 ^ 63 /\ ~ In "-"%char (b_str b) /\
  match b_str b with c :: _ => is_digit c = false | [] => True end.
Definition wf_tag (t : tag) : Prop :=
  field (t_python t) /\ field (t_abi t) /\ field (t_platform t).
Definition wf_name (d : filename_data) : Prop :=
  f_dist d <> [] /\ canonical (f_version d) /\
  (forall b, f_build d = Some b -> wf_build b) /\ wf_tag (f_tag d).

(** Order of build tags: none first, then by number, then by string. *)
Definition build_compare (a b : option buildtag) : comparison :=
  match a, b with
  | None, None => Eq
  | None, Some _ => Lt
  | Some _, None => Gt
  | Some a, Some b => lex (Z.compare (b_int a) (b_int b)) (str_compare (b_str a) (b_str b))
  end.
Definition nonneg_build (b : option buildtag) : Prop :=
  match b with Some b => 0 <= b_int b < 2 ^ 63 | None => True end.

(** Project names: equal up to case and up to the choice and length of each run
    of '-', '_' and '.'. *)
Definition name_sep (c : ascii) : bool := in_set $"-_." c.
Definition name_start (s : str) : Prop := match s with c :: _ => name_sep c = false | [] => True end.
Inductive same_runs (R : ascii -> ascii -> Prop) : str -> str -> Prop :=
| SRnil : same_runs R [] []
| SRchar a b s t : name_sep a = false -> name_sep b = false -> R a b ->
    same_runs R s t -> same_runs R (a :: s) (b :: t)
| SRrun u w s t : u <> [] -> w <> [] -> forallb name_sep u = true -> forallb name_sep w = true ->
    name_start s -> name_start t ->
    same_runs R s t -> same_runs R (u ++ s) (w ++ t).
Definition same_project : str -> str -> Prop := same_runs (fun a b => lower a = lower b).
(** ... or also with the same case *)
Definition same_dist : str -> str -> Prop := same_runs eq.
