(** pkg/cliutil: word wrapping. *)
From Coq Require Import String Ascii List Bool ZArith.
From Verif.Model Require Import GoStr.
Import ListNotations.

Definition newline : ascii := "010"%char.
(** strings.LastIndexAny and strings.LastIndex for one byte (standard library); [None] is -1 *)
Fixpoint last_index (p : ascii -> bool) (s : str) : option nat :=
  match s with
  | [] => None
  | c :: s => match last_index p s with
              | Some k => Some (S k)
              | None => if p c then Some 0%nat else None
              end
  end.
Definition blank (c : ascii) : bool := byte_eqb c " " || byte_eqb c "009" || byte_eqb c newline.
Definition is_nl (c : ascii) : bool := byte_eqb c newline.
(** strings.Replace(s, "\n", new, -1) *)
Definition replace_nl (new s : str) : str := concat (map (fun c => if is_nl c then new else [c]) s).
Definition spaces (n : nat) : str := repeat " "%char n.
(** "\n"+strings.Repeat(" ", i) *)
Definition new_line (i : nat) : str := newline :: spaces i.

(** borrowed_pflag.go:40-59 wrapN *)
Definition wrap_n (i slop : nat) (s : str) : str * str :=
  if (length s <? i + slop)%nat then (s, [])
  else
    match last_index blank (firstn i s) with
    | None | Some O => (s, [])
    | Some w =>
        match last_index is_nl (firstn i s) with
        | Some (S n as nl_pos) => if (nl_pos <? w)%nat then (firstn nl_pos s, skipn (S nl_pos) s) else (firstn w s, skipn (S w) s)
        | _ => (firstn w s, skipn (S w) s)
        end
    end.
(** borrowed_pflag.go:96-101: the loop; [None]: out of fuel *)
Fixpoint wrap_rest (fuel i width slop : nat) (r s : str) : option str :=
  match s with
  | [] => Some r
  | _ => match fuel with
         | O => None
         | S fuel => let '(t, s) := wrap_n width slop s in
                     wrap_rest fuel i width slop (r ++ new_line i ++ replace_nl (new_line i) t) s
         end
  end.
(** borrowed_pflag.go:61-105 wrap.  [None]: strings.Repeat panics, its count being negative. *)
Definition wrap_at (i w : Z) (s : str) : option str :=
  if (w =? 0)%Z then if (i <? 0)%Z then None else Some (replace_nl (new_line (Z.to_nat i)) s)
  else
    let '(i, width, r) := if (w - i <? 24)%Z then (16%Z, (w - 16)%Z, new_line 16) else (i, (w - i)%Z, []) in
    if (width <? 24)%Z then Some (replace_nl r s)
    else if (i <? 0)%Z then None
    else
      let slop := 5%nat in
      let width := (Z.to_nat width - slop)%nat in
      let i := Z.to_nat i in
      let '(l, s) := wrap_n width slop s in
      wrap_rest (length s) i width slop (r ++ replace_nl (new_line i) l) s.
(** wordwrap.go:3-18 *)
Definition wrap_text (w : Z) (s : str) : option str := wrap_at 0 w s.
Definition wrap_indent (i w : Z) (s : str) : option str := wrap_at i w s.
