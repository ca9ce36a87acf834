(** pkg/testutil/diff.go: comparing layers in tests. *)
From Coq Require Import String Ascii List Bool ZArith.
From Verif.Model Require Import GoStr Tar.
Import ListNotations.

(** A layer as the helpers read it: the errors of Uncompressed and of Close; the entries of the tar
    stream, each with its content or the error of reading it; io.EOF ([None]) or an error after them;
    the bytes after the archive, or the error of reading them. *)
Definition content : Type := (str + nat)%type.
Record stream : Type := mkStream {
  st_open : option nat; st_items : list (header * content); st_end : option nat; st_tail : content; st_close : option nat }.
(** diff.go:21-27, 81-87 maybeSetErr, with the result of the deferred Close *)
Definition closing (r : str + nat) (close : option nat) : str + nat :=
  match r, close with inl _, Some e => inr e | _, _ => r end.
(** The loops :46-68 and :104-131: the entries, or the first error *)
Fixpoint read_items (l : list (header * content)) (stop : option nat) : list (header * str) + nat :=
  match l with
  | [] => match stop with Some e => inr e | None => inl [] end
  | (h, inl b) :: l => match read_items l stop with inl es => inl ((h, b) :: es) | inr e => inr e end
  | (_, inr e) :: _ => inr e
  end.
Section dumps.
  (** The texts: [full] with spew, [listing] with the table of modes, owners, sizes and names.  Writing
      to a strings.Builder does not fail. *)
  Context (full : list (header * str) -> str -> str) (listing : list header -> str).
  (** diff.go:20-78 DumpLayerFull *)
  Definition dump_full (l : stream) : str + nat :=
    match st_open l with
    | Some e => inr e
    | None =>
        closing (match read_items (st_items l) (st_end l) with
                 | inr e => inr e
                 | inl es => match st_tail l with inr e => inr e | inl t => inl (full es t) end
                 end) (st_close l)
    end.
  (** diff.go:80-141 DumpLayerListing *)
  Definition dump_listing (l : stream) : str + nat :=
    match st_open l with
    | Some e => inr e
    | None =>
        closing (match read_items (st_items l) (st_end l) with
                 | inr e => inr e
                 | inl es => inl (listing (map fst es))
                 end) (st_close l)
    end.
  (** What is reported with t.Errorf *)
  Inductive report : Type := NotSaved | NotDumped (e : nat) | ListingsDiffer | ContentsDiffer.
  (** diff.go:188-203: exactly one line is changed.  [d] is the text of the diff. *)
  Definition one_line (d : str) : bool :=
    let lines := split_on "010" d in
    (3 <? length lines)%nat &&
    ((length (filter (has_prefix $"-") (skipn 3 lines)) =? 1)%nat &&
     (length (filter (fun l => negb (has_prefix $"-" l) && has_prefix $"+" l) (skipn 3 lines)) =? 1)%nat).
  (** diff.go:160-231 AssertEqualLayers: the result and the reports.  [saved] are the reports of
      writeLayerToFile if the environment asks for it, [diff] is difflib.  The texts of the reports
      are not modelled. *)
  Definition assert_equal (saved : list report) (diff : str -> str -> str) (expected actual : stream) : bool * list report :=
    match dump_listing expected with
    | inr e => (false, saved ++ [NotDumped e])
    | inl exp_str =>
        match dump_listing actual with
        | inr e => (false, saved ++ [NotDumped e])
        | inl act_str =>
            let '(go_on, reports) :=
              if str_eqb exp_str act_str then (true, saved) else (one_line (diff exp_str act_str), saved ++ [ListingsDiffer]) in
            if negb go_on then (false, reports)
            else
              match dump_full expected with
              | inr e => (false, reports ++ [NotDumped e])
              | inl exp_str =>
                  match dump_full actual with
                  | inr e => (false, reports ++ [NotDumped e])
                  | inl act_str => if str_eqb exp_str act_str then (true, reports) else (false, reports ++ [ContentsDiffer])
                  end
              end
        end
    end.
End dumps.
