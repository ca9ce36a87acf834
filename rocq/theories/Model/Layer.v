(** pkg/fsutil/fileref.go and diff.go: writing a layer from file references,
    comparing layers. *)
From Coq Require Import String Ascii List Bool ZArith.
From Verif.Model Require Import GoStr GoPath Tar.
Import ListNotations.
Open Scope Z_scope.

(** ** Times *)
(** time.Time.After (standard library); the zero time is before all others *)
Definition time_after (a b : option Z) : bool :=
  match a, b with
  | None, _ => false
  | Some _, None => true
  | Some x, Some y => y <? x
  end.
(** fileref.go:60-68, dir.go:116-124 *)
Definition clamp (c t : option Z) : option Z := if time_after t c then c else t.
Definition with_times (h : header) (m a c : option Z) : header :=
  mkHeader (th_type h) (th_name h) (th_link h) (th_size h) (th_mode h) (th_uid h) (th_gid h) (th_uname h)
           (th_gname h) m a c (th_devmajor h) (th_devminor h) (th_xattrs h) (th_format h).
Definition clamp_header (c : option Z) (h : header) : header :=
  with_times h (clamp c (th_mtime h)) (clamp c (th_atime h)) (clamp c (th_ctime h)).
(** time.Time.Round(time.Second) (standard library): halves are rounded up *)
Definition round_second (x : Z) : Z := (x + 500000000) / 1000000000 * 1000000000.
(** What archive/tar Writer.WriteHeader records (standard library): unless a
    format is chosen, the modification time is rounded to seconds and the other
    times are dropped.  (The zero time is then encoded as the epoch.) *)
Definition tar_written (h : header) : header :=
  if th_format h =? 0 then with_times h (option_map round_second (th_mtime h)) None None else h.

(** ** Writing *)
(** Errors, by the call that reports them. *)
Inductive lerr : Type := LInfo | LHeader | LOpen | LRead | LClose | LTooLong | LShort | LLink | LWalk.
Inductive layer_result : Type := LayerOk (l : list entry) | LayerErr (e : lerr) | LayerFuel.
(** Opening and reading a file to its end *)
Inductive content : Type := OpenErr | ReadErr | Bytes (s : str) (close_ok : bool).
(** fileref.go:16-24 a FileReference: its FullName, tar.FileInfoHeader of it, and
    what Open gives *)
Record fileref : Type := mkRef { fr_name : str; fr_header : option header; fr_content : content }.

(** fileref.go:34-48 the comparison of parts, with missing parts read as "" *)
Fixpoint parts_less_nil (ys : list str) : bool :=
  match ys with
  | [] => false
  | y :: ys' => if str_eqb [] y then parts_less_nil ys' else str_ltb [] y
  end.
Fixpoint parts_less (xs ys : list str) : bool :=
  match xs with
  | [] => parts_less_nil ys
  | x :: xs' =>
      let y := match ys with [] => [] | y :: _ => y end in
      if str_eqb x y then parts_less xs' (tl ys) else str_ltb x y
  end.
Definition ref_less (i j : fileref) : bool := parts_less (split_on slash (fr_name i)) (split_on slash (fr_name j)).

Section write.
  (** Whether tar.Writer accepts the header. *)
  Context (encodable : header -> bool).
  (** fileref.go:69-84, dir.go:125-154: one header and, for a regular file, its
      content.  Simplified: tar.Writer reports missing bytes at the next
      WriteHeader or Close, not at once. *)
  Definition write_entry (h : header) (c : content) : entry + lerr :=
    if negb (encodable h) then inr LHeader
    else if byte_eqb (th_type h) TypeReg then
      match c with
      | OpenErr => inr LOpen
      | ReadErr => inr LRead
      | Bytes s close_ok =>
          if th_size h <? Z.of_nat (length s) then inr LTooLong
          else if negb close_ok then inr LClose
          else if Z.of_nat (length s) <? th_size h then inr LShort
          else inl (tar_written h, s)
      end
    else inl (tar_written h, []).
  (** fileref.go:54-85 *)
  Definition write_ref (clamp_time : option Z) (r : fileref) : entry + lerr :=
    match fr_header r with
    | None => inr LInfo
    | Some h => write_entry (clamp_header clamp_time (with_name h (fr_name r))) (fr_content r)
    end.
  Fixpoint write_refs (clamp_time : option Z) (l : list fileref) : layer_result :=
    match l with
    | [] => LayerOk []
    | r :: l' =>
        match write_ref clamp_time r with
        | inr e => LayerErr e
        | inl x =>
            match write_refs clamp_time l' with
            | LayerOk out => LayerOk (x :: out)
            | bad => bad
            end
        end
    end.
  (** fileref.go:26-95 LayerFromFileReferences; [sort] is sort.Slice.  The result
      is the list of entries; building the ociv1.Layer from the bytes is not
      modelled. *)
  Definition layer_from_refs (sort : (fileref -> fileref -> bool) -> list fileref -> list fileref)
      (vfs : list fileref) (clamp_time : option Z) : layer_result :=
    write_refs clamp_time (sort ref_less vfs).
End write.

(** ** Comparing *)
(** An io.Reader: the chunks that successive reads return, the bytes that come
    with the final error, and that error: [None] is io.EOF.  A read with a
    smaller buffer than the chunk leaves the rest for the next one. *)
Record reader : Type := mkReader { rd_chunks : list str; rd_last : str; rd_err : option nat }.
(** What io.ReadFull reports: [Short] stands for io.EOF and io.ErrUnexpectedEOF. *)
Inductive full : Type := Full | Short | Bad (e : nat).
(** io.ReadFull (standard library) with a buffer of [k] bytes *)
Fixpoint read_full (k : nat) (chunks : list str) (last : str) (err : option nat) : str * full * reader :=
  match k with
  | O => ([], Full, mkReader chunks last err)
  | _ =>
      match chunks with
      | c :: cs =>
          if (length c <=? k)%nat then
            let '(s, o, r) := read_full (k - length c) cs last err in (c ++ s, o, r)
          else (firstn k c, Full, mkReader (skipn k c :: cs) last err)
      | [] =>
          if (k <=? length last)%nat then (firstn k last, Full, mkReader [] (skipn k last) err)
          else (last, match err with None => Short | Some e => Bad e end, mkReader [] [] err)
      end
  end.
Definition fill (k : nat) (r : reader) : str * full * reader := read_full k (rd_chunks r) (rd_last r) (rd_err r).
Definition chunk_size : nat := 1024.
Inductive comparison_result : Type := Same | Differ | CmpErr (e : nat) | CmpFuel.
(** diff.go:13-36 readersEqual; each turn of the loop takes one unit of fuel *)
Fixpoint readers_equal (n : nat) (a b : reader) : comparison_result :=
  match n with
  | O => CmpFuel
  | S n =>
      let '(x, ox, a') := fill chunk_size a in
      match ox with
      | Bad e => CmpErr e
      | _ =>
          let '(y, oy, b') := fill chunk_size b in
          match oy with
          | Bad e => CmpErr e
          | _ =>
              if negb (str_eqb x y) then Differ
              else if (length x <? chunk_size)%nat then Same
              else readers_equal n a' b'
          end
      end
  end.
Definition header_eq_dec (a b : header) : {a = b} + {a <> b}.
Proof. repeat decide equality. Defined.
(** diff.go:38-44 headersEqualExceptTimestamps; PAXRecords are compared as maps *)
Definition headers_equal (a b : header) : bool :=
  if header_eq_dec a (with_times b (th_mtime a) (th_atime a) (th_ctime b)) then true else false.
(** The uncompressed tar stream of a layer: its entries, with io.EOF or an error
    after them.  [s_open] and [s_close] are the errors of Uncompressed and Close. *)
Record source : Type := mkSource {
  s_open : option nat;
  s_items : list (header * reader);
  s_end : option nat;
  s_close : option nat
}.
(** diff.go:72-99 *)
Fixpoint items_equal (n : nat) (a : list (header * reader)) (ae : option nat) (b : list (header * reader)) (be : option nat) : comparison_result :=
  match a, ae with
  | [], Some e => CmpErr e
  | _, _ =>
      match b, be with
      | [], Some e => CmpErr e
      | _, _ =>
          match a, b with
          | [], [] => Same
          | (h, r) :: a', (h', r') :: b' =>
              if negb (headers_equal h h') then Differ
              else match readers_equal n r r' with
                   | Same => items_equal n a' ae b' be
                   | other => other
                   end
          | _, _ => Differ
          end
      end
  end.
(** diff.go:46-102 LayersEqualExceptTimestamps, with the deferred Close calls *)
Definition maybe_set_err (r : comparison_result) (close : option nat) : comparison_result :=
  match r, close with
  | Same, Some e | Differ, Some e => CmpErr e
  | _, _ => r
  end.
Definition layers_equal (n : nat) (a b : source) : comparison_result :=
  match s_open a with
  | Some e => CmpErr e
  | None =>
      maybe_set_err
        (match s_open b with
         | Some e => CmpErr e
         | None => maybe_set_err (items_equal n (s_items a) (s_end a) (s_items b) (s_end b)) (s_close b)
         end) (s_close a)
  end.
