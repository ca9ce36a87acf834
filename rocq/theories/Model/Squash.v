(** pkg/squash: reading layers into a tree, and writing the tree as one layer. *)
From Coq Require Import String Ascii List Bool ZArith.
From Verif.Model Require Import GoStr GoPath Tar.
Import ListNotations.

(** Errors of pkg/squash; messages and paths are not modelled. *)
Inductive err : Type :=
| EOutside        (* readlayer.go:47 file outside of image root *)
| ENotExist       (* fs.ErrNotExist *)
| ENotDir         (* vfs.go:16 ErrNotDir *)
| ELoop           (* vfs.go:15 ErrLoop *)
| EInvalid        (* fs.ErrInvalid *)
| EClosed         (* fs.ErrClosed *)
| EIsDir          (* vfs_fs.go:26 ErrIsDir *)
| EMissing        (* vfs_fs.go:27 ErrMissing *)
| EEOF.           (* io.EOF *)
(** Result of a function that may fail or need more recursion depth than the
    fuel it was given. *)
Inductive run (A : Type) : Type :=
| Ret (a : A)
| Fail (e : err)
| OutOfFuel.
Arguments Ret {A} a.
Arguments Fail {A} e.
Arguments OutOfFuel {A}.
Definition bind {A B} (r : run A) (k : A -> run B) : run B :=
  match r with Ret a => k a | Fail e => Fail e | OutOfFuel => OutOfFuel end.

(** vfs.go:20-28 type fsfile.  [None] is a nil header.  [children] is the map;
    the order of the association list is not observable ([write_to] takes the
    iteration order as an argument).  A nil map and an empty map are not
    distinguished.  The pointers [parent] and [name] are determined by the
    position of the node in the tree. *)
Inductive tree : Type := Tree (hdr : option header) (body : str) (children : list (str * tree)).
Definition t_hdr (t : tree) : option header := let 'Tree h _ _ := t in h.
Definition t_body (t : tree) : str := let 'Tree _ b _ := t in b.
Definition t_children (t : tree) : list (str * tree) := let 'Tree _ _ c := t in c.
Definition empty_tree : tree := Tree None [] [].

(** Go map operations on the children. *)
Fixpoint child (k : str) (l : list (str * tree)) : option tree :=
  match l with
  | [] => None
  | (k', c) :: l' => if str_eqb k k' then Some c else child k l'
  end.
Definition delete_child (k : str) (l : list (str * tree)) : list (str * tree) :=
  filter (fun p => negb (str_eqb (fst p) k)) l.
Definition keep_child (k : str) (l : list (str * tree)) : list (str * tree) :=
  filter (fun p => str_eqb (fst p) k) l.

(** A pointer to a node is the list of keys that lead to it from the root. *)
Notation pos := (list str).
Fixpoint subtree (t : tree) (p : pos) : option tree :=
  match p with
  | [] => Some t
  | k :: p' => match child k (t_children t) with Some c => subtree c p' | None => None end
  end.
Fixpoint map_child (k : str) (f : tree -> tree) (l : list (str * tree)) : list (str * tree) :=
  match l with
  | [] => []
  | (k', c) :: l' => if str_eqb k k' then (k', f c) :: l' else (k', c) :: map_child k f l'
  end.
(** Assignment through a pointer. *)
Fixpoint update (t : tree) (p : pos) (f : tree -> tree) : tree :=
  match p with
  | [] => f t
  | k :: p' => Tree (t_hdr t) (t_body t) (map_child k (fun c => update c p' f) (t_children t))
  end.
Definition header_at (t : tree) (p : pos) : option header :=
  match subtree t p with Some s => t_hdr s | None => None end.
(** f.parent; the root is its own parent (squash.go:20) *)
Definition parent (p : pos) : pos := removelast p.
(** f.name: "." for the root (squash.go:18), path.Join(parent.name, key) below (vfs.go:112) *)
Definition node_name (p : pos) : str := fold_left (fun n k => path_join [n; k]) p $".".

(** f.header != nil && f.header.Typeflag != tar.TypeDir *)
Definition non_dir (h : option header) : bool :=
  match h with Some h => negb (byte_eqb (th_type h) TypeDir) | None => false end.
(** the target, for a symbolic link *)
Definition link_of (h : option header) : option str :=
  match h with
  | Some h => if byte_eqb (th_type h) TypeSymlink then Some (th_link h) else None
  | None => None
  end.

Definition wh_prefix : str := $".wh.".
Definition opq : str := $".wh..wh..opq".
(** vfs.go:99-102, 180-183 &tar.Header{Typeflag: tar.TypeReg, Mode: 0o644} *)
Definition opq_header : header := plain_header TypeReg 420.

Definition put (h : option header) (b : str) (t : tree) : tree := Tree h b (t_children t).
Definition drop_children (t : tree) : tree := Tree (t_hdr t) (t_body t) [].
Definition with_children (f : list (str * tree) -> list (str * tree)) (t : tree) : tree :=
  Tree (t_hdr t) (t_body t) (f (t_children t)).

(** vfs.go:187-201 the end of Set: a marker removes what it hides, anything
    else removes its marker. *)
Definition settle (t : tree) (f : pos) : tree :=
  let basename := path_base (node_name f) in
  update t (parent f) (with_children
    (if has_prefix wh_prefix basename then
       if str_eqb basename opq then keep_child basename
       else delete_child (trim_prefix wh_prefix basename)
     else delete_child (wh_prefix ++ basename))).
(** vfs.go:155-203 Set with a header that is not a directory *)
Definition set_leaf (t : tree) (f : pos) (h : header) (b : str) : tree :=
  settle (update (update t f (put (Some h) b)) f drop_children) f.

(** vfs.go:63-153 Get and :30-61 fsGet.  [resolve] is the loop :120-142.
    Each takes the fuel for the recursion below it. *)
Fixpoint get (n : nat) (t : tree) (f : pos) (key : str) (create follow : bool) {struct n} : run (tree * pos) :=
  match n with
  | O => OutOfFuel
  | S n =>
      let finish (r : tree * pos) : run (tree * pos) :=
        if follow then resolve n (fst r) (snd r) create [] else Ret r in
      if str_eqb key $".." then finish (t, parent f)
      else if str_eqb key $"." then finish (t, f)
      else
        (* :72-82 a symbolic link to a directory *)
        bind (match link_of (header_at t f) with
              | Some l => fs_get n t (parent f) l create true
              | None => Ret (t, f)
              end) (fun '(t, f) =>
        (* :83-105 a file in the place of a directory *)
        bind (if non_dir (header_at t f) then
                if create then
                  bind (get n (update t f (put None [])) f opq true true) (fun '(t, w) =>
                  Ret (set_leaf t w opq_header []))
                else Fail ENotDir
              else Ret t) (fun t =>
        (* :106-116 look up the child *)
        match subtree t (f ++ [key]) with
        | Some _ => finish (t, f ++ [key])
        | None =>
            if create then finish (update t f (with_children (fun l => l ++ [(key, empty_tree)])), f ++ [key])
            else Fail ENotExist
        end))
  end
with resolve (n : nat) (t : tree) (ret : pos) (create : bool) (stack : list pos) {struct n} : run (tree * pos) :=
  match n with
  | O => OutOfFuel
  | S n =>
      match link_of (header_at t ret) with
      | None => Ret (t, ret)
      | Some l =>
          if existsb (fun q => if list_eq_dec (list_eq_dec ascii_dec) ret q then true else false) stack then Fail ELoop
          else bind (fs_get n t (parent ret) l create false) (fun '(t, target) =>
               resolve n t target create (ret :: stack))
      end
  end
with fs_get (n : nat) (t : tree) (dir : pos) (pathname : str) (create follow : bool) {struct n} : run (tree * pos) :=
  match n with
  | O => OutOfFuel
  | S n =>
      let pathname := clean pathname in
      let '(dir, rest) := if is_abs pathname then ([], skipn 1 pathname) else (dir, pathname) in
      (fix crawl (t : tree) (dir : pos) (comps : list str) : run (tree * pos) :=
         match comps with
         | [] => Ret (t, dir)
         | [c] => get n t dir c create follow
         | c :: comps' => bind (get n t dir c create false) (fun '(t, dir) => crawl t dir comps')
         end) t dir (split_on slash rest)
  end.

(** vfs.go:155-203 Set *)
Definition set (n : nat) (t : tree) (f : pos) (h : header) (b : str) : run tree :=
  if negb (byte_eqb (th_type h) TypeDir) then Ret (set_leaf t f h b)
  else
    let was_file := non_dir (header_at t f) in
    let t := update t f (put (Some h) b) in
    bind (if was_file then
            bind (get n t f opq true true) (fun '(t, w) => Ret (set_leaf t w opq_header []))
          else Ret t) (fun t => Ret (settle t f)).

(** readlayer.go:45-48 *)
Definition outside_root (cleaned : str) : bool :=
  has_prefix $"/" cleaned || has_prefix $"../" cleaned || str_eqb cleaned $"..".
(** readlayer.go:28-74 parseLayer: the markers and the other entries *)
Fixpoint parse_layer (omit_content : bool) (layer : list entry) : run (list entry * list entry) :=
  match layer with
  | [] => Ret ([], [])
  | (h, b) :: rest =>
      let name := clean (th_name h) in
      if outside_root name then Fail EOutside
      else bind (parse_layer omit_content rest) (fun '(whs, files) =>
        let e := (with_name h name, if omit_content then [] else b) in
        if has_prefix wh_prefix (path_base name) then Ret (e :: whs, files) else Ret (whs, e :: files))
  end.
(** squash.go:27-35, 36-44 one entry *)
Definition load_entry (n : nat) (t : tree) (e : entry) : run tree :=
  bind (fs_get n t [] (th_name (fst e)) true false) (fun '(t, f) => set n t f (fst e) (snd e)).
Fixpoint load_entries (n : nat) (t : tree) (es : list entry) : run tree :=
  match es with
  | [] => Ret t
  | e :: es' => bind (load_entry n t e) (fun t => load_entries n t es')
  end.
(** squash.go:16-47 loadLayers, from a given tree *)
Fixpoint load_layers_from (n : nat) (omit_content : bool) (t : tree) (layers : list (list entry)) : run tree :=
  match layers with
  | [] => Ret t
  | l :: layers' =>
      bind (parse_layer omit_content l) (fun '(whs, files) =>
      bind (load_entries n t whs) (fun t =>
      bind (load_entries n t files) (fun t =>
      load_layers_from n omit_content t layers')))
  end.
Definition load_layers (n : nat) (omit_content : bool) (layers : list (list entry)) : run tree :=
  load_layers_from n omit_content empty_tree layers.

(** vfs.go:226-238 the order of the children *)
Definition child_less (i j : str) : bool :=
  match has_prefix wh_prefix i, has_prefix wh_prefix j with
  | true, false => true
  | false, true => false
  | _, _ => str_ltb i j
  end.
(** vfs.go:205-248 WriteTo.  [order] is the order in which [range] visits the
    map of each node, [sort] is sort.Slice.  Errors of the tar writer are not
    modelled. *)
Fixpoint assoc (k : str) (l : list (str * list entry)) : list entry :=
  match l with
  | [] => []
  | (k', x) :: l' => if str_eqb k k' then x else assoc k l'
  end.
Section write.
  Context (sort : (str -> str -> bool) -> list str -> list str) (order : pos -> list str -> list str).
  Definition own_entry (p : pos) (h : option header) (b : str) : list entry :=
    match h with
    | None => []
    | Some h =>
        let name := node_name p in
        [(with_name h (if byte_eqb (th_type h) TypeDir then name ++ $"/" else name), b)]
    end.
  Fixpoint write_to (p : pos) (t : tree) : list entry :=
    match t with
    | Tree h b ch =>
        let outs := map (fun kc => (fst kc, write_to (p ++ [fst kc]) (snd kc))) ch in
        own_entry p h b ++
        flat_map (fun k => assoc k outs) (sort child_less (order p (map fst ch)))
    end.
End write.

(** squash.go:55-77 Squash; wrapping the bytes in a Layer is not modelled. *)
Definition squash (n : nat) sort order (layers : list (list entry)) : run (list entry) :=
  bind (load_layers n false layers) (fun t => Ret (write_to sort order [] t)).
