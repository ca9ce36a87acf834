(** Layers made by this program as input of squashing. *)
From Coq Require Import String Ascii List Bool ZArith.
From Verif.Model Require Import GoStr GoPath Tar Layer Dir.
From Verif.Spec Require Import PathSpec LayerSpec DirSpec SquashSpec.
Import ListNotations.

(** The name is the text of a relative path without marker names. *)
Definition names_path (name : str) (p : path) : Prop := p <> [] /\ real_path p /\ name = join $"/" p.
(** A reference to a directory. *)
Definition is_dir_ref (r : fileref) : Prop := exists h, fr_header r = Some h /\ th_type h = TypeDir.
(** Each directory on disk is described as one, and no other path leads to it. *)
Definition true_directories (root : dnode) : Prop := forall p i readable ch, file_at root p = Some (DDir i readable ch) ->
  (exists h, di_header i = Some h /\ th_type h = TypeDir) /\
  forall q j, info_at root q = Some j -> di_id j = di_id i -> q = p.
(** No name on disk is a marker name. *)
Definition no_markers_in (root : dnode) : Prop := forall p, file_at root p <> None -> Forall (fun k => marker_name k = false) p.

(** For the examples: file references, a directory on disk. *)
Definition a_ref (ty : ascii) (name content : str) : fileref := mkRef name (Some (fst (an_entry ty [] [] content))) (Bytes content true).
Definition some_refs : list fileref := [a_ref TypeReg $"d/z" $"x"; a_ref TypeReg $"e/f" $"y"; a_ref TypeDir $"d" []; a_ref TypeReg $"d-b" []].
Definition a_disk_file (id : Z) (content : str) : dnode := DFile (mkInfo (1, id)%Z (Some (fst (an_entry TypeReg [] [] content))) None (Bytes content true)).
Definition a_disk_dir (id : Z) (ch : list (str * dnode)) : dnode := DDir (mkInfo (1, id)%Z (Some (fst (an_entry TypeDir [] [] []))) None OpenErr) true ch.
Definition a_disk : dnode := a_disk_dir 1 [($"z", a_disk_file 4 $"hi"); ($"a", a_disk_dir 2 [($"y", a_disk_file 4 $"hi"); ($"e", a_disk_dir 3 [])]); ($"a-b", a_disk_file 6 $"ho")].

(** An empty regular file with mode 0644 that says nothing else but its name. *)
Definition empty_file (e : entry) : Prop := anon (fst e) = mkHeader TypeReg [] [] 0 420 0 0 [] [] None None None 0 0 [] 0 /\ snd e = [].
(** The same description and content, maybe under another name. *)
Definition same_file (e e0 : entry) : Prop := anon (fst e) = anon (fst e0) /\ snd e = snd e0.
