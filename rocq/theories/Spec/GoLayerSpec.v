(** What a layer of Go programs should be. *)
From Coq Require Import String Ascii List Bool ZArith.
From Verif.Model Require Import GoStr GoPath Tar Layer Dir GoLayer.
From Verif.Spec Require Import PathSpec LayerSpec DirSpec.
Import ListNotations.

(** How the go command reads its arguments (package flag of Go's standard library): [bools] are the flags without
    value; [None] is an error.  The flags and the values, and the rest of the arguments. *)
Fixpoint read_args (fuel : nat) (bools : str -> bool) (args : list str) : option (list (str * str) * list str) :=
  match fuel with
  | O => None
  | S fuel =>
      let also (x : str * str) r := option_map (fun p => (x :: fst p, snd p)) r in
      match args with
      | (d :: c :: name) :: rest =>
          if ascii_dec d "-"%char then
            if list_eq_dec ascii_dec (d :: c :: name) $"--" then Some ([], rest)
            else
              let name := if ascii_dec c "-"%char then name else c :: name in
              match cut "="%char name with
              | (before, Some after) => also (before, after) (read_args fuel bools rest)
              | (_, None) =>
                  if bools name then also (name, $"true") (read_args fuel bools rest)
                  else match rest with v :: rest => also (name, v) (read_args fuel bools rest) | [] => None end
              end
          else Some ([], args)
      | _ => Some ([], args)
      end
  end.
(** The value of a variable in an environment: the last one counts (package os/exec). *)
Definition variable (env : list str) (name value : str) : Prop :=
  exists l1 l2, env = l1 ++ (name ++ $"=" ++ value) :: l2 /\ forall v, ~ In (name ++ $"=" ++ v) l2.

(** The directories above, owned by root, and an entry for a program *)
Definition root_directory (clamp_time : option Z) (name : str) (e : entry) : Prop :=
  th_name (fst e) = name /\ th_type (fst e) = TypeDir /\ th_mode (fst e) = 493%Z /\ snd e = [] /\
  th_uid (fst e) = 0%Z /\ th_uname (fst e) = $"root" /\ th_gid (fst e) = 0%Z /\ th_gname (fst e) = $"root" /\
  nearest_second clamp_time (th_mtime (fst e)).

(** The same file, but made at another time: as another inode (renamed by [f]) and with other times, all of them
    after [c].  No header asks for a format (tar.FileInfoHeader). *)
Definition header_again (c : option Z) (h h' : header) : Prop :=
  th_type h = th_type h' /\ th_name h = th_name h' /\ th_link h = th_link h' /\ th_size h = th_size h' /\ th_mode h = th_mode h' /\
  th_uid h = th_uid h' /\ th_gid h = th_gid h' /\ th_uname h = th_uname h' /\ th_gname h = th_gname h' /\
  th_devmajor h = th_devmajor h' /\ th_devminor h = th_devminor h' /\ th_xattrs h = th_xattrs h' /\
  th_format h = 0%Z /\ th_format h' = 0%Z /\ time_le c (th_mtime h) /\ time_le c (th_mtime h').
Definition info_again (f : Z * Z -> Z * Z) (c : option Z) (i i' : dinfo) : Prop :=
  di_id i' = f (di_id i) /\ di_readlink i = di_readlink i' /\ di_content i = di_content i' /\
  match di_header i, di_header i' with Some h, Some h' => header_again c h h' | None, None => True | _, _ => False end.
Definition again (f : Z * Z -> Z * Z) (c : option Z) (d d' : dnode) : Prop :=
  (forall x y, f x = f y -> x = y) /\
  forall p, match info_at d p, info_at d' p with Some i, Some i' => info_again f c i i' | None, None => True | _, _ => False end.

(** A program made by user 1000, and the same made again later; the world that makes it *)
Definition ex_program (id when : Z) : dnode :=
  DDir (mkInfo (1, id)%Z (Some (mkHeader TypeDir [] [] 0 448 1000 100 $"me" $"us" (Some (when + 1)%Z) (Some when) (Some when) 0 0 [] 0)) None OpenErr) true
    [($"tool", DFile (mkInfo (1, id + 1)%Z (Some (mkHeader TypeReg [] [] 4 493 1000 100 $"me" $"us" (Some (when + 5)%Z) (Some when) (Some when) 0 0 [] 0)) None (Bytes $"code" true)))].
Definition ex_builder (id when : Z) : builder :=
  mkBuilder (Some $"/tmp/ocibuild-gobuild.1") [$"HOME=/home/me"; $"GOOS=windows"] (fun _ _ => true) (fun _ _ => ex_program id when) (fun _ => None).
