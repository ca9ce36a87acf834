(** What "ocibuild layer dir" should do with its flags. *)
From Coq Require Import String Ascii List Bool ZArith.
From Verif.Model Require Import GoStr GoPath Tar Layer Dir LayerDir.
From Verif.Spec Require Import PathSpec LayerSpec DirSpec.
Import ListNotations.

(** The value of a flag: the last one that is given, or the default. *)
Inductive value {A} (flag : A -> dir_flag) (default : A) (flags : list dir_flag) : A -> Prop :=
| value_given v l1 l2 : flags = l1 ++ flag v :: l2 -> (forall w, ~ In (flag w) l2) -> value flag default flags v
| value_default : (forall w, ~ In (flag w) flags) -> value flag default flags default.
(** The directories of the prefix: with these owners, mode 0755, and the time [now] (to the second) *)
Definition prefix_directory (uid : Z) (uname : str) (gid : Z) (gname : str) (now : Z) (p : list str) (e : entry) : Prop :=
  th_name (fst e) = join $"/" p /\ th_type (fst e) = TypeDir /\ th_mode (fst e) = 493%Z /\ snd e = [] /\
  th_uid (fst e) = uid /\ th_uname (fst e) = uname /\ th_gid (fst e) = gid /\ th_gname (fst e) = gname /\
  nearest_second (Some now) (th_mtime (fst e)).

(** A tree with one file of user 1000, and flags *)
Definition ex_root : dnode :=
  DDir (mkInfo (1, 1)%Z (Some (mkHeader TypeDir [] [] 0 493 1000 100 $"me" $"us" (Some 3000000000%Z) None None 0 0 [] 0)) None OpenErr) true
    [($"f", DFile (mkInfo (1, 2)%Z (Some (mkHeader TypeReg [] [] 2 420 1000 100 $"me" $"us" (Some 9000000000%Z) None None 0 0 [] 0)) None (Bytes $"hi" true)))].
Definition ex_flags : list dir_flag := [FPrefix $"usr"; FPrefixUid 5; FChownUid 0; FPrefix $"opt/x"; FPrefixGname $"staff"].
