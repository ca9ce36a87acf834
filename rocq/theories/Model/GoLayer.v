(** pkg/gobuild/gobuild.go: a layer of Go programs *)
From Coq Require Import String Ascii List Bool ZArith.
From Verif.Model Require Import GoStr GoPath Tar Layer Dir.
Import ListNotations.

(** What the rest of the world does. *)
Record builder : Type := mkBuilder {
  b_mkdir : option str;                                       (* os.MkdirTemp: the name of a new, empty directory, or an error *)
  b_environ : list str;                                       (* os.Environ *)
  b_run : list str -> list str -> bool;                       (* the command with these arguments and this environment: whether it succeeds, *)
  b_files : list str -> list str -> dnode;                    (*   and the temporary directory afterwards *)
  b_remains : dnode -> option dnode                           (* os.RemoveAll: [None] if it succeeds; otherwise what is left *)
}.
(** Errors, by the call that reports them *)
Inductive gerr : Type := GMkdir | GRun | GLayer (r : layer_result) | GRemove.
(** What LayerFromGo returns: the layer, if it is not nil, and the error; the commands that were run; and what is
    left of the temporary directory. *)
Record gresult : Type := mkResult {
  g_layer : option (list entry);
  g_error : option gerr;
  g_ran : list (list str * list str);
  g_left : option dnode
}.
(** gobuild.go:37-43 args *)
Definition go_args (tmpdir : str) (pkgnames : list str) : list str :=
  [$"go"; $"build"; $"-trimpath"; $"-o"; tmpdir; $"--"] ++ pkgnames.
(** :47-49 cmd.Env *)
Definition go_env (environ : list str) : list str := environ ++ [$"GOOS=linux"; $"GOARCH=amd64"].
(** :55-60 ownership, :61-65 the prefix *)
Definition go_owner : ownership := mkOwner 0 $"root" 0 $"root".
Definition go_prefix : prefix := mkPrefix $"usr/local/bin" 0 go_owner.
(** :22-35 the deferred removal and the error that maybeSetErr keeps *)
Definition finish (b : builder) (d : dnode) (layer : option (list entry)) (err : option gerr) (ran : list (list str * list str)) : gresult :=
  match b_remains b d with
  | None => mkResult layer err ran None
  | Some rest => mkResult layer (match err with Some e => Some e | None => Some GRemove end) ran (Some rest)
  end.
(** :16-65 LayerFromGo.  The loop over the prefix takes three turns (Model/Dir.v). *)
Definition layer_from_go (encodable : header -> bool)
    (sort : (str * list wstep -> str * list wstep -> bool) -> list (str * list wstep) -> list (str * list wstep))
    (b : builder) (clamp_time : option Z) (pkgnames : list str) : gresult :=
  match b_mkdir b with
  | None => mkResult None (Some GMkdir) [] None
  | Some tmpdir =>
      let args := go_args tmpdir pkgnames in
      let env := go_env (b_environ b) in
      let d := b_files b args env in
      if negb (b_run b args env) then finish b d None (Some GRun) [(args, env)]
      else
        match layer_from_dir encodable 4 sort d (Some go_prefix) (Some go_owner) clamp_time with
        | LayerOk out => finish b d (Some out) None [(args, env)]
        | bad => finish b d None (Some (GLayer bad)) [(args, env)]
        end
  end.
