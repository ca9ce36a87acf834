(** What the flags of "ocibuild image build" ask for. *)
From Coq Require Import String Ascii List Bool NArith ZArith.
From Verif.Model Require Import GoStr ImageConfig.
Import ListNotations.

(** The arguments of the uses of each flag, in order *)
Definition env_args (uses : list flag_use) : list str := flat_map (fun u => match u with UseEnvAppend s => [s] | _ => [] end) uses.
Definition entrypoint_args (uses : list flag_use) : list str := flat_map (fun u => match u with UseEntrypoint s => [s] | _ => [] end) uses.
Definition cmd_args (uses : list flag_use) : list str := flat_map (fun u => match u with UseCmd s => [s] | _ => [] end) uses.
Definition workdir_args (uses : list flag_use) : list str := flat_map (fun u => match u with UseWorkdir s => [s] | _ => [] end) uses.
Definition clear_args (uses : list flag_use) : list bool := flat_map (fun u => match u with UseEnvClear b => [b] | _ => [] end) uses.
Definition env_named (uses : list flag_use) : Prop := env_args uses <> [] \/ last (clear_args uses) false = true.
Definition workdir_named (uses : list flag_use) : Prop := last (workdir_args uses) [] <> [].

Definition ex_config : config nat := mkCfg (Some [$"PATH=/bin"; $"A=1"]) None (Some [$"sh"]) $"/" 7.
Definition ex_uses : list flag_use := [UseEnvAppend $"B=2"; UseEntrypoint $"/bin/x"; UseEntrypoint $"-v"; UseWorkdir $"/srv"; UseEnvAppend $"C=3"].
