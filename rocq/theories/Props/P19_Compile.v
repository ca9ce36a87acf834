(** C77-C79: compiling Python files with a program on the host (python.ExternalCompiler).
    [compile faults program order rm_fails tmp exe args environ clamp_time python_path l [fs0]] is one
    call: all states of the file system, the latest first, and the resulting files, or none for an
    error.  [faults] says which system calls fail, [program] what the program does to the file system,
    [order] in which order the directory is walked, [rm_fails] whether the removal of the temporary
    directory [tmp] fails.  [fs0] is the file system before the call. *)
From Coq Require Import String Ascii List Bool ZArith Lia Permutation.
From Verif.Model Require Import GoStr GoPath Tar Stat Layer Platform WheelFile Wheel WheelName LookPath Inspect PyCompile Args.
From Verif.Spec Require Import PathSpec WheelSpec WheelExamples RecordSpec InspectSpec PyCompileSpec.
From Verif.Proofs Require Import PyCompileFacts CompilerFacts ArgsFacts.
Import ListNotations.
Local Open Scope nat_scope.

(** *** C77: compiling leaves the host as it was *)
(** At no time is anything outside the temporary directory different, whatever fails and whenever the
    process is stopped; for names that do not lead out of the directory, see [C77_slip_refuted]. *)
Theorem C77_outside_partial : forall faults program order rm_fails tmp dir fs0 exe args environ clamp_time python_path l,
  names_dir tmp dir -> vacant dir fs0 -> keeps_to dir program -> Forall (fun r => inner (ref_full r)) l ->
  Forall (fun fs => same_outside dir fs fs0) (fst (compile faults program order rm_fails tmp exe args environ clamp_time python_path l [fs0])).
Proof. intros; now apply compile_outside. Qed.
Print Assumptions C77_outside_partial.
(** At the end all is as before, also after a failure, unless the directory cannot be removed, and that
    is an error. *)
Theorem C77_restored_partial : forall faults program order tmp dir fs0 exe args environ clamp_time python_path l,
  names_dir tmp dir -> vacant dir fs0 -> keeps_to dir program -> Forall (fun r => inner (ref_full r)) l ->
  same_fs (now (fst (compile faults program order false tmp exe args environ clamp_time python_path l [fs0]))) fs0 /\
  snd (compile faults program order true tmp exe args environ clamp_time python_path l [fs0]) = None.
Proof.
  intros faults program order tmp dir fs0 exe args environ t pp l N V K I. split; [exact (compile_restores faults program order tmp dir N fs0 V exe args environ t pp l I K)|].
  destruct (snd (compile faults program order true tmp exe args environ t pp l [fs0])) eqn:E; auto.
  discriminate (compile_ok_removed faults program order tmp dir N fs0 exe args environ t pp l true _ E).
Qed.
Print Assumptions C77_restored_partial.
(** If there is a result, the program was run on exactly the given files and was successful, and the
    result is each file below the directory with a name in ".pyc", with its content, once. *)
Theorem C77_result_partial : forall faults program order rm_fails tmp dir fs0 exe args environ clamp_time python_path l outs,
  names_dir tmp dir -> vacant dir fs0 -> Forall (fun r => inner (ref_full r)) l -> distinct_refs l -> (forall l, Permutation (order l) l) ->
  let run := compile faults program order rm_fails tmp exe args environ clamp_time python_path l [fs0] in
  let cmd := compile_command exe args tmp environ clamp_time python_path in
  snd run = Some outs ->
  exists fs, In fs (fst run) /\ same_outside dir fs fs0 /\ look dir fs = Some NDir /\ holds_exactly dir l fs /\
  snd (program cmd fs) = true /\ In (fst (program cmd fs)) (fst run) /\ collects dir (fst (program cmd fs)) outs.
Proof. intros; now apply compile_result. Qed.
Print Assumptions C77_result_partial.
(** And there is a result if no system call fails, the files can be read, none is where another needs a
    directory, the program is successful and leaves what can be read. *)
Theorem C77_succeeds_partial : forall program order tmp dir fs0 exe args environ clamp_time python_path l,
  names_dir tmp dir -> vacant dir fs0 -> Forall (fun r => inner (ref_full r)) l -> distinct_refs l -> no_obstacle l -> (forall l, Permutation (order l) l) ->
  Forall (fun r => exists text, ref_content r = Bytes text true) l ->
  (forall fs, same_outside dir fs fs0 -> holds_exactly dir l fs ->
     let after := program (compile_command exe args tmp environ clamp_time python_path) fs in
     snd after = true /\ forall q mode size t, look (dir ++ q) (fst after) <> Some (NOther mode size t None)) ->
  exists outs, snd (compile (fun _ => None) program order false tmp exe args environ clamp_time python_path l [fs0]) = Some outs.
Proof. intros; apply compile_succeeds with (dir := dir); auto. Qed.
Print Assumptions C77_succeeds_partial.
(** The program finds a fixed seed for hashes, the directories of the target first among the places
    for modules, and the clamping time in seconds; the rest is the environment of the process. *)
Theorem C77_environment : forall exe args tmp dir environ clamp_time python_path,
  names_dir tmp dir -> only_once environ -> Forall inner python_path ->
  let c := compile_command exe args tmp environ clamp_time python_path in
  c_exe c = exe /\ c_args c = args ++ [$"-s"; tmp; $"-p"; $"/"; tmp] /\
  child_env $"PYTHONHASHSEED" (c_env c) = Some $"0" /\
  child_env $"PYTHONPATH" (c_env c) =
    (match python_path, getenv $"PYTHONPATH" environ with
     | [], e => e
     | _, None | _, Some [] => Some (join $":" (map (fun d => tmp ++ $"/" ++ clean d) python_path))
     | _, Some e => Some (join $":" (map (fun d => tmp ++ $"/" ++ clean d) python_path) ++ $":" ++ e)
     end) /\
  child_env $"SOURCE_DATE_EPOCH" (c_env c) =
    (match clamp_time with None => getenv $"SOURCE_DATE_EPOCH" environ | Some t => Some (itoa (t / 1000000000)) end) /\
  forall k, ~ In k [$"PYTHONHASHSEED"; $"PYTHONPATH"; $"SOURCE_DATE_EPOCH"] -> child_env k (c_env c) = getenv k environ.
Proof. exact environment. Qed.
Print Assumptions C77_environment.
(** What the theorems on installed wheels (C51 and others) assume of a compiler holds of this one. *)
Theorem C77_outputs : forall o faults program order rm_fails tmp exe args environ python_path fs0,
  (forall l, Permutation (order l) l) -> (forall c fs, plain_fs (clean_comps tmp) (fst (program c fs))) ->
  (forall t l, o_compile o t l = snd (compile faults program order rm_fails tmp exe args environ t python_path l [fs0])) ->
  pyc_outputs o /\ distinct_outputs o.
Proof. exact compiler_outputs. Qed.
Print Assumptions C77_outputs.
(** The same for the installation of a wheel: all states are the same outside the directory, the last
    one everywhere.  The names in the wheel must not lead out of the root. *)
Theorem C77_wheel_partial : forall o pl min_time max_t wh faults program order rm_fails tmp dir exe args environ python_path fs0,
  fair o -> inner_scheme (pl_scheme pl) -> inner_names wh -> never_nested (pl_scheme pl) wh -> names_dir tmp dir -> vacant dir fs0 -> keeps_to dir program ->
  let r := install_on_host o pl min_time max_t wh (fun t l => compile faults program order rm_fails tmp exe args environ t python_path l) [fs0] in
  Forall (fun fs => same_outside dir fs fs0) (fst r) /\ (rm_fails = false -> same_fs (now (fst r)) fs0) /\
  (rm_fails = true -> forall res, snd r = IOk res -> False).
Proof. exact wheel_host. Qed.
Print Assumptions C77_wheel_partial.
(** [install_on_host] gives what [install_vfs], which the other theorems are about, gives with this
    compiler. *)
Theorem C77_same : forall o pl min_time max_t wh run st,
  snd (install_on_host o pl min_time max_t wh run st) = install_vfs (with_compiler o (fun t l => snd (run t l st))) pl min_time max_t wh.
Proof. exact on_host_same. Qed.
Print Assumptions C77_same.
(** False in general: a wheel whose names lead out of the root replaces a file of the user who builds. *)
Theorem C77_slip_refuted : exists l st res,
  install_wheel (with_compiler ex_out (fun t l => snd (ex_run (fun _ => None) t l [ex_host]))) 9 ex_platform None None ex_slip = IOk l /\
  (exists pl, sanitize ex_platform = Some pl /\ install_on_host ex_out pl None None ex_slip (ex_run (fun _ => None)) [ex_host] = (st, IOk res)) /\
  look [$"home"; $"u"; $"setup.py"] ex_host = Some (NFile 420 None $"mine") /\
  exists t, look [$"home"; $"u"; $"setup.py"] (now st) = Some (NFile 420 t $"evil").
Proof. exact slip. Qed.
Print Assumptions C77_slip_refuted.
(** One file compiled, beside one that is not; and the third write failing after one byte. *)
Example C77_nonvacuous : names_dir $"/tmp/c.1" ex_temp /\ vacant ex_temp ex_host /\ keeps_to ex_temp (ex_program ex_temp) /\
  (let l := [ex_py $"usr/lib/foo/a.py" $"x=1"; ex_py $"usr/lib/b.py" $"y=2"] in
   snd (ex_run (fun _ => None) (Some 5000000000%Z) l [ex_host]) = Some [MemRef (mkMem $"usr/lib/foo/a.pyc" 420 4 (Some 12000000000%Z) None (Bytes $"8x=1" true))] /\
   look (ex_temp ++ [$"usr"; $"lib"; $"b.py"]) (nth 3 (fst (ex_run (fun _ => None) None l [ex_host])) []) = Some (NFile 420 (Some 12000000000%Z) $"y=2") /\
   (let r := ex_run (fun n => if Nat.eqb n 4 then Some 1 else None) None l [ex_host] in
    snd r = None /\ length (fst r) = 6 /\ look (ex_temp ++ [$"usr"; $"lib"; $"foo"; $"a.py"]) (nth 1 (fst r) []) = Some (NFile 420 None $"x"))) /\
  c_env (compile_command $"/bin/python3" [] $"/tmp/c.1" [($"PYTHONPATH", $"/opt")] (Some 5999999999%Z) [$"usr/lib"]) =
    [($"PYTHONPATH", $"/opt"); ($"PYTHONHASHSEED", $"0"); ($"PYTHONPATH", $"/tmp/c.1/usr/lib:/opt"); ($"SOURCE_DATE_EPOCH", $"5")].
Proof. split; [exact ex_names|]. split; [exact ex_vacant|]. split; [exact ex_confined|]. vm_compute. repeat split. Qed.

(** *** C78: the compiler of a platform file is found or reported *)
Theorem C78_found : forall lookpath cwd name args exe, lookpath name = Some exe -> exe <> [] -> is_abs cwd = true ->
  exists e, external_compiler lookpath cwd (name :: args) = Compiler e args /\ is_abs e = true /\ clean e = e /\
  e = clean (if is_abs exe then exe else cwd ++ $"/" ++ exe).
Proof. exact compiler_found. Qed.
Print Assumptions C78_found.
Theorem C78_only : forall lookpath cwd cmdline e args, external_compiler lookpath cwd cmdline = Compiler e args ->
  exists name exe, cmdline = name :: args /\ lookpath name = Some exe.
Proof. exact compiler_only. Qed.
Print Assumptions C78_only.
(** The file written by "python inspect" gives "layer wheel" a compiler or an error. *)
Theorem C78_inspected_partial : forall image look stat dynamic host_look host_dynamic unbase64 interpreter p lookpath cwd,
  inspect image look stat dynamic host_look host_dynamic unbase64 interpreter = Inspected p -> Forall tag_parts (pf_tags p) ->
  exists q name, read_plat (plat_doc p) = Some q /\ pf_compile q = [name; $"-m"; $"compileall"] /\
  match lookpath name with
  | Some _ => exists e, external_compiler lookpath cwd (pf_compile q) = Compiler e [$"-m"; $"compileall"]
  | None => external_compiler lookpath cwd (pf_compile q) = CompilerErr
  end.
Proof. exact inspected_compiler. Qed.
Print Assumptions C78_inspected_partial.
(** False in general: every readable file without the key PyCompile makes the program panic. *)
Theorem C78_unset_refuted : forall l p lookpath cwd, (forall k v, In (k, v) l -> ~ same_key $"PyCompile" k) -> read_plat (DMap l) = Some p ->
  external_compiler lookpath cwd (pf_compile p) = CompilerPanic.
Proof. intros l p lookpath cwd N R. now rewrite (unset (DMap l) p l eq_refl N R). Qed.
Print Assumptions C78_unset_refuted.
Example C78_nonvacuous : (exists p, read_plat (DMap [($"consoleshebang", DStr $"/bin/python3"); ($"UID", DInt 5)]) = Some p) /\
  external_compiler (fun n => if str_eqb n $"python3.9" then Some $"bin/../python3.9" else None) $"/w" (pf_compile help_plat) = Compiler $"/w/python3.9" [$"-m"; $"compileall"].
Proof. vm_compute. eauto. Qed.

(** *** C79: concurrent calls of one Compiler.  [room] is what is in the array of the command line behind
    its last element; [call_run tmp room sched] runs calls with the temporary directories [tmp i] in
    the order given by [sched]; [pc c i = 10] if call [i] is done, and [got c i] is then what it adds to
    the command line. *)
Theorem C79_no_room_partial : forall tmp room sched i, length room < 5 ->
  let c := call_run tmp room sched in mem c = room /\ (pc c i = 10 -> got c i = [$"-s"; tmp i; $"-p"; $"/"; tmp i]) /\ (In i sched -> pc c i = 10).
Proof. exact no_room. Qed.
Print Assumptions C79_no_room_partial.
Theorem C79_one_by_one_partial : forall tmp room order, NoDup order ->
  let c := call_run tmp room (concat (map (fun i => repeat i 10) order)) in
  forall i, In i order -> pc c i = 10 /\ got c i = [$"-s"; tmp i; $"-p"; $"/"; tmp i].
Proof. exact one_by_one. Qed.
Print Assumptions C79_one_by_one_partial.
(** False in general: with room in the array two calls can run the program for the directory of one of
    them, and a call changes what belongs to the caller. *)
Theorem C79_mixed_up_refuted : forall tmp room, 5 <= length room -> exists sched, let c := call_run tmp room sched in
  pc c 0 = 10 /\ pc c 1 = 10 /\ got c 0 = [$"-s"; tmp 1; $"-p"; $"/"; tmp 1] /\ got c 1 = [$"-s"; tmp 1; $"-p"; $"/"; tmp 1].
Proof. exact mixed_up. Qed.
Print Assumptions C79_mixed_up_refuted.
Theorem C79_overwrites_refuted : forall tmp room, 5 <= length room ->
  firstn 5 (mem (call_run tmp room (repeat 0 10))) = [$"-s"; tmp 0; $"-p"; $"/"; tmp 0].
Proof. exact overwrites. Qed.
Print Assumptions C79_overwrites_refuted.
Example C79_nonvacuous : let tmp i := match i with 0 => $"/tmp/a" | _ => $"/tmp/b" end in
  let c := call_run tmp [] [1; 0] in
  got c 0 = [$"-s"; $"/tmp/a"; $"-p"; $"/"; $"/tmp/a"] /\ got c 1 = [$"-s"; $"/tmp/b"; $"-p"; $"/"; $"/tmp/b"] /\
  pc (call_run tmp (repeat [] 6) [0; 1; 0; 1]) 0 = 2.
Proof. vm_compute. auto. Qed.
