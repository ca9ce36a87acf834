(** C95: the flags of "ocibuild layer dir"; C96: layers of Go programs; C97: "ocibuild image build"; C38 for layers from directories.
    [layer_dir encodable n sort root now flags] is the command for the directory tree [root]: the entries of the
    layer that is written, an error, or [LayerFuel] if a loop takes more than [n] turns. *)
From Coq Require Import String Ascii List Bool ZArith Sorted Permutation Lia.
From Verif.Model Require Import GoStr GoPath Tar Layer Dir LayerDir GoLayer ImageConfig ImageBuild.
From Verif.Spec Require Import PathSpec SimpleAPISpec LayerSpec DirSpec LayerDirSpec GoLayerSpec ImageConfigSpec ImageBuildSpec.
From Verif.Proofs Require Import SimpleAPIFacts LayerFacts DirFacts LayerDirFacts GoLayerFacts ImageConfigFacts ImageBuildFacts.
Import ListNotations.
Open Scope nat_scope.

(** ** C38: times in layers from directories *)

(** No time is later than the clamp time, if that is a whole second. *)
Theorem C38_dir_not_later_partial : forall encodable n sort root px chown clamp_time out,
  whole_second clamp_time -> layer_from_dir encodable n sort root px chown clamp_time = LayerOk out ->
  forall e, In e out ->
  time_le (th_mtime (fst e)) clamp_time /\ time_le (th_atime (fst e)) clamp_time /\ time_le (th_ctime (fst e)) clamp_time.
Proof. exact dir_not_later. Qed.
Print Assumptions C38_dir_not_later_partial.
(** Each file below the directory has an entry with the times of the file, except that later ones become the clamp
    time; then the modification time is rounded to the nearest second. *)
Theorem C38_dir_kept_partial : forall encodable n sort root px chown clamp_time l out,
  sorts sort -> disk_names root -> prefix_path px l ->
  layer_from_dir encodable n sort root px chown clamp_time = LayerOk out ->
  exists files above rest, listing root files /\ out = above ++ rest /\
  Forall2 (fun f e => th_name (fst e) = join $"/" (l ++ fst f) /\
                      exists h, di_header (snd f) = Some h /\ clamped clamp_time h (fst e)) files rest.
Proof. exact dir_times. Qed.
Print Assumptions C38_dir_kept_partial.

(** ** C95: the flags *)

(** The layer consists of the directories of --prefix, with the requested owners (0 and "root" if nothing is
    requested), and of the files below the directory, each once, moved below the prefix, with their own owners and
    modes and no time after the present. *)
Theorem C95_layer_partial : forall encodable n sort root now flags p uid uname gid gname l out,
  sorts sort -> disk_names root ->
  value FPrefix [] flags p -> value FPrefixUid 0%Z flags uid -> value FPrefixUname $"root" flags uname ->
  value FPrefixGid 0%Z flags gid -> value FPrefixGname $"root" flags gname ->
  (p = [] /\ l = [] \/ p = path_text false l /\ clean_list false l) ->
  layer_dir encodable n sort root now flags = LayerOk out ->
  exists files above rest, listing root files /\ out = above ++ rest /\
  Forall2 (prefix_directory uid uname gid gname now) (nonempty_prefixes l) above /\ file_entries l [] files rest /\
  Forall2 (fun f e => exists h, di_header (snd f) = Some h /\ clamped (Some now) h (fst e)) files rest.
Proof. exact layer_dir_is. Qed.
Print Assumptions C95_layer_partial.
(** The request that the flags make of LayerFromDir, in the variables of the command line: the last of each kind, or
    the default of the help text. *)
Theorem C95_request : forall flags p uid uname gid gname cuid cuname cgid cgname,
  value FPrefix [] flags p -> value FPrefixUid 0%Z flags uid -> value FPrefixUname $"root" flags uname ->
  value FPrefixGid 0%Z flags gid -> value FPrefixGname $"root" flags gname ->
  value FChownUid (-1)%Z flags cuid -> value FChownUname [] flags cuname -> value FChownGid (-1)%Z flags cgid -> value FChownGname $"root" flags cgname ->
  LayerDir.parse_flags flags = mkVars (mkPrefix p 0 (mkOwner uid uname gid gname)) (mkOwner cuid cuname cgid cgname).
Proof. exact flags_request. Qed.
Print Assumptions C95_request.
(** If no file gives an error the command succeeds for every relative prefix, *)
Theorem C95_succeeds_partial : forall n sort root now flags p,
  sorts sort -> disk_names root -> (forall q d, file_at root q = Some d -> without_errors d) ->
  value FPrefix [] flags p -> is_abs p = false -> S (length p) < n ->
  exists out, layer_dir (fun _ => true) n sort root now flags = LayerOk out.
Proof. exact layer_dir_succeeds. Qed.
Print Assumptions C95_succeeds_partial.
(** but it never ends for an absolute one, *)
Theorem C95_absolute_refuted : forall encodable n sort root now flags p,
  value FPrefix [] flags p -> is_abs p = true -> layer_dir encodable n sort root now flags = LayerFuel.
Proof. exact layer_dir_absolute. Qed.
Print Assumptions C95_absolute_refuted.
(** and the flags --chown-uid, --chown-uname, --chown-gid and --chown-gname do nothing. *)
Theorem C95_chown_refuted : forall encodable n sort root now flags,
  layer_dir encodable n sort root now flags =
  layer_dir encodable n sort root now
    (filter (fun f => match f with FChownUid _ | FChownUname _ | FChownGid _ | FChownGname _ => false | _ => true end) flags).
Proof. intros. rewrite layer_dir_chown. f_equal. apply filter_ext. now intros []. Qed.
Print Assumptions C95_chown_refuted.
(** Beside C95 and C38: the last --prefix counts, the owner of the file is not changed, and its time is. *)
Example C95_case :
  disk_names ex_root /\ (forall q d, file_at ex_root q = Some d -> without_errors d) /\
  value FPrefix [] ex_flags $"opt/x" /\ value FPrefixUid 0%Z ex_flags 5%Z /\ value FPrefixUname $"root" ex_flags $"root" /\
  value FPrefixGid 0%Z ex_flags 0%Z /\ value FPrefixGname $"root" ex_flags $"staff" /\
  clean_list false [$"opt"; $"x"] /\ whole_second (Some 7000000000%Z) /\
  match layer_dir (fun _ => true) 9 insertion_sort ex_root 7000000000 ex_flags with
  | LayerOk out => map (fun e => (th_name (fst e), th_uid (fst e), th_gname (fst e), th_mtime (fst e), snd e)) out =
      [($"opt", 5%Z, $"staff", Some 7000000000%Z, []); ($"opt/x", 5%Z, $"staff", Some 7000000000%Z, []);
       ($"opt/x/f", 1000%Z, $"us", Some 7000000000%Z, $"hi")]
  | _ => False
  end.
Proof.
  assert (P : forall c, c <> [] -> ~ In slash c -> c <> dot -> c <> dotdot -> plain_comp c) by (intros; repeat split; auto).
  split; [|split; [|split; [|split; [|split; [|split; [|split; [|split; [|split]]]]]]]].
  - constructor; [repeat constructor; intros []|repeat constructor; apply P; try discriminate; cbn; intros X; repeat destruct X as [X|X]; try discriminate; auto|].
    intros c d [X|[]]. injection X as <- <-. constructor.
  - apply no_errors_check. cbn. repeat split; auto; eexists; (split; [reflexivity|split; [discriminate|]]); [discriminate|]. intros _. eexists. split; reflexivity.
  - apply value_given with [FPrefix $"usr"; FPrefixUid 5; FChownUid 0] [FPrefixGname $"staff"]; [reflexivity|]. intros w [X|[]]. discriminate.
  - apply value_given with [FPrefix $"usr"] [FChownUid 0; FPrefix $"opt/x"; FPrefixGname $"staff"]; [reflexivity|]. intros w X. repeat destruct X as [X|X]; try discriminate. destruct X.
  - apply value_default. intros w X. repeat destruct X as [X|X]; try discriminate. destruct X.
  - apply value_default. intros w X. repeat destruct X as [X|X]; try discriminate. destruct X.
  - apply value_given with [FPrefix $"usr"; FPrefixUid 5; FChownUid 0; FPrefix $"opt/x"] []; [reflexivity|]. intros w [].
  - exists 0, [$"opt"; $"x"]. repeat split; try discriminate. repeat constructor; apply P; try discriminate; cbn; intros X; repeat destruct X as [X|X]; try discriminate; auto.
  - reflexivity.
  - vm_compute. reflexivity.
Qed.

(** ** C96: layers of Go programs *)
(** [layer_from_go encodable sort b clamp_time pkgnames] is LayerFromGo: the layer and the error that it returns, the
    commands it runs, and what it leaves of the temporary directory. *)

(** Whatever the package names are, the go command reads them as package names, not as flags; it is asked for
    programs without file names of the host, in the temporary directory. *)
Theorem C96_arguments : forall bools tmpdir pkgnames n, bools $"trimpath" = true -> bools $"o" = false ->
  exists rest, go_args tmpdir pkgnames = $"go" :: $"build" :: rest /\
  read_args (3 + n) bools rest = Some ([($"trimpath", $"true"); ($"o", tmpdir)], pkgnames).
Proof. exact args_read. Qed.
Print Assumptions C96_arguments.
(** It builds for linux on amd64 in every environment, and sees all other variables as they are. *)
Theorem C96_environment : forall environ,
  variable (go_env environ) $"GOOS" $"linux" /\ variable (go_env environ) $"GOARCH" $"amd64" /\
  forall name value, ~ In "="%char name -> name <> $"GOOS" -> name <> $"GOARCH" ->
  (variable (go_env environ) name value <-> variable environ name value).
Proof. exact env_set. Qed.
Print Assumptions C96_environment.
(** One command is run, the temporary directory is removed whether it succeeds or not, failure is reported, and if
    nothing is reported there is a layer and nothing is left. *)
Theorem C96_outcome : forall encodable sort b clamp_time pkgnames,
  let r := layer_from_go encodable sort b clamp_time pkgnames in
  (forall tmp, b_mkdir b = Some tmp ->
     g_ran r = [(go_args tmp pkgnames, go_env (b_environ b))] /\
     g_left r = b_remains b (b_files b (go_args tmp pkgnames) (go_env (b_environ b)))) /\
  (b_mkdir b = None -> g_ran r = [] /\ g_left r = None) /\
  (g_error r = None -> g_left r = None /\ exists out, g_layer r = Some out) /\
  (g_error r = Some GRemove -> g_left r <> None) /\
  (forall tmp, b_mkdir b = Some tmp -> b_run b (go_args tmp pkgnames) (go_env (b_environ b)) = false ->
     g_error r = Some GRun /\ g_layer r = None).
Proof. exact go_outcome. Qed.
Print Assumptions C96_outcome.
(** The layer: /usr, /usr/local and /usr/local/bin, owned by root, and in it each file that the go command made, with
    its mode and content; later times than the clamp time become the clamp time. *)
Theorem C96_layer_partial : forall encodable sort b clamp_time pkgnames out,
  sorts sort ->
  (forall tmp, b_mkdir b = Some tmp -> disk_names (b_files b (go_args tmp pkgnames) (go_env (b_environ b)))) ->
  g_layer (layer_from_go encodable sort b clamp_time pkgnames) = Some out ->
  exists tmp files above rest, b_mkdir b = Some tmp /\
  listing (b_files b (go_args tmp pkgnames) (go_env (b_environ b))) files /\ out = above ++ rest /\
  Forall2 (root_directory clamp_time) [$"usr"; $"usr/local"; $"usr/local/bin"] above /\
  file_entries [$"usr"; $"local"; $"bin"] [] files rest /\
  Forall2 (fun f e => exists h, di_header (snd f) = Some h /\ clamped clamp_time h (fst e)) files rest.
Proof. exact go_layer. Qed.
Print Assumptions C96_layer_partial.
(** The programs are not owned by root. *)
Theorem C96_owner_refuted : exists out e,
  g_layer (layer_from_go (fun _ => true) insertion_sort (ex_builder 1 9000000000) (Some 5000000000%Z) [$"./cmd/tool"]) = Some out /\
  In e out /\ th_name (fst e) = $"usr/local/bin/tool" /\ th_uid (fst e) = 1000%Z.
Proof. eexists. eexists. split; [vm_compute; reflexivity|]. split; [right; right; right; left; reflexivity|]. split; reflexivity. Qed.
Print Assumptions C96_owner_refuted.
(** Building the same programs again, later, gives the same layer if the clamp time is before both. *)
Theorem C96_again : forall encodable sort sort' b b' tmp tmp' f clamp_time pkgnames pkgnames' out out',
  sorts sort -> sorts sort' -> b_mkdir b = Some tmp -> b_mkdir b' = Some tmp' ->
  let d := b_files b (go_args tmp pkgnames) (go_env (b_environ b)) in
  let d' := b_files b' (go_args tmp' pkgnames') (go_env (b_environ b')) in
  disk_names d -> disk_names d' -> again f clamp_time d d' ->
  g_layer (layer_from_go encodable sort b clamp_time pkgnames) = Some out ->
  g_layer (layer_from_go encodable sort' b' clamp_time pkgnames') = Some out' -> out = out'.
Proof. exact go_again. Qed.
Print Assumptions C96_again.
(** Beside C96: a program built twice. *)
Example C96_case :
  disk_names (ex_program 1 9000000000) /\ again (fun x => (fst x, snd x + 40)%Z) (Some 5000000000%Z) (ex_program 1 9000000000) (ex_program 41 12000000000) /\
  match g_layer (layer_from_go (fun _ => true) insertion_sort (ex_builder 1 9000000000) (Some 5000000000%Z) [$"./cmd/tool"; $"-x"]) with
  | Some out => map (fun e => (th_name (fst e), th_mode (fst e), th_uname (fst e), th_mtime (fst e), snd e)) out =
      [($"usr", 493%Z, $"root", Some 5000000000%Z, []); ($"usr/local", 493%Z, $"root", Some 5000000000%Z, []);
       ($"usr/local/bin", 493%Z, $"root", Some 5000000000%Z, []); ($"usr/local/bin/tool", 493%Z, $"me", Some 5000000000%Z, $"code")]
  | None => False
  end /\
  read_args 9 (str_eqb $"trimpath") (skipn 2 (go_args $"/tmp/t" [$"-x"; $"./y"])) = Some ([($"trimpath", $"true"); ($"o", $"/tmp/t")], [$"-x"; $"./y"]).
Proof.
  assert (P : forall c, c <> [] -> ~ In slash c -> c <> dot -> c <> dotdot -> plain_comp c) by (intros; repeat split; auto).
  split; [|split; [|split; vm_compute; reflexivity]].
  - constructor; [repeat constructor; intros []|repeat constructor; apply P; try discriminate; cbn; intros X; repeat destruct X as [X|X]; try discriminate; auto|].
    intros c d [X|[]]. injection X as <- <-. constructor.
  - split; [intros [a b] [c d] E; cbn [fst snd] in E; injection E as -> E; f_equal; lia|]. intros [|c [|c' p]].
    + vm_compute. repeat split; discriminate.
    + unfold info_at. cbn [file_at ex_program]. destruct (str_eqb $"tool" c); [|exact Logic.I]. vm_compute. repeat split; discriminate.
    + unfold info_at. cbn [file_at ex_program]. destruct (str_eqb $"tool" c); exact Logic.I.
Qed.

(** ** C97: [build_command w base tag uses args] is "ocibuild image build --base=base --tag=tag", with the configuration
    flags [uses] and the files [args]; [w] tells what opening them gives. *)

(** What is written: the layers of the base and then those that are named, in their order, and the configuration of the
    base with the changes that the flags ask for. *)
Theorem C97_written_partial : forall (others layer : Type) (w : files others layer) base tag uses args t img,
  build_command w base tag uses args = Built t img ->
  tag_is w tag t /\ write_ok w = true /\ exists b layers c,
  base_is w base b /\ Forall2 (fun a x => open_layer w a = Some x) args layers /\ bi_config b = Some c /\
  im_layers img = bi_layers b ++ layers /\
  elems (cfg_env (im_config img)) = (if last (clear_args uses) false then [] else elems (cfg_env c)) ++ env_args uses /\
  cfg_entrypoint (im_config img) = (match entrypoint_args uses with [] => cfg_entrypoint c | l => Some l end) /\
  cfg_cmd (im_config img) = (match cmd_args uses with [] => cfg_cmd c | l => Some l end) /\
  cfg_workdir (im_config img) = (match last (workdir_args uses) [] with [] => cfg_workdir c | d => d end) /\
  cfg_others (im_config img) = cfg_others c /\
  (nothing_asked uses -> im_config img = c).
Proof. exact @build_fields. Qed.
Print Assumptions C97_written_partial.
(** It is written if everything can be read and the output can be written. *)
Theorem C97_succeeds_partial : forall (others layer : Type) (w : files others layer) base tag uses args b t layers c,
  base_is w base b -> tag_is w tag t -> Forall2 (fun a x => open_layer w a = Some x) args layers ->
  bi_config b = Some c -> write_ok w = true -> exists img, build_command w base tag uses args = Built t img.
Proof. exact @build_succeeds. Qed.
Print Assumptions C97_succeeds_partial.
(** Errors tell what is wrong: the first of the layers that cannot be opened is reported. *)
Theorem C97_errors_partial : forall (others layer : Type) (w : files others layer) base tag uses args e,
  build_command w base tag uses args = BuildErr e ->
  match e with
  | BBase => base <> [] /\ open_image w base = None
  | BTag => tag <> [] /\ new_tag w tag = None
  | BLayer name => exists l1 l2, args = l1 ++ name :: l2 /\ open_layer w name = None /\ forall a, In a l1 -> open_layer w a <> None
  | BWrite => write_ok w = false \/ exists b, base_is w base b /\ bi_config b = None
  end.
Proof. exact @build_errors. Qed.
Print Assumptions C97_errors_partial.
(** The command crashes exactly if all files can be opened, the configuration of the base cannot be read, and a flag asks
    for a change of it. *)
Theorem C97_crash_partial : forall (others layer : Type) (w : files others layer) base tag uses args,
  build_command w base tag uses args = Crash <->
  ~ nothing_asked uses /\ exists b t layers, base_is w base b /\ bi_config b = None /\ tag_is w tag t /\
  Forall2 (fun a x => open_layer w a = Some x) args layers.
Proof. exact @build_crash. Qed.
Print Assumptions C97_crash_partial.
(** So it can crash. *)
Theorem C97_no_crash_refuted : build_command ex_files $"broken.tar" [] ex_uses [$"a.layer"] = Crash.
Proof. vm_compute. reflexivity. Qed.
Print Assumptions C97_no_crash_refuted.
(** Beside C97 *)
Example C97_case :
  build_command ex_files $"base.tar" $"my:tag" ex_uses [$"b.layer"; $"a.layer"; $"b.layer"] =
    Built (Some $"docker.io/library/my:tag") (mkImage [$"l1"; $"l2"; $"lb"; $"la"; $"lb"]
      (mkCfg (Some [$"PATH=/bin"; $"A=1"; $"B=2"; $"C=3"]) (Some [$"/bin/x"; $"-v"]) (Some [$"sh"]) $"/srv" 7)) /\
  build_command ex_files [] [] [] [$"a.layer"] = Built None (mkImage [$"la"] (empty_config ex_files)) /\
  build_command ex_files $"other.tar" [] [] [$"a.layer"] = BuildErr BBase /\
  build_command ex_files [] $":" [] [$"a.layer"] = BuildErr BTag /\
  build_command ex_files [] [] ex_uses [$"a.layer"; $"c.layer"; $"d.layer"] = BuildErr (BLayer $"c.layer") /\
  build_command ex_files $"broken.tar" [] [] [$"a.layer"] = BuildErr BWrite.
Proof. vm_compute. repeat split. Qed.
