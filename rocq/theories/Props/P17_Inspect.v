(** C73-C75: "ocibuild python inspect" and the platform file.  [look_path utf8 n layers cfg] models
    ImageFS.LookPath on an image (C60), [native_look ex dirs] exec.LookPath on the host;
    [unpack empty_root layers] is the unpacked image. *)
From Coq Require Import String Ascii List Bool ZArith Lia Permutation.
From Verif.Model Require Import GoStr GoPath Tar Squash VfsFS LookPath WheelName Platform Inspect.
From Verif.Spec Require Import PathSpec SquashSpec VfsFSSpec LookPathSpec InspectSpec PlatFileSpec.
From Verif.Proofs Require Import LookPathFacts InspectFacts PlatFileFacts LookThrough.
Import ListNotations.
Local Open Scope nat_scope.

(** *** C73: the interpreters for shebangs *)
Theorem C73_image_partial : forall utf8 n layers cfg name, handled layers ->
  match shebangs (look_path utf8 n layers cfg) name with
  | Shebangs c g => exists d f, look_path utf8 n layers cfg name = Found (as_text (d ++ [f])) /\
      ((forall x, variant f x -> askable utf8 (d ++ [x])) -> interpreters (runs (unpack empty_root layers)) d f c g)
  | ShebangErr => look_path utf8 n layers cfg name = NotFound
  | ShebangCrash => exists s, look_path utf8 n layers cfg s = Crashed
  end.
Proof. exact shebangs_image. Qed.
Print Assumptions C73_image_partial.
(** On the host, if the interpreter is found at an absolute cleaned path *)
Theorem C73_native_partial : forall ex dirs name d f, native_look ex dirs name = Found (as_text (d ++ [f])) -> plain_path (d ++ [f]) ->
  exists c g, shebangs (native_look ex dirs) name = Shebangs c g /\ interpreters (fun p => ex (as_text p) = true) d f c g.
Proof. exact shebangs_native. Qed.
Print Assumptions C73_native_partial.
(** An interpreter in the working directory is replaced by one of PATH, or is not seen at all: the
    directory "./" gets lost. *)
Theorem C73_relative_refuted : let ex s := existsb (str_eqb s) [$"./pythonw3"; $"./python3"; $"/usr/bin/python3"] in
  shebangs (native_look ex [$"/usr/bin"]) $"./pythonw3" = Shebangs $"/usr/bin/python3" $"./pythonw3" /\
  shebangs (native_look ex []) $"./pythonw3" = Shebangs $"./pythonw3" $"./pythonw3" /\
  shebangs (native_look ex []) $"./python3" = Shebangs $"./python3" $"./python3".
Proof. vm_compute. auto. Qed.
Print Assumptions C73_relative_refuted.
(** Links, a graphical interpreter beside the console interpreter, another that stands alone *)
Example C73_nonvacuous : let layers := [[a_dir $"usr/"; a_dir $"usr/bin/"; a_program TypeReg $"usr/bin/python3"; a_program TypeReg $"usr/bin/pythonw3"; a_symlink $"bin" $"usr/bin"];
    [a_program TypeReg $"usr/bin/pypy"; a_program TypeReg $"usr/bin/python2"; a_file $"usr/bin/pythonw2" []]] in
  let cfg := Some (mkImageConfig [] [$"PATH=/sbin:/bin"]) in
  handled layers /\ (forall x, variant $"python3" x -> askable (fun _ => true) [$"bin"; x]) /\
  shebangs (look_path (fun _ => true) 12 layers cfg) $"python3" = Shebangs $"/bin/python3" $"/bin/pythonw3" /\
  shebangs (look_path (fun _ => true) 12 layers cfg) $"pythonw3" = Shebangs $"/bin/python3" $"/bin/pythonw3" /\
  shebangs (look_path (fun _ => true) 12 layers cfg) $"/usr/bin/python2" = Shebangs $"/usr/bin/python2" $"/usr/bin/python2" /\
  shebangs (look_path (fun _ => true) 12 layers cfg) $"pypy" = Shebangs $"/bin/pypy" $"/bin/pypy" /\
  shebangs (look_path (fun _ => true) 12 layers cfg) $"pythonw2" = ShebangErr.
Proof.
  cbv zeta. split; [apply handledb_ok; vm_compute; reflexivity|]. split; [|vm_compute; repeat split; reflexivity].
  intros x [-> | (v & [[E _]|[E ->]])]; [|discriminate|apply (f_equal (skipn 6)) in E; cbn in E; subst v]; split; try reflexivity; repeat constructor.
Qed.
Example C73_native_nonvacuous : let ex s := existsb (str_eqb s) [$"/opt/bin/pythonw3"; $"/opt/bin/python3"] in
  native_look ex [$"/usr/bin"; $"/opt/bin"] $"pythonw3" = Found (as_text [$"opt"; $"bin"; $"pythonw3"]) /\
  shebangs (native_look ex [$"/usr/bin"; $"/opt/bin"]) $"pythonw3" = Shebangs $"/opt/bin/python3" $"/opt/bin/pythonw3".
Proof. vm_compute. auto. Qed.

(** *** C74: what goes into the platform file: the owner of the first of the installation directories
    that has one, in this order, and on the host the first Python with the magic number of the image *)
Theorem C74_inspect : forall image look stat dynamic host_look host_dynamic unbase64 interpreter p,
  inspect image look stat dynamic host_look host_dynamic unbase64 interpreter = Inspected p <->
  exists con gra dyn magic o full, shebangs look interpreter = Shebangs con gra /\ dynamic con = Some dyn /\ unbase64 (dy_magic dyn) = Some magic /\
    (exists before d after, [s_purelib (dy_scheme dyn); s_platlib (dy_scheme dyn); s_headers (dy_scheme dyn); s_scripts (dy_scheme dyn); s_data (dy_scheme dyn)] = before ++ d :: after /\
       stat d = Owned o /\ Forall (fun x => stat x = NoStat) before) /\
    (if image
     then exists before n after, [$"python" ++ itoa (vi_major (dy_version dyn)) ++ $"." ++ itoa (vi_minor (dy_version dyn)); $"python" ++ itoa (vi_major (dy_version dyn)); $"python"] = before ++ n :: after /\
            usable host_look host_dynamic (dy_magic dyn) n full /\ Forall (fun x => forall y, ~ usable host_look host_dynamic (dy_magic dyn) x y) before
     else full = con) /\
    p = mkPlatFile (mkPlatform con gra (dy_scheme dyn) (o_uid o) (o_gid o) (o_uname o) (o_gname o)) (dy_version dyn) magic (dy_tags dyn) [full; $"-m"; $"compileall"].
Proof. exact inspect_ok. Qed.
Print Assumptions C74_inspect.
(** It crashes only if the search for the interpreter or for the owner does; in all other cases there is an error. *)
Theorem C74_crash : forall image look stat dynamic host_look host_dynamic unbase64 interpreter,
  inspect image look stat dynamic host_look host_dynamic unbase64 interpreter = InspectCrash <->
  shebangs look interpreter = ShebangCrash \/
  exists con gra dyn, shebangs look interpreter = Shebangs con gra /\ dynamic con = Some dyn /\ unbase64 (dy_magic dyn) <> None /\
    exists before d after, [s_purelib (dy_scheme dyn); s_platlib (dy_scheme dyn); s_headers (dy_scheme dyn); s_scripts (dy_scheme dyn); s_data (dy_scheme dyn)] = before ++ d :: after /\
       stat d = StatCrash /\ Forall (fun x => stat x = NoStat) before.
Proof. exact inspect_crash. Qed.
Print Assumptions C74_crash.
Example C74_crash_nonvacuous : let dyn := mkDynamic (dy_magic a_dynamic) [] (dy_version a_dynamic) (mkScheme $"/a" $"/b" $"/c" $"/d" $"/e") in
  let run stat := inspect true (fun s => Found $"/bin/python3") stat (fun _ => Some dyn) (fun _ => None) (fun _ => None) (fun s => Some s) $"python3" in
  run (fun s => if str_eqb s $"/a" then NoStat else StatCrash) = InspectCrash /\ run (fun _ => NoStat) = InspectErr /\
  inspect true (fun s => Crashed) (fun _ => NoStat) (fun _ => Some dyn) (fun _ => None) (fun _ => None) (fun s => Some s) $"python3" = InspectCrash.
Proof. vm_compute. auto. Qed.
(** In an image the owner is that of the unpacked directory, for cleaned paths other than the root. *)
Theorem C74_owner_partial : forall utf8 n layers t ps, handled layers -> load_layers n true layers = Ret t -> (forall p, In p ps -> p <> [] /\ plain_path p /\ askable utf8 p) ->
  match first_owner (image_stat utf8 n t) (map as_text ps) with
  | Owned o => exists pre p post, ps = pre ++ p :: post /\ (owned_by (unpack empty_root layers) p o \/ undescribed (unpack empty_root layers) p) /\
      forall p' o', In p' pre -> ~ owned_by (unpack empty_root layers) p' o'
  | NoStat => forall p o, In p ps -> ~ owned_by (unpack empty_root layers) p o
  | StatCrash => True
  end.
Proof. exact owner_first. Qed.
Print Assumptions C74_owner_partial.
(** For layers that are written through links Stat tells what it tells of the entries at the places where the links lead. *)
Theorem C74_through_partial : forall layers layers', Forall (Forall in_root) layers -> plain_stack layers' ->
  all_at_target empty_root (all_entries layers) (all_entries layers') ->
  exists N t t', (forall n, N <= n -> load_layers n true layers = Ret t /\ load_layers n true layers' = Ret t') /\
    forall utf8 n name, image_stat utf8 n t name = image_stat utf8 n t' name.
Proof. exact image_stat_through. Qed.
Print Assumptions C74_through_partial.
(** Other paths are passed over although they exist: with a slash at the end, or the root itself. *)
Theorem C74_owner_refuted : (forall utf8 n t name, is_abs name = true -> name <> $"/." -> clean name <> name \/ name = $"/" -> image_stat utf8 n t name = NoStat) /\
  let layers := [[a_dir $"./"; a_dir $"usr/"; a_dir $"usr/include/"]] in
  handled layers /\ (exists o, owned_by (unpack empty_root layers) [$"usr"; $"include"] o) /\ (exists o, owned_by (unpack empty_root layers) [] o) /\
  exists t, load_layers 9 true layers = Ret t /\ first_owner (image_stat (fun _ => true) 9 t) [$"/usr/include/"; $"/usr//include"; $"/"] = NoStat.
Proof.
  split; [exact stat_unclean|]. cbv zeta. split; [apply handledb_ok; vm_compute; reflexivity|]. split; [|split].
  - eexists. exists [$"usr"; $"include"], [$"usr"; $"include"], (anon (fst (a_dir $"usr/include/"))). split; [|split; [|split]].
    + apply (direct_walk _ [$"usr"; $"include"] []).
      * repeat constructor; try discriminate; cbn; intuition discriminate.
      * intros [|x [|y r1]] w r2 E; [vm_compute; eauto| |exfalso; apply (f_equal (@length str)) in E; cbn [app length] in E; rewrite app_length in E; cbn [length] in E; lia].
        pose proof (f_equal (hd []) E) as X. cbn [hd app] in X. subst x. vm_compute. eauto.
      * vm_compute. discriminate.
    + eapply ends_dir. vm_compute. reflexivity.
    + left. vm_compute. reflexivity.
    + reflexivity.
  - eexists. exists [], [], (anon (fst (a_dir $"./"))). split; [apply walks_nil|]. split; [eapply ends_dir; vm_compute; reflexivity|]. split; [left; vm_compute; reflexivity|reflexivity].
  - eexists. split; vm_compute; reflexivity.
Qed.
Print Assumptions C74_owner_refuted.
(** The first directory is not described, the second is a link; the first host Python has another magic number. *)
Example C74_nonvacuous : let layers := [[a_dir $"opt/"; a_dir $"opt/lib/"; a_symlink $"lib" $"opt/lib"]; [(mkHeader TypeDir $"opt/lib/" [] 0 493 7 8 $"py" $"pyg" None None None 0 0 [] 0, [])]] in
  let dyn := mkDynamic (dy_magic a_dynamic) (dy_tags a_dynamic) (dy_version a_dynamic) (mkScheme $"/none" $"/lib" $"/include/" $"/bin" $"/") in
  let host n := if str_eqb n $"python3.9" then Some $"/h/python3.9" else if str_eqb n $"python" then Some $"/h/python" else None in
  let host_dynamic f := if str_eqb f $"/h/python" then Some dyn else Some (mkDynamic $"AAAA" [] (mkVI 3 9 0 [] 0) help_scheme) in
  handled layers /\ (forall p, In p [[$"none"]; [$"lib"]] -> p <> [] /\ plain_path p /\ askable (fun _ => true) p) /\
  (exists t, load_layers 12 true layers = Ret t /\ first_owner (image_stat (fun _ => true) 12 t) [$"/none"; $"/lib"] = Owned (mkOwner 7 8 $"py" $"pyg") /\
   inspect true (fun s => Found $"/bin/python3") (image_stat (fun _ => true) 12 t) (fun _ => Some dyn) host host_dynamic (fun _ => Some a_magic) $"python3" =
     Inspected (mkPlatFile (mkPlatform $"/bin/python3" $"/bin/python3" (dy_scheme dyn) 7 8 $"py" $"pyg") (dy_version dyn) a_magic (dy_tags dyn) [$"/h/python"; $"-m"; $"compileall"])).
Proof.
  cbv zeta. split; [apply handledb_ok; vm_compute; reflexivity|]. split.
  - intros p [<-|[<-|[]]]; (split; [discriminate|]); (split; [|split; [reflexivity|repeat constructor]]); repeat constructor; try discriminate; cbn; intuition discriminate.
  - eexists. split; [vm_compute; reflexivity|]. split; vm_compute; reflexivity.
Qed.

(** *** C75: the platform file that "python inspect" writes is read by "layer wheel" as what it was written for. *)
Theorem C75_roundtrip : forall p, Forall tag_parts (pf_tags p) -> read_plat (plat_doc p) = Some p.
Proof. exact plat_roundtrip. Qed.
Print Assumptions C75_roundtrip.
(** The order of the keys does not matter, nor does their case, there and in files written by hand. *)
Theorem C75_keys : forall d d', same_doc d d' -> read_plat d = read_plat d'.
Proof. exact read_same. Qed.
Print Assumptions C75_keys.
(** Other keys are refused. *)
Theorem C75_known : forall d p, read_plat d = Some p -> known d.
Proof. exact read_known. Qed.
Print Assumptions C75_known.
(** A file is read exactly if each key has a value of the right kind, and then each field has that value;
    fields that are left out are empty. *)
Theorem C75_values : forall l p, unambiguous l -> (read_plat (DMap l) = Some p <-> is_plat l p).
Proof. exact plat_spec. Qed.
Print Assumptions C75_values.
Example C75_values_nonvacuous : (forall d l, d = help_doc -> d = DMap l -> unambiguous l) /\
  (let l := [($"tags", DSeq [DStr $"cp39-cp39-any"]); ($"MagicNumber", DSeq [DInt 97; DInt 13])] in unambiguous l /\
   read_plat (DMap l) = Some (mkPlatFile (mkPlatform [] [] (mkScheme [] [] [] [] []) 0 0 [] []) (mkVI 0 0 0 [] 0) ["a"%char; "013"%char] [mkTag $"cp39" $"cp39" $"any"] [])) /\
  read_plat (DMap [($"tags", DSeq [DStr $"cp39-cp39"])]) = None /\ read_plat (DMap [($"magicnumber", DSeq [DInt 256])]) = None /\ read_plat (DMap [($"pycompile", DSeq [DStr $"python"; DMap []])]) = None.
Proof.
  split; [intros d l -> E; injection E as <-; split; [unfold distinct_keys; repeat constructor; cbn; intuition discriminate|]; intros k m [I|[I|[I|I]]]; try discriminate;
    [injection I as <- <-; unfold distinct_keys; repeat constructor; cbn; intuition discriminate|cbn in I; intuition discriminate]|].
  split; [split; [split; [unfold distinct_keys; repeat constructor; cbn; intuition discriminate|intros k m [I|[I|[]]]; discriminate]|vm_compute; reflexivity]|vm_compute; auto].
Qed.
Example C75_nonvacuous : let p := mkPlatFile (mkPlatform $"/bin/python3" $"/bin/pythonw3" help_scheme 7 8 $"py" $"pyg") (dy_version a_dynamic) a_magic (dy_tags a_dynamic) [$"/h/python"; $"-m"; $"compileall"] in
  Forall tag_parts (pf_tags p) /\ plat_doc p <> plat_doc help_plat /\ read_plat help_doc = Some help_plat /\
  same_doc (DMap [($"uid", DInt 7); ($"scheme", DMap [($"data", DStr $"/"); ($"scripts", DStr $"/bin")])]) (DMap [($"Scheme", DMap [($"Scripts", DStr $"/bin"); ($"data", DStr $"/")]); ($"UID", DInt 7)]) /\
  read_plat (DMap [($"uid", DInt 7); ($"scheme", DMap [($"data", DStr $"/")])]) <> None /\ read_plat (DMap [($"userid", DInt 7)]) = None /\ read_plat (DMap [($"scheme", DMap [($"lib", DStr $"/")])]) = None.
Proof.
  cbv zeta. split; [repeat constructor; cbn; intuition discriminate|]. split; [discriminate|]. split; [vm_compute; reflexivity|]. split; [|vm_compute; repeat split; discriminate || reflexivity].
  apply same_map; [repeat constructor; cbn; intuition discriminate|]. eexists. split; [apply perm_swap|]. constructor; [split; [reflexivity|cbn [snd]]|constructor; [split; [reflexivity|apply same_leaf]|constructor]].
  apply same_map; [repeat constructor; cbn; intuition discriminate|]. eexists. split; [apply perm_swap|]. repeat constructor.
Qed.
