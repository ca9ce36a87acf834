(** C48, C49, C68: configuration files, entry points, platforms.  [parse_config p text
    fails] is ConfigParser.Parse on a file with this text, reading which ends in an
    error if [fails]; [create_scripts] is the hook of entry_points.CreateScripts,
    with the orders in which Go ranges over the maps; [plat_init] is
    Platform.Init.  [split_on nl text] are the lines of a text. *)
From Coq Require Import String Ascii List Bool NArith ZArith Permutation.
From Verif.Model Require Import GoStr UniSpace GoPath Pep440 Layer ConfigParser Platform WheelFile EntryPoints.
From Verif.Spec Require Import WhiteSpaceSpec PathSpec ConfigSpec EntryPointsSpec PlatformSpec.
From Verif.Proofs Require Import WhiteSpaceFacts ConfigFacts EntryPointsFacts PlatformFacts.
Import ListNotations.

(** ** C48: configuration files *)
(** The lines are trimmed of white space, as Unicode has it. *)
Theorem C48_white_space : forall s m, trim_space_u s = m <-> solid_ends m /\ exists a b, s = a ++ m ++ b /\ blanks a /\ blanks b.
Proof. exact trim_iff. Qed.
Print Assumptions C48_white_space.
Theorem C48_parse_render : forall p ds cs c, usual p ds cs -> good_config p ds cs c ->
  parse_config p (render c) false = COk c.
Proof. exact parse_render. Qed.
Print Assumptions C48_parse_render.
(** [usual] covers the two parsers there are. *)
Theorem C48_usual : (usual new_config_parser ["="; ":"]%char ["#"; ";"]%char /\ usual ep_parser ["="]%char ["#"; ";"]%char) /\
  p_strict new_config_parser = true /\ p_strict ep_parser = true.
Proof.
  split; [|split; reflexivity]. split; (split; [reflexivity|reflexivity|reflexivity|reflexivity|now left| |]); intros c I;
    repeat (destruct I as [<-|I]; [split; [reflexivity|discriminate] || (split; reflexivity)|]); destruct I.
Qed.
Print Assumptions C48_usual.
(** Whatever else the file says: *)
Theorem C48_duplicate_section : forall p ds cs text fails before between after name, usual p ds cs -> p_strict p = true ->
  split_on nl text = before ++ ($"[" ++ name ++ $"]") :: between ++ ($"[" ++ name ++ $"]") :: after ->
  is_error (parse_config p text fails).
Proof. exact dup_section_error. Qed.
Print Assumptions C48_duplicate_section.
Theorem C48_duplicate_key : forall p ds cs text fails before between after k sp1 d1 v1 sp2 d2 v2, usual p ds cs -> p_strict p = true ->
  good_key ds cs k -> blanks sp1 -> blanks sp2 -> In d1 ds -> In d2 ds ->
  no_header between ->
  split_on nl text = before ++ (k ++ sp1 ++ d1 :: v1) :: between ++ (k ++ sp2 ++ d2 :: v2) :: after ->
  is_error (parse_config p text fails).
Proof. exact dup_key_error. Qed.
Print Assumptions C48_duplicate_key.
Theorem C48_stray_line : forall p ds cs text fails line, usual p ds cs ->
  In line (split_on nl text) -> stray ds cs line -> is_error (parse_config p text fails).
Proof. exact stray_error. Qed.
Print Assumptions C48_stray_line.
Theorem C48_no_section : forall p ds cs text fails k sp d v after, usual p ds cs ->
  good_key ds cs k -> blanks sp -> In d ds ->
  split_on nl text = (k ++ sp ++ d :: v) :: after -> is_error (parse_config p text fails).
Proof. exact no_section_error. Qed.
Print Assumptions C48_no_section.
Theorem C48_read_error : forall p text, is_error (parse_config p text true).
Proof. exact read_error. Qed.
Print Assumptions C48_read_error.
(** Parsers with inline comments (there is none in the code): the text from the mark on does not count,
    unless the mark is the first character of the line. *)
Theorem C48_inline_comment : forall p c st a b, p_inline p = [[c]] -> ascii_byte c -> ~ In c a -> ~ blanks a ->
  existsb (fun m => has_prefix m (trim_space_u a)) (p_comments p) = false ->
  existsb (fun m => has_prefix m (trim_space_u (a ++ c :: b))) (p_comments p) = false ->
  parse_line p st (a ++ c :: b) = parse_line p st a.
Proof. intros p c st a b P A N B. apply inline_comment; auto. now rewrite trim_blank. Qed.
Print Assumptions C48_inline_comment.
Theorem C48_inline_at_start : forall p c st b, p_inline p = [[c]] -> ~ In c b ->
  parse_line p st (c :: b) =
  parse_line (mkParser (p_delims p) (p_comments p) [] (p_strict p) (p_empty_lines p) (p_transform p)) st (c :: b).
Proof. exact inline_at_start. Qed.
Print Assumptions C48_inline_at_start.
Example C48_case_inline :
  parse_config (mkParser [$"="] [$"#"] [$"!"] true true (fun k => k)) ($"[a]" ++ [nl] ++ $"k=1 !x" ++ [nl] ++ $"!m=2") false
  = COk [($"a", [($"k", $"1"); ($"!m", $"2")])].
Proof. vm_compute. reflexivity. Qed.
(** Beside C48: two sections, an empty value, a value of three lines, the middle one empty. *)
Example C48_case_good : good_config ep_parser ["="]%char ["#"; ";"]%char example_config.
Proof.
  assert (T : forall k v, In (k, v) [($"foo", $"pkg.mod:main"); ($"bar baz", $"x = y #z")] \/
              In (k, v) [($"k", []); ($"long", $"first" ++ [nl; nl] ++ $"[third]")] ->
              (good_key ["="]%char ["#"; ";"]%char k /\ k = k) /\ good_value ["#"; ";"]%char v).
  { intros k v I.
    assert (E : (k, v) = ($"foo", $"pkg.mod:main") \/ (k, v) = ($"bar baz", $"x = y #z") \/ (k, v) = ($"k", []) \/
                (k, v) = ($"long", $"first" ++ [nl; nl] ++ $"[third]")).
    { destruct I as [[I|[I|[]]]|[I|[I|[]]]]; auto. }
    clear I. destruct E as [E|[E|[E|E]]]; injection E as -> ->;
      (split; [split; [|reflexivity]; split; [discriminate|]; split; [apply solid_trim_u; vm_compute; reflexivity|]; split;
                 [cbn; intuition discriminate|]; split;
                 [intros c [<-|[]]; cbn; intuition discriminate|cbn; intuition discriminate]|]);
      (split; [repeat (apply Forall_cons; [apply solid_trim_u; vm_compute; reflexivity|]); apply Forall_nil|]; split; [repeat constructor; cbn; intuition discriminate|]; intros w F;
       apply (f_equal (@rev ascii)) in F; rewrite rev_app_distr in F; discriminate F). }
  split.
  - repeat constructor; cbn; intuition discriminate.
  - intros n s I. repeat (destruct I as [I|I]; [injection I as <- <-; unfold good_name; cbn; intuition discriminate|]). destruct I.
  - intros n s I. repeat (destruct I as [I|I]; [injection I as <- <-; repeat constructor; cbn; intuition discriminate|]). destruct I.
  - intros n s k v I J. destruct I as [I|[I|[I|[]]]]; injection I as <- <-; [apply (T k v); auto|apply (T k v); auto|destruct J].
  - intros n s k v I J. destruct I as [I|[I|[I|[]]]]; injection I as <- <-; [apply (T k v); auto|apply (T k v); auto|destruct J].
Qed.
Example C48_case : parse_config ep_parser (render example_config) false = COk example_config.
Proof. vm_compute. reflexivity. Qed.
Example C48_case_errors :
  is_error (parse_config ep_parser ($"[a]" ++ [nl] ++ $"k=1" ++ [nl] ++ $" k=2" ++ [nl] ++ $"k = 3") false) /\
  is_error (parse_config ep_parser ($"[a]" ++ [nl] ++ $"k=1" ++ [nl] ++ $"[a]") false) /\
  is_error (parse_config ep_parser ($"[a]" ++ [nl] ++ $"k") false).
Proof. repeat split; eexists; vm_compute; reflexivity. Qed.
(** Characters outside ASCII; white space of Unicode at the end of a value is lost. *)
Example C48_case_wide : parse_config ep_parser (render example_wide) false = COk example_wide /\
  parse_config ep_parser (render [($"s", [($"k", $"v" ++ encode 160)])]) false = COk [($"s", [($"k", $"v")])] /\
  ~ solid_ends ($"v" ++ encode 160).
Proof.
  split; [vm_compute; reflexivity|]. split; [vm_compute; reflexivity|]. intros [_ H]. apply (H (encode 160) $"v"); [|reflexivity].
  exists 160%N. split; [vm_compute; tauto|reflexivity].
Qed.
(** The format's limit: a further line of a value that looks like a comment is lost. *)
Theorem C48_comment_in_value :
  let v := $"a" ++ [nl] ++ $"#b" in
  parse_config ep_parser (render [($"s", [($"k", v)])]) false = COk [($"s", [($"k", $"a")])].
Proof. vm_compute. reflexivity. Qed.
Print Assumptions C48_comment_in_value.

(** ** C49: entry points *)

(** One executable for each entry; where the object is not dotted the text is that
    of pip's launcher.  Missing: dotted objects, names that collide. *)
Theorem C49_scripts_partial : forall outer order,
  (forall l, Permutation (outer l) l) -> (forall s l, Permutation (order s l) l) ->
  forall pl pl' clamp_time fs dist_info r text ok cfg fs', plat_init pl = Some pl' ->
  get_key (path_join [dist_info; $"entry_points.txt"]) fs = Some r -> ref_content r = Bytes text ok ->
  parse_config ep_parser text false = COk cfg ->
  create_scripts outer order pl clamp_time fs dist_info = inl fs' ->
  NoDup (map (fun kv => script_name (s_scripts (pl_scheme pl)) (fst kv)) (all_entries cfg)) ->
  forall sect shebang k v,
  sect = $"console_scripts" /\ shebang = pl_console pl' \/ sect = $"gui_scripts" /\ shebang = pl_graphical pl' ->
  In (k, v) (entries_of cfg sect) ->
  exists m f file, refers v m f /\ get_key (script_name (s_scripts (pl_scheme pl)) k) fs' = Some file /\
    ref_full file = script_name (s_scripts (pl_scheme pl)) k /\ ref_mode file = 493%N /\ ref_mtime file = clamp_time /\
    exists script, ref_content file = Bytes script true /\ ref_size file = Z.of_nat (length script) /\
      (~ In "."%char f -> script = wanted_script shebang m f).
Proof. exact scripts_made. Qed.
Print Assumptions C49_scripts_partial.
(** Nothing else changes. *)
Theorem C49_others_partial : forall outer order,
  (forall l, Permutation (outer l) l) -> (forall s l, Permutation (order s l) l) ->
  forall pl pl' clamp_time fs dist_info r text ok cfg fs', plat_init pl = Some pl' ->
  get_key (path_join [dist_info; $"entry_points.txt"]) fs = Some r -> ref_content r = Bytes text ok ->
  parse_config ep_parser text false = COk cfg ->
  create_scripts outer order pl clamp_time fs dist_info = inl fs' ->
  forall n, ~ In n (map (fun kv => script_name (s_scripts (pl_scheme pl)) (fst kv)) (all_entries cfg)) ->
  get_key n fs' = get_key n fs.
Proof. exact others_kept. Qed.
Print Assumptions C49_others_partial.
(** It succeeds exactly if every entry is a reference "module:object". *)
Theorem C49_accepts_partial : forall outer order,
  (forall l, Permutation (outer l) l) -> (forall s l, Permutation (order s l) l) ->
  forall pl pl' clamp_time fs dist_info r text ok cfg, plat_init pl = Some pl' ->
  get_key (path_join [dist_info; $"entry_points.txt"]) fs = Some r -> ref_content r = Bytes text ok ->
  parse_config ep_parser text false = COk cfg ->
  (exists fs', create_scripts outer order pl clamp_time fs dist_info = inl fs') <->
  (forall k v, In (k, v) (all_entries cfg) -> exists m f, refers v m f).
Proof. exact scripts_accepted. Qed.
Print Assumptions C49_accepts_partial.
(** A plain name stands in the scripts directory. *)
Theorem C49_name_partial : forall dir key, dir <> [] -> plain_path dir -> plain_comp key ->
  script_name ($"/" ++ join $"/" dir) key = join $"/" (dir ++ [key]).
Proof. exact script_name_plain. Qed.
Print Assumptions C49_name_partial.
(** A file without entry points is left alone; one that does not parse is an error. *)
Theorem C49_absent_partial : forall outer order pl pl' clamp_time fs dist_info, plat_init pl = Some pl' ->
  get_key (path_join [dist_info; $"entry_points.txt"]) fs = None ->
  create_scripts outer order pl clamp_time fs dist_info = inl fs.
Proof. exact scripts_none. Qed.
Print Assumptions C49_absent_partial.
Theorem C49_unparsed_partial : forall outer order pl clamp_time fs dist_info r text ok,
  get_key (path_join [dist_info; $"entry_points.txt"]) fs = Some r -> ref_content r = Bytes text ok ->
  (exists e, parse_config ep_parser text false = CErr e) ->
  exists e, create_scripts outer order pl clamp_time fs dist_info = inr e.
Proof. exact scripts_unparsed. Qed.
Print Assumptions C49_unparsed_partial.
(** For every dotted object the script says "import a.b", which is no Python. *)
Theorem C49_dotted_refuted : forall shebang m f, In "."%char f -> script_text shebang m f <> wanted_script shebang m f.
Proof. exact script_dotted. Qed.
Print Assumptions C49_dotted_refuted.

(** Beside C49: a console script with extras and a graphical one. *)
Example C49_case :
  match create_scripts (fun l => l) (fun _ l => l) example_platform (Some 7%Z)
    (example_vfs ($"[console_scripts]" ++ [nl] ++ $"foo = pkg.mod:main [x]" ++ [nl] ++ $"[gui_scripts]" ++ [nl] ++ $"bar=m:f")) $"lib/p-1.dist-info" with
  | inl fs => map (fun f => (fst f, ref_mode (snd f), ref_content (snd f))) (tl fs) =
      [($"usr/bin/foo", 493%N, Bytes (wanted_script $"/usr/bin/python3" $"pkg.mod" $"main") true);
       ($"usr/bin/bar", 493%N, Bytes (wanted_script $"/usr/bin/python3" $"m" $"f") true)]
  | inr _ => False
  end.
Proof. vm_compute. reflexivity. Qed.
(** The dotted case in full: the text has the line "from m import a.b". *)
Theorem C49_dotted_case_refuted :
  match create_scripts (fun l => l) (fun _ l => l) example_platform (Some 7%Z)
    (example_vfs ($"[console_scripts]" ++ [nl] ++ $"foo = m:a.b")) $"lib/p-1.dist-info" with
  | inl fs => match option_map ref_content (get_key $"usr/bin/foo" fs) with
              | Some (Bytes text _) => In $"from m import a.b" (split_on nl text)
              | _ => False
              end
  | inr _ => False
  end.
Proof. vm_compute. auto 10. Qed.
Print Assumptions C49_dotted_case_refuted.
(** The specification lets readers ignore spaces around the colon; this is refused. *)
Theorem C49_spaces_refuted :
  create_scripts (fun l => l) (fun _ l => l) example_platform (Some 7%Z)
    (example_vfs ($"[console_scripts]" ++ [nl] ++ $"foo = m : f")) $"lib/p-1.dist-info" =
  inr (ENotFunc $"console_scripts" $"foo" $"m : f").
Proof. vm_compute. reflexivity. Qed.
Print Assumptions C49_spaces_refuted.
(** A name can leave the scripts directory. *)
Theorem C49_escape_refuted :
  match create_scripts (fun l => l) (fun _ l => l) example_platform (Some 7%Z)
    (example_vfs ($"[console_scripts]" ++ [nl] ++ $"../../etc/passwd = m:f")) $"lib/p-1.dist-info" with
  | inl fs => map fst (tl fs) = [$"etc/passwd"]
  | inr _ => False
  end.
Proof. vm_compute. reflexivity. Qed.
Print Assumptions C49_escape_refuted.
(** Equal names in both sections: one script, and which one depends on the order
    in which Go ranges over the map. *)
Theorem C49_collision_refuted :
  let run := fun outer => create_scripts outer (fun _ l => l) example_platform (Some 7%Z)
    (example_vfs ($"[console_scripts]" ++ [nl] ++ $"foo = m:f" ++ [nl] ++ $"[gui_scripts]" ++ [nl] ++ $"foo=m:g")) $"lib/p-1.dist-info" in
  match run (fun l => l), run (@rev _) with
  | inl a, inl b => map fst (tl a) = [$"usr/bin/foo"] /\ map fst (tl b) = [$"usr/bin/foo"] /\ a <> b
  | _, _ => False
  end.
Proof. vm_compute. repeat split. discriminate. Qed.
Print Assumptions C49_collision_refuted.

(** ** C68: platforms *)
Theorem C68_init : forall pl pl', plat_init pl = Some pl' ->
  pl_console pl' <> [] /\ pl_graphical pl' <> [] /\
  (pl_console pl <> [] -> pl_console pl' = pl_console pl) /\
  (pl_graphical pl <> [] -> pl_graphical pl' = pl_graphical pl) /\
  Forall (fun p => is_abs p = true) (scheme_paths (pl_scheme pl')) /\
  pl_scheme pl' = pl_scheme pl /\ pl_uid pl' = pl_uid pl /\ pl_gid pl' = pl_gid pl /\
  pl_uname pl' = pl_uname pl /\ pl_gname pl' = pl_gname pl.
Proof. exact init_ok. Qed.
Print Assumptions C68_init.
Theorem C68_init_iff : forall pl, (exists pl', plat_init pl = Some pl') <->
  (pl_console pl <> [] \/ pl_graphical pl <> []) /\ Forall (fun p => is_abs p = true) (scheme_paths (pl_scheme pl)).
Proof. exact init_iff. Qed.
Print Assumptions C68_init_iff.
Theorem C68_init_idempotent : forall pl pl', plat_init pl = Some pl' -> plat_init pl' = Some pl'.
Proof. exact init_idem. Qed.
Print Assumptions C68_init_idempotent.
(** Beside C68: the graphical interpreter is filled in. *)
Example C68_case : option_map pl_graphical (plat_init example_platform) = Some $"/usr/bin/python3" /\ pl_graphical example_platform = [].
Proof. vm_compute. auto. Qed.

(** C69: interpreter versions as PEP 440 versions *)
Theorem C69_order_partial : forall a b pa pb ra rb, small_info a -> small_info b ->
  vi_pep440 a = Some pa -> vi_pep440 b = Some pb ->
  level_rank (vi_level a) = Some ra -> level_rank (vi_level b) = Some rb ->
  Z.compare (public_cmp pa pb) 0 =
  tuple_compare [vi_major a; vi_minor a; vi_micro a; ra] [vi_major b; vi_minor b; vi_micro b; rb].
Proof. exact vi_order. Qed.
Print Assumptions C69_order_partial.
Theorem C69_accepts_partial : forall v, (exists p, vi_pep440 v = Some p) <-> (exists r, level_rank (vi_level v) = Some r).
Proof. exact vi_accepts. Qed.
Print Assumptions C69_accepts_partial.
(** 3.11.0rc1 and 3.11.0rc2 are the same version *)
Theorem C69_serial_refuted : forall v s,
  vi_pep440 (mkVI (vi_major v) (vi_minor v) (vi_micro v) (vi_level v) s) = vi_pep440 v.
Proof. exact vi_serial_lost. Qed.
Print Assumptions C69_serial_refuted.
Example C69_case : exists pa pb, vi_pep440 (mkVI 3 11 0 $"candidate" 1) = Some pa /\ vi_pep440 (mkVI 3 11 0 $"final" 0) = Some pb
  /\ Z.compare (public_cmp pa pb) 0 = Lt.
Proof. do 2 eexists. repeat split; vm_compute; reflexivity. Qed.
