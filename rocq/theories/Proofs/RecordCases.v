(** The examples meet the hypotheses; where the claims fail. *)
From Coq Require Import String Ascii List Bool ZArith NArith Lia Permutation Sorted.
From Verif.Model Require Import GoStr GoPath Pep440 Tar Stat Layer ConfigParser Platform WheelFile EntryPoints Wheel DirectURL Record LayerWheel.
From Verif.Spec Require Import PathSpec SimpleAPISpec LayerSpec EntryPointsSpec WheelSpec DirectURLSpec RecordSpec LayerWheelSpec WheelExamples RecordExamples.
From Verif.Proofs Require Import GoStrFacts GoPathFacts Order SimpleAPIFacts LayerFacts SpecifierParse ConfigFacts EntryPointsFacts DirectURLFacts WheelPaths WheelSpread WheelFacts WheelSame WheelCases RecordFacts LayerWheelFacts SquashCheck.
Import ListNotations.
Local Open Scope nat_scope.

Definition tidy_cfg (cfg : config) : bool :=
  nodupb (map Some (map fst (all_entries cfg))) && forallb (fun kv => plain_compb (fst kv) && negb (str_eqb (fst kv) $"RECORD")) (all_entries cfg).
Definition tidy_b (pl : platform) (wh : list zfile) : bool :=
  forallb (fun info => forallb (fun root => forallb (fun f =>
    match destination (pl_scheme pl) root (data_name info) (z_name (zf_header f)), zf_content f with
    | Some (key, name), Bytes raw _ =>
        if str_eqb name (join $"/" (clean_comps root ++ [info; $"entry_points.txt"]))
        then match parse_config ep_parser (if is_script key then shebang_line (pl_console pl) (pl_graphical pl) raw else raw) false with
             | COk cfg => tidy_cfg cfg
             | CErr _ => true
             end
        else true
    | _, _ => true
    end) wh) [s_purelib (pl_scheme pl); s_platlib (pl_scheme pl)]) (infos wh).
Lemma tidy_ok pl wh : tidy_b pl wh = true -> tidy_entry_points pl wh.
Proof.
  intros H info root text cfg IO RO (f & key & raw & ok & If & D & C & ->) P. unfold tidy_b in H. rewrite forallb_forall in H. specialize (H info (infos_ok _ _ IO)). rewrite forallb_forall in H.
  assert (Ir : In root [s_purelib (pl_scheme pl); s_platlib (pl_scheme pl)]) by (destruct RO as [-> | ->]; cbn; auto). specialize (H root Ir). rewrite forallb_forall in H. specialize (H f If).
  rewrite D, C, str_eqb_refl, P in H. unfold tidy_cfg in H. apply andb_true_iff in H as [H1 H2]. split.
  - apply nodupb_ok in H1. now apply NoDup_map_inv in H1.
  - apply Forall_forall. intros kv I. rewrite forallb_forall in H2. specialize (H2 kv I). apply andb_true_iff in H2 as [H2 H3]. split; [now apply plain_compb_ok|].
    intros E. rewrite E in H3. vm_compute in H3. discriminate.
Qed.
Lemma command_tidy : tidy_entry_points ex_pl ex_command.
Proof. apply tidy_ok. vm_compute. reflexivity. Qed.
Lemma command_tame : tame (pl_scheme ex_pl) ex_command.
Proof. apply tame_ok. vm_compute. reflexivity. Qed.
Lemma tools_fair o : fair o -> fair (ex_tools_of o).
Proof. exact (fun H => H). Qed.
Lemma tools_same o o' : same_tools o o' -> same_tools (ex_tools_of o) (ex_tools_of o').
Proof. intros (A & _ & B & C & D & E). repeat (split; [assumption || reflexivity|]). exact E. Qed.

Lemma script_unrecorded : exists l e, ex_layer ex_command = IOk l /\ In e l /\ th_name (fst e) = $"usr/bin/run" /\ snd e = $"#!/bin/python3.9" /\
  exists e0 rows, In e0 l /\ th_name (fst e0) = $"usr/lib/foo-1.0.dist-info/RECORD" /\ rfc4180 (snd e0) = Some rows /\
    In [$"../bin/run"; $"sha256=#!python"; $"8"] rows.
Proof. do 2 eexists. split; [vm_compute; reflexivity|]. split; [do 4 right; left; reflexivity|]. do 2 (split; [reflexivity|]). do 2 eexists. split; [do 12 right; left; reflexivity|]. split; [reflexivity|]. split; [vm_compute; reflexivity|]. do 2 right. left. reflexivity. Qed.
Lemma cr_unrecorded : exists l e e0 rows, ex_layer ex_cr_name = IOk l /\ In e l /\ th_type (fst e) = TypeReg /\ In e0 l /\ th_name (fst e0) = $"usr/lib/foo-1.0.dist-info/RECORD" /\
  rfc4180 (snd e0) = Some rows /\ forall row, In row rows -> ~ leads_to $"usr/lib" (row_name_of row) (th_name (fst e)).
Proof.
  do 4 eexists. split; [vm_compute; reflexivity|]. split; [do 2 right; left; reflexivity|]. split; [reflexivity|]. split; [do 5 right; left; reflexivity|]. split; [reflexivity|]. split; [vm_compute; reflexivity|].
  intros row I. repeat (destruct I as [<-|I]; [intros E; vm_compute in E; discriminate|]). destruct I.
Qed.
Lemma two_rows : exists l e0 rows row1 row2, ex_layer ex_record_point = IOk l /\ In e0 l /\ th_name (fst e0) = $"usr/lib/foo-1.0.dist-info/RECORD" /\
  rfc4180 (snd e0) = Some rows /\ In row1 rows /\ In row2 rows /\ row1 <> row2 /\ row_name_of row1 = $"foo-1.0.dist-info/RECORD" /\ row_name_of row2 = $"foo-1.0.dist-info/RECORD".
Proof.
  do 5 eexists. split; [vm_compute; reflexivity|]. split; [do 8 right; left; reflexivity|]. split; [reflexivity|]. split; [vm_compute; reflexivity|].
  split; [right; left; reflexivity|]. split; [do 2 right; left; reflexivity|]. split; [intros E; vm_compute in E; discriminate|]. split; reflexivity.
Qed.
Lemma nested_arrays : json_dumps ex_nested_arrays = Some $"[[][]]" /\ py_dumps ex_nested_arrays = $"[[], []]".
Proof. split; vm_compute; reflexivity. Qed.
