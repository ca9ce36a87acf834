(** C37 to C40: writing layers from file references, comparing layers.
    [layer_from_refs encodable sort vfs clamp_time] is LayerFromFileReferences:
    the entries of the layer or an error; [encodable] says which headers
    tar.Writer accepts, [sort] is sort.Slice.  [readers_equal n a b] and
    [layers_equal n a b] are readersEqual and LayersEqualExceptTimestamps, with
    at most [n] blocks for each comparison of contents. *)
From Coq Require Import String Ascii List Bool ZArith Sorted Permutation Lia.
From Verif.Model Require Import GoStr GoPath Tar Layer.
From Verif.Spec Require Import SimpleAPISpec LayerSpec DirSpec.
From Verif.Proofs Require Import SimpleAPIFacts LayerFacts.
Import ListNotations.
Open Scope nat_scope.

(** ** C37: the order of the entries *)

(** The result does not depend on the order of the references, nor on how
    sort.Slice treats equal elements. *)
Theorem C37_same_layer_partial : forall encodable sort sort' vfs vfs' clamp_time,
  sorts sort -> sorts sort' -> Permutation vfs vfs' ->
  NoDup (map fr_name vfs) -> Forall (fun r => clean_path (fr_name r)) vfs ->
  layer_from_refs encodable sort vfs clamp_time = layer_from_refs encodable sort' vfs' clamp_time.
Proof. exact same_layer. Qed.
Print Assumptions C37_same_layer_partial.
(** The entries are in path order, one for each reference. *)
Theorem C37_in_order_partial : forall encodable sort vfs clamp_time out,
  sorts sort -> NoDup (map fr_name vfs) -> Forall (fun r => clean_path (fr_name r)) vfs ->
  layer_from_refs encodable sort vfs clamp_time = LayerOk out ->
  StronglySorted name_parts_before (map (fun e => th_name (fst e)) out) /\
  exists l, Permutation l vfs /\ Forall2 entry_for l out.
Proof. exact layer_in_order. Qed.
Print Assumptions C37_in_order_partial.
(** A directory comes before everything below it. *)
Theorem C37_parents_first_partial : forall encodable sort vfs clamp_time out d n,
  sorts sort -> NoDup (map fr_name vfs) -> Forall (fun r => clean_path (fr_name r)) vfs ->
  layer_from_refs encodable sort vfs clamp_time = LayerOk out ->
  In d (map fr_name vfs) -> In n (map fr_name vfs) -> below d n ->
  precedes d n (map (fun e => th_name (fst e)) out).
Proof. exact parents_first. Qed.
Print Assumptions C37_parents_first_partial.
(** But not the root of relative paths: "." comes after "-x". *)
Theorem C37_root_refuted : forall sort, sorts sort -> exists vfs out,
  NoDup (map fr_name vfs) /\ Forall (fun r => clean_path (fr_name r)) vfs /\
  layer_from_refs (fun _ => true) sort vfs None = LayerOk out /\
  map (fun e => th_name (fst e)) out = [$"-x"; $"."].
Proof.
  intros sort S.
  pose (vfs := [mkRef $"." (Some (mkHeader TypeDir $"." [] 0 493 0 0 [] [] None None None 0 0 [] 0)) OpenErr;
    mkRef $"-x" (Some (mkHeader TypeReg $"-x" [] 0 420 0 0 [] [] None None None 0 0 [] 0)) (Bytes [] true)]).
  assert (N : NoDup (map fr_name vfs)) by (constructor; [intros [X|[]]; discriminate|constructor; [intros []|constructor]]).
  assert (C : Forall (fun r => clean_path (fr_name r)) vfs) by (repeat constructor).
  exists vfs. rewrite (same_layer _ _ insertion_sort _ _ None S insertion_sorts (Permutation_refl vfs) N C).
  eexists. split; [exact N|]. split; [exact C|]. split; vm_compute; reflexivity.
Qed.
Print Assumptions C37_root_refuted.
(** And for names that differ only in trailing slashes the result depends on
    their order. *)
Theorem C37_trailing_slash_refuted : exists vfs vfs', Permutation vfs vfs' /\ NoDup (map fr_name vfs) /\
  layer_from_refs (fun _ => true) insertion_sort vfs None <> layer_from_refs (fun _ => true) insertion_sort vfs' None.
Proof.
  exists [mkRef $"a" (Some (mkHeader TypeDir $"a" [] 0 493 0 0 [] [] None None None 0 0 [] 0)) OpenErr;
          mkRef $"a/" (Some (mkHeader TypeDir $"a" [] 0 448 0 0 [] [] None None None 0 0 [] 0)) OpenErr].
  eexists. split; [apply perm_swap|]. split; [constructor; [intros [X|[]]; discriminate|constructor; [intros []|constructor]]|].
  vm_compute. discriminate.
Qed.
Print Assumptions C37_trailing_slash_refuted.

(** Beside C37: "a", "a-b" and "a/b" in two orders; part-wise, "a/b" comes first. *)
Example C37_case : let t := Some 3%Z in
  let ref name := mkRef name (Some (mkHeader TypeReg name [] 2 420 0 0 [] [] t None None 0 0 [] 0)) (Bytes $"hi" true) in
  let dir name := mkRef name (Some (mkHeader TypeDir name [] 0 493 0 0 [] [] t None None 0 0 [] 0)) OpenErr in
  let vfs := [ref $"a-b"; ref $"a/b"; dir $"a"] in
  NoDup (map fr_name vfs) /\ Forall (fun r => clean_path (fr_name r)) vfs /\ below $"a" $"a/b" /\
  match layer_from_refs (fun _ => true) insertion_sort vfs None with
  | LayerOk out => map (fun e => (th_name (fst e), snd e)) out = [($"a", []); ($"a/b", $"hi"); ($"a-b", $"hi")]
  | _ => False
  end.
Proof.
  intros t ref dir vfs. split.
  - repeat (constructor; [cbn; intros H; repeat destruct H as [H|H]; try discriminate; auto|]). constructor.
  - split; [repeat constructor|]. split; [exists $"b"; left; reflexivity|]. vm_compute. reflexivity.
Qed.

(** ** C38: times *)

(** If the clamp time is a whole second, no time in the layer is later. *)
Theorem C38_not_later_partial : forall encodable sort vfs clamp_time out,
  sorts sort -> whole_second clamp_time -> layer_from_refs encodable sort vfs clamp_time = LayerOk out ->
  forall e, In e out ->
  time_le (th_mtime (fst e)) clamp_time /\ time_le (th_atime (fst e)) clamp_time /\ time_le (th_ctime (fst e)) clamp_time.
Proof. exact not_later. Qed.
Print Assumptions C38_not_later_partial.
(** Whatever the clamp time is, earlier times are kept and later ones become the
    clamp time; then modification times are rounded to the nearest second and the
    others are dropped, unless the header asks for a format.  The rest of the
    header is as it was. *)
Theorem C38_kept_partial : forall encodable sort vfs clamp_time out,
  sorts sort -> layer_from_refs encodable sort vfs clamp_time = LayerOk out ->
  exists l, Permutation l vfs /\
  Forall2 (fun r e => entry_for r e /\ exists h, fr_header r = Some h /\ clamped clamp_time h (fst e)) l out.
Proof. exact times_kept. Qed.
Print Assumptions C38_kept_partial.
(** A clamp time within a second can be exceeded: times are rounded after
    clamping. *)
Theorem C38_subsecond_refuted : exists clamp_time h out e,
  layer_from_refs (fun _ => true) insertion_sort [mkRef $"a" (Some h) OpenErr] clamp_time = LayerOk out /\
  In e out /\ ~ time_le (th_mtime (fst e)) clamp_time.
Proof.
  exists (Some 1600000000%Z), (mkHeader TypeDir $"a" [] 0 493 0 0 [] [] (Some 1600000000%Z) None None 0 0 [] 0).
  eexists. eexists. split; [vm_compute; reflexivity|]. split; [left; reflexivity|]. vm_compute. intros H. now apply H.
Qed.
Print Assumptions C38_subsecond_refuted.
(** Times of access and of change that are early enough are dropped unless the
    header asks for a format, whatever the references. *)
Theorem C38_access_time_refuted : forall encodable sort vfs clamp_time out,
  sorts sort -> Forall (fun r => forall h, fr_header r = Some h -> th_format h = 0%Z) vfs ->
  layer_from_refs encodable sort vfs clamp_time = LayerOk out ->
  Forall (fun e => th_atime (fst e) = None /\ th_ctime (fst e) = None) out.
Proof. exact access_times_dropped. Qed.
Print Assumptions C38_access_time_refuted.
(** The zero clamp time resets every time instead of none. *)
Theorem C38_zero_clamp_refuted : forall encodable sort vfs out,
  layer_from_refs encodable sort vfs None = LayerOk out ->
  Forall (fun e => th_mtime (fst e) = None /\ th_atime (fst e) = None /\ th_ctime (fst e) = None) out.
Proof. exact zero_clamp. Qed.
Print Assumptions C38_zero_clamp_refuted.

(** Beside C38: one earlier, one later file. *)
Example C38_case :
  let ref name t := mkRef name (Some (mkHeader TypeDir name [] 0 493 0 0 [] [] t (Some 7%Z) None 0 0 [] 0)) OpenErr in
  let clamp_time := Some 5000000000%Z in
  whole_second clamp_time /\
  match layer_from_refs (fun _ => true) insertion_sort [ref $"b" (Some 9000000000%Z); ref $"a" (Some 3000000000%Z)] clamp_time with
  | LayerOk out => map (fun e => (th_name (fst e), th_mtime (fst e), th_atime (fst e))) out =
      [($"a", Some 3000000000%Z, None); ($"b", Some 5000000000%Z, None)]
  | _ => False
  end.
Proof. split; [reflexivity|]. vm_compute. reflexivity. Qed.
(** Times within a second: halves are rounded up. *)
Example C38_subsecond_case :
  let ref name t := mkRef name (Some (mkHeader TypeDir name [] 0 493 0 0 [] [] t None None 0 0 [] 0)) OpenErr in
  match layer_from_refs (fun _ => true) insertion_sort
          [ref $"a" (Some 9000000000%Z); ref $"b" (Some 3500000000%Z); ref $"c" (Some 3499999999%Z)] (Some 5400000000%Z) with
  | LayerOk out => map (fun e => th_mtime (fst e)) out = [Some 5000000000%Z; Some 4000000000%Z; Some 3000000000%Z]
  | _ => False
  end.
Proof. vm_compute. reflexivity. Qed.

(** ** C40: comparing contents *)

(** "Equal" and "different" are right whatever the chunks, an error is one of the
    readers', and the comparison ends. *)
Theorem C40_exact : forall n a b,
  (readers_equal n a b = Same -> bytes_of a = bytes_of b /\ rd_err a = None /\ rd_err b = None) /\
  (readers_equal n a b = Differ -> bytes_of a <> bytes_of b) /\
  (forall e, readers_equal n a b = CmpErr e -> rd_err a = Some e \/ rd_err b = Some e) /\
  (length (bytes_of a) < n -> readers_equal n a b <> CmpFuel).
Proof. exact readers_exact. Qed.
Print Assumptions C40_exact.
(** So for readers without errors it decides equality. *)
Theorem C40_decides : forall n a b, length (bytes_of a) < n -> rd_err a = None -> rd_err b = None ->
  (bytes_of a = bytes_of b -> readers_equal n a b = Same) /\ (bytes_of a <> bytes_of b -> readers_equal n a b = Differ).
Proof. exact readers_decided. Qed.
Print Assumptions C40_decides.
(** Beside C40: the same 2048 bytes in different chunks, and one byte more. *)
Example C40_case :
  let a := mkReader [repeat "x"%char 1000; []; repeat "x"%char 1048] [] None in
  let b := mkReader [] (repeat "x"%char 2048) None in
  let c := mkReader [repeat "x"%char 2048] $"x" None in
  readers_equal 3000 a b = Same /\ readers_equal 3000 a c = Differ /\
  readers_equal 3000 a (mkReader [] (repeat "x"%char 2048) (Some 5)) = CmpErr 5.
Proof. vm_compute. auto. Qed.

(** ** C39: comparing layers *)

(** The comparison succeeds exactly on the same entries with the same contents,
    ignoring the times of modification and access. *)
Theorem C39_exact_partial : forall n a b,
  (layers_equal n a b = Same -> readable a /\ readable b /\ same_items same_change_time (s_items a) (s_items b)) /\
  (layers_equal n a b = Differ -> ~ same_items same_change_time (s_items a) (s_items b)) /\
  (forall e, layers_equal n a b = CmpErr e -> ~ (readable a /\ readable b)) /\
  (longest a < n -> layers_equal n a b <> CmpFuel).
Proof. exact layers_exact. Qed.
Print Assumptions C39_exact_partial.
Theorem C39_decides_partial : forall n a b, longest a < n -> readable a -> readable b ->
  (same_items same_change_time (s_items a) (s_items b) -> layers_equal n a b = Same) /\
  (~ same_items same_change_time (s_items a) (s_items b) -> layers_equal n a b = Differ).
Proof. exact layers_decided. Qed.
Print Assumptions C39_decides_partial.
(** An error is never passed over. *)
Theorem C39_errors_partial : forall n a b, ~ readable a \/ ~ readable b -> layers_equal n a b <> Same.
Proof. exact layers_errors. Qed.
Print Assumptions C39_errors_partial.
(** The time of change is not ignored. *)
Theorem C39_change_time_refuted : exists a b, readable a /\ readable b /\
  same_items (fun _ _ => True) (s_items a) (s_items b) /\ forall n, longest a < n -> layers_equal n a b = Differ.
Proof.
  pose (h := fun c => mkHeader TypeDir $"a" [] 0 493 0 0 [] [] None None (Some c) 0 0 [] 0).
  pose (s := fun c => mkSource None [(h c, mkReader [] [] None)] None None). exists (s 1%Z), (s 2%Z).
  assert (R : forall c, readable (s c)) by (intros c; repeat split; repeat constructor).
  split; [apply R|]. split; [apply R|]. split; [constructor; [repeat split|constructor]|].
  intros n L. apply layers_decided; auto. intros F. inversion F as [|? ? ? ? (_ & X & _) _]. discriminate.
Qed.
Print Assumptions C39_change_time_refuted.
(** Beside C39: layers that differ only in the time of modification, and a third
    that differs in the content. *)
Example C39_case :
  let item t text := (mkHeader TypeReg $"a" [] 1 420 0 0 [] [] (Some t) None None 0 0 [] 0, mkReader [] text None) in
  let s t text := mkSource None [item t text] None None in
  readable (s 1%Z $"x") /\ same_items same_change_time (s_items (s 1%Z $"x")) (s_items (s 2%Z $"x")) /\
  layers_equal 3 (s 1%Z $"x") (s 2%Z $"x") = Same /\ layers_equal 3 (s 1%Z $"x") (s 1%Z $"y") = Differ.
Proof.
  split; [repeat split; repeat constructor|]. split; [constructor; [repeat split|constructor]|]. vm_compute. auto.
Qed.
