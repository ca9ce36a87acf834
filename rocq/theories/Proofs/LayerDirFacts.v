(** The flags of "ocibuild layer dir" and the times of its layers. *)
From Coq Require Import String Ascii List Bool ZArith Lia Sorted Permutation.
From Verif.Model Require Import GoStr GoPath Tar Layer Dir LayerDir.
From Verif.Spec Require Import PathSpec SimpleAPISpec LayerSpec DirSpec LayerDirSpec.
From Verif.Proofs Require Import Order GoStrFacts GoPathFacts LayerFacts DirFacts.
Import ListNotations.
Local Open Scope nat_scope.

(** *** times *)
Lemma written_not_later c h : whole_second c -> times_le c (tar_written (clamp_header c h)).
Proof.
  intros W. unfold times_le, tar_written. cbn [th_format clamp_header with_times]. destruct (_ =? 0)%Z; cbn [with_times clamp_header th_mtime th_atime th_ctime].
  - split; [|split; cbn [time_le]; auto]. pose proof (clamp_le c (th_mtime h)) as K. destruct (clamp c _) as [x|]; cbn [option_map time_le] in *; auto.
    destruct c as [y|]; auto. now apply round_le.
  - auto using clamp_le.
Qed.
Lemma visit_not_later encodable px chown c : whole_second c -> forall steps log out, visit encodable px chown c log steps = LayerOk out -> Forall (fun e => times_le c (fst e)) out.
Proof.
  intros W. induction steps as [|[|[|x p] i] steps IH]; intros log out H; cbn [visit] in H; try discriminate.
  - injection H as <-. constructor.
  - eauto.
  - destruct (dir_header _ _ _ _) as [h|] eqn:D; [|discriminate]. rewrite write_file_entry in H. destruct (write_entry _ _ _) as [e|] eqn:E; [|discriminate].
    destruct (visit _ _ _ _ _ _) as [o| |] eqn:V; try discriminate. injection H as <-. constructor; [|eapply IH; eauto].
    apply (write_entry_ok encodable) in E as [E _]. rewrite E.
    unfold dir_header in D. destruct (di_header i) as [h0|]; [|discriminate]. destruct (logged _ _); destruct (byte_eqb _ TypeSymlink); try destruct (di_readlink i); try discriminate; apply inl_inj in D; subst h; now apply written_not_later.
Qed.
Lemma prefix_not_later encodable px c : whole_second c -> forall dirs above, write_prefix encodable px c dirs = inl above -> Forall (fun e => times_le c (fst e)) above.
Proof.
  intros W. induction dirs as [|d dirs IH]; intros above H; cbn [write_prefix] in H; [injection H as <-; constructor|].
  destruct (write_entry _ _ _) as [e|] eqn:E; [|discriminate]. destruct (write_prefix _ _ _ _); [|discriminate]. injection H as <-. constructor; auto.
  apply (write_entry_ok encodable) in E as [E _]. rewrite E. unfold tar_written, times_le. cbn.
  split; [|split; exact Logic.I]. destruct c as [y|]; cbn [option_map time_le]; [|exact Logic.I]. rewrite round_whole; [lia|exact W].
Qed.
Theorem dir_not_later encodable n sort root px chown c out : whole_second c -> layer_from_dir encodable n sort root px chown c = LayerOk out ->
  forall e, In e out -> time_le (th_mtime (fst e)) c /\ time_le (th_atime (fst e)) c /\ time_le (th_ctime (fst e)) c.
Proof.
  intros W H. apply Forall_forall. unfold layer_from_dir in H. destruct (match px with None => Some [] | Some px => prefix_dirs n (px_name px) end); [|discriminate].
  destruct (match px with None => inl [] | Some px => write_prefix encodable px c (rev l) end) as [above|] eqn:P; [|discriminate].
  destruct (visit _ _ _ _ _ _) eqn:V; try discriminate. injection H as <-. apply Forall_app. split; [|exact (visit_not_later _ _ _ _ W _ _ _ V)].
  destruct px; [exact (prefix_not_later _ _ _ W _ _ P)|]. injection P as <-. constructor.
Qed.
Theorem dir_times encodable n sort root px chown c l out : sorts sort -> disk_names root -> prefix_path px l ->
  layer_from_dir encodable n sort root px chown c = LayerOk out ->
  exists files above rest, listing root files /\ out = above ++ rest /\
  Forall2 (fun f e => th_name (fst e) = join $"/" (l ++ fst f) /\ exists h, di_header (snd f) = Some h /\ clamped c h (fst e)) files rest.
Proof.
  intros HS DN PX H. destruct (dir_layer_times _ _ _ _ _ _ _ _ _ HS DN PX H) as (f & a & r & L & E & _ & F & T). exists f, a, r. split; [auto|]. split; [auto|].
  clear -F T. revert F. generalize (@nil (list str * dinfo)). induction T as [|[p i] e f r X T IH]; intros b F; constructor.
  - destruct F as [(N & _) _]. auto.
  - destruct F as [_ F]. eauto.
Qed.

(** *** flags *)
Section value.
  Context {A : Type} (flag : A -> dir_flag) (get : dir_vars -> A)
    (G : forall v x, get (set_flag v (flag x)) = x)
    (O : forall v f, (exists x, f = flag x) \/ get (set_flag v f) = get v).
  Lemma others l : (forall w, ~ In (flag w) l) -> forall v, get (fold_left set_flag l v) = get v.
  Proof.
    induction l as [|f l IH]; intros N v; [reflexivity|]. cbn [fold_left]. rewrite IH by (intros w X; apply (N w); now right).
    destruct (O v f) as [(x & ->) | E]; [exfalso; apply (N x); now left|exact E].
  Qed.
  Lemma value_is flags x : value flag (get dir_defaults) flags x -> get (parse_flags flags) = x.
  Proof.
    unfold parse_flags. intros [v l1 l2 -> N|N]; [|now apply others]. rewrite fold_left_app. cbn [fold_left]. rewrite others by auto. apply G.
  Qed.
End value.
Ltac setter := first [intros [[? ? [? ? ? ?]] [? ? ? ?]] ?; reflexivity
                     |intros [[? ? [? ? ? ?]] [? ? ? ?]] [| | | | | | | |]; try (right; reflexivity); left; eexists; reflexivity].
Lemma flag_values flags p uid uname gid gname :
  value FPrefix [] flags p -> value FPrefixUid 0%Z flags uid -> value FPrefixUname $"root" flags uname ->
  value FPrefixGid 0%Z flags gid -> value FPrefixGname $"root" flags gname ->
  v_prefix (parse_flags flags) = mkPrefix p 0 (mkOwner uid uname gid gname).
Proof.
  intros P U N G M.
  apply (value_is FPrefix (fun v => px_name (v_prefix v)) ltac:(setter) ltac:(setter)) in P.
  apply (value_is FPrefixUid (fun v => o_uid (px_owner (v_prefix v))) ltac:(setter) ltac:(setter)) in U.
  apply (value_is FPrefixUname (fun v => o_uname (px_owner (v_prefix v))) ltac:(setter) ltac:(setter)) in N.
  apply (value_is FPrefixGid (fun v => o_gid (px_owner (v_prefix v))) ltac:(setter) ltac:(setter)) in G.
  apply (value_is FPrefixGname (fun v => o_gname (px_owner (v_prefix v))) ltac:(setter) ltac:(setter)) in M.
  assert (Z : forall l v, px_mode (v_prefix v) = 0%Z -> px_mode (v_prefix (fold_left set_flag l v)) = 0%Z).
  { induction l as [|f l IH]; intros v E; [exact E|]. cbn [fold_left]. apply IH. destruct v as [[? ? [? ? ? ?]] [? ? ? ?]]. destruct f; exact E. }
  specialize (Z flags dir_defaults eq_refl). fold (parse_flags flags) in Z. cbn beta in *. destruct (parse_flags flags) as [[p' m [u n g k]] o]. cbn in *. congruence.
Qed.
Lemma chown_values flags uid uname gid gname :
  value FChownUid (-1)%Z flags uid -> value FChownUname [] flags uname -> value FChownGid (-1)%Z flags gid -> value FChownGname $"root" flags gname ->
  v_chown (parse_flags flags) = mkOwner uid uname gid gname.
Proof.
  intros U N G M.
  apply (value_is FChownUid (fun v => o_uid (v_chown v)) ltac:(setter) ltac:(setter)) in U.
  apply (value_is FChownUname (fun v => o_uname (v_chown v)) ltac:(setter) ltac:(setter)) in N.
  apply (value_is FChownGid (fun v => o_gid (v_chown v)) ltac:(setter) ltac:(setter)) in G.
  apply (value_is FChownGname (fun v => o_gname (v_chown v)) ltac:(setter) ltac:(setter)) in M.
  cbn beta in *. destruct (parse_flags flags) as [x [u n g k]]. cbn in *. congruence.
Qed.
Theorem flags_request flags p uid uname gid gname cuid cuname cgid cgname :
  value FPrefix [] flags p -> value FPrefixUid 0%Z flags uid -> value FPrefixUname $"root" flags uname ->
  value FPrefixGid 0%Z flags gid -> value FPrefixGname $"root" flags gname ->
  value FChownUid (-1)%Z flags cuid -> value FChownUname [] flags cuname -> value FChownGid (-1)%Z flags cgid -> value FChownGname $"root" flags cgname ->
  parse_flags flags = mkVars (mkPrefix p 0 (mkOwner uid uname gid gname)) (mkOwner cuid cuname cgid cgname).
Proof.
  intros P U N G M CU CN CG CM. pose proof (flag_values flags p uid uname gid gname P U N G M) as A. pose proof (chown_values flags cuid cuname cgid cgname CU CN CG CM) as B.
  destruct (parse_flags flags). cbn in *. congruence.
Qed.
Theorem layer_dir_is encodable n sort root now flags p uid uname gid gname l out :
  sorts sort -> disk_names root ->
  value FPrefix [] flags p -> value FPrefixUid 0%Z flags uid -> value FPrefixUname $"root" flags uname ->
  value FPrefixGid 0%Z flags gid -> value FPrefixGname $"root" flags gname ->
  (p = [] /\ l = [] \/ p = path_text false l /\ clean_list false l) ->
  layer_dir encodable n sort root now flags = LayerOk out ->
  exists files above rest, listing root files /\ out = above ++ rest /\
  Forall2 (prefix_directory uid uname gid gname now) (nonempty_prefixes l) above /\ file_entries l [] files rest /\
  Forall2 (fun f e => exists h, di_header (snd f) = Some h /\ clamped (Some now) h (fst e)) files rest.
Proof.
  intros HS DN P U N G M C H. unfold layer_dir in H. rewrite (flag_values _ _ _ _ _ _ P U N G M) in H. cbn [px_name] in H.
  destruct C as [[-> ->] | [-> C]].
  - rewrite str_eqb_refl in H. destruct (dir_layer_times _ _ _ _ None _ _ [] _ HS DN eq_refl H) as (f & a & r & L & E & -> & F & T). exists f, [], r. split; [auto|]. split; [auto|]. split; [constructor|auto].
  - assert (Z : str_eqb (path_text false l) [] = false).
    { apply str_eqb_neq. intros Z. destruct l as [|x l]; [discriminate|]. assert (x <> []).
      { apply clean_list_ne in C. now inversion C. }
      destruct x; [congruence|]. destruct l; discriminate. }
    rewrite Z in H. assert (PX : prefix_path (Some (mkPrefix (path_text false l) 0 (mkOwner uid uname gid gname))) l) by (split; [cbn [px_name]; now apply clean_of_text|auto]).
    destruct (dir_layer_times _ _ _ _ _ _ _ _ _ HS DN PX H) as (f & a & r & L & E & Q & F & T). exists f, a, r. split; [auto|]. split; [auto|]. split; [|auto].
    specialize (Q eq_refl). assert (NE : Forall (fun p : list str => p <> []) (nonempty_prefixes l)).
    { clear. induction l as [|x l IH]; cbn [nonempty_prefixes]; constructor; [discriminate|]. apply Forall_forall. intros y Y. apply in_map_iff in Y as (z & <- & _). discriminate. }
    clear -Q NE. induction Q as [|p e ps es X Q IH]; constructor; inversion NE as [|? ? Np NE']; subst; auto.
    destruct X as (X1 & X2 & X3 & X4 & X5 & X6 & X7 & X8 & X9 & _). unfold path_text in X1. destruct p; [congruence|]. repeat split; auto.
Qed.
Definition is_chown (f : dir_flag) : bool := match f with FChownUid _ | FChownUname _ | FChownGid _ | FChownGname _ => true | _ => false end.
Theorem layer_dir_chown encodable n sort root now flags :
  layer_dir encodable n sort root now flags = layer_dir encodable n sort root now (filter (fun f => negb (is_chown f)) flags).
Proof.
  unfold layer_dir. rewrite chown_no_effect. symmetry. rewrite chown_no_effect. symmetry. unfold parse_flags.
  enough (X : forall v w, v_prefix v = v_prefix w -> v_prefix (fold_left set_flag flags v) = v_prefix (fold_left set_flag (filter (fun f => negb (is_chown f)) flags) w)).
  { rewrite (X dir_defaults dir_defaults eq_refl). reflexivity. }
  induction flags as [|f flags IH]; intros v w E; [exact E|]. cbn [filter fold_left]. destruct (is_chown f) eqn:C; cbn [negb].
  - apply IH. rewrite <- E. destruct v as [[? ? [? ? ? ?]] [? ? ? ?]]. destruct f; try discriminate; reflexivity.
  - cbn [fold_left]. apply IH. destruct v as [[? ? [? ? ? ?]] [? ? ? ?]], w as [[? ? [? ? ? ?]] [? ? ? ?]]. cbn in E. injection E as -> -> -> -> -> ->. destruct f; try discriminate; reflexivity.
Qed.
Theorem layer_dir_succeeds n sort root now flags p : sorts sort -> disk_names root -> (forall q d, file_at root q = Some d -> without_errors d) ->
  value FPrefix [] flags p -> is_abs p = false -> S (length p) < n -> exists out, layer_dir (fun _ => true) n sort root now flags = LayerOk out.
Proof.
  intros HS DN W P A L. apply (value_is FPrefix (fun v => px_name (v_prefix v)) ltac:(setter) ltac:(setter)) in P. cbn beta in P.
  unfold layer_dir. apply dir_succeeds; auto. rewrite P. destruct (str_eqb p []); [exact Logic.I|]. now rewrite P.
Qed.
Theorem layer_dir_absolute encodable n sort root now flags p : value FPrefix [] flags p -> is_abs p = true -> layer_dir encodable n sort root now flags = LayerFuel.
Proof.
  intros P A. apply (value_is FPrefix (fun v => px_name (v_prefix v)) ltac:(setter) ltac:(setter)) in P. cbn beta in P.
  unfold layer_dir. rewrite P. destruct (str_eqb p []) eqn:E; [apply str_eqb_eq in E; rewrite E in A; discriminate|]. apply dir_absolute. now rewrite P.
Qed.
