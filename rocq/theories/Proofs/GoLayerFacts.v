(** Layers of Go programs. *)
From Coq Require Import String Ascii List Bool ZArith Lia Sorted Permutation.
From Verif.Model Require Import GoStr GoPath Tar Layer Dir GoLayer.
From Verif.Spec Require Import PathSpec SimpleAPISpec LayerSpec DirSpec GoLayerSpec.
From Verif.Proofs Require Import Order GoStrFacts GoPathFacts LayerFacts DirFacts LayerDirFacts.
Import ListNotations.
Local Open Scope nat_scope.

(** *** the command *)
Lemma read_flag n bools c name rest : c <> "-"%char -> snd (cut "="%char (c :: name)) = None ->
  read_args (S n) bools (("-"%char :: c :: name) :: rest) =
  if bools (c :: name) then option_map (fun p => ((c :: name, $"true") :: fst p, snd p)) (read_args n bools rest)
  else match rest with v :: rest => option_map (fun p => ((c :: name, v) :: fst p, snd p)) (read_args n bools rest) | [] => None end.
Proof.
  intros C E. cbn [read_args]. destruct (ascii_dec "-"%char "-"%char) as [_|X]; [|congruence]. destruct (list_eq_dec _ _ _) as [X|_]; [injection X as X _; congruence|].
  destruct (ascii_dec c "-"%char) as [|_]; [congruence|]. destruct (cut "="%char (c :: name)) as [x [y|]]; [discriminate|reflexivity].
Qed.
Lemma read_end n bools rest : read_args (S n) bools ($"--" :: rest) = Some ([], rest).
Proof. reflexivity. Qed.
Theorem args_read bools tmpdir pkgnames n : bools $"trimpath" = true -> bools $"o" = false ->
  exists rest, go_args tmpdir pkgnames = $"go" :: $"build" :: rest /\
  read_args (3 + n) bools rest = Some ([($"trimpath", $"true"); ($"o", tmpdir)], pkgnames).
Proof.
  intros T O. exists ([$"-trimpath"; $"-o"; tmpdir; $"--"] ++ pkgnames). split; [reflexivity|]. cbn [Nat.add app].
  change $"-trimpath" with ("-"%char :: "t"%char :: $"rimpath"). rewrite read_flag by (discriminate || reflexivity). change ("t"%char :: $"rimpath") with $"trimpath". rewrite T.
  change $"-o" with ("-"%char :: "o"%char :: []). rewrite read_flag by (discriminate || reflexivity). change ["o"%char] with $"o". rewrite O.
  rewrite read_end. reflexivity.
Qed.
Lemma name_inj (a b v w : str) : ~ In "="%char a -> ~ In "="%char b -> a ++ $"=" ++ v = b ++ $"=" ++ w -> a = b /\ v = w.
Proof.
  revert b. induction a as [|x a IH]; intros [|y b] A B E; cbn [app] in E.
  - split; [auto|]. injection E as E. exact E.
  - exfalso. injection E as E _. apply B. left. now rewrite <- E.
  - exfalso. injection E as E _. apply A. left. now rewrite E.
  - injection E as -> E. destruct (IH b) as [-> ->]; auto; intros X; [apply A|apply B]; now right.
Qed.
Theorem env_set environ :
  variable (go_env environ) $"GOOS" $"linux" /\ variable (go_env environ) $"GOARCH" $"amd64" /\
  forall name value, ~ In "="%char name -> name <> $"GOOS" -> name <> $"GOARCH" -> (variable (go_env environ) name value <-> variable environ name value).
Proof.
  split; [|split].
  - exists environ, [$"GOARCH=amd64"]. split; [reflexivity|]. intros v [X|[]]. discriminate X.
  - exists (environ ++ [$"GOOS=linux"]), []. split; [unfold go_env; rewrite <- app_assoc; reflexivity|]. intros v [].
  - intros name value NE N1 N2.
    assert (K : forall v, ~ In (name ++ $"=" ++ v) [$"GOOS=linux"; $"GOARCH=amd64"]).
    { intros v [X|[X|[]]].
      - change $"GOOS=linux" with ($"GOOS" ++ $"=" ++ $"linux") in X. apply name_inj in X as [X _]; [now apply N1|cbn; intuition discriminate|auto].
      - change $"GOARCH=amd64" with ($"GOARCH" ++ $"=" ++ $"amd64") in X. apply name_inj in X as [X _]; [now apply N2|cbn; intuition discriminate|auto]. }
    split.
    + intros (l1 & l2 & E & N). unfold go_env in E.
      assert (I : exists m, l2 = m ++ [$"GOOS=linux"; $"GOARCH=amd64"] /\ environ = l1 ++ (name ++ $"=" ++ value) :: m).
      { destruct (app_eq_app _ _ _ _ E) as (m & [[E1 E2] | [E1 E2]]).
        - pose proof (in_eq (name ++ $"=" ++ value) l2) as Z. rewrite E2 in Z. destruct m as [|x m]; [destruct (K value Z)|].
          exists m. cbn [app] in E2. injection E2 as E2 E3. subst x l2. auto.
        - exfalso. apply (K value). rewrite E2. apply in_or_app. right. now left. }
      destruct I as (m & -> & ->). exists l1, m. split; auto. intros v X. apply (N v), in_or_app. now left.
    + intros (l1 & l2 & -> & N). exists l1, (l2 ++ [$"GOOS=linux"; $"GOARCH=amd64"]). split; [unfold go_env; now rewrite <- app_assoc|].
      intros v X. apply in_app_or in X as [X|X]; [exact (N v X)|exact (K v X)].
Qed.

(** *** the layer *)
Lemma bin_clean : clean_list false [$"usr"; $"local"; $"bin"].
Proof.
  exists 0, [$"usr"; $"local"; $"bin"]. split; [reflexivity|]. split; [|discriminate].
  repeat constructor; try discriminate; cbn; intros X; repeat destruct X as [X|X]; try discriminate; auto.
Qed.
Section go.
  Context (encodable : header -> bool) (sort : (str * list wstep -> str * list wstep -> bool) -> list (str * list wstep) -> list (str * list wstep)).
  Lemma go_layer_of b c pkgs out : g_layer (layer_from_go encodable sort b c pkgs) = Some out ->
    exists tmp, b_mkdir b = Some tmp /\ layer_from_dir encodable 4 sort (b_files b (go_args tmp pkgs) (go_env (b_environ b))) (Some go_prefix) (Some go_owner) c = LayerOk out /\
    b_run b (go_args tmp pkgs) (go_env (b_environ b)) = true.
  Proof.
    unfold layer_from_go. destruct (b_mkdir b) as [tmp|]; [|discriminate]. intros H. exists tmp. split; [reflexivity|].
    assert (F : forall d l e r, g_layer (finish b d l e r) = l) by (intros; unfold finish; destruct (b_remains b d); reflexivity).
    destruct (b_run b _ _); cbn [negb] in H; [|rewrite F in H; discriminate].
    destruct (layer_from_dir _ _ _ _ _ _ _); rewrite F in H; try discriminate. injection H as ->. auto.
  Qed.
  Theorem go_layer b c pkgs out : sorts sort ->
    (forall tmp, b_mkdir b = Some tmp -> disk_names (b_files b (go_args tmp pkgs) (go_env (b_environ b)))) ->
    g_layer (layer_from_go encodable sort b c pkgs) = Some out ->
    exists tmp files above rest, b_mkdir b = Some tmp /\
    listing (b_files b (go_args tmp pkgs) (go_env (b_environ b))) files /\ out = above ++ rest /\
    Forall2 (root_directory c) [$"usr"; $"usr/local"; $"usr/local/bin"] above /\
    file_entries [$"usr"; $"local"; $"bin"] [] files rest /\
    Forall2 (fun f e => exists h, di_header (snd f) = Some h /\ clamped c h (fst e)) files rest.
  Proof.
    intros HS DN H. apply go_layer_of in H as (tmp & M & H & _).
    assert (PX : prefix_path (Some go_prefix) [$"usr"; $"local"; $"bin"]) by (split; [exact (clean_of_text false [$"usr"; $"local"; $"bin"] bin_clean)|apply bin_clean]).
    destruct (dir_layer_times _ _ _ _ _ _ _ _ _ HS (DN tmp M) PX H) as (f & a & r & L & E & Q & F & T). exists tmp, f, a, r.
    split; [auto|]. split; [auto|]. split; [auto|]. split; [|auto]. specialize (Q eq_refl). clear -Q.
    assert (K : forall p e, prefix_entry go_prefix c p e -> root_directory c (path_text false p) e).
    { intros p e (X1 & X2 & X3 & X4 & X5 & X6 & X7 & X8 & X9 & _). repeat split; auto. }
    inversion Q as [|? ? ? ? Q1 Q']; subst. inversion Q' as [|? ? ? ? Q2 Q'']; subst. inversion Q'' as [|? ? ? ? Q3 Q3']; subst. inversion Q3'; subst.
    apply K in Q1, Q2, Q3. constructor; [exact Q1|constructor; [exact Q2|constructor; [exact Q3|constructor]]].
  Qed.
  (** *** errors and the host *)
  Theorem go_outcome b c pkgs : let r := layer_from_go encodable sort b c pkgs in
    (forall tmp, b_mkdir b = Some tmp -> g_ran r = [(go_args tmp pkgs, go_env (b_environ b))] /\
       g_left r = b_remains b (b_files b (go_args tmp pkgs) (go_env (b_environ b)))) /\
    (b_mkdir b = None -> g_ran r = [] /\ g_left r = None) /\
    (g_error r = None -> g_left r = None /\ exists out, g_layer r = Some out) /\
    (g_error r = Some GRemove -> g_left r <> None) /\
    (forall tmp, b_mkdir b = Some tmp -> b_run b (go_args tmp pkgs) (go_env (b_environ b)) = false -> g_error r = Some GRun /\ g_layer r = None).
  Proof.
    cbn zeta. unfold layer_from_go. destruct (b_mkdir b) as [tmp|].
    - set (args := go_args tmp pkgs). set (env := go_env (b_environ b)).
      assert (F : forall l e r, g_ran (finish b (b_files b args env) l e r) = r /\ g_left (finish b (b_files b args env) l e r) = b_remains b (b_files b args env)) by (intros; unfold finish; destruct (b_remains b _); auto).
      destruct (b_run b args env) eqn:R; cbn [negb].
      + destruct (layer_from_dir _ _ _ _ _ _ _) as [out|e|]; (split; [intros t X; injection X as <-; apply F|]); (split; [discriminate|]); (split; [|split; [|intros t X Y; injection X as <-; fold args env in Y; congruence]]); unfold finish; destruct (b_remains b _); cbn; intros X; try discriminate; eauto.
      + (split; [intros t X; injection X as <-; apply F|]); (split; [discriminate|]); (split; [|split; [|intros t X _]]); unfold finish; destruct (b_remains b _); cbn; try discriminate; auto.
    - split; [discriminate|]. split; [auto|]. split; [discriminate|]. split; [discriminate|]. discriminate.
  Qed.
End go.

(** *** building again *)
Lemma sorted_same (R : list str -> list str -> Prop) : (forall p, ~ R p p) -> (forall p q r, R p q -> R q r -> R p r) ->
  forall l l', StronglySorted R l -> StronglySorted R l' -> (forall p, In p l <-> In p l') -> l = l'.
Proof.
  intros Irr Tr. induction l as [|x l IH]; intros [|y l'] S S' K; auto.
  - destruct (proj2 (K y)). now left.
  - destruct (proj1 (K x)). now left.
  - inversion S as [|? ? S1 F]; inversion S' as [|? ? S1' F']; subst. rewrite Forall_forall in F, F'.
    assert (E : x = y).
    { destruct (proj1 (K x) (or_introl eq_refl)) as [->|X]; auto. destruct (proj2 (K y) (or_introl eq_refl)) as [->|Y]; auto. exfalso. eapply Irr, Tr; [apply (F _ Y)|apply (F' _ X)]. }
    subst y. f_equal. apply IH; auto. intros p. split; intros X.
    + destruct (proj1 (K p) (or_intror X)) as [<-|Y]; auto. exfalso. eapply Irr, F, X.
    + destruct (proj2 (K p) (or_intror X)) as [<-|Y]; auto. exfalso. eapply Irr, F', X.
Qed.
Lemma listing_again f c d d' files files' : again f c d d' -> listing d files -> listing d' files' ->
  Forall2 (fun x y => fst x = fst y /\ info_again f c (snd x) (snd y)) files files'.
Proof.
  intros [_ A] [S I] [S' I'].
  assert (K : forall p, In p (map fst files) <-> In p (map fst files')).
  { intros p. split; intros X; apply in_map_iff in X as ([q i] & <- & X); cbn [fst] in *.
    - apply I in X as [N X]. specialize (A q). rewrite X in A. destruct (info_at d' q) as [j|] eqn:E; [|destruct A]. apply in_map_iff. exists (q, j). split; auto. now apply I'.
    - apply I' in X as [N X]. specialize (A q). rewrite X in A. destruct (info_at d q) as [j|] eqn:E; [|destruct A]. apply in_map_iff. exists (q, j). split; auto. now apply I. }
  assert (E : map fst files = map fst files').
  { apply (sorted_same parts_before); auto using pb_irrefl. exact pb_trans. }
  assert (U : forall p i j, In (p, i) files -> In (p, j) files' -> info_again f c i j).
  { intros p i j X Y. apply I in X as [_ X]. apply I' in Y as [_ Y]. specialize (A p). now rewrite X, Y in A. }
  clear -E U. revert files' E U. induction files as [|[p i] files IH]; intros [|[q j] files'] E U; try discriminate; constructor.
  - injection E as -> _. split; [reflexivity|]. apply (U q); now left.
  - apply IH; [now injection E|]. intros. eapply U; right; eauto.
Qed.
Lemma same_headers (h h' : header) : th_type h = th_type h' -> th_name h = th_name h' -> th_link h = th_link h' -> same_metadata h h' ->
  th_mtime h = th_mtime h' -> th_atime h = th_atime h' -> th_ctime h = th_ctime h' -> h = h'.
Proof.
  destruct h, h'. unfold same_metadata. cbn. intros -> -> -> (-> & -> & -> & -> & -> & -> & -> & -> & -> & ->) -> -> ->. reflexivity.
Qed.
Lemma times_again c h h' a b : header_again c h h' -> clamped c h a -> clamped c h' b -> th_mtime a = th_mtime b /\ th_atime a = th_atime b /\ th_ctime a = th_ctime b.
Proof.
  intros A (M & _) (M' & _). destruct A as (_ & _ & _ & _ & _ & _ & _ & _ & _ & _ & _ & _ & F & F' & T & T').
  destruct (M F) as [(m & Am & Nm) [-> ->]], (M' F') as [(m' & Am' & Nm') [-> ->]]. split; [|auto].
  assert (K : forall t x, time_le c t -> at_most c t x -> x = c).
  { intros t x T1 [K1 K2]. destruct t as [u|], c as [v|]; cbn [time_le] in *; try tauto.
    destruct (Z.le_gt_cases u v) as [Z|Z]; [|apply K2; lia]. assert (u = v) by lia. subst. now apply K1. }
  rewrite (K _ _ T Am) in Nm. rewrite (K _ _ T' Am') in Nm'. exact (nearest_unique _ _ _ Nm Nm').
Qed.
Definition related (f : Z * Z -> Z * Z) (c : option Z) : list (list str * dinfo) -> list (list str * dinfo) -> Prop :=
  Forall2 (fun x y => fst x = fst y /\ info_again f c (snd x) (snd y)).
Lemma first_again f c id : (forall x y, f x = f y -> x = y) -> forall before before', related f c before before' -> forall b1 q j b2 d1 r k d2,
  before = b1 ++ (q, j) :: b2 -> di_id j = id -> (forall x, In x b1 -> di_id (snd x) <> id) ->
  before' = d1 ++ (r, k) :: d2 -> di_id k = f id -> (forall x, In x d1 -> di_id (snd x) <> f id) -> q = r.
Proof.
  intros Inj before before' R. induction R as [|x y before before' [E (Id & _)] R IH]; intros b1 q j b2 d1 r k d2 B J F B' K F'.
  - destruct b1; discriminate.
  - destruct b1 as [|x1 b1], d1 as [|y1 d1]; cbn [app] in B, B'; injection B as -> ->; injection B' as -> ->; cbn [fst snd] in *.
    + auto.
    + exfalso. apply (F' y1); [now left|]. congruence.
    + exfalso. apply (F x1); [now left|]. apply Inj. congruence.
    + eapply IH; eauto; intros; [apply F|apply F']; now right.
Qed.
Lemma has_again f c id : (forall x y, f x = f y -> x = y) -> forall before before', related f c before before' ->
  ((forall x, In x before -> di_id (snd x) <> id) <-> (forall x, In x before' -> di_id (snd x) <> f id)).
Proof.
  intros Inj before before' R. induction R as [|x y before before' [E (Id & _)] R IH]; [split; intros _ z []|]. split; intros H z [<-|I].
  - intros Z. apply (H x); [now left|]. apply Inj. congruence.
  - apply IH; auto. intros w Iw. apply H. now right.
  - intros Z. apply (H y); [now left|]. congruence.
  - apply IH; auto. intros w Iw. apply H. now right.
Qed.
Lemma entries_again f c l : (forall x y, f x = f y -> x = y) -> forall files files', related f c files files' ->
  forall before before' rest rest', related f c before before' ->
  file_entries l before files rest -> file_entries l before' files' rest' ->
  Forall2 (fun f e => exists h, di_header (snd f) = Some h /\ clamped c h (fst e)) files rest ->
  Forall2 (fun f e => exists h, di_header (snd f) = Some h /\ clamped c h (fst e)) files' rest' -> rest = rest'.
Proof.
  intros Inj files files' FF. induction FF as [|[p i] [p' i'] files files' [E A] FF IH]; intros before before' [|e rest] [|e' rest'] B FE FE' T T'; cbn [file_entries] in FE, FE'; try tauto.
  cbn [fst snd] in E, A. subst p'. destruct FE as [X FE], FE' as [X' FE']. inversion T as [|? ? ? ? (h & H & C) T1]; subst. inversion T' as [|? ? ? ? (h' & H' & C') T1']; subst. cbn [snd] in H, H'.
  assert (R : rest = rest') by (eapply IH; [|exact FE|exact FE'|exact T1|exact T1']; apply Forall2_app; [exact B|constructor; [|constructor]; auto]).
  subst rest'. f_equal. clear IH FE FE' T1 T1' T T' FF.
  destruct A as (Id & Rl & Co & Hd). rewrite H, H' in Hd.
  destruct (times_again _ _ _ _ _ Hd C C') as (M & At & Ct).
  destruct X as (N & g & G & Me & X), X' as (N' & g' & G' & Me' & X'). rewrite H in G. injection G as <-. rewrite H' in G'. injection G' as <-.
  assert (Same : same_metadata (fst e) (fst e')).
  { destruct Hd as (E1 & E2 & E3 & E4 & E5 & E6 & E7 & E8 & E9 & E10 & E11 & E12 & E13 & E14 & _).
    destruct Me as (A1 & A2 & A3 & A4 & A5 & A6 & A7 & A8 & A9 & A10), Me' as (B1 & B2 & B3 & B4 & B5 & B6 & B7 & B8 & B9 & B10).
    repeat split; congruence. }
  destruct e as [eh eb], e' as [eh' eb']. cbn [fst snd] in *.
  enough (K : th_type eh = th_type eh' /\ th_link eh = th_link eh' /\ eb = eb').
  { destruct K as (K1 & K2 & ->). f_equal. apply same_headers; auto. congruence. }
  assert (Ty : th_type h = th_type h') by apply Hd. assert (Lk : th_link h = th_link h') by apply Hd. rewrite Id in *.
  destruct X as [(b1 & q & j & b2 & X0 & J & First & X1 & X2 & X3) | (New & X1 & X2 & X3)]; destruct X' as [(d1 & r & k & d2 & Y0 & K & First' & Y1 & Y2 & Y3) | (New' & Y1 & Y2 & Y3)].
  - split; [congruence|]. split; [|congruence]. rewrite X2, Y2. now rewrite (first_again f c (di_id i) Inj _ _ B _ _ _ _ _ _ _ _ X0 J First Y0 K First').
  - exfalso. apply (has_again f c (di_id i) Inj _ _ B) with (x := (q, j)) in New'; auto. subst before. apply in_or_app. right. now left.
  - exfalso. apply (has_again f c (di_id i) Inj _ _ B) with (x := (r, k)) in New; auto. subst before'. apply in_or_app. right. now left.
  - split; [congruence|]. rewrite <- Ty in Y2, Y3. split.
    + destruct (byte_eqb (th_type h) TypeSymlink); [|congruence]. rewrite <- Rl, X2 in Y2. now injection Y2.
    + destruct (byte_eqb (th_type h) TypeReg); [|congruence]. destruct X3 as [X3 _], Y3 as [Y3 _]. rewrite <- Co, X3 in Y3. now injection Y3.
Qed.
Lemma above_again px c l a a' : Forall2 (prefix_entry px c) l a -> Forall2 (prefix_entry px c) l a' -> a = a'.
Proof.
  intros F. revert a'. induction F as [|p e l a X F IH]; intros a' F'; inversion F' as [|? e' ? a'' Y F'']; subst; [reflexivity|]. f_equal; [|auto].
  destruct e as [h b], e' as [h' b'], X as (X1 & X2 & X3 & X4 & X5 & X6 & X7 & X8 & X9 & X10 & X11 & X12 & X13 & X14 & X15 & X16 & X17), Y as (Y1 & Y2 & Y3 & Y4 & Y5 & Y6 & Y7 & Y8 & Y9 & Y10 & Y11 & Y12 & Y13 & Y14 & Y15 & Y16 & Y17).
  cbn [fst snd] in *. f_equal; [|congruence]. pose proof (nearest_unique _ _ _ X9 Y9) as XY. apply same_headers; try congruence. repeat split; congruence.
Qed.
Theorem dir_again encodable sort sort' n n' d d' f px chown chown' c l out out' : sorts sort -> sorts sort' -> disk_names d -> disk_names d' ->
  clean_list false l -> px_name px = path_text false l -> again f c d d' ->
  layer_from_dir encodable n sort d (Some px) chown c = LayerOk out -> layer_from_dir encodable n' sort' d' (Some px) chown' c = LayerOk out' -> out = out'.
Proof.
  intros HS HS' D D' C Nm A H H'. assert (PX : prefix_path (Some px) l) by (split; [rewrite Nm; now apply clean_of_text|auto]).
  destruct (dir_layer_times _ _ _ _ _ _ _ _ _ HS D PX H) as (fs & a & r & L & -> & Q & F & T). destruct (dir_layer_times _ _ _ _ _ _ _ _ _ HS' D' PX H') as (fs' & a' & r' & L' & -> & Q' & F' & T').
  f_equal; [exact (above_again _ _ _ _ _ (Q Nm) (Q' Nm))|]. eapply (entries_again f c l (proj1 A) fs fs'); eauto; [eapply listing_again; eauto|constructor].
Qed.
Theorem go_again encodable sort sort' b b' tmp tmp' f c pkgs pkgs' out out' : sorts sort -> sorts sort' ->
  b_mkdir b = Some tmp -> b_mkdir b' = Some tmp' ->
  let d := b_files b (go_args tmp pkgs) (go_env (b_environ b)) in
  let d' := b_files b' (go_args tmp' pkgs') (go_env (b_environ b')) in
  disk_names d -> disk_names d' -> again f c d d' ->
  g_layer (layer_from_go encodable sort b c pkgs) = Some out -> g_layer (layer_from_go encodable sort' b' c pkgs') = Some out' -> out = out'.
Proof.
  intros HS HS' M M' d d' D D' A H H'. apply go_layer_of in H as (t & X & H & _). apply go_layer_of in H' as (t' & X' & H' & _).
  rewrite M in X. rewrite M' in X'. injection X as <-. injection X' as <-. exact (dir_again encodable sort sort' 4 4 d d' f go_prefix (Some go_owner) (Some go_owner) c [$"usr"; $"local"; $"bin"] out out' HS HS' D D' bin_clean eq_refl A H H').
Qed.
