(** Facts about compiling Python files on the host. *)
From Coq Require Import String Ascii List Bool NArith ZArith Lia Permutation.
From Verif.Model Require Import GoStr GoPath Layer Platform WheelFile Wheel PyCompile.
From Verif.Spec Require Import PathSpec SimpleAPISpec LayerSpec WheelSpec WheelExamples LookPathSpec PyCompileSpec.
From Verif.Proofs Require Import Order GoStrFacts GoPathFacts WheelPaths WheelFacts LookPathFacts.
Import ListNotations.
Local Open Scope nat_scope.

Local Arguments str_eqb : simpl never.
Local Arguments clean_comps : simpl never.

(** ** Paths *)
Lemma above_beneath p q : at_or_above p q = true <-> beneath p q.
Proof.
  revert q. induction p as [|a p IH]; intros q; cbn.
  - split; auto. intros _. now exists q.
  - destruct q as [|b q].
    + split; [discriminate|]. intros [x E]. discriminate.
    + rewrite andb_true_iff, str_eqb_eq, IH. split.
      * intros [-> [x ->]]. now exists x.
      * intros [x E]. injection E as -> ->. split; auto. now exists x.
Qed.
Lemma beneath_dec p q : {beneath p q} + {~ beneath p q}.
Proof.
  destruct (at_or_above p q) eqn:E; [left; now apply above_beneath|]. right. intros H. apply above_beneath in H. congruence.
Qed.
Lemma beneath_refl p : beneath p p. Proof. exists []. now rewrite app_nil_r. Qed.
Lemma beneath_app p q r : beneath p q -> beneath p (q ++ r). Proof. intros [x ->]. exists (x ++ r). now rewrite app_assoc. Qed.

Lemma target tmp dir name : names_dir tmp dir -> inner name -> clean_comps (path_join [tmp; name]) = dir ++ clean_comps name.
Proof.
  intros (N & P & E) (R & _ & PN). assert (A : is_abs tmp = true) by (subst tmp; reflexivity).
  rewrite full_named by auto. unfold as_text. rewrite clean_comps_text by (apply plain_clean, named_plain).
  rewrite named_acc, R, fold_left_app, relative_fold.
  assert (D : fold_left (clean_step true) (split_on slash tmp) [] = rev dir).
  { pose proof (clean_comps_abs dir P) as C. rewrite <- E in C. rewrite comps_split, A in C. now rewrite <- C, rev_involutive. }
  rewrite D. assert (C : rev (fold_left (clean_step false) (split_on slash name) []) = clean_comps name) by (rewrite comps_split, R; reflexivity).
  rewrite C, fold_plain by auto. now rewrite rev_app_distr, !rev_involutive.
Qed.

(** ** The file system *)
Lemma look_put p q n fs : look p (put q n fs) = if hpath_dec p q then Some n else look p fs.
Proof. reflexivity. Qed.
Lemma look_put_eq p n fs : look p (put p n fs) = Some n.
Proof. rewrite look_put. destruct (hpath_dec p p); congruence. Qed.
Lemma look_put_ne p q n fs : p <> q -> look p (put q n fs) = look p fs.
Proof. rewrite look_put. destruct (hpath_dec p q); congruence. Qed.
Lemma look_removed dir p fs : look p (remove_all dir fs) = if beneath_dec dir p then None else look p fs.
Proof.
  unfold remove_all. induction fs as [|[q n] fs IH]; cbn; [now destruct (beneath_dec dir p)|].
  destruct (at_or_above dir q) eqn:A; cbn.
  - rewrite IH. apply above_beneath in A. destruct (hpath_dec p q) as [E|]; auto. rewrite E. destruct (beneath_dec dir q); tauto.
  - destruct (hpath_dec p q) as [E|]; auto. rewrite E. destruct (beneath_dec dir q) as [B|]; auto. apply above_beneath in B. congruence.
Qed.
Lemma look_in p fs n : look p fs = Some n -> In p (map fst fs).
Proof. induction fs as [|[q m] fs IH]; cbn; [discriminate|]. destruct (hpath_dec p q); auto. Qed.
Lemma in_look p fs : In p (map fst fs) -> exists n, look p fs = Some n.
Proof. induction fs as [|[q m] fs IH]; cbn; [tauto|]. intros H. destruct (hpath_dec p q); eauto. destruct H as [H|H]; [congruence|auto]. Qed.

Lemma mkdir_frame above rest fs p : ~ beneath above p -> look p (fst (mkdir_all above rest fs)) = look p fs.
Proof.
  revert above fs. induction rest as [|c rest IH]; intros above fs H; cbn; auto.
  assert (H' : ~ beneath (above ++ [c]) p) by (intros [x ->]; apply H; exists (c :: x); now rewrite <- app_assoc).
  destruct (look (above ++ [c]) fs) as [[| |]|]; cbn; auto.
  rewrite IH by auto. apply look_put_ne. intros ->. apply H'. apply beneath_refl.
Qed.
Lemma mkdir_down a above rest fs : (forall x y, x <> [] -> a = x ++ y -> look (above ++ x) fs = Some NDir) ->
  mkdir_all above (a ++ rest) fs = mkdir_all (above ++ a) rest fs.
Proof.
  revert above. induction a as [|c a IH]; intros above H; cbn [app mkdir_all]; [now rewrite app_nil_r|].
  rewrite (H [c] a) by (discriminate || reflexivity). rewrite IH; [now rewrite <- app_assoc|].
  intros x y N E. rewrite <- app_assoc. apply (H (c :: x) y); [discriminate|]. cbn. now rewrite E.
Qed.
Lemma mkdir_made above rest fs fs' : mkdir_all above rest fs = (fs', true) -> forall a b, a <> [] -> rest = a ++ b ->
  look (above ++ a) fs' = Some NDir /\ (look (above ++ a) fs = None \/ look (above ++ a) fs = Some NDir).
Proof.
  revert above fs. induction rest as [|c rest IH]; intros above fs E a b N R; [destruct a; [congruence|discriminate]|].
  destruct a as [|c' a]; [congruence|]. injection R as <- R. cbn in E.
  assert (X : forall fs0, look (above ++ [c]) fs0 = Some NDir -> mkdir_all (above ++ [c]) rest fs0 = (fs', true) ->
     (forall q, look ((above ++ [c]) ++ q) fs0 = look ((above ++ [c]) ++ q) fs \/ q = []) -> (look (above ++ [c]) fs = None \/ look (above ++ [c]) fs = Some NDir) ->
     look (above ++ c :: a) fs' = Some NDir /\ (look (above ++ c :: a) fs = None \/ look (above ++ c :: a) fs = Some NDir)).
  { intros fs0 L0 M S L. destruct a as [|d a].
    - split; auto. clear IH E S L R. revert M. 
      assert (G : forall rest ab fs0 p, look p fs0 = Some NDir -> look p (fst (mkdir_all ab rest fs0)) = Some NDir).
      { clear. induction rest as [|d rest IH]; intros ab fs0 p H; cbn; auto.
        destruct (look (ab ++ [d]) fs0) as [[| |]|]; cbn; auto. apply IH. rewrite look_put. destruct (hpath_dec p (ab ++ [d])); auto. }
      intros M. specialize (G rest (above ++ [c]) fs0 (above ++ [c]) L0). now rewrite M in G.
    - destruct (IH _ _ M (d :: a) b) as [A B]; [discriminate|auto|]. change (above ++ c :: d :: a) with (above ++ [c] ++ d :: a). rewrite app_assoc. split; auto.
      destruct (S (d :: a)) as [S'|S']; [|discriminate]. now rewrite S' in B. }
  destruct (look (above ++ [c]) fs) as [[| |]|] eqn:L; try discriminate.
  - apply (X fs); auto.
  - apply (X (put (above ++ [c]) NDir fs)); auto; [apply look_put_eq|].
    intros q. destruct q as [|x q]; [now right|left]. apply look_put_ne. intros H. apply (f_equal (@length _)) in H. rewrite !app_length in H. cbn in H. lia.
Qed.
Lemma mkdir_other above rest fs p : (forall a b, a <> [] -> rest = a ++ b -> p <> above ++ a) -> look p (fst (mkdir_all above rest fs)) = look p fs.
Proof.
  revert above fs. induction rest as [|c rest IH]; intros above fs H; cbn; auto.
  assert (H1 : p <> above ++ [c]) by (apply (H [c] rest); [discriminate|reflexivity]).
  assert (H2 : forall a b, a <> [] -> rest = a ++ b -> p <> (above ++ [c]) ++ a).
  { intros a b N E. rewrite <- app_assoc. apply (H (c :: a) b); [discriminate|]. cbn. now rewrite E. }
  destruct (look (above ++ [c]) fs) as [[| |]|]; cbn; auto. rewrite IH by auto. now apply look_put_ne.
Qed.

(** ** The steps *)
Section run.
  Context (faults : nat -> option nat) (program : command -> hfs -> hfs * bool) (order : list hpath -> list hpath).
  Context (tmp : str) (dir : hpath) (names : names_dir tmp dir).
  Context (fs0 : hfs) (vac : vacant dir fs0).

  Definition outside_same (fs : hfs) : Prop := forall p, ~ beneath dir p -> look p fs = look p fs0.
  Definition ready (fs : hfs) : Prop := outside_same fs /\ look dir fs = Some NDir.

  (** The present state has [P], all have the same outside. *)
  Definition good (P : hfs -> Prop) (st : list hfs) : Prop := exists c past, st = c :: past /\ P c /\ Forall outside_same (c :: past).
  Definition keeps {A} (P : hfs -> Prop) (m : act A) : Prop := forall st, good P st -> good P (fst (m st)).
  Definition implies (P Q : hfs -> Prop) : Prop := forall fs, P fs -> Q fs.
  Lemma good_push (P : hfs -> Prop) fs st : implies P outside_same -> P fs -> good P st -> good P (fs :: st).
  Proof. intros I H (c & past & -> & _ & F). exists fs, (c :: past). auto. Qed.
  Lemma good_now (P : hfs -> Prop) st : good P st -> P (now st).
  Proof. now intros (c & past & -> & H & _). Qed.
  Lemma good_weaken (P Q : hfs -> Prop) st : implies P Q -> good P st -> good Q st.
  Proof. intros I (c & past & -> & H & F). exists c, past. auto. Qed.
  Lemma keeps_ret {A} P (a : A) : keeps P (ret a). Proof. now intros st H. Qed.
  Lemma keeps_fail {A} P : keeps P (@fail A). Proof. now intros st H. Qed.
  Lemma keeps_bind {A B} P (m : act A) (f : A -> act B) : keeps P m -> (forall a, keeps P (f a)) -> keeps P (bind m f).
  Proof.
    intros HM HF st H. unfold bind. specialize (HM st H). destruct (m st) as [st' [a|]]; cbn in HM; auto. now apply HF.
  Qed.
  Lemma keeps_sys (P : hfs -> Prop) op : implies P outside_same -> (forall fs, P fs -> P (fst (op fs))) -> keeps P (sys faults op).
  Proof.
    intros I H st F. unfold sys. pose proof (good_now P st F) as X. destruct (faults (length st)); cbn; [now apply good_push|].
    specialize (H _ X). destruct (op (now st)) as [fs ok]. cbn in *. now apply good_push.
  Qed.
  Lemma keeps_copy (P : hfs -> Prop) p text : implies P outside_same -> (forall fs t, P fs -> P (filled p t fs)) -> keeps P (copy faults p text).
  Proof.
    intros I H st F. unfold copy. pose proof (good_now P st F) as X. destruct (faults (length st)); cbn; apply good_push; auto.
  Qed.
  Lemma ready_out : implies ready outside_same. Proof. now intros fs [H _]. Qed.
  Lemma ready_put q n fs : q <> [] -> ready fs -> ready (put (dir ++ q) n fs).
  Proof.
    intros N [A B]. split.
    - intros p H. rewrite look_put_ne; auto. intros ->. apply H. now exists q.
    - rewrite look_put_ne; auto. intros E. apply (f_equal (@length _)) in E. rewrite app_length in E. destruct q; [congruence|]. cbn in E. lia.
  Qed.
  Lemma ready_above fs : ready fs -> forall x y, x <> [] -> dir = x ++ y -> look ([] ++ x) fs = Some NDir.
  Proof.
    intros [A B] x y N E. cbn [app]. destruct y as [|c y]; [rewrite app_nil_r in E; now subst x|].
    rewrite A; [destruct vac as [_ V]; apply (V x (c :: y)); auto; discriminate|].
    intros [z Z]. subst x. rewrite <- app_assoc in E. apply (f_equal (@length _)) in E. rewrite !app_length in E. cbn in E. lia.
  Qed.
  Lemma ready_mkdir rest fs : ready fs -> mkdir_all [] (dir ++ rest) fs = mkdir_all dir rest fs.
  Proof. intros R. rewrite mkdir_down; auto. intros x y N E. now apply (ready_above fs R x y). Qed.
  Lemma ready_mkdir_keeps rest fs : ready fs -> ready (fst (mkdir_all [] (dir ++ rest) fs)).
  Proof.
    intros R. rewrite ready_mkdir by auto. destruct R as [A B]. split.
    - intros p H. rewrite mkdir_frame by auto. now apply A.
    - rewrite mkdir_other; auto. intros a b N _ E. apply (f_equal (@length _)) in E. rewrite app_length in E. destruct a; [congruence|]. cbn in E. lia.
  Qed.
  Lemma parent_of q : q <> [] -> removelast (dir ++ q) = dir ++ removelast q.
  Proof. intros N. now rewrite removelast_app. Qed.
  Lemma keeps_write r : inner (ref_full r) -> keeps ready (write_file faults tmp r).
  Proof.
    intros I. unfold write_file. rewrite (target _ _ _ names I). destruct I as (_ & N & _). set (q := clean_comps (ref_full r)) in *.
    rewrite parent_of by auto. apply keeps_bind; [apply keeps_sys; [apply ready_out|]; intros fs; apply ready_mkdir_keeps|]. intros _.
    apply keeps_bind. { apply keeps_sys; [apply ready_out|]. intros fs R. unfold create. destruct (look (dir ++ q) fs) as [[| |]|]; cbn [fst]; auto; now apply ready_put. }
    intros _. destruct (ref_content r) as [| |text ok]; try apply keeps_fail.
    apply keeps_bind; [apply keeps_copy; [apply ready_out|]; intros fs t R; unfold filled; destruct (look (dir ++ q) fs) as [[| |]|]; auto; now apply ready_put|]. intros _.
    apply keeps_bind; [apply keeps_sys; [apply ready_out|auto]|]. intros _. destruct ok; [|apply keeps_fail].
    apply keeps_sys; [apply ready_out|]. intros fs R. unfold chtimes. destruct (look (dir ++ q) fs) as [[| |]|]; cbn [fst]; auto. now apply ready_put.
  Qed.
  Lemma keeps_writes l : Forall (fun r => inner (ref_full r)) l -> keeps ready (write_files faults tmp l).
  Proof.
    induction 1 as [|r l I _ IH]; cbn; [apply keeps_ret|]. apply keeps_bind; [now apply keeps_write|auto].
  Qed.
  Lemma keeps_read P l : implies P outside_same -> keeps P (read_back faults dir l).
  Proof.
    intros I. induction l as [|p l IH]; cbn [read_back]; [apply keeps_ret|]. intros st F.
    assert (X : forall mode size mtime text, keeps P (bind (sys faults (fun fs => (fs, true))) (fun _ =>
        match text with None => fail
        | Some text => bind (read_back faults dir l) (fun refs => ret (MemRef (mkMem (join $"/" (skipn (length dir) p)) mode size mtime None (Bytes text true)) :: refs)) end))).
    { intros. apply keeps_bind; [apply keeps_sys; auto|]. intros _. destruct text; [|apply keeps_fail]. apply keeps_bind; auto. intros; apply keeps_ret. }
    destruct (look p (now st)) as [[|mode mtime text|mode size mtime text]|]; try now apply IH.
    - destruct (has_suffix _ _); [exact (X mode _ mtime (Some text) st F)|now apply IH].
    - destruct (has_suffix _ _); [exact (X mode size mtime text st F)|now apply IH].
  Qed.

  (** ** Success *)
  Lemma bind_some {A B} (m : act A) (f : A -> act B) st st' b : bind m f st = (st', Some b) -> exists st1 a, m st = (st1, Some a) /\ f a st1 = (st', Some b).
  Proof. unfold bind. destruct (m st) as [st1 [a|]]; [eauto|discriminate]. Qed.
  Lemma sys_some op st st' u : sys faults op st = (st', Some u) -> faults (length st) = None /\ snd (op (now st)) = true /\ st' = fst (op (now st)) :: st.
  Proof.
    unfold sys. destruct (faults (length st)); [discriminate|]. destruct (op (now st)) as [fs [|]]; [|discriminate]. intros E. injection E as <- _. auto.
  Qed.
  Lemma copy_some q text st st' u : copy faults q text st = (st', Some u) -> st' = filled q text (now st) :: st.
  Proof. unfold copy. destruct (faults (length st)); [discriminate|]. intros E. now injection E as <- _. Qed.
  Lemma write_some r st st' u : inner (ref_full r) -> ready (now st) -> write_file faults tmp r st = (st', Some u) ->
    let q := clean_comps (ref_full r) in exists text fs1, ref_content r = Bytes text true /\ mkdir_all dir (removelast q) (now st) = (fs1, true) /\
    look (dir ++ q) fs1 <> Some NDir /\ forall p, look p (now st') = if hpath_dec p (dir ++ q) then Some (NFile (match look p fs1 with Some (NFile m _ _) => m | _ => 420%N end) (ref_mtime r) text) else look p fs1.
  Proof.
    intros I R E q. unfold write_file in E. rewrite (target _ _ _ names I) in E. destruct I as (_ & N & _). fold q in E, N. rewrite parent_of in E by auto.
    apply bind_some in E. destruct E as (st1 & ? & E1 & E). apply sys_some in E1. destruct E1 as (_ & M & ->).
    rewrite ready_mkdir in M, E by auto. destruct (mkdir_all dir (removelast q) (now st)) as [fs1 ok] eqn:EM. cbn [fst snd] in M, E. subst ok.
    apply bind_some in E. destruct E as (st2 & ? & E2 & E). apply sys_some in E2. destruct E2 as (_ & C & ->). cbn [now hd] in C, E.
    destruct (ref_content r) as [| |text ok] eqn:RC; try discriminate. exists text, fs1.
    apply bind_some in E. destruct E as (st3 & ? & E3 & E). apply copy_some in E3. subst st3. cbn [now hd] in E.
    apply bind_some in E. destruct E as (st4 & ? & E4 & E). apply sys_some in E4. destruct E4 as (_ & _ & ->). cbn [now hd fst] in E.
    destruct ok; [|discriminate]. apply sys_some in E. destruct E as (_ & _ & ->). cbn [now hd].
    split; auto. split; auto. split; [intros H; unfold create in C; rewrite H in C; discriminate|]. intros p.
    unfold create in *. destruct (look (dir ++ q) fs1) as [[| |]|] eqn:L1; try discriminate; cbn [fst]; unfold filled; rewrite look_put_eq; unfold chtimes; rewrite look_put_eq; cbn [fst];
      rewrite look_put; (destruct (hpath_dec p (dir ++ q)) as [->|NE]; [now rewrite L1|now rewrite !look_put_ne by auto]).
  Qed.
  Lemma proper_prefix (a q : hpath) : a <> [] -> (exists s, s <> [] /\ q = a ++ s) <-> (exists b, removelast q = a ++ b) /\ (exists s, q = a ++ s) /\ a <> q.
  Proof.
    intros N. split.
    - intros (s & NS & ->). split; [|split].
      + exists (removelast s). now rewrite removelast_app.
      + eauto.
      + intros E. apply (f_equal (@length _)) in E. rewrite app_length in E. destruct s; [congruence|]. cbn in E. lia.
    - intros ((b & B) & (s & ->) & NE). exists s. split; auto. intros ->. rewrite app_nil_r in NE. congruence.
  Qed.
  Lemma removelast_split (q a b : hpath) : q <> [] -> removelast q = a ++ b -> exists s, s <> [] /\ q = a ++ s.
  Proof. intros N E. exists (b ++ [last q []]). split; [destruct b; discriminate|]. rewrite app_assoc, <- E. now apply app_removelast_last. Qed.
  Lemma write_step l r st st' u : inner (ref_full r) -> ready (now st) -> holds_exactly dir l (now st) -> ~ In (clean_comps (ref_full r)) (map (fun r => clean_comps (ref_full r)) l) ->
    write_file faults tmp r st = (st', Some u) -> holds_exactly dir (l ++ [r]) (now st').
  Proof.
    intros I R H ND E. destruct (write_some _ _ _ _ I R E) as (text & fs1 & RC & M & NDir' & L). set (q := clean_comps (ref_full r)) in *.
    assert (NQ : q <> []) by apply I.
    (* the directories *)
    assert (D1 : forall a s, a <> [] -> s <> [] -> q = a ++ s -> look (dir ++ a) fs1 = Some NDir /\ (look (dir ++ a) (now st) = None \/ look (dir ++ a) (now st) = Some NDir)).
    { intros a s NA NS EQ. apply (mkdir_made _ _ _ _ M a (removelast s)); auto. now rewrite EQ, removelast_app. }
    assert (D2 : forall a, (forall s, s <> [] -> q <> a ++ s) -> look (dir ++ a) fs1 = look (dir ++ a) (now st)).
    { intros a NA. change fs1 with (fst (fs1, true)). rewrite <- M. apply mkdir_other. intros x b NX EX EQ. apply app_inv_head in EQ. subst x.
      destruct (removelast_split _ _ _ NQ EX) as (s & NS & ES). exact (NA s NS ES). }
    intros q' n NQ'. rewrite L. destruct (hpath_dec (dir ++ q') (dir ++ q)) as [EQ|NE].
    - apply app_inv_head in EQ. subst q'.
      assert (MD : match look (dir ++ q) fs1 with Some (NFile m _ _) => m | _ => 420%N end = 420%N).
      { destruct (look (dir ++ q) fs1) as [[|m t0 x0|]|] eqn:L1; auto. exfalso. rewrite D2 in L1.
        - apply (H q _ NQ) in L1. destruct L1 as [(r' & t' & J & E' & _)|(X & _)]; [|discriminate]. apply ND. apply in_map_iff. eauto.
        - intros x NX EX. apply (f_equal (@length _)) in EX. rewrite app_length in EX. destruct x; [congruence|]. cbn in EX. lia. }
      rewrite MD. split.
      + intros X. injection X as <-. left. exists r, text. repeat split; auto. apply in_or_app. right. now left.
      + intros [(r' & text' & J & EQ & RC' & ->)|(-> & r' & s & J & NS & EQ)].
        * apply in_app_or in J. destruct J as [J|[<-|[]]]; [|now rewrite RC in RC'; injection RC' as <-].
          exfalso. apply ND. apply in_map_iff. eauto.
        * exfalso. apply in_app_or in J. destruct J as [J|[<-|[]]].
          -- apply NDir'. rewrite D2; [apply H; auto; right; split; [reflexivity|exists r', s; auto]|].
             intros x NX EX. apply (f_equal (@length _)) in EX. rewrite app_length in EX. destruct x; [congruence|]. cbn in EX. lia.
          -- fold q in EQ. apply (f_equal (@length _)) in EQ. rewrite app_length in EQ. destruct s; [congruence|]. cbn in EQ. lia.
    - assert (NE' : q' <> q) by congruence.
      assert (DEC : (exists s, s <> [] /\ q = q' ++ s) \/ (forall s, s <> [] -> q <> q' ++ s)).
      { destruct (beneath_dec q' q) as [[s ES]|NB].
        - left. exists s. split; auto. intros ->. rewrite app_nil_r in ES. congruence.
        - right. intros s _ ES. apply NB. now exists s. }
      destruct DEC as [(s & NS & ES)|NP].
      + destruct (D1 q' s NQ' NS ES) as [D3 D4]. rewrite D3. split.
        * intros X. injection X as <-. right. split; auto. exists r, s. split; [apply in_or_app; right; now left|auto].
        * intros [(r' & text' & J & EQ & RC' & ->)|(-> & _)]; auto. exfalso. apply in_app_or in J. destruct J as [J|[<-|[]]].
          -- assert (X : look (dir ++ q') (now st) = Some (NFile 420 (ref_mtime r') text')) by (apply H; auto; left; eauto 6). destruct D4; congruence.
          -- fold q in EQ. congruence.
      + rewrite D2 by auto. rewrite (H q' n NQ'). split.
        * intros [(r' & text' & J & X)|(-> & r' & s & J & X)]; [left; exists r', text'|right; split; auto; exists r', s]; (split; [apply in_or_app; now left|auto]).
        * intros [(r' & text' & J & EQ & X)|(-> & r' & s & J & NS & X)]; apply in_app_or in J; destruct J as [J|[<-|[]]].
          -- left. exists r', text'. auto.
          -- fold q in EQ. congruence.
          -- right. split; auto. exists r', s. auto.
          -- exfalso. exact (NP s NS X).
  Qed.
  Lemma writes_exact l : Forall (fun r => inner (ref_full r)) l -> forall done st st' u, good ready st -> holds_exactly dir done (now st) ->
    distinct_refs (done ++ l) -> write_files faults tmp l st = (st', Some u) -> holds_exactly dir (done ++ l) (now st').
  Proof.
    induction 1 as [|r l I IL IH]; intros done st st' u F H D E; cbn [write_files] in E.
    - injection E as <- _. now rewrite app_nil_r.
    - apply bind_some in E. destruct E as (st1 & a & E1 & E). pose proof (keeps_write r I st F) as K. rewrite E1 in K. cbn [fst] in K.
      assert (H1 : holds_exactly dir (done ++ [r]) (now st1)).
      { apply (write_step done r st st1 a); auto; [now apply (good_now ready)|].
        unfold distinct_refs in D. rewrite map_app in D. cbn [map] in D. apply NoDup_remove_2 in D. intros X. apply D. apply in_or_app. now left. }
      change (r :: l) with ([r] ++ l) in *. rewrite app_assoc in *. apply (IH _ st1 st' u); auto.
  Qed.

  (** ** Reading back *)
  Definition is_pyc (fs : hfs) (p : hpath) : bool :=
    match look p fs with
    | None | Some NDir => false
    | Some _ => has_suffix $".pyc" (join $"/" (skipn (length dir) p))
    end.
  Definition ref_at (fs : hfs) (p : hpath) (r : vref) : Prop :=
    exists mode size mtime text, r = MemRef (mkMem (join $"/" (skipn (length dir) p)) mode size mtime None (Bytes text true)) /\
    (look p fs = Some (NFile mode mtime text) /\ size = Z.of_nat (length text) \/ look p fs = Some (NOther mode size mtime (Some text))).
  Lemma read_some l : forall st st' outs, read_back faults dir l st = (st', Some outs) -> Forall2 (ref_at (now st)) (filter (is_pyc (now st)) l) outs.
  Proof.
    induction l as [|p l IH]; intros st st' outs E; cbn [read_back] in E.
    - injection E as _ <-. constructor.
    - cbn [filter]. unfold is_pyc at 1. destruct (look p (now st)) as [[|mode mtime text|mode size mtime text]|] eqn:L; eauto.
      + destruct (has_suffix _ _); eauto. apply bind_some in E. destruct E as (st1 & a & E1 & E). apply sys_some in E1. destruct E1 as (_ & _ & ->). cbn [fst] in E.
        apply bind_some in E. destruct E as (st2 & refs & E2 & E). injection E as _ <-. constructor; [|apply IH in E2; exact E2].
        exists mode, (Z.of_nat (length text)), mtime, text. auto.
      + destruct (has_suffix _ _); eauto. apply bind_some in E. destruct E as (st1 & a & E1 & E). apply sys_some in E1. destruct E1 as (_ & _ & ->). cbn [fst] in E.
        destruct text as [text|]; [|discriminate].
        apply bind_some in E. destruct E as (st2 & refs & E2 & E). injection E as _ <-. constructor; [|apply IH in E2; exact E2].
        exists mode, size, mtime, text. auto.
  Qed.
  Lemma below_in fs p : In p (below_of dir fs) <-> beneath dir p /\ exists n, look p fs = Some n.
  Proof.
    unfold below_of. rewrite filter_In, nodup_In, above_beneath. split.
    - intros [A B]. split; auto. now apply in_look.
    - intros [A [n B]]. split; auto. now apply (look_in _ _ n).
  Qed.
  Lemma collected (perm : forall l, Permutation (order l) l) st st' outs : read_back faults dir (order (below_of dir (now st))) st = (st', Some outs) -> collects dir (now st) outs.
  Proof.
    intros E. apply read_some in E. set (fs := now st) in *. set (ps := filter (is_pyc fs) (order (below_of dir fs))) in *.
    assert (NP : NoDup ps). { apply NoDup_filter. apply (Permutation_NoDup (Permutation_sym (perm _))). apply NoDup_filter, NoDup_nodup. }
    assert (IP : forall p, In p ps <-> beneath dir p /\ is_pyc fs p = true).
    { intros p. unfold ps. rewrite filter_In. split; intros [A B]; split; auto.
      - apply (Permutation_in _ (perm _)) in A. now apply below_in in A.
      - apply (Permutation_in _ (Permutation_sym (perm _))). apply below_in. split; auto. unfold is_pyc in B. destruct (look p fs); [eauto|discriminate]. }
    assert (SK : forall q, skipn (length dir) (dir ++ q) = q) by (intros q; now rewrite skipn_app, skipn_all, Nat.sub_diag).
    exists (map (skipn (length dir)) ps). split; [|split].
    - assert (BP : forall p, In p ps -> beneath dir p) by (intros p J; now apply IP). clear E IP. induction ps as [|p ps IH]; cbn; constructor.
      + intros J. apply in_map_iff in J. destruct J as (p' & EQ & J). destruct (BP p (or_introl eq_refl)) as [x ->]. destruct (BP p' (or_intror J)) as [y ->].
        rewrite !SK in EQ. subst y. inversion NP; auto.
      + apply IH; [inversion NP; auto|]. intros p' J. apply BP. now right.
    - assert (BP : forall p, In p ps -> beneath dir p) by (intros p J; now apply IP). clear NP IP. induction E as [|p r ps refs A _ IH]; cbn; constructor.
      + destruct (BP p (or_introl eq_refl)) as [x ->]. rewrite SK. unfold ref_at in A. rewrite SK in A. exact A.
      + apply IH. intros p' J. apply BP. now right.
    - intros q. rewrite in_map_iff. split.
      + intros (p & <- & J). apply IP in J. destruct J as [[x ->] B]. rewrite SK. unfold is_pyc in B. rewrite SK in B.
        destruct (look (dir ++ x) fs) as [[| |]|]; try discriminate; (split; auto; eexists; split; [reflexivity|discriminate]).
      + intros (S & n & L & NN). exists (dir ++ q). rewrite SK. split; auto. apply IP. split; [now exists q|]. unfold is_pyc. rewrite L, SK. destruct n; auto.
  Qed.
End run.

(** ** The whole *)
Section whole.
  Context (faults : nat -> option nat) (program : command -> hfs -> hfs * bool) (order : list hpath -> list hpath).
  Context (tmp : str) (dir : hpath) (names : names_dir tmp dir) (fs0 : hfs) (vac : vacant dir fs0).
  Context (exe : str) (args : list str) (environ : list (str * str)) (clamp_time : option Z) (python_path : list str) (l : list vref).
  Notation run rm := (compile faults program order rm tmp exe args environ clamp_time python_path l [fs0]).
  Notation cmd := (compile_command exe args tmp environ clamp_time python_path).

  Lemma dir_comps : clean_comps tmp = dir.
  Proof. destruct names as (_ & P & ->). now apply clean_comps_abs. Qed.
  Lemma start_ready : ready dir fs0 (put dir NDir fs0).
  Proof.
    split; [|apply look_put_eq]. intros p H. apply look_put_ne. intros ->. apply H, beneath_refl.
  Qed.
  Lemma start_exact : holds_exactly dir [] (put dir NDir fs0).
  Proof.
    intros q n N. rewrite look_put_ne by (intros E; apply (f_equal (@length _)) in E; rewrite app_length in E; destruct q; [congruence|]; cbn in E; lia).
    destruct vac as [V _]. rewrite V by (now exists q). split; [discriminate|]. intros [(r & text & [] & _)|(_ & r & s & [] & _)].
  Qed.
  Definition body : act (list vref) :=
    bind (write_files faults tmp l) (fun _ => bind (sys faults (program cmd)) (fun _ st => read_back faults dir (order (below_of dir (now st))) st)).
  Lemma run_eq rm : run rm =
    match faults 1 with
    | Some _ => ([fs0; fs0], None)
    | None => let '(st, res) := body [put dir NDir fs0; fs0] in if rm then (now st :: st, None) else (remove_all dir (now st) :: st, res)
    end.
  Proof. unfold compile, body. rewrite dir_comps. unfold bind at 1. unfold sys at 1. cbn [length now hd]. destruct (faults 1); reflexivity. Qed.

  Hypothesis inside : Forall (fun r => inner (ref_full r)) l.
  Hypothesis confined : keeps_to dir program.

  Lemma start_good : good dir fs0 (ready dir fs0) [put dir NDir fs0; fs0].
  Proof.
    exists (put dir NDir fs0), [fs0]. split; auto. split; [apply start_ready|]. constructor; [apply start_ready|]. constructor; auto. intros p _. reflexivity.
  Qed.
  Lemma body_outside : good dir fs0 (outside_same dir fs0) (fst (body [put dir NDir fs0; fs0])).
  Proof.
    unfold body, bind. pose proof (keeps_writes faults tmp dir names fs0 vac l inside _ start_good) as W.
    destruct (write_files faults tmp l [put dir NDir fs0; fs0]) as [st1 [u|]]; cbn [fst] in W |- *; [|now apply (good_weaken _ _ _ _ _ (ready_out dir fs0))].
    apply (good_weaken _ _ _ _ _ (ready_out dir fs0)) in W.
    assert (X : keeps dir fs0 (outside_same dir fs0) (sys faults (program cmd))).
    { apply keeps_sys; [now intros|]. intros fs H p NB. rewrite confined by auto. now apply H. }
    specialize (X st1 W). destruct (sys faults (program cmd) st1) as [st2 [u'|]]; cbn [fst] in X |- *; auto.
    apply keeps_read; auto. now intros.
  Qed.
  Theorem compile_outside rm : Forall (fun fs => same_outside dir fs fs0) (fst (run rm)).
  Proof.
    rewrite run_eq. destruct (faults 1); [repeat constructor; now intros p _|].
    pose proof body_outside as (c & past & E & O & F). destruct (body [put dir NDir fs0; fs0]) as [st res]. cbn [fst] in E. subst st.
    destruct rm; cbn [fst]; constructor; auto. intros p NB. rewrite look_removed. destruct (beneath_dec dir p); [tauto|]. now apply O.
  Qed.
  Theorem compile_restores : same_fs (now (fst (run false))) fs0.
  Proof.
    rewrite run_eq. destruct (faults 1); [now intros p|].
    pose proof body_outside as (c & past & E & O & F). destruct (body [put dir NDir fs0; fs0]) as [st res]. cbn [fst] in E. subst st.
    cbn [fst now hd]. intros p. rewrite look_removed. destruct (beneath_dec dir p); [|now apply O]. destruct vac as [V _]. symmetry. now apply V.
  Qed.
  Theorem compile_ok_removed rm outs : snd (run rm) = Some outs -> rm = false.
  Proof.
    rewrite run_eq. destruct (faults 1); [discriminate|]. destruct (body _) as [st res]. destruct rm; [discriminate|auto].
  Qed.
  Theorem compile_result (perm : forall l, Permutation (order l) l) rm outs : distinct_refs l -> snd (run rm) = Some outs ->
    exists fs, In fs (fst (run rm)) /\ same_outside dir fs fs0 /\ look dir fs = Some NDir /\ holds_exactly dir l fs /\
    snd (program cmd fs) = true /\ In (fst (program cmd fs)) (fst (run rm)) /\ collects dir (fst (program cmd fs)) outs.
  Proof.
    intros D. rewrite run_eq. destruct (faults 1); [discriminate|]. destruct (body [put dir NDir fs0; fs0]) as [st res] eqn:B.
    destruct rm; [discriminate|]. cbn [snd fst]. intros ->. unfold body in B.
    apply bind_some in B. destruct B as (st1 & u & E1 & B). apply bind_some in B. destruct B as (st2 & u' & E2 & B).
    pose proof (keeps_writes faults tmp dir names fs0 vac l inside _ start_good) as W. rewrite E1 in W. cbn [fst] in W.
    pose proof (writes_exact faults tmp dir names fs0 vac l inside [] _ _ _ start_good start_exact D E1) as H. cbn [app] in H.
    apply sys_some in E2. destruct E2 as (_ & OK & ->).
    assert (SUB : forall ps st st' r x, read_back faults dir ps st = (st', r) -> In x st -> In x st').
    { clear. induction ps as [|p ps IH]; intros st st' r x E J; cbn [read_back] in E; [now injection E as <- _|].
      assert (X : forall mode size mtime text, bind (sys faults (fun fs => (fs, true))) (fun _ =>
        match text with None => fail
        | Some text => bind (read_back faults dir ps) (fun refs => ret (MemRef (mkMem (join $"/" (skipn (length dir) p)) mode size mtime None (Bytes text true)) :: refs)) end) st = (st', r) -> In x st').
      { intros mode size mtime text X. unfold bind, sys in X. destruct (faults (length st)); [injection X as <- _; now right|].
        destruct text as [text|]; [|injection X as <- _; now right].
        destruct (read_back faults dir ps (now st :: st)) as [st3 r3] eqn:E3. specialize (IH _ _ _ x E3 (or_intror J)). destruct r3; injection X as <- _; auto. }
      destruct (look p (now st)) as [[|mode mtime text|mode size mtime text]|]; eauto.
      - destruct (has_suffix _ _); eauto. exact (X mode _ mtime (Some text) E).
      - destruct (has_suffix _ _); eauto. }
    exists (now st1). destruct W as (c & past & -> & R & F). cbn [now hd] in *.
    split; [right; apply (SUB _ _ _ _ c B); right; now left|]. split; [apply R|]. split; [apply R|]. split; auto. split; auto.
    split; [right; apply (SUB _ _ _ _ _ B); now left|]. exact (collected faults order dir perm _ _ _ B).
  Qed.

  (** ** It succeeds *)
  Hypothesis no_faults : forall n, faults n = None.
  Lemma mkdir_ok above rest fs : (forall a b, a <> [] -> rest = a ++ b -> look (above ++ a) fs = None \/ look (above ++ a) fs = Some NDir) -> snd (mkdir_all above rest fs) = true.
  Proof.
    revert above fs. induction rest as [|c rest IH]; intros above fs H; cbn; auto.
    assert (K : forall fs', (forall q, q <> [] -> look ((above ++ [c]) ++ q) fs' = look ((above ++ [c]) ++ q) fs) -> snd (mkdir_all (above ++ [c]) rest fs') = true).
    { intros fs' S. apply IH. intros a b N E. rewrite S by auto. rewrite <- app_assoc. apply (H (c :: a) b); [discriminate|]. cbn. now rewrite E. }
    destruct (H [c] rest) as [X|X]; [discriminate|reflexivity| |]; rewrite X; apply K; auto.
    intros q N. apply look_put_ne. intros E. apply (f_equal (@length _)) in E. rewrite app_length in E. destruct q; [congruence|]. cbn in E. lia.
  Qed.
  Lemma sys_ok op st : snd (op (now st)) = true -> sys faults op st = (fst (op (now st)) :: st, Some tt).
  Proof. unfold sys. rewrite no_faults. destruct (op (now st)) as [fs ok]. cbn. now intros ->. Qed.
  Lemma write_ok done r st text : inner (ref_full r) -> ready dir fs0 (now st) -> holds_exactly dir done (now st) -> no_obstacle (done ++ [r]) ->
    ref_content r = Bytes text true -> exists st', write_file faults tmp r st = (st', Some tt).
  Proof.
    intros I R H NO RC. unfold write_file. rewrite (target _ _ _ names I), RC. pose proof I as (_ & N & _). set (q := clean_comps (ref_full r)) in *. rewrite parent_of by auto.
    assert (IR : In r (done ++ [r])) by (apply in_or_app; right; now left).
    assert (M : snd (mkdir_all [] (dir ++ removelast q) (now st)) = true).
    { rewrite (ready_mkdir dir fs0) by auto. apply mkdir_ok. intros a b NA E. destruct (removelast_split _ _ _ N E) as (s & NS & ES).
      destruct (look (dir ++ a) (now st)) as [[| |]|] eqn:L; auto; exfalso; apply (H a _ NA) in L;
        destruct L as [(r' & t' & J & E' & _ & X)|(X & _)]; try discriminate.
      apply NS. apply (NO r' r s); auto; [apply in_or_app; now left|]. fold q. now rewrite E'. }
    pose proof (ready_mkdir_keeps dir fs0 vac (removelast q) (now st) R) as R1. unfold bind at 1. rewrite sys_ok by auto. set (st1 := _ :: st).
    assert (L1 : look (dir ++ q) (now st1) = look (dir ++ q) (now st)).
    { cbn [st1 now hd]. rewrite (ready_mkdir dir fs0) by auto. apply mkdir_other. intros a b NA E E'. apply app_inv_head in E'. subst a. apply (f_equal (@length _)) in E.
      assert (LQ : length q = S (length (removelast q))) by (rewrite (app_removelast_last [] N) at 1; rewrite app_length; cbn; lia). rewrite app_length in E. lia. }
    assert (C : snd (create (dir ++ q) (now st1)) = true).
    { unfold create. rewrite L1. destruct (look (dir ++ q) (now st)) as [[| |]|] eqn:L; auto; exfalso; apply (H q _ N) in L;
        destruct L as [(r' & t' & J & E' & _ & X)|(X & r' & s & J & NS & E')]; try discriminate.
      apply NS. apply (NO r r' s); auto. apply in_or_app. now left. }
    unfold bind at 1. rewrite sys_ok by auto. unfold bind at 1. unfold copy. rewrite no_faults. unfold bind. rewrite sys_ok by reflexivity. cbn [fst].
    rewrite sys_ok; [eauto|]. cbn [now hd]. unfold create in *. destruct (look (dir ++ q) (now st1)) as [[| |]|]; try discriminate; cbn [fst]; unfold filled; rewrite look_put_eq; unfold chtimes; now rewrite look_put_eq.
  Qed.
  Lemma writes_ok todo : Forall (fun r => inner (ref_full r)) todo -> forall done st, good dir fs0 (ready dir fs0) st -> holds_exactly dir done (now st) ->
    distinct_refs (done ++ todo) -> no_obstacle (done ++ todo) -> Forall (fun r => exists text, ref_content r = Bytes text true) todo ->
    exists st', write_files faults tmp todo st = (st', Some tt).
  Proof.
    induction 1 as [|r todo I IL IH]; intros done st G H D NO C; cbn [write_files]; [eexists; reflexivity|].
    inversion C as [|? ? [text RC] C']; subst. destruct (write_ok done r st text) as [st1 E1]; auto.
    { now apply (good_now dir fs0 (ready dir fs0)). }
    { intros a b s A B. apply NO; apply in_app_or in A; apply in_app_or in B; apply in_or_app; destruct A as [A|[<-|[]]], B as [B|[<-|[]]]; auto; right; now left. }
    unfold bind. rewrite E1. pose proof (keeps_write faults tmp dir names fs0 vac r I st G) as G1. rewrite E1 in G1. cbn [fst] in G1.
    apply (IH (done ++ [r])); auto.
    - apply (write_step faults tmp dir names fs0 vac done r st st1 tt); auto; [now apply (good_now dir fs0 (ready dir fs0))|].
      unfold distinct_refs in D. rewrite map_app in D. cbn [map] in D. apply NoDup_remove_2 in D. intros X. apply D. apply in_or_app. now left.
    - rewrite <- app_assoc. exact D.
    - rewrite <- app_assoc. exact NO.
  Qed.
  Lemma read_ok ps : forall st, (forall p m s t, In p ps -> look p (now st) <> Some (NOther m s t None)) -> exists st' outs, read_back faults dir ps st = (st', Some outs).
  Proof.
    induction ps as [|p ps IH]; intros st H; cbn [read_back]; [eexists; eexists; reflexivity|].
    assert (K : forall m s t, look p (now st) <> Some (NOther m s t None)) by (intros; apply H; now left).
    assert (I1 := IH st ltac:(intros; apply H; now right)). assert (I2 := IH (now st :: st) ltac:(intros; apply H; now right)).
    destruct I2 as (st2 & o2 & E2).
    destruct (look p (now st)) as [[|mode mtime text|mode size mtime [text|]]|] eqn:L; auto.
    - destruct (has_suffix _ _); auto. unfold bind. rewrite sys_ok by reflexivity. cbn [fst]. rewrite E2. eexists; eexists; reflexivity.
    - destruct (has_suffix _ _); auto. unfold bind. rewrite sys_ok by reflexivity. cbn [fst]. rewrite E2. eexists; eexists; reflexivity.
    - exfalso. exact (K _ _ _ eq_refl).
  Qed.
  Theorem compile_succeeds (perm : forall l, Permutation (order l) l) : distinct_refs l -> no_obstacle l -> Forall (fun r => exists text, ref_content r = Bytes text true) l ->
    (forall fs, same_outside dir fs fs0 -> holds_exactly dir l fs ->
       snd (program cmd fs) = true /\ forall q m s t, look (dir ++ q) (fst (program cmd fs)) <> Some (NOther m s t None)) ->
    exists outs, snd (run false) = Some outs.
  Proof.
    intros D NO C P. rewrite run_eq, no_faults. unfold body.
    destruct (writes_ok l inside [] _ start_good start_exact D NO C) as [st1 E1].
    pose proof (keeps_writes faults tmp dir names fs0 vac l inside _ start_good) as W. rewrite E1 in W. cbn [fst] in W.
    pose proof (writes_exact faults tmp dir names fs0 vac l inside [] _ _ _ start_good start_exact D E1) as H. cbn [app] in H.
    destruct (P (now st1)) as [OK RD]; auto; [now apply (good_now dir fs0 (ready dir fs0)) in W; destruct W|].
    unfold bind. rewrite E1, sys_ok by auto. destruct (read_ok (order (below_of dir (now (fst (program cmd (now st1)) :: st1)))) (fst (program cmd (now st1)) :: st1)) as (st2 & outs & E2).
    { cbn [now hd]. intros p m s t J. apply (Permutation_in _ (perm _)) in J. apply below_in in J. destruct J as [[q ->] _]. apply RD. }
    rewrite E2. eexists. reflexivity.
  Qed.
End whole.

(** ** The environment *)
Lemma getenv_app k a b : getenv k (a ++ b) = match getenv k a with Some v => Some v | None => getenv k b end.
Proof. induction a as [|[k' v] a IH]; cbn; auto. destruct (str_eqb k k'); auto. Qed.
Lemma getenv_in k v env : getenv k env = Some v -> In (k, v) env.
Proof. induction env as [|[k' v'] env IH]; cbn; [discriminate|]. destruct (str_eqb k k') eqn:E; [|auto]. intros X. injection X as ->. apply str_eqb_eq in E. subst. now left. Qed.
Lemma getenv_none k env : getenv k env = None <-> ~ In k (map fst env).
Proof.
  induction env as [|[k' v'] env IH]; cbn; [tauto|]. destruct (str_eqb k k') eqn:E.
  - apply str_eqb_eq in E. subst. split; [discriminate|]. intros H. exfalso. apply H. now left.
  - apply str_eqb_neq in E. rewrite IH. split; [intros H [X|X]; [congruence|auto]|tauto].
Qed.
Lemma getenv_once k v env : only_once env -> In (k, v) env -> getenv k env = Some v.
Proof.
  unfold only_once. induction env as [|[k' v'] env IH]; cbn; [tauto|]. intros N H. inversion N as [|? ? N1 N2]; subst. destruct (str_eqb k k') eqn:E.
  - apply str_eqb_eq in E. subst k'. destruct H as [H|H]; [congruence|]. exfalso. apply N1. apply in_map_iff. now exists (k, v).
  - destruct H as [H|H]; [injection H as <- <-; rewrite str_eqb_refl in E; discriminate|auto].
Qed.
Lemma getenv_rev k env : only_once env -> getenv k (rev env) = getenv k env.
Proof.
  intros N. destruct (getenv k env) as [v|] eqn:E.
  - apply getenv_once; [|apply -> in_rev; now apply getenv_in]. unfold only_once. rewrite map_rev. now apply NoDup_rev.
  - apply getenv_none. rewrite map_rev. intros H. apply in_rev in H. apply getenv_none in E. auto.
Qed.
Lemma inner_entry tmp dir name : names_dir tmp dir -> inner name -> path_join [tmp; name] = tmp ++ $"/" ++ clean name.
Proof.
  intros ND I. pose proof (target _ _ _ ND I) as T. destruct ND as (N & P & E). assert (A : is_abs tmp = true) by (subst tmp; reflexivity).
  pose proof I as (R & NN & PN). rewrite full_named in * by auto. unfold as_text in *. rewrite clean_comps_text in T by (apply plain_clean, named_plain). rewrite T.
  unfold path_text. rewrite join_app by auto. rewrite (clean_inner _ I). rewrite E. now rewrite app_assoc.
Qed.
Theorem environment exe args tmp dir environ clamp_time python_path : names_dir tmp dir -> only_once environ -> Forall inner python_path ->
  let c := compile_command exe args tmp environ clamp_time python_path in
  c_exe c = exe /\ c_args c = args ++ [$"-s"; tmp; $"-p"; $"/"; tmp] /\
  child_env $"PYTHONHASHSEED" (c_env c) = Some $"0" /\
  child_env $"PYTHONPATH" (c_env c) =
    (match python_path, getenv $"PYTHONPATH" environ with
     | [], e => e
     | _, None | _, Some [] => Some (join $":" (map (fun d => tmp ++ $"/" ++ clean d) python_path))
     | _, Some e => Some (join $":" (map (fun d => tmp ++ $"/" ++ clean d) python_path) ++ $":" ++ e)
     end) /\
  child_env $"SOURCE_DATE_EPOCH" (c_env c) =
    (match clamp_time with None => getenv $"SOURCE_DATE_EPOCH" environ | Some t => Some (itoa (t / 1000000000)) end) /\
  forall k, ~ In k [$"PYTHONHASHSEED"; $"PYTHONPATH"; $"SOURCE_DATE_EPOCH"] -> child_env k (c_env c) = getenv k environ.
Proof.
  intros ND NE IP c. subst c. unfold compile_command, child_env. cbn [c_exe c_args c_env]. split; auto. split; auto.
  set (mid := match python_path with [] => [] | _ => _ end). set (fin := match clamp_time with None => [] | Some _ => _ end).
  rewrite !rev_app_distr. rewrite <- !app_assoc.
  assert (F : forall k, k <> $"SOURCE_DATE_EPOCH" -> getenv k (rev fin) = None).
  { intros k NK. unfold fin. destruct clamp_time; [|reflexivity]. cbn [rev app getenv]. destruct (str_eqb k _) eqn:X; auto. apply str_eqb_eq in X. congruence. }
  assert (M : forall k, k <> $"PYTHONPATH" -> getenv k (rev mid) = None).
  { intros k NK. unfold mid. destruct python_path; [reflexivity|]. cbn [rev app getenv]. destruct (str_eqb k _) eqn:X; auto. apply str_eqb_eq in X. congruence. }
  assert (O : forall k, k <> $"PYTHONHASHSEED" -> getenv k (rev [($"PYTHONHASHSEED", $"0")]) = None).
  { intros k NK. cbn [rev app getenv]. destruct (str_eqb k _) eqn:X; auto. apply str_eqb_eq in X. congruence. }
  split; [|split; [|split]].
  - rewrite getenv_app, F by discriminate. rewrite getenv_app, M by discriminate. reflexivity.
  - rewrite getenv_app, F by discriminate. rewrite getenv_app. unfold mid. destruct python_path as [|d pp].
    + change (getenv $"PYTHONPATH" (rev [])) with (@None str). cbv iota. rewrite getenv_app, O by discriminate. now apply getenv_rev.
    + cbn [rev app getenv]. rewrite str_eqb_refl. unfold python_path_env.
      assert (EM : map (fun dir => path_join [tmp; dir]) (d :: pp) = map (fun d => tmp ++ $"/" ++ clean d) (d :: pp)).
      { apply map_ext_in. intros x J. rewrite Forall_forall in IP. apply (inner_entry _ dir); auto. }
      rewrite EM. destruct (getenv $"PYTHONPATH" environ) as [[|e es]|].
      * now rewrite app_nil_r.
      * f_equal. clear EM mid M IP. set (g := fun d => tmp ++ $"/" ++ clean d). revert d. induction pp as [|x pp IH]; intros d; [reflexivity|].
        cbn [map app] in IH |- *. specialize (IH x).
        change (g d ++ $":" ++ join $":" (g x :: map g pp ++ [e :: es]) = (g d ++ $":" ++ join $":" (g x :: map g pp)) ++ $":" ++ e :: es). rewrite IH. now rewrite <- !app_assoc.
      * now rewrite app_nil_r.
  - rewrite getenv_app. unfold fin. destruct clamp_time as [t|].
    + reflexivity.
    + change (getenv $"SOURCE_DATE_EPOCH" (rev [])) with (@None str). cbv iota. rewrite getenv_app, M by discriminate. rewrite getenv_app, O by discriminate. now apply getenv_rev.
  - intros k NK. assert (K1 : k <> $"PYTHONHASHSEED") by (intros ->; apply NK; now left). assert (K2 : k <> $"PYTHONPATH") by (intros ->; apply NK; right; now left).
    assert (K3 : k <> $"SOURCE_DATE_EPOCH") by (intros ->; apply NK; right; right; now left).
    rewrite getenv_app, F by auto. rewrite getenv_app, M by auto. rewrite getenv_app, O by auto. now apply getenv_rev.
Qed.

(** ** Installing wheels *)
Lemma compile_collects faults program order rm tmp exe args environ t pp l fs0 outs : (forall l, Permutation (order l) l) ->
  snd (compile faults program order rm tmp exe args environ t pp l [fs0]) = Some outs ->
  exists fs, collects (clean_comps tmp) (fst (program (compile_command exe args tmp environ t pp) fs)) outs.
Proof.
  intros perm. unfold compile. unfold bind at 1. destruct (sys faults _ [fs0]) as [st1 [u|]]; [|discriminate].
  destruct (bind _ _ st1) as [st res] eqn:B. destruct rm; [discriminate|]. cbn [snd]. intros ->.
  apply bind_some in B. destruct B as (st2 & u2 & _ & B). apply bind_some in B. destruct B as (st3 & u3 & E3 & B).
  apply sys_some in E3. destruct E3 as (_ & _ & ->). exists (now st2). exact (collected faults order _ perm _ _ _ B).
Qed.
Theorem compiler_outputs o faults program order rm tmp exe args environ pp fs0 : (forall l, Permutation (order l) l) ->
  (forall c fs, plain_fs (clean_comps tmp) (fst (program c fs))) ->
  (forall t l, o_compile o t l = snd (compile faults program order rm tmp exe args environ t pp l [fs0])) ->
  pyc_outputs o /\ distinct_outputs o.
Proof.
  intros perm PL E.
  assert (X : forall t l outs, o_compile o t l = Some outs -> exists fs qs, Forall2 (fun q r => ref_for (clean_comps tmp) q fs r) qs outs /\ NoDup qs /\
    forall q, In q qs -> plain_path q /\ q <> [] /\ has_suffix $".pyc" (join $"/" q) = true).
  { intros t l outs H. rewrite E in H. destruct (compile_collects _ _ _ _ _ _ _ _ _ _ _ _ _ perm H) as (fs & qs & N & F & I).
    eexists. exists qs. split; [exact F|]. split; auto. intros q J. apply I in J. destruct J as (S & n & L & _). split; [now apply (PL _ _ q n L)|]. split; auto. intros ->. discriminate. }
  split.
  - intros t l outs H. destruct (X t l outs H) as (fs & qs & F & _ & Q). clear H X. induction F as [|q r qs outs R _ IH]; constructor.
    + destruct (Q q (or_introl eq_refl)) as (P & N & S). destruct R as (mode & size & mtime & text & -> & _). cbn [ref_full m_full].
      split; [now apply inner_join|]. split; [now apply plain_clean_text|]. split; eauto.
    + apply IH. intros q' J. apply Q. now right.
  - intros t l outs H. destruct (X t l outs H) as (fs & qs & F & N & Q). clear H X.
    assert (M : map ref_full outs = map (join $"/") qs).
    { clear N Q. induction F as [|q r qs outs R _ IH]; cbn; auto. rewrite IH. destruct R as (mode & size & mtime & text & -> & _). reflexivity. }
    rewrite M. clear F M. induction qs as [|q qs IH]; cbn; constructor.
    + intros J. apply in_map_iff in J. destruct J as (q' & EQ & J). inversion N; subst.
      assert (q' = q) by (apply join_inj; auto; apply Q; [now right|now left]). subst. auto.
    + apply IH; [now inversion N|]. intros q' J. apply Q. now right.
Qed.
Theorem on_host_same o pl min t wh run st : snd (install_on_host o pl min t wh run st) = install_vfs (with_compiler o (fun t l => snd (run t l st))) pl min t wh.
Proof.
  unfold install_on_host, install_vfs. cbn [o_csv o_digest o_wheel o_now o_compile o_hook o_encodable o_spread o_parents o_types o_py o_refs o_sort with_compiler].
  destruct (dist_info_dir wh) as [info|]; [|reflexivity].
  change (root_dir (with_compiler o _) ?s info wh) with (root_dir o s info wh).
  repeat change (root_dir (with_compiler o _) (pl_scheme pl) info wh) with (root_dir o (pl_scheme pl) info wh).
  destruct (root_dir o (pl_scheme pl) info wh) as [dst|]; [|reflexivity].
  destruct (spread _ _ _ _ _) as [[fs types]| | |]; try reflexivity. destruct (rewrite_python _ _ _ _) as [fs1| | |]; try reflexivity.
  cbv zeta. cbn [fold_left]. destruct (run t _ st) as [st' [outs|]]; reflexivity.
Qed.
Lemma sources_inner o pl min t wh fs info : fair o -> inner_scheme (pl_scheme pl) -> inner_names wh -> never_nested (pl_scheme pl) wh ->
  install_vfs (with_compiler o (fun _ _ => Some [])) pl min t wh = IOk (fs, info) -> Forall (fun r => inner (ref_full r)) (filter is_py (map snd (o_py o fs))) /\
  distinct_refs (filter is_py (map snd (o_py o fs))).
Proof.
  intros FO HS HN NN E. assert (FO' : fair (with_compiler o (fun _ _ => Some []))) by exact FO.
  destruct (vfs_input (with_compiler o (fun _ _ => Some [])) pl min t wh fs info FO') as (_ & _ & (ND & GM) & PN & _); auto.
  { intros t' l outs X. injection X as <-. constructor. }
  assert (PP : Permutation (o_py o fs) fs) by apply FO.
  rewrite Forall_forall in GM. unfold plain_names in PN. rewrite Forall_forall in PN. split.
  - apply Forall_forall. intros r J. apply filter_In in J. destruct J as [J _]. apply in_map_iff in J. destruct J as ([k r'] & <- & J). apply (Permutation_in _ PP) in J.
    destruct (GM _ J) as (KE & _). specialize (PN _ J). cbn [fst snd] in *. now rewrite <- KE.
  - assert (N1 : NoDup (map (fun kr => clean_comps (ref_full (snd kr))) fs)).
    { assert (EX : map (fun kr => clean_comps (ref_full (snd kr))) fs = map clean_comps (map fst fs)).
      { rewrite map_map. apply map_ext_in. intros kr J. destruct (GM _ J) as (KE & _). now rewrite <- KE. }
      rewrite EX. clear EX. assert (IN : forall k, In k (map fst fs) -> inner k /\ clean k = k).
      { intros k J. apply in_map_iff in J. destruct J as (kr & <- & J). destruct (GM _ J) as (_ & KC & _). split; [now apply PN|exact KC]. }
      clear - ND IN. induction (map fst fs) as [|k ks IH]; cbn; constructor.
      - intros J. apply in_map_iff in J. destruct J as (k' & EQ & J). inversion ND; subst. destruct (IN k (or_introl eq_refl)) as [I1 C1]. destruct (IN k' (or_intror J)) as [I2 C2].
        assert (k' = k) by (rewrite <- C1, <- C2, (clean_inner _ I1), (clean_inner _ I2); now rewrite EQ). subst k'. auto.
      - apply IH; [now inversion ND|]. intros k' J. apply IN. now right. }
    unfold distinct_refs. assert (N2 : NoDup (map (fun r => clean_comps (ref_full r)) (map snd (o_py o fs)))).
    { rewrite map_map. apply (Permutation_NoDup (Permutation_map _ (Permutation_sym PP))). exact N1. }
    clear - N2. induction (map snd (o_py o fs)) as [|r l IH]; [constructor|]. inversion N2 as [|? ? A B]; subst. cbn [filter]. destruct (is_py r); [|auto]. constructor; [|now apply IH].
    intros J. apply A. apply in_map_iff in J. destruct J as (r' & EQ & J). apply filter_In in J. apply in_map_iff. exists r'. tauto.
Qed.
Theorem wheel_host o pl min t wh faults program order rm tmp dir exe args environ pp fs0 :
  fair o -> inner_scheme (pl_scheme pl) -> inner_names wh -> never_nested (pl_scheme pl) wh -> names_dir tmp dir -> vacant dir fs0 -> keeps_to dir program ->
  let r := install_on_host o pl min t wh (fun t l => compile faults program order rm tmp exe args environ t pp l) [fs0] in
  Forall (fun fs => same_outside dir fs fs0) (fst r) /\ (rm = false -> same_fs (now (fst r)) fs0) /\
  (rm = true -> forall res, snd r = IOk res -> False).
Proof.
  intros FO HS HN NN ND V K r. subst r. unfold install_on_host.
  destruct (install_vfs (with_compiler o _) pl min t wh) as [[fs info]| | |] eqn:E;
    try (split; [repeat constructor; now intros p _|]; split; [now intros _ p|discriminate]).
  destruct (sources_inner _ _ _ _ _ _ _ FO HS HN NN E) as [SI _].
  pose proof (compile_outside faults program order tmp dir ND fs0 V exe args environ t pp _ SI K rm) as O.
  pose proof (compile_restores faults program order tmp dir ND fs0 V exe args environ t pp _ SI K) as R.
  pose proof (compile_ok_removed faults program order tmp dir ND fs0 exe args environ t pp (filter is_py (map snd (o_py o fs))) rm) as OK.
  destruct (compile faults program order rm tmp exe args environ t pp _ [fs0]) as [st res] eqn:C. cbn [fst snd] in *.
  assert (X : forall A (y : A), (rm = false -> same_fs (now st) fs0)) by (intros A y ->; now rewrite C in R).
  destruct res as [outs|]; cbn [fst snd]; (split; auto; split; [apply (X unit tt)|]).
  - intros ->. discriminate (OK outs eq_refl).
  - discriminate.
Qed.

(** ** Where it fails *)
Lemma ex_names : names_dir $"/tmp/c.1" ex_temp.
Proof. split; [discriminate|]. split; [|reflexivity]. repeat constructor; try discriminate; cbn; intros H; repeat (destruct H as [H|H]; [discriminate|]); exact H. Qed.
Lemma ex_vacant : vacant ex_temp ex_host.
Proof.
  split.
  - intros p [q ->]. reflexivity.
  - intros a b NA NB E. destruct a as [|x [|y a]]; [congruence| |].
    + injection E as <- _. reflexivity.
    + injection E as _ _ E. destruct a; [|discriminate]. destruct b; [congruence|discriminate].
Qed.
Lemma ex_confined : keeps_to ex_temp (ex_program ex_temp).
Proof.
  intros c fs p NB. unfold ex_program. destruct (look (ex_temp ++ _) fs) as [[| |]|]; cbn [fst]; auto. apply look_put_ne. intros ->. apply NB. eexists. reflexivity.
Qed.
Lemma slip : exists l st res, install_wheel (with_compiler ex_out (fun t l => snd (ex_run (fun _ => None) t l [ex_host]))) 9 ex_platform None None ex_slip = IOk l /\
  (exists pl, sanitize ex_platform = Some pl /\ install_on_host ex_out pl None None ex_slip (ex_run (fun _ => None)) [ex_host] = (st, IOk res)) /\
  look [$"home"; $"u"; $"setup.py"] ex_host = Some (NFile 420 None $"mine") /\
  exists t, look [$"home"; $"u"; $"setup.py"] (now st) = Some (NFile 420 t $"evil").
Proof.
  eexists. eexists. eexists. split; [vm_compute; reflexivity|]. split; [eexists; split; vm_compute; reflexivity|]. split; [reflexivity|]. eexists. vm_compute. reflexivity.
Qed.
