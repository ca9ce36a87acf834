(** The pages are those of the visible commands. *)
From Coq Require Import String Ascii List Bool Arith Lia.
From Verif.Model Require Import GoStr DocGen.
From Verif.Spec Require Import DocGenSpec.
From Verif.Proofs Require Import Order GoStrFacts.
Import ListNotations.

Section ind.
  Variable P : cmd -> Prop.
  Hypothesis step : forall n h d r subs, Forall P subs -> P (Cmd n h d r subs).
  Fixpoint cmd_rect' (c : cmd) : P c :=
    let 'Cmd n h d r subs := c in
    step n h d r subs ((fix go l : Forall P l := match l with [] => Forall_nil P | s :: l => Forall_cons s (cmd_rect' s) (go l) end) subs).
End ind.

Lemma available_visible c : available c = true <-> visible c.
Proof.
  induction c as [n h d r subs IH] using cmd_rect'. rewrite Forall_forall in IH. cbn [available]. split.
  - rewrite !andb_true_iff, !negb_true_iff, orb_true_iff. intros [[-> ->] [-> | H]].
    + apply visible_run.
    + apply existsb_exists in H as (s & Hs & Ha). apply (visible_sub n r subs s Hs). apply IH; auto.
  - intros V. inversion V; subst.
    + reflexivity.
    + cbn [negb andb]. apply orb_true_iff. right. apply existsb_exists. exists s. split; [assumption|]. apply IH; auto.
Qed.
Lemma visible_topic c : visible c -> help_topic c = false.
Proof.
  induction 1 as [n subs | n r subs s Hin V IH]; cbn [help_topic]; [reflexivity|].
  apply andb_false_iff. right. destruct (forallb help_topic subs) eqn:E; [|reflexivity].
  rewrite forallb_forall in E. rewrite (E s Hin) in IH. discriminate IH.
Qed.

(** Below a command at [path]: those reached through visible commands *)
Inductive below : list str -> cmd -> list str -> Prop :=
| below_here path c : below path c path
| below_sub path n h d r subs s p : In s subs -> visible s -> below (path ++ [cmd_name s]) s p -> below path (Cmd n h d r subs) p.
Lemma pages_below c : forall path p, In p (pages path c) <-> below path c p.
Proof.
  induction c as [n h d r subs IH] using cmd_rect'. rewrite Forall_forall in IH. intros path p. cbn [pages].
  rewrite in_app_iff, in_flat_map. split.
  - intros [(s & Hs & Hp) | [-> | []]]; [|apply below_here].
    destruct (available s) eqn:Ha; [|destruct Hp]. destruct (help_topic s); [destruct Hp|]. cbn [negb orb] in Hp.
    apply (below_sub path n h d r subs s p Hs); [now apply available_visible|]. now apply IH.
  - intros B. inversion B; subst; [right; now left|]. left. exists s. split; [assumption|].
    match goal with V : visible s |- _ => pose proof (visible_topic s V) as Ht; apply available_visible in V as Ha end.
    rewrite Ha, Ht. cbn [negb orb]. now apply IH.
Qed.
Lemma documented_below root path c : documented root path c -> forall p, below path c p -> below [cmd_name root] root p.
Proof.
  induction 1 as [| path n h d r subs s D IH Hs V]; intros p B; [exact B|].
  apply IH. apply (below_sub path n h d r subs s p Hs V B).
Qed.
Lemma below_documented root path c p : below path c p -> documented root path c -> exists c', documented root p c'.
Proof.
  induction 1 as [path c | path n h d r subs s p Hs V B IH]; intros D; [now exists c|].
  apply IH. apply (doc_sub root path n h d r subs s D Hs V).
Qed.
Lemma pages_documented root p : In p (pages [cmd_name root] root) <-> exists c, documented root p c.
Proof.
  rewrite pages_below. split.
  - intros B. apply (below_documented root _ _ _ B (doc_root root)).
  - intros (c & D). apply (documented_below root p c D). apply below_here.
Qed.

(** Names of pages *)
Lemma documented_nonempty root p c : documented root p c -> p <> [].
Proof. intros D. destruct D; [discriminate|]. now destruct path. Qed.
Lemma documented_avoid sep root p c : names_avoid sep root -> documented root p c ->
  names_avoid sep c /\ Forall (fun n => ~ In " "%char n /\ ~ In sep n) p.
Proof.
  intros A. induction 1 as [| path n h d r subs s D IH Hs V].
  - split; [exact A|]. constructor; [|constructor]. inversion A; subst. cbn [cmd_name]. auto.
  - destruct IH as [IHc IHp]. inversion IHc; subst.
    match goal with F : Forall _ subs |- _ => rewrite Forall_forall in F; specialize (F s Hs); rename F into As end.
    split; [exact As|]. apply Forall_app. split; [exact IHp|]. constructor; [|constructor]. inversion As; subst. cbn [cmd_name]. auto.
Qed.
Lemma map_avoid sep (n : str) : ~ In " "%char n -> map (fun c => if byte_eqb c " "%char then sep else c) n = n.
Proof.
  induction n as [|x n IH]; intros H; [reflexivity|]. cbn [map]. destruct (byte_eqb x " ") eqn:E.
  - apply byte_eqb_eq in E. subst. exfalso. apply H. now left.
  - f_equal. apply IH. intros Hi. apply H. now right.
Qed.
Lemma map_join sep (l : list str) : Forall (fun n => ~ In " "%char n) l ->
  map (fun c => if byte_eqb c " "%char then sep else c) (join [" "%char] l) = join [sep] l.
Proof.
  induction 1 as [|n l Hn Hl IH]; [reflexivity|]. destruct l as [|m l]; [cbn [join]; now apply map_avoid|].
  change (join [" "%char] (n :: m :: l)) with (n ++ " "%char :: join [" "%char] (m :: l)).
  change (join [sep] (n :: m :: l)) with (n ++ sep :: join [sep] (m :: l)).
  rewrite map_app, map_avoid by exact Hn. cbn [map]. now rewrite IH.
Qed.
Lemma page_file_is sep ext p : Forall (fun n => ~ In " "%char n) p -> page_file sep ext p = join [sep] p ++ ext.
Proof. intros H. unfold page_file. f_equal. apply (map_join sep p H). Qed.
Lemma page_file_inj sep ext root p q c c' : names_avoid sep root -> documented root p c -> documented root q c' ->
  page_file sep ext p = page_file sep ext q -> p = q.
Proof.
  intros A Dp Dq E. destruct (documented_avoid sep root p c A Dp) as [_ Fp]. destruct (documented_avoid sep root q c' A Dq) as [_ Fq].
  rewrite !page_file_is in E by (eapply Forall_impl; [|eassumption]; cbv beta; tauto).
  apply app_inv_tail in E. apply (f_equal (split_on sep)) in E.
  rewrite !split_on_join in E; try (eapply Forall_impl; [|eassumption]; cbv beta; tauto); eauto using documented_nonempty.
Qed.

(** Writing *)
Lemma put_named name t l x : entry_named (put name t l) x = if str_eqb name x then Some t else entry_named l x.
Proof.
  induction l as [|[n u] l IH]; cbn [put entry_named]; [reflexivity|].
  destruct (str_eqb n name) eqn:E; cbn [entry_named].
  - apply str_eqb_eq in E. subst n. destruct (str_eqb name x); reflexivity.
  - rewrite IH. destruct (str_eqb n x) eqn:E1; [|reflexivity]. apply str_eqb_eq in E1. subst n.
    destruct (str_eqb name x) eqn:E2; [|reflexivity]. apply str_eqb_eq in E2. subst. rewrite str_eqb_refl in E. discriminate E.
Qed.
Lemma put_nodup name t l : NoDup (map fst l) -> NoDup (map fst (put name t l)).
Proof.
  induction l as [|[n u] l IH]; cbn [put map fst]; intros H; [repeat constructor; auto|].
  inversion H as [|? ? H1 H2]; subst. destruct (str_eqb n name) eqn:E; cbn [map fst].
  - apply str_eqb_eq in E. subst n. now constructor.
  - constructor; [|now apply IH]. intros Hi. apply H1. clear -Hi E. induction l as [|[m v] l IH]; cbn [put map fst] in *.
    + destruct Hi as [<- | []]. rewrite str_eqb_refl in E. discriminate E.
    + destruct (str_eqb m name) eqn:E1; cbn [map fst] in Hi.
      * apply str_eqb_eq in E1. subst m. exact Hi.
      * destruct Hi as [-> | Hi]; [now left|right; auto].
Qed.
Section writing.
  Variables (h : host) (file page : list str -> str).
  Lemma written_all todo : forall l l', write_pages h file page todo l = (l', true) ->
    forall x, (forall p, In p todo -> file p = x -> forall q, In q todo -> file q = x -> page q = page p) ->
    entry_named l' x = match find (fun p => str_eqb (file p) x) todo with Some p => Some (AFile (page p)) | None => entry_named l x end.
  Proof.
    induction todo as [|p todo IH]; intros l l' E x Hx; cbn [write_pages find] in *; [now injection E as <-|].
    unfold write_page in E. destruct (create_ok h (file p)); [|discriminate E].
    destruct (writing h (file p)); [discriminate E|].
    assert (Hx' : forall q, In q todo -> file q = x -> forall q', In q' todo -> file q' = x -> page q' = page q) by (intros; eapply Hx; eauto; now right).
    rewrite (IH _ _ E x Hx'). rewrite put_named.
    destruct (str_eqb (file p) x) eqn:Ep; [|reflexivity].
    destruct (find _ todo) as [q|] eqn:F; [|reflexivity].
    apply find_some in F as [Fi Fe]. apply str_eqb_eq in Fe, Ep. do 2 f_equal. apply (Hx p); auto; [now left|now right].
  Qed.
  Lemma written_some todo : forall l l' ok, write_pages h file page todo l = (l', ok) -> forall x t, entry_named l' x = Some t ->
    entry_named l x = Some t \/ exists p k, In p todo /\ x = file p /\ t = AFile (firstn k (page p)).
  Proof.
    induction todo as [|p todo IH]; intros l l' ok E x t Hx; cbn [write_pages] in *; [injection E as <- <-; now left|].
    unfold write_page in E. destruct (create_ok h (file p)); [|injection E as <- <-; now left].
    destruct (writing h (file p)) as [k|].
    - injection E as <- <-. rewrite put_named in Hx. destruct (str_eqb (file p) x) eqn:Ep; [|now left].
      apply str_eqb_eq in Ep. injection Hx as <-. right. exists p, k. split; [now left|]. auto.
    - destruct (IH _ _ _ E x t Hx) as [Hl | (q & k & Hq & Ex & Et)].
      + rewrite put_named in Hl. destruct (str_eqb (file p) x) eqn:Ep; [|now left].
        apply str_eqb_eq in Ep. injection Hl as <-. right. exists p, (length (page p)). split; [now left|]. split; [auto|]. now rewrite firstn_all.
      + right. exists q, k. split; [now right|]. auto.
  Qed.
  Lemma written_nodup todo : forall l l' ok, write_pages h file page todo l = (l', ok) -> NoDup (map fst l) -> NoDup (map fst l').
  Proof.
    induction todo as [|p todo IH]; intros l l' ok E N; cbn [write_pages] in *; [now injection E as <- <-|].
    unfold write_page in E. destruct (create_ok h (file p)); [|now injection E as <- <-].
    destruct (writing h (file p)) as [k|]; [injection E as <- <-; now apply put_nodup|].
    apply (IH _ _ _ E). now apply put_nodup.
  Qed.
  Lemma written_ok todo : forall l, snd (write_pages h file page todo l) = true <->
    forall p, In p todo -> create_ok h (file p) = true /\ writing h (file p) = None.
  Proof.
    induction todo as [|p todo IH]; intros l; cbn [write_pages]; [cbn; split; [contradiction|auto]|].
    unfold write_page. destruct (create_ok h (file p)) eqn:C; [destruct (writing h (file p)) eqn:W|].
    - cbn. split; [discriminate|]. intros H. destruct (H p (or_introl eq_refl)). congruence.
    - rewrite IH. split; [intros H q [<- | Hq]; auto|intros H q Hq; apply H; now right].
    - cbn. split; [discriminate|]. intros H. destruct (H p (or_introl eq_refl)). congruence.
  Qed.
End writing.

(** The commands *)
Theorem generate_pages h sep ext page root before after : names_avoid sep root -> generate h sep ext page root before = (after, true) ->
  exists l, after = ADir l /\ NoDup (map fst l) /\
  forall x t, entry_named l x = Some t <-> exists p c, documented root p c /\ x = join [sep] p ++ ext /\ t = AFile (page p).
Proof.
  intros A. unfold generate, remove_all. destruct (removal h); [discriminate|]. cbn [mkdir_all]. destruct (mkdir_ok h); [|discriminate].
  destruct (write_pages _ _ _ _ _) as [l ok] eqn:W. intros [= <- ->]. exists l. split; [reflexivity|].
  split; [apply (written_nodup _ _ _ _ _ _ _ W); constructor|]. intros x t.
  assert (F : forall p c, documented root p c -> page_file sep ext p = join [sep] p ++ ext).
  { intros p c D. apply page_file_is. destruct (documented_avoid sep root p c A D) as [_ Fp]. eapply Forall_impl; [|exact Fp]. cbv beta. tauto. }
  rewrite (written_all _ _ _ _ _ _ W x).
  - cbn [entry_named]. destruct (find _ _) as [p|] eqn:E.
    + apply find_some in E as [Ei Ee]. apply str_eqb_eq in Ee. apply pages_documented in Ei as (c & D). split.
      * intros [= <-]. exists p, c. rewrite <- (F p c D). auto.
      * intros (q & c' & D' & -> & ->). rewrite <- (F q c' D') in Ee. now rewrite (page_file_inj sep ext root p q c c' A D D' Ee).
    + split; [discriminate|]. intros (q & c' & D' & -> & ->). exfalso.
      assert (Hi : In q (pages [cmd_name root] root)) by (apply pages_documented; eauto). pose proof (find_none _ _ E q Hi) as Hn. cbv beta in Hn. rewrite (F q c' D') in Hn. rewrite str_eqb_refl in Hn. discriminate Hn.
  - intros p Hp Ep q Hq Eq. apply pages_documented in Hp as (c & D). apply pages_documented in Hq as (c' & D').
    f_equal. apply (page_file_inj sep ext root q p c' c A D' D). congruence.
Qed.
Theorem generate_only h sep ext page root before after ok : names_avoid sep root -> removal h = None -> generate h sep ext page root before = (after, ok) ->
  after = Absent \/ exists l, after = ADir l /\ NoDup (map fst l) /\
  forall x t, entry_named l x = Some t -> exists p c text, documented root p c /\ x = join [sep] p ++ ext /\ t = AFile text /\ starts text (page p).
Proof.
  intros A R. unfold generate, remove_all. rewrite R. cbn [mkdir_all]. destruct (mkdir_ok h); [|intros [= <- <-]; now left].
  destruct (write_pages _ _ _ _ _) as [l ok'] eqn:W. intros [= <- <-]. right. exists l. split; [reflexivity|].
  split; [apply (written_nodup _ _ _ _ _ _ _ W); constructor|]. intros x t Hx.
  destruct (written_some _ _ _ _ _ _ _ W x t Hx) as [H | (p & k & Hp & -> & ->)]; [discriminate H|].
  apply pages_documented in Hp as (c & D). exists p, c, (firstn k (page p)). split; [exact D|]. split.
  - apply page_file_is. destruct (documented_avoid sep root p c A D) as [_ Fp]. eapply Forall_impl; [|exact Fp]. cbv beta. tauto.
  - split; [reflexivity|]. exists (skipn k (page p)). now rewrite firstn_skipn.
Qed.
Theorem generate_succeeds h sep ext page root before : names_avoid sep root ->
  (snd (generate h sep ext page root before) = true <->
   removal h = None /\ mkdir_ok h = true /\
   forall p c, documented root p c -> create_ok h (join [sep] p ++ ext) = true /\ writing h (join [sep] p ++ ext) = None).
Proof.
  intros A.
  assert (F : forall p c, documented root p c -> page_file sep ext p = join [sep] p ++ ext).
  { intros p c D. apply page_file_is. destruct (documented_avoid sep root p c A D) as [_ Fp]. eapply Forall_impl; [|exact Fp]. cbv beta. tauto. }
  unfold generate, remove_all. destruct (removal h); [split; [discriminate|intros [H _]; discriminate H]|].
  cbn [mkdir_all]. destruct (mkdir_ok h); [|split; [discriminate|intros (_ & H & _); discriminate H]].
  pose proof (written_ok h (page_file sep ext) page (pages [cmd_name root] root) []) as W.
  destruct (write_pages _ _ _ _ _) as [l ok]. cbn [snd] in *. rewrite W. split.
  - intros H. do 2 (split; [reflexivity|]). intros p c D. rewrite <- (F p c D). apply H. apply pages_documented. eauto.
  - intros (_ & _ & H) p Hp. apply pages_documented in Hp as (c & D). rewrite (F p c D). eauto.
Qed.
Theorem generate_stuck h sep ext page root before rest : removal h = Some rest -> generate h sep ext page root before = (rest, false).
Proof. intros R. unfold generate, remove_all. now rewrite R. Qed.

(** The commands of the program *)
Fixpoint avoidsb (sep : ascii) (c : cmd) : bool :=
  let 'Cmd n _ _ _ subs := c in negb (contains_byte " "%char n) && negb (contains_byte sep n) && forallb (avoidsb sep) subs.
Lemma contains_byte_in c s : contains_byte c s = false -> ~ In c s.
Proof.
  intros H Hi. unfold contains_byte in H. assert (existsb (byte_eqb c) s = true) by (apply existsb_exists; exists c; split; [exact Hi|apply byte_eqb_refl]). congruence.
Qed.
Lemma avoidsb_ok sep c : avoidsb sep c = true -> names_avoid sep c.
Proof.
  induction c as [n h d r subs IH] using cmd_rect'. cbn [avoidsb]. rewrite !andb_true_iff, !negb_true_iff. intros [[H1 H2] H3].
  constructor; [now apply contains_byte_in|now apply contains_byte_in|]. rewrite forallb_forall in H3. rewrite Forall_forall in *. auto.
Qed.
Lemma the_pages : names_avoid "-"%char the_commands /\ names_avoid "_"%char the_commands /\
  forall h page before after, mddoc h page the_commands before = (after, true) -> exists l, after = ADir l /\
  forall x, (exists t, entry_named l x = Some t) <->
    In x [$"ocibuild.md"; $"ocibuild_image.md"; $"ocibuild_image_build.md"; $"ocibuild_layer.md"; $"ocibuild_layer_dir.md"; $"ocibuild_layer_gobuild.md";
          $"ocibuild_layer_squash.md"; $"ocibuild_layer_wheel.md"; $"ocibuild_python.md"; $"ocibuild_python_getwheel.md"; $"ocibuild_python_inspect.md"].
Proof.
  split; [apply avoidsb_ok; vm_compute; reflexivity|]. assert (A : names_avoid "_"%char the_commands) by (apply avoidsb_ok; vm_compute; reflexivity).
  split; [exact A|]. intros h page before after E. destruct (generate_pages h "_"%char $".md" page the_commands before after A E) as (l & -> & _ & H).
  exists l. split; [reflexivity|]. intros x.
  assert (P : forall y, (exists p c, documented the_commands p c /\ y = join ["_"%char] p ++ $".md") <->
     In y (map (fun p => join ["_"%char] p ++ $".md") (pages [cmd_name the_commands] the_commands))).
  { intros y. rewrite in_map_iff. split.
    - intros (p & c & D & ->). exists p. split; [reflexivity|]. apply pages_documented. eauto.
    - intros (p & <- & Hp). apply pages_documented in Hp as (c & D). eauto. }
  transitivity (exists p c, documented the_commands p c /\ x = join ["_"%char] p ++ $".md").
  - split.
    + intros (t & Ht). apply H in Ht as (p & c & D & -> & _). eauto.
    + intros (p & c & D & ->). exists (AFile (page p)). apply H. eauto.
  - rewrite P. clear. match goal with |- In x ?a <-> _ => let b := eval vm_compute in a in change a with b end.
    cbn [In]. vm_compute. tauto.
Qed.
