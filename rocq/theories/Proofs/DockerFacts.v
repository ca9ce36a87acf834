(** Images in a Docker daemon *)
From Coq Require Import String Ascii List Bool ZArith Lia.
From Verif.Model Require Import GoStr Docker.
From Verif.Spec Require Import DockerSpec.
From Verif.Proofs Require Import Order GoStrFacts.
Import ListNotations.

Ltac paths a := unfold with_image; destruct (negb (a_valid a _)) eqn:?; [|destruct (negb (a_pipe a)) eqn:?; [|destruct (negb (a_start a)) eqn:?; [|destruct (a_write a) as [?k|] eqn:?]]].

Section one.
  Context (a : around) (repo : str) (pid nanos : Z) (archive : str -> str) (s : store).
  Notation tag := (tag_text repo pid nanos).

  Lemma finish_trace t tr s0 res : fst (fst (finish a t tr s0 res)) = tr /\ a_rm a = false \/ a_rm a = true /\ exists ok, fst (fst (finish a t tr s0 res)) = tr ++ [Remove t ok].
  Proof. unfold finish. destruct (a_rm a); [|left; auto]. right. split; auto. destruct (a_remove a t _) as [s1 ok]. exists ok. reflexivity. Qed.
  Theorem docker_order : exists pre, (pre = [] \/ (exists k ok, pre = [Load (firstn k (archive tag)) ok]) \/ (exists ok, pre = [Load (archive tag) ok]) \/ pre = [Load (archive tag) true; Call tag]) /\
    if a_valid a tag && a_rm a then exists ok, fst (fst (with_image a repo pid nanos archive s)) = pre ++ [Remove tag ok]
    else fst (fst (with_image a repo pid nanos archive s)) = pre.
  Proof.
    assert (X : forall tr s0 res, (tr = [] \/ (exists k ok, tr = [Load (firstn k (archive tag)) ok]) \/ (exists ok, tr = [Load (archive tag) ok]) \/ tr = [Load (archive tag) true; Call tag]) ->
      exists pre, (pre = [] \/ (exists k ok, pre = [Load (firstn k (archive tag)) ok]) \/ (exists ok, pre = [Load (archive tag) ok]) \/ pre = [Load (archive tag) true; Call tag]) /\
      if true && a_rm a then exists ok, fst (fst (finish a tag tr s0 res)) = pre ++ [Remove tag ok] else fst (fst (finish a tag tr s0 res)) = pre).
    { intros tr s0 res H. exists tr. split; auto. destruct (finish_trace tag tr s0 res) as [[E ->]|[-> E]]; auto. }
    paths a; try (destruct (a_valid a tag); [|discriminate]).
    - destruct (a_valid a tag); [discriminate|]. exists []. split; [auto|reflexivity].
    - apply X. auto.
    - apply X. auto.
    - destruct (a_load a _ _) as [s1 ok]. apply X. eauto.
    - destruct (a_load a _ _) as [s1 ok]. destruct (negb (a_close a)); [apply X; eauto|]. destruct ok; cbn [negb]; [|apply X; eauto 6].
      destruct (a_fn a _ _) as [s2 res]. apply X. auto.
  Qed.
  Lemma finish_failed t tr s0 w : snd (finish a t tr s0 (Failed w)) = Failed w.
  Proof. unfold finish. destruct (a_rm a); [|reflexivity]. destruct (a_remove a t _) as [s1 []]; reflexivity. Qed.
  Lemma finish_in t tr s0 res e : In e (fst (fst (finish a t tr s0 res))) -> In e tr \/ exists ok, e = Remove t ok.
  Proof. destruct (finish_trace t tr s0 res) as [[-> _]|[_ (ok & ->)]]; auto. intros I. apply in_app_or in I as [I|[<-|[]]]; eauto. Qed.
  Theorem docker_reported tr s' res : with_image a repo pid nanos archive s = (tr, s', res) ->
    (a_valid a tag = false -> res = Failed 0) /\
    (a_valid a tag = true -> a_pipe a = false -> res = Failed 1) /\
    (a_valid a tag = true -> a_pipe a = true -> a_start a = false -> res = Failed 2) /\
    (a_valid a tag = true -> a_pipe a = true -> a_start a = true ->
       (a_write a <> None -> res = Failed 3) /\ (a_write a = None -> a_close a = false -> res = Failed 4) /\
       (a_write a = None -> a_close a = true -> In (Load (archive tag) false) tr -> res = Failed 5)) /\
    (In (Call tag) tr -> res = Failed 6 -> (exists seen, snd (a_fn a tag seen) = Failed 6) \/ In (Remove tag false) tr) /\
    (In (Call tag) tr -> res = Failed 7 -> (exists seen, snd (a_fn a tag seen) = Failed 7) \/ a_rm a = false).
  Proof.
    unfold with_image. fold tag. intros H.
    destruct (a_valid a tag); cbn [negb] in H; [|injection H as <- <- <-; repeat split; try discriminate; intros []].
    destruct (a_pipe a); cbn [negb] in H.
    2:{ pose proof (finish_failed tag [] s 1) as F. pose proof (finish_in tag [] s (Failed 1) (Call tag)) as G. rewrite H in F, G. cbn [fst snd] in F, G. subst res. repeat split; try discriminate; auto. }
    destruct (a_start a); cbn [negb] in H.
    2:{ pose proof (finish_failed tag [] s 2) as F. rewrite H in F. cbn [fst snd] in F. subst res. repeat split; try discriminate; auto. }
    destruct (a_write a) as [k|].
    { destruct (a_load a (firstn k (archive tag)) (a_others a 1 s)) as [s1 ok]. pose proof (finish_failed tag [Load (firstn k (archive tag)) ok] s1 3) as F. rewrite H in F. cbn [fst snd] in F. subst res. repeat split; try discriminate; auto. }
    destruct (a_load a (archive tag) (a_others a 1 s)) as [s1 ok]. destruct (a_close a); cbn [negb] in H.
    2:{ pose proof (finish_failed tag [Load (archive tag) ok] s1 4) as F. rewrite H in F. cbn [fst snd] in F. subst res. repeat split; try discriminate; auto. intros X. now destruct X. }
    destruct ok; cbn [negb] in H.
    2:{ pose proof (finish_failed tag [Load (archive tag) false] s1 5) as F. rewrite H in F. cbn [fst snd] in F. subst res. repeat split; try discriminate; auto. intros X. now destruct X. }
    destruct (a_fn a tag (a_others a 2 s1)) as [s2 r] eqn:E. pose proof (finish_in tag [Load (archive tag) true; Call tag] s2 r (Load (archive tag) false)) as G. cbn [app] in H. rewrite H in G. cbn [fst] in G.
    repeat split; try discriminate; auto.
    - intros X. now destruct X.
    - intros _ _ X. exfalso. destruct (G X) as [[Y|[Y|[]]]|(o & Y)]; discriminate.
    - intros _ ->. unfold finish in H. destruct (a_rm a); [|destruct r; try discriminate; injection H as _ _ H; subst; left; eexists; rewrite E; reflexivity].
      destruct (a_remove a tag _) as [s3 [|]]; [injection H as _ _ ->; left; eexists; rewrite E; reflexivity|]. injection H as <- _ _. right. cbn. auto.
    - intros _ ->. unfold finish in H. destruct (a_rm a); [|auto]. left. exists (a_others a 2 s1). rewrite E. cbn [snd].
      destruct (a_remove a tag _) as [s3 [|]]; [injection H as _ _ ->; reflexivity|]. destruct r; try discriminate; injection H as _ _ H; congruence.
  Qed.
  Lemma finish_done t tr s0 res tr' s' : removes (a_remove a) t -> strangers (a_others a) t -> finish a t tr s0 res = (tr', s', Done) -> res = Done /\ tr' = tr ++ [Remove t true] /\ image_of t s' = None.
  Proof.
    intros R O. unfold finish. destruct (a_rm a); [|destruct res; discriminate]. specialize (R (a_others a 3 s0)). destruct (a_remove a t _) as [s1 ok]. cbn [fst snd] in R.
    destruct ok; [|destruct res; discriminate]. intros E. injection E as <- <- ->. split; auto. split; auto. rewrite O. tauto.
  Qed.
  Theorem docker_done tr s' : removes (a_remove a) tag -> strangers (a_others a) tag -> with_image a repo pid nanos archive s = (tr, s', Done) ->
    tr = [Load (archive tag) true; Call tag; Remove tag true] /\ image_of tag s' = None.
  Proof.
    intros R O. paths a; try discriminate; try (intros E; apply finish_done in E; auto; destruct E; discriminate).
    - destruct (a_load a _ _) as [s1 ok]. intros E; apply finish_done in E; auto; destruct E; discriminate.
    - destruct (a_load a _ _) as [s1 ok]. destruct (negb (a_close a)); [intros E; apply finish_done in E; auto; destruct E; discriminate|].
      destruct ok; cbn [negb]; [|intros E; apply finish_done in E; auto; destruct E; discriminate].
      destruct (a_fn a _ _) as [s2 res]. intros E. apply finish_done in E; auto. destruct E as (-> & -> & I). auto.
  Qed.
  (** The image is gone if the last command succeeds. *)
  Lemma finish_gone t tr s0 res tr' s' res' : removes (a_remove a) t -> strangers (a_others a) t -> (forall e, In e tr -> e <> Remove t true) ->
    finish a t tr s0 res = (tr', s', res') -> In (Remove t true) tr' -> image_of t s' = None.
  Proof.
    intros R O N. unfold finish. destruct (a_rm a); [|intros E; injection E as <- <- <-; intros I; exfalso; eapply N; eauto].
    specialize (R (a_others a 3 s0)). destruct (a_remove a t _) as [s1 ok]. cbn [fst snd] in R. intros E. injection E as <- <- _. intros I.
    apply in_app_or in I. destruct I as [I|[I|[]]]; [exfalso; eapply N; eauto|]. injection I as ->. rewrite O. tauto.
  Qed.
  Theorem docker_gone tr s' res : removes (a_remove a) tag -> strangers (a_others a) tag -> with_image a repo pid nanos archive s = (tr, s', res) -> In (Remove tag true) tr -> image_of tag s' = None.
  Proof.
    intros R O. assert (N0 : forall e, In e [] -> e <> Remove tag true) by (intros e []). paths a.
    - intros E. injection E as <- <- <-. intros [].
    - intros E I. eapply finish_gone in E; eauto.
    - intros E I. eapply finish_gone in E; eauto.
    - destruct (a_load a _ _) as [s1 ok]. intros E I. eapply finish_gone in E; eauto. intros e [<-|[]]. discriminate.
    - destruct (a_load a _ _) as [s1 ok].
      assert (N1 : forall e, In e [Load (archive tag) ok] -> e <> Remove tag true) by (intros e [<-|[]]; discriminate).
      assert (N2 : forall e, In e ([Load (archive tag) ok] ++ [Call tag]) -> e <> Remove tag true) by (intros e [<-|[<-|[]]]; discriminate).
      destruct (negb (a_close a)); [intros E I; eapply finish_gone in E; eauto|]. destruct ok; cbn [negb]; [|intros E I; eapply finish_gone in E; eauto].
      destruct (a_fn a _ _) as [s2 r2]. intros E I. eapply finish_gone in E; eauto.
  Qed.
  (** Other images *)
  Lemma finish_others t tr s0 res t' tr' s' res' : removes (a_remove a) t -> t' <> t -> (forall n s, image_of t' (a_others a n s) = image_of t' s) ->
    finish a t tr s0 res = (tr', s', res') -> image_of t' s' = image_of t' s0.
  Proof.
    intros R N O. unfold finish. destruct (a_rm a); [|intros E; injection E as _ <- _; apply O]. destruct (R (a_others a 3 s0)) as [T _].
    destruct (a_remove a t _) as [s1 ok]. cbn [fst] in T. intros E. injection E as _ <- _. now rewrite O, T, O.
  Qed.
  Theorem docker_others t tr s' res : removes (a_remove a) tag -> loads (a_load a) tag (archive tag) -> t <> tag ->
    (forall n s, image_of t (a_others a n s) = image_of t s) -> (forall s, image_of t (fst (a_fn a tag s)) = image_of t s) ->
    with_image a repo pid nanos archive s = (tr, s', res) -> image_of t s' = image_of t s.
  Proof.
    intros R [L _] N O F. paths a.
    - intros E. injection E as _ <- _. auto.
    - apply finish_others; auto.
    - apply finish_others; auto.
    - pose proof (L k (a_others a 1 s) t N) as H. destruct (a_load a _ _) as [s1 ok]. cbn [fst] in H. intros E. apply (finish_others _ _ _ _ t) in E; auto. now rewrite E, H, O.
    - pose proof (L (length (archive tag)) (a_others a 1 s) t N) as H. rewrite firstn_all in H. destruct (a_load a _ _) as [s1 ok]. cbn [fst] in H. rewrite O in H.
      destruct (negb (a_close a)); [intros E; apply (finish_others _ _ _ _ t) in E; auto; now rewrite E|].
      destruct (negb ok); [intros E; apply (finish_others _ _ _ _ t) in E; auto; now rewrite E|].
      specialize (F (a_others a 2 s1)). destruct (a_fn a _ _) as [s2 r2]. cbn [fst] in F. intros E. apply (finish_others _ _ _ _ t) in E; auto. now rewrite E, F, O.
  Qed.
  (** Left behind *)
  Theorem docker_left tr s' res : loads (a_load a) tag (archive tag) -> strangers (a_others a) tag -> (forall s, image_of tag (fst (a_fn a tag s)) = image_of tag s) -> a_rm a = false ->
    with_image a repo pid nanos archive s = (tr, s', res) -> In (Call tag) tr -> image_of tag s' = Some (archive tag).
  Proof.
    intros [_ L] O F M. paths a; unfold finish; rewrite ?M; try (intros E; injection E as <- _ _; intros []).
    - destruct (a_load a _ _) as [s1 ok]. intros E. injection E as <- _ _. intros [X|[]]. discriminate.
    - specialize (L (a_others a 1 s)). destruct (a_load a _ _) as [s1 ok]. cbn [fst snd] in L.
      destruct (negb (a_close a)); [intros E; injection E as <- <- _; intros [X|[]]; discriminate|].
      destruct ok; cbn [negb]; [|intros E; injection E as <- <- _; intros [X|[]]; discriminate].
      specialize (F (a_others a 2 s1)). destruct (a_fn a _ _) as [s2 r2]. cbn [fst] in F. intros E. injection E as _ <- _. intros _. rewrite O, F, O. auto.
  Qed.
  (** The first error *)
  Theorem docker_first tr s' res : with_image a repo pid nanos archive s = (tr, s', res) -> In (Call tag) tr ->
    exists seen r, snd (a_fn a tag seen) = r /\ (loads (a_load a) tag (archive tag) -> strangers (a_others a) tag -> image_of tag seen = Some (archive tag)) /\
    (r <> Done -> res = r) /\ (r = Done -> res = Done \/ ~ In (Remove tag true) tr).
  Proof.
    assert (X : forall tr0 s0 r0 tr s' res, (forall e, In e tr0 -> e <> Call tag) -> finish a tag tr0 s0 r0 = (tr, s', res) -> ~ In (Call tag) tr).
    { intros tr0 s0 r0 tr1 s1 res1 N E I. pose proof (finish_trace tag tr0 s0 r0) as T. rewrite E in T. cbn [fst] in T.
      destruct T as [[-> _]|[_ [ok ->]]]; [eapply N; eauto|]. apply in_app_or in I. destruct I as [I|[I|[]]]; [eapply N; eauto|discriminate]. }
    paths a.
    - intros E. injection E as <- _ _. intros [].
    - intros E I. exfalso. eapply X in E; eauto; intros e [].
    - intros E I. exfalso. eapply X in E; eauto; intros e [].
    - destruct (a_load a _ _) as [s1 ok]. intros E I. exfalso. eapply X in E; eauto; intros e [<-|[]]; discriminate.
    - destruct (a_load a _ _) as [s1 ok] eqn:L.
      destruct (negb (a_close a)); [intros E I; exfalso; eapply X in E; eauto; intros e [<-|[]]; discriminate|].
      destruct ok; cbn [negb]; [|intros E I; exfalso; eapply X in E; eauto; intros e [<-|[]]; discriminate].
      destruct (a_fn a _ _) as [s2 r2] eqn:F. intros E _. exists (a_others a 2 s1), r2. rewrite F. split; auto. split.
      { intros [_ LL] O. rewrite O. specialize (LL (a_others a 1 s)). rewrite L in LL. auto. }
      revert E. unfold finish. destruct (a_rm a).
      + destruct (a_remove a tag _) as [s3 ok]. intros E. injection E as <- _ <-. split; intros H; destruct ok; auto; destruct r2; try congruence. right. intros I. cbn in I. intuition discriminate.
      + intros E. injection E as <- _ <-. split; intros H; destruct r2; try congruence. right. intros I. cbn in I. intuition discriminate.
  Qed.
End one.

(** Tags *)
Lemma split_sep (c : ascii) u v u' v' : ~ In c u -> ~ In c u' -> u ++ c :: v = u' ++ c :: v' -> u = u' /\ v = v'.
Proof.
  revert u'. induction u as [|x u IH]; intros [|y u'] N N' E; cbn in E.
  - injection E as E. auto.
  - injection E as -> _. exfalso. apply N'. now left.
  - injection E as <- _. exfalso. apply N. now left.
  - injection E as -> E. destruct (IH u') as [-> ->]; auto; intros I; [apply N|apply N']; now right.
Qed.
Theorem tags_differ repo pid nanos pid' nanos' : (0 <= pid)%Z -> (0 <= nanos)%Z -> (0 <= pid')%Z -> (0 <= nanos')%Z ->
  tag_text repo pid nanos = tag_text repo pid' nanos' -> pid = pid' /\ nanos = nanos'.
Proof.
  intros P N P' N' E. unfold tag_text in E. apply app_inv_head in E. apply app_inv_head in E. apply app_inv_head in E.
  assert (D : forall z, (0 <= z)%Z -> ~ In "."%char (itoa z)).
  { intros z Z I. pose proof (itoa_digits z Z) as A. apply all_digits_spec in A. destruct A as [_ A]. rewrite forallb_forall in A. now specialize (A _ I). }
  apply split_sep in E; auto. destruct E as [E1 E2]. split; now apply itoa_inj.
Qed.
(** The daemon of the examples *)
Lemma image_filter t tag s : image_of t (filter (fun e => negb (str_eqb tag (fst e))) s) = if str_eqb tag t then None else image_of t s.
Proof.
  induction s as [|[t' i] s IH]; cbn [filter fst image_of]; [now destruct (str_eqb tag t)|]. destruct (str_eqb tag t') eqn:E; cbn [negb image_of]; rewrite IH.
  - apply str_eqb_eq in E. subst t'. destruct (str_eqb tag t) eqn:F; auto. destruct (str_eqb t tag) eqn:G; auto. apply str_eqb_eq in G. subst. rewrite str_eqb_refl in F. discriminate.
  - destruct (str_eqb tag t) eqn:F; auto. apply str_eqb_eq in F. subst t. now rewrite E.
Qed.
Lemma ex_daemon : loads (ex_load ex_tag $"archive") ex_tag $"archive" /\ removes ex_remove ex_tag /\ strangers (a_others (ex_around true None Done)) ex_tag.
Proof.
  split; [split|split].
  - intros k s t N. unfold ex_load. destruct (str_eqb _ _); cbn [fst image_of]; auto. apply str_eqb_neq in N. now rewrite N.
  - intros s. unfold ex_load. rewrite str_eqb_refl. cbn [fst snd image_of]. now rewrite str_eqb_refl.
  - intros s. unfold ex_remove. destruct (image_of ex_tag s); cbn [fst snd]; [|split; auto; intros t _; auto]. split.
    + intros t N. rewrite image_filter. destruct (str_eqb ex_tag t) eqn:E; auto. apply str_eqb_eq in E. congruence.
    + now rewrite image_filter, str_eqb_refl.
  - intros n s. cbn [a_others ex_around]. destruct n as [|[|[|n]]]; reflexivity.
Qed.
