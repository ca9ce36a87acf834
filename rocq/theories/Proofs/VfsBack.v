(** The converse of VfsImage: what is opened in a loaded image is there in the unpacked one. *)
From Coq Require Import String Ascii List Bool ZArith Lia.
From Verif.Model Require Import GoStr GoPath Tar Squash VfsFS.
From Verif.Spec Require Import PathSpec SquashSpec VfsFSSpec.
From Verif.Proofs Require Import Order GoStrFacts GoPathFacts SquashTree SquashLoad SquashSim SquashStack SquashWf SquashInv SquashWrite SquashReload SquashMain SquashFinal SquashMore SquashLinks VfsFSFacts VfsImage.
Import ListNotations.
Local Arguments byte_eqb : simpl never.
Local Arguments str_eqb : simpl never.
Local Arguments clean : simpl never.
Local Arguments path_base : simpl never.

Section back.
  Context (t : tree) (WV : wfv (view_of t)) (LF : leafy (view_of t)) (ROOT : dirT t []).
  Lemma view_above p k : view_of t (p ++ [k]) <> None -> view_of t p <> None.
  Proof. rewrite view_app. unfold view_of. now destruct (subtree t p). Qed.
  Lemma parent_dir p : view_of t p <> None -> dirT t (parent p).
  Proof.
    intros V. destruct p as [|k p _] using rev_ind; [exact ROOT|]. unfold parent. rewrite removelast_last. split; [now apply view_above in V|].
    destruct (non_dir (header_at t p)) eqn:N; auto. rewrite header_view in N. now rewrite (LF p k N) in V.
  Qed.
  Lemma rests_lands k p e : rests t k p e -> dirT t e -> lands t k p e.
  Proof. induction 1 as [p V L|k p l q e L N S R IH]; intros D; [now apply lands_dir|]. eapply lands_link; eauto. Qed.
  Lemma rests_view k p e : rests t k p e -> view_of t e <> None.
  Proof. induction 1; auto. Qed.
  Lemma no_empty_key d : view_of t (d ++ [[]]) = None.
  Proof.
    destruct (view_of t (d ++ [[]])) as [n|] eqn:V; auto. exfalso. destruct (w_shape _ WV _ _ V) as [[P _]|[(d' & k' & X & _ & K) _]].
    - apply Forall_app in P as [_ P]. inversion P as [|? ? (H & _) _]. now apply H.
    - apply app_inj_tail in X as [_ <-]. destruct K as [K|(x & K & _)]; discriminate.
  Qed.

  Definition got (n : nat) : Prop := forall f c follow t' r, view_of t f <> None -> c <> $"." -> c <> $".." -> get n t f c false follow = Ret (t', r) ->
    t' = t /\ exists k d, lands t k f d /\ view_of t (d ++ [c]) <> None /\ (if follow then exists j, rests t j (d ++ [c]) r else r = d ++ [c]).
  Definition resolved (n : nat) : Prop := forall p stack t' e, view_of t p <> None -> resolve n t p false stack = Ret (t', e) -> t' = t /\ exists j, rests t j p e.
  Definition fetched (n : nat) : Prop := forall d l follow t' r, dirT t d -> fs_get n t d l false follow = Ret (t', r) ->
    t' = t /\ clean l <> $"/" /\ exists q, steps t (if is_abs l then [] else d) (clean_comps l) q /\ view_of t q <> None /\ (if follow then exists j, rests t j q r else r = q).
  Lemma crawl_back n : got n -> forall cs, plain_path cs -> cs <> [] -> forall f follow t' r, view_of t f <> None -> crawl n false follow t f cs = Ret (t', r) ->
    t' = t /\ exists k d q, lands t k f d /\ steps t d cs q /\ view_of t q <> None /\ (if follow then exists j, rests t j q r else r = q).
  Proof.
    intros G cs P NE. induction cs as [|c cs IH]; [congruence|]. intros f follow t' r V C. inversion P as [|? ? Pc Pcs]; subst. destruct Pc as (Pc0 & Pc1 & Pc2 & Pc3).
    destruct cs as [|c' cs].
    - cbn [crawl] in C. apply G in C as (-> & k & d & L & V' & R); auto. split; auto. exists k, d, (d ++ [c]). split; auto. split; auto.
      apply steps_last; auto; [|repeat split; auto]. now apply (lands_ok t) in L.
    - cbn [crawl] in C. destruct (get n t f c false false) as [[t1 f1]| |] eqn:E; try discriminate. cbn [bind] in C. apply G in E as (-> & k & d & L & V' & ->); auto.
      apply IH in C as (-> & k' & d' & q & L' & S & V2 & R); auto; [|discriminate]. split; auto. exists k, d, q. split; auto. split; auto.
      eapply steps_down; eauto; [now apply (lands_ok t) in L|repeat split; auto|discriminate].
  Qed.
  Lemma crawl_up n : (forall m, n = S m -> resolved m) -> got n -> forall m ps, plain_path ps -> m <> 0%nat \/ ps <> [] -> forall d follow t' r, dirT t d ->
    crawl n false follow t d (repeat dotdot m ++ ps) = Ret (t', r) ->
    t' = t /\ exists q, steps t d (repeat dotdot m ++ ps) q /\ view_of t q <> None /\ (if follow then exists j, rests t j q r else r = q).
  Proof.
    intros RS G. induction m as [|m IH]; intros ps P NE d follow t' r D C.
    - cbn [repeat app] in *. apply crawl_back in C as (-> & k & d' & q & L & S & V & R); auto; [|destruct NE; congruence|apply D]. split; auto.
      assert (d' = d) as ->. { pose proof (lands_dir t d D) as L0. destruct (proj1 (lands_det t) _ _ _ L0 _ _ L) as [_ X]. congruence. }
      eauto.
    - cbn [repeat app] in *. destruct D as [V D]. assert (DP : dirT t (parent d)) by now apply parent_dir.
      assert (K : forall follow, get n t d dotdot false follow = match n with O => OutOfFuel | S m => if follow then resolve m t (parent d) false [] else Ret (t, parent d) end).
      { intros fl. destruct n; [reflexivity|]. rewrite get_S. reflexivity. }
      destruct (repeat dotdot m ++ ps) as [|c cs] eqn:E.
      + cbn [crawl] in C. rewrite K in C. destruct n as [|n']; [discriminate|]. destruct m; [cbn in E; subst ps|discriminate]. destruct follow.
        * apply (RS n' eq_refl) in C as [-> [j R]]; [|apply DP]. split; auto. exists (parent d). split; [apply steps_up, steps_nil|]. split; [apply DP|eauto].
        * injection C as <- <-. split; auto. exists (parent d). split; [apply steps_up, steps_nil|]. split; [apply DP|auto].
      + change (crawl n false follow t d (dotdot :: c :: cs)) with (bind (get n t d dotdot false false) (fun '(t, dir) => crawl n false follow t dir (c :: cs))) in C.
        rewrite K in C. destruct n as [|n']; [discriminate|]. cbn [bind] in C. rewrite <- E in C. apply IH in C as (-> & q & S & V' & R); auto.
        * split; auto. exists q. split; [apply steps_up; now rewrite <- E|]. auto.
        * destruct m; [|left; discriminate]. right. intros ->. discriminate.
  Qed.
  Theorem back_ok n : got n /\ resolved n /\ fetched n.
  Proof.
    induction n as [|n (IG & IR & IF)]; [repeat split; discriminate|]. split; [|split].
    - intros f c follow t' r V N1 N2 E. rewrite get_S in E. cbv zeta in E.
      assert (K1 : str_eqb c $".." = false) by (destruct (str_eqb c $"..") eqn:X; auto; now apply str_eqb_eq in X).
      assert (K2 : str_eqb c $"." = false) by (destruct (str_eqb c $".") eqn:X; auto; now apply str_eqb_eq in X).
      rewrite K1, K2 in E.
      assert (FIN : forall d, (if follow then resolve n t (d ++ [c]) false [] else Ret (t, d ++ [c])) = Ret (t', r) -> view_of t (d ++ [c]) <> None ->
                t' = t /\ (if follow then exists j, rests t j (d ++ [c]) r else r = d ++ [c])).
      { intros d X Vd. destruct follow; [now apply IR in X|]. injection X as <- <-. auto. }
      assert (TAIL : forall k d, lands t k f d -> dirT t d -> match subtree t (d ++ [c]) with Some _ => if follow then resolve n t (d ++ [c]) false [] else Ret (t, d ++ [c]) | None => Fail ENotExist end = Ret (t', r) ->
                t' = t /\ exists k d, lands t k f d /\ view_of t (d ++ [c]) <> None /\ (if follow then exists j, rests t j (d ++ [c]) r else r = d ++ [c])).
      { intros k d L D X. destruct (subtree t (d ++ [c])) eqn:S; [|discriminate]. assert (Vd : view_of t (d ++ [c]) <> None) by (unfold view_of; rewrite S; discriminate).
        apply FIN in X as [-> X]; auto. split; auto. exists k, d. auto. }
      destruct (Squash.link_of (header_at t f)) as [l|] eqn:L.
      + destruct (fs_get n t (parent f) l false true) as [[t1 f1]| |] eqn:F; try discriminate. cbn [bind] in E.
        apply IF in F as (-> & NR & q & S & Vq & j & R); [|now apply parent_dir]. destruct (non_dir (header_at t f1)) eqn:ND; [discriminate|]. cbn [bind] in E.
        assert (D1 : dirT t f1) by (split; auto; eapply rests_view; eauto). eapply TAIL; [|exact D1|exact E]. eapply lands_link; eauto. eapply rests_lands; eauto.
      + cbn [bind] in E. destruct (non_dir (header_at t f)) eqn:ND; [discriminate|]. cbn [bind] in E. apply (TAIL 0%nat f); auto; [apply lands_dir|]; split; auto.
    - intros p stack t' e V E. rewrite resolve_S in E. destruct (Squash.link_of (header_at t p)) as [l|] eqn:L.
      + destruct (existsb _ stack); [discriminate|]. destruct (fs_get n t (parent p) l false false) as [[t1 q]| |] eqn:F; try discriminate. cbn [bind] in E.
        apply IF in F as (-> & NR & q' & S & Vq & ->); [|now apply parent_dir]. apply IR in E as [-> [j R]]; auto. split; auto. exists (Datatypes.S j). eapply rests_link; eauto.
      + injection E as <- <-. split; auto. exists 0%nat. now apply rests_here.
    - intros d l follow t' r D E. rewrite fs_get_S in E.
      destruct (clean_comps_list l) as (m & ps & CL & Pp & Z).
      assert (RS : forall m, n = S m -> resolved m). { intros m' X. subst n. intros p stack t2 e V Q. apply (IR p stack t2 e V). destruct (proj1 (proj2 (le_get m')) t p false stack) as [O|O]; [congruence|now rewrite <- O]. }
      rewrite clean_text in E |- *. rewrite is_abs_text in E by apply clean_comps_list.
      destruct (is_abs l) eqn:A.
      + rewrite (Z eq_refl) in CL. cbn [repeat app] in CL. destruct ps as [|c cs].
        * exfalso. rewrite CL in E. change (crawl n false follow t [] [[]] = Ret (t', r)) in E. cbn [crawl] in E. apply IG in E as (_ & k & d' & _ & V & _); [|apply ROOT|discriminate|discriminate]. now rewrite no_empty_key in V.
        * rewrite CL in *. change (path_text true (c :: cs)) with ($"/" ++ join $"/" (c :: cs)) in *. cbn [list_ascii_of_string app skipn] in E. rewrite split_on_join in E; [|discriminate|].
          2: { eapply clean_list_no_slash, (plain_clean true), Pp. }
          apply (crawl_up n RS IG 0 (c :: cs)) in E as (-> & q & S & V & R); auto; [|right; discriminate]. cbn [repeat app] in S. split; auto. split; [|eauto].
          intros X. apply (f_equal clean_comps) in X. change (clean_comps ($"/" ++ join $"/" (c :: cs)) = []) in X. rewrite clean_comps_abs in X by auto. discriminate.
      + destruct (clean_comps l) as [|c cs] eqn:CC.
        * change (crawl n false follow t d [dot] = Ret (t', r)) in E. cbn [crawl] in E. destruct n as [|n]; [discriminate|]. rewrite get_S in E. cbv zeta in E.
          change (str_eqb dot $"..") with false in E. change (str_eqb dot $".") with true in E. cbv iota in E. split; [|split; [discriminate|]].
          -- destruct follow; [now apply (RS n eq_refl) in E as [-> _]; [|apply D]|]. now injection E.
          -- exists d. split; [apply steps_nil|]. split; [apply D|]. destruct follow; [now apply (RS n eq_refl) in E as [_ E]; [|apply D]|]. now injection E.
        * change (path_text false (c :: cs)) with (join $"/" (c :: cs)) in *. rewrite split_on_join in E; [|discriminate|].
          2: { eapply clean_list_no_slash. exists m, ps. rewrite <- CL. eauto. }
          rewrite CL in E |- *. apply crawl_up in E as (-> & q & S & V & R); auto; [|destruct m; [right|left; discriminate]; intros ->; discriminate].
          split; auto. split; [|eauto]. intros X. assert (Y : is_abs (path_text false (c :: cs)) = false).
          { apply is_abs_text. exists m, ps. eauto. }
          change (path_text false (c :: cs)) with (join $"/" (c :: cs)) in Y. rewrite CL, X in Y. discriminate.
  Qed.
End back.

(** *** back to the unpacked file system *)
Section unpacked.
  Context (fs : fsys) (t : tree) (RO : forall p, fs p <> None -> real_path p) (AG : fagree fs (interp (view_of t) empty_root)).
  Context (NM : forall p h c, fs p = Some (FFile h c) -> th_type h = TypeSymlink -> Forall (fun x => marker_name x = false) (clean_comps (th_link h))).
  Lemma back_there p : real_path p -> view_of t p <> None -> fs p <> None.
  Proof. intros R V E. apply V. specialize (AG p R). rewrite E in AG. unfold interp in AG. destruct (view_of t p) as [[[h|] b]|]; auto; [destruct (byte_eqb _ _)|]; destruct AG. Qed.
  Lemma back_dir p : real_path p -> dirT t p -> exists m, fs p = Some (FDir m).
  Proof.
    intros R [V D]. pose proof (back_there p R V) as F. destruct (fs p) as [[m|h c]|] eqn:E; eauto; [|congruence]. exfalso.
    specialize (AG p R). unfold interp in AG. rewrite E in AG. rewrite header_view in D. unfold hdr_of in D. destruct (view_of t p) as [[[h'|] b]|]; cbn [fst non_dir] in D; [|destruct AG|congruence].
    destruct (byte_eqb (th_type h') TypeDir); [destruct AG|discriminate].
  Qed.
  Lemma back_file p h' : real_path p -> header_at t p = Some h' -> th_type h' <> TypeDir -> exists c, fs p = Some (FFile (anon h') c).
  Proof.
    intros R E N. rewrite header_view in E. unfold hdr_of in E. specialize (AG p R). unfold interp in AG. destruct (view_of t p) as [[[h|] b]|]; try discriminate. cbn [fst] in E. injection E as <-.
    destruct (byte_eqb (th_type h) TypeDir) eqn:B; [now apply byte_eqb_eq in B|]. destruct (fs p) as [[m|h2 c]|]; try destruct AG as [-> ->]; eauto; destruct AG.
  Qed.
  Lemma back_link p l : real_path p -> Squash.link_of (header_at t p) = Some l -> exists h c, fs p = Some (FFile h c) /\ th_type h = TypeSymlink /\ th_link h = l.
  Proof.
    intros R E. destruct (header_at t p) as [h|] eqn:H; [|discriminate]. cbn [Squash.link_of] in E. destruct (byte_eqb (th_type h) TypeSymlink) eqn:B; [|discriminate]. injection E as <-.
    apply byte_eqb_eq in B. destruct (back_file p h R H) as [c F]; [rewrite B; discriminate|]. exists (anon h), c. auto.
  Qed.
  Lemma real_parent p : real_path p -> real_path (parent p).
  Proof. intros R. destruct p as [|k p _] using rev_ind; [exact R|]. unfold parent. rewrite removelast_last. now apply real_app in R. Qed.
  Lemma real_nil : real_path [].
  Proof. split; constructor. Qed.
  Lemma real_add d c : real_path d -> plain_comp c -> marker_name c = false -> real_path (d ++ [c]).
  Proof. intros R P M. apply real_app. split; auto. split; constructor; auto. Qed.
  Theorem unconvert :
    (forall k p d, lands t k p d -> real_path p -> follows fs p d /\ real_path d) /\
    (forall d cs q, steps t d cs q -> real_path d -> Forall (fun x => marker_name x = false) cs -> walks fs d cs q /\ real_path q).
  Proof.
    apply (lands_steps_ind t (fun k p d _ => real_path p -> follows fs p d /\ real_path d)
             (fun d cs q _ => real_path d -> Forall (fun x => marker_name x = false) cs -> walks fs d cs q /\ real_path q)).
    - intros p D R. destruct (back_dir p R D) as [m E]. split; auto. eapply follows_dir; eauto.
    - intros k p l q d L N _ IHs _ IHl R. destruct (back_link p l R L) as (h & c & E & T & <-). destruct IHs as [W RQ].
      + destruct (is_abs (th_link h)); [apply real_nil|now apply real_parent].
      + eapply NM; eauto.
      + destruct (IHl RQ) as [F RD]. split; auto. eapply follows_link; eauto.
    - intros d R _. split; auto. apply walks_nil.
    - intros d cs q _ IH R F. inversion F; subst. destruct (IH (real_parent d R)) as [W RQ]; auto. split; auto. now apply walks_up.
    - intros d c D P V R F. inversion F; subst. destruct (back_dir d R D) as [m E]. assert (RC : real_path (d ++ [c])) by now apply real_add. split; auto.
      eapply walks_last; eauto. now apply back_there.
    - intros d c cs k d' q D P L IHl NE PP _ IHs R F. inversion F; subst. destruct (back_dir d R D) as [m E]. destruct (IHl (real_add d c R P ltac:(auto))) as [FO RD].
      destruct (IHs RD) as [W RQ]; auto. split; auto. eapply walks_down; eauto.
  Qed.
  Lemma unrest k p e : rests t k p e -> real_path p -> ends fs p e /\ real_path e.
  Proof.
    induction 1 as [p V L|k p l q e L N S R IH]; intros RP.
    - split; auto. pose proof (back_there p RP V) as F. destruct (fs p) as [[m|h c]|] eqn:E; [eapply ends_dir; eauto| |congruence].
      eapply ends_file; eauto. intros T. pose proof (conv_file fs t RO AG p h c E) as (h' & V' & A). rewrite header_view in L. unfold hdr_of in L. rewrite V' in L. cbn [fst Squash.link_of] in L.
      rewrite <- A in T. change (th_type (anon h')) with (th_type h') in T. rewrite T in L. discriminate.
    - destruct (back_link p l RP L) as (h & c & E & T & <-). destruct (proj2 unconvert _ _ _ S) as [W RQ].
      + destruct (is_abs (th_link h)); [apply real_nil|now apply real_parent].
      + eapply NM; eauto.
      + destruct (IH RQ) as [F RE]. split; auto. eapply ends_link; eauto.
  Qed.
  Theorem open_back utf8 n p q e : wfv (view_of t) -> leafy (view_of t) -> dirT t [] -> plain_path p -> Forall (fun x => marker_name x = false) p ->
    open utf8 n t (open_name p) = Ret (q, e) -> walks fs [] p q /\ ends fs q e.
  Proof.
    intros WV LF ROOT PP M O. unfold open in O. destruct (negb (valid_path utf8 (open_name p))); [discriminate|].
    destruct (fs_get n t [] (open_name p) false false) as [[t1 lnk]| |] eqn:F; try discriminate. cbn [bind] in O.
    destruct (back_ok t WV LF ROOT n) as (_ & _ & IF). apply IF in F as (-> & _ & q' & S & V & ->); [|exact ROOT].
    assert (C : clean_comps (open_name p) = p) by (unfold open_name; apply clean_comps_text; now apply plain_clean).
    assert (A : is_abs (open_name p) = false) by (unfold open_name; apply is_abs_text; now apply plain_clean). rewrite A, C in S.
    destruct (get n t q' dot false true) as [[t2 tgt]| |] eqn:G; try discriminate. cbn [bind] in O. injection O as <- <-. destruct n as [|n]; [discriminate|]. rewrite get_dot in G.
    destruct (back_ok t WV LF ROOT n) as (_ & IR & _). apply IR in G as [_ [j R]]; auto.
    destruct (proj2 unconvert _ _ _ S real_nil M) as [W RQ]. split; auto. now apply (unrest _ _ _ R).
  Qed.
End unpacked.
