(** Proofs about Spec/PyNameSpec.v: C103. *)
From Coq Require Import String Ascii List Bool NArith ZArith Lia.
From Verif.Model Require Import GoStr Pep440 WheelName SimpleAPI.
From Verif.Spec Require Import Pep440Spec WheelNameSpec PyNameSpec.
From Verif.Proofs Require Import GoStrFacts WheelNameFacts.
Import ListNotations.

(** ** The same functions *)
Lemma pieces_split sep s : pieces sep s = split_on sep s.
Proof.
  induction s as [|c s IH]; [reflexivity|]. cbn [pieces split_on]. rewrite IH. unfold byte_eqb. rewrite (Ascii.eqb_sym c sep).
  destruct (Ascii.eqb sep c); [reflexivity|]. destruct (split_on sep s); reflexivity.
Qed.
Lemma run_char_set c : run_char c = in_set $"-_." c.
Proof. unfold run_char, in_set. cbn [existsb list_ascii_of_string]. unfold byte_eqb. now rewrite orb_false_r, orb_assoc. Qed.
Lemma one_dash_runs s : forall b, one_dash b s = replace_runs_from b $"-" s.
Proof.
  induction s as [|c s IH]; intros b; [reflexivity|]. cbn [one_dash replace_runs_from]. rewrite run_char_set, !IH. reflexivity.
Qed.
Lemma canonicalize_normalize s : canonicalize_name s = normalize s.
Proof. unfold canonicalize_name, normalize, replace_runs. rewrite one_dash_runs. reflexivity. Qed.
Lemma tags_decompress p a q : py_tags p a q =
  map (fun t => (py_lower (t_python t), py_lower (t_abi t), py_lower (t_platform t))) (decompress (mkTag p a q)).
Proof.
  unfold py_tags, decompress. cbn [t_python t_abi t_platform]. rewrite !pieces_split.
  induction (split_on "."%char p) as [|x l IH]; [reflexivity|]. cbn [flat_map]. rewrite map_app, IH. f_equal. clear IH l.
  induction (split_on "."%char a) as [|y l IH]; [reflexivity|]. cbn [flat_map]. rewrite map_app, IH. f_equal. now rewrite map_map.
Qed.
Lemma py_int_val s : py_int s = dec_val s.
Proof. reflexivity. Qed.
Lemma digits_then d l : forallb is_digit d = true -> match l with c :: _ => is_digit c = false | [] => True end -> leading_digits (d ++ l) = (d, l).
Proof.
  intros Hd Hl. induction d as [|c d IH].
  - destruct l as [|c l]; [reflexivity|]. cbn [app leading_digits]. change (py_digit c) with (is_digit c). now rewrite Hl.
  - cbn [forallb] in Hd. apply andb_true_iff in Hd as [Hc Hd]. cbn [app leading_digits]. change (py_digit c) with (is_digit c). now rewrite Hc, (IH Hd).
Qed.
Lemma leading_spec s : forall d l, leading_digits s = (d, l) -> s = d ++ l /\ forallb is_digit d = true /\ match l with c :: _ => is_digit c = false | [] => True end.
Proof.
  induction s as [|c s IH]; intros d l E; cbn [leading_digits] in E.
  - injection E as <- <-. auto.
  - change (py_digit c) with (is_digit c) in E. destruct (is_digit c) eqn:C.
    + destruct (leading_digits s) as [d' l'] eqn:L. injection E as <- <-. destruct (IH d' l' eq_refl) as (-> & H & K). split; [reflexivity|]. cbn [forallb]. now rewrite C.
    + injection E as <- <-. split; [reflexivity|]. split; [reflexivity|exact C].
Qed.
Lemma stem_of t : stem (t ++ $".whl") = Some t.
Proof. unfold stem. rewrite rev_app_distr. cbn [rev list_ascii_of_string app]. now rewrite rev_involutive. Qed.
Lemma stem_spec s t : stem s = Some t -> s = t ++ $".whl".
Proof.
  unfold stem. intros H. rewrite <- (rev_involutive s). destruct (rev s) as [|a [|b [|c [|d r]]]]; try discriminate H.
  - destruct a as [[] [] [] [] [] [] [] []]; discriminate H.
  - destruct a as [[] [] [] [] [] [] [] []]; try discriminate H. destruct b as [[] [] [] [] [] [] [] []]; discriminate H.
  - destruct a as [[] [] [] [] [] [] [] []]; try discriminate H. destruct b as [[] [] [] [] [] [] [] []]; try discriminate H. destruct c as [[] [] [] [] [] [] [] []]; discriminate H.
  - destruct a as [[] [] [] [] [] [] [] []]; try discriminate H. destruct b as [[] [] [] [] [] [] [] []]; try discriminate H.
    destruct c as [[] [] [] [] [] [] [] []]; try discriminate H. destruct d as [[] [] [] [] [] [] [] []]; try discriminate H.
    injection H as <-. cbn [rev]. rewrite <- !app_assoc. reflexivity.
Qed.

(** ** The fields of a name *)
Definition stem_text (p : fields) : str :=
  n_dist p ++ "-"%char :: n_version p ++ (match n_build p with Some (n, l) => "-"%char :: n ++ l | None => [] end)
  ++ "-"%char :: n_python p ++ "-"%char :: n_abi p ++ "-"%char :: n_platform p.
Lemma render_stem p : render_fields p = stem_text p ++ $".whl".
Proof. unfold render_fields, stem_text. destruct (n_build p) as [[n l]|]; cbn [app]; rewrite <- ?app_assoc; cbn [app]; rewrite <- ?app_assoc; cbn [app]; rewrite <- ?app_assoc; cbn [app]; rewrite <- ?app_assoc; cbn [app]; rewrite <- ?app_assoc; reflexivity. Qed.
Definition piece_list (p : fields) : list str :=
  match n_build p with
  | Some (n, l) => [n_dist p; n_version p; n ++ l; n_python p; n_abi p; n_platform p]
  | None => [n_dist p; n_version p; n_python p; n_abi p; n_platform p]
  end.
Lemma no_dash_digits d : forallb is_digit d = true -> ~ In "-"%char d.
Proof. intros H I. rewrite forallb_forall in H. apply H in I. discriminate I. Qed.
Lemma stem_pieces p : wf_fields p -> pieces "-"%char (stem_text p) = piece_list p.
Proof.
  intros ((_ & D) & (_ & V) & B & (_ & P) & (_ & A) & (_ & Q)). rewrite pieces_split. unfold stem_text, piece_list.
  rewrite split_on_app by exact D. destruct (n_build p) as [[n l]|].
  - destruct (B (n, l) eq_refl) as (_ & Hn & Hl & _). cbn [fst snd] in *. cbn [app]. rewrite split_on_app by exact V.
    rewrite split_on_app by (intros I; apply in_app_or in I as [I|I]; [exact (no_dash_digits n Hn I)|exact (Hl I)]).
    rewrite split_on_app by exact P. rewrite split_on_app by exact A. now rewrite split_on_none by exact Q.
  - cbn [app]. rewrite split_on_app by exact V. rewrite split_on_app by exact P. rewrite split_on_app by exact A. now rewrite split_on_none by exact Q.
Qed.
Definition small_build (p : fields) : Prop := forall n l, n_build p = Some (n, l) -> (dec_val n < 2 ^ 63)%N.
Lemma rendered_python p v : wf_fields p -> project_part (n_dist p) = true -> small_build p -> parse_version (n_version p) = Some v ->
  parse_wheel_filename (render_fields p) = Some (meaning (fields_data p v)).
Proof.
  intros W D S V. unfold parse_wheel_filename. rewrite render_stem, stem_of, (stem_pieces p W). unfold piece_list, meaning, fields_data.
  cbn [f_dist f_version f_build f_tag]. rewrite <- tags_decompress, <- canonicalize_normalize.
  destruct (n_build p) as [[n l]|] eqn:E; unfold py_parts; rewrite D, V; [|reflexivity].
  destruct W as (_ & _ & B & _). destruct (B (n, l) E) as (Hne & Hn & _ & Hl). cbn [fst snd] in *. rewrite digits_then by assumption.
  destruct n as [|c n]; [congruence|]. cbn [option_map b_int b_str]. do 4 f_equal. rewrite py_int_val. specialize (S _ _ E).
  rewrite Z.min_l by lia. now rewrite N2Z.id.
Qed.
Lemma join_pieces s : join $"-" (pieces "-"%char s) = s.
Proof. rewrite pieces_split. exact (join_split_on "-"%char s). Qed.
Lemma pieces_no_dash s : Forall (fun x => ~ In "-"%char x) (pieces "-"%char s).
Proof. rewrite pieces_split. apply split_on_no_sep. Qed.
Lemma python_rendered s w : agreed_name s -> parse_wheel_filename s = Some w ->
  exists p v, wf_fields p /\ s = render_fields p /\ parse_version (n_version p) = Some v /\ project_part (n_dist p) = true /\ small_build p.
Proof.
  intros (_ & A) H. unfold parse_wheel_filename in H. destruct (stem s) as [t|] eqn:T; [|discriminate H]. apply stem_spec in T as S.
  destruct (A t eq_refl) as (F & D & B). pose proof (join_pieces t) as J. pose proof (pieces_no_dash t) as N.
  destruct (pieces "-"%char t) as [|n [|v [|x [|y [|z [|u [|]]]]]]]; try discriminate H.
  - unfold py_parts in H. destruct (project_part n) eqn:Pn; [|discriminate H]. destruct (parse_version v) as [ver|] eqn:V; [|discriminate H].
    repeat match goal with H : Forall _ (_ :: _) |- _ => inversion H; clear H; subst end.
    exists (mkFields n v None x y z), ver. split; [|split; [|split; [exact V|split; [exact Pn|intros ? ? E; discriminate E]]]].
    + split; [split; assumption|]. split; [split; assumption|]. split; [intros b E; discriminate E|]. split; [split; assumption|]. split; split; assumption.
    + rewrite render_stem. reflexivity.
  - unfold py_parts in H. destruct (project_part n) eqn:Pn; [|discriminate H]. destruct (parse_version v) as [ver|] eqn:V; [|discriminate H].
    destruct (leading_digits x) as [d l] eqn:L. assert (Ed : d <> []) by (intros ->; discriminate H).
    destruct (leading_spec x d l L) as (Ex & Hd & Hl). specialize (B n v x y z u eq_refl). rewrite L in B. cbn [fst] in B.
    repeat match goal with H : Forall _ (_ :: _) |- _ => inversion H; clear H end. rewrite Ex in *.
    exists (mkFields n v (Some (d, l)) y z u), ver. split; [|split; [|split; [exact V|split; [exact Pn|intros ? ? E; injection E as <- <-; exact B]]]].
    + split; [split; assumption|]. split; [split; assumption|]. split.
      { intros b E. injection E as <-. split; [exact Ed|]. split; [exact Hd|]. split; [|exact Hl]. cbn [snd]. intros I.
        match goal with H : ~ In _ (d ++ l) |- _ => apply H end. apply in_or_app. now right. }
      split; [split; assumption|]. split; split; assumption.
    + rewrite render_stem, S, <- J. reflexivity.
Qed.
Theorem names_same s : agreed_name s -> option_map meaning (parse_filename s) = parse_wheel_filename s.
Proof.
  intros A. destruct (parse_wheel_filename s) as [w|] eqn:P.
  - destruct (python_rendered s w A P) as (p & v & W & -> & V & D & S). rewrite (parse_filename_render p v W V). cbn [option_map].
    now rewrite <- (rendered_python p v W D S V), P.
  - destruct (parse_filename s) as [d|] eqn:G; [|reflexivity]. exfalso.
    destruct (parse_filename_sound s d G) as (p & v & W & -> & V & _). destruct A as (_ & A).
    destruct (A (stem_text p)) as (_ & D & B); [rewrite render_stem; apply stem_of|]. rewrite (stem_pieces p W) in D, B.
    rewrite (rendered_python p v W) in P; [discriminate P| | |exact V].
    + unfold piece_list in D. destruct (n_build p) as [[]|]; exact D.
    + intros n l E. unfold piece_list in B. rewrite E in B. specialize (B _ _ _ _ _ _ eq_refl).
      destruct W as (_ & _ & Wb & _). destruct (Wb (n, l) E) as (_ & Hn & _ & Hl). cbn [fst snd] in *. rewrite digits_then in B by assumption. exact B.
Qed.

(** ** Examples *)
Definition agreed_name_b (s : str) : bool :=
  forallb (fun c => (N_of_ascii c <? 128)%N && negb (Ascii.eqb c "010")) s &&
  match stem s with
  | None => true
  | Some t =>
      forallb (fun x => match x with [] => false | _ => true end) (pieces "-"%char t) && project_part (hd [] (pieces "-"%char t)) &&
      match pieces "-"%char t with [_; _; b; _; _; _] => (py_int (fst (leading_digits b)) <? 2 ^ 63)%N | _ => true end
  end.
Lemma agreed_name_dec s : agreed_name_b s = true -> agreed_name s.
Proof.
  unfold agreed_name_b. intros H. apply andb_true_iff in H as [A B]. split.
  - apply Forall_forall. intros c I. rewrite forallb_forall in A. specialize (A c I). apply andb_true_iff in A as [A1 A2]. apply N.ltb_lt in A1.
    split; [exact A1|]. intros ->. discriminate A2.
  - intros t E. rewrite E in B. apply andb_true_iff in B as [B C]. apply andb_true_iff in B as [B D]. split; [|split; [exact D|]].
    + apply Forall_forall. intros x I. rewrite forallb_forall in B. specialize (B x I). destruct x; [discriminate B|discriminate].
    + intros n v b p a q F. rewrite F in C. now apply N.ltb_lt.
Qed.
Lemma ex_name_agreed : agreed_name $"My.Pkg-1.0RC1-2b-py2.py3-none-any.whl".
Proof. apply agreed_name_dec. vm_compute. reflexivity. Qed.
Lemma ex_bad_name_agreed : agreed_name $"pkg-1.0-b2-py3-none-any.whl".
Proof. apply agreed_name_dec. vm_compute. reflexivity. Qed.
