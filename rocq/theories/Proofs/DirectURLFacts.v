(** jsonDumps *)
From Coq Require Import String Ascii List Bool NArith ZArith Lia.
From Verif.Model Require Import GoStr DirectURL.
From Verif.Spec Require Import DirectURLSpec.
From Verif.Proofs Require Import GoStrFacts.
Import ListNotations.
Local Open Scope nat_scope.

Fixpoint jsize (v : json) : nat :=
  match v with
  | JAtom _ => 1
  | JArr l => 1 + list_sum (map jsize l)
  | JObj l => 1 + list_sum (map (fun kv => jsize (snd kv)) l)
  end.
Lemma sum_in l x : In x l -> x <= list_sum l.
Proof. induction l as [|y l IH]; intros []; cbn [list_sum fold_right]; [subst; lia|]. specialize (IH H). unfold list_sum in IH. lia. Qed.

(** A place where a value is expected: at the top, or after a key *)
Definition place (d : Z) : Prop := d = (-1)%Z \/ ((2 <= d)%Z /\ (d mod 2 = 0)%Z).
Definition after (d : Z) : Z := if (d <? 0)%Z then (d - 1)%Z else (d + 1)%Z.
Lemma place_complete d st out : place d -> complete (d :: st) out = Some (after d :: st, out).
Proof.
  intros [->|[L M]]; [reflexivity|]. unfold complete, after. destruct (Z.ltb_spec d 0); [lia|]. destruct (Z.eqb_spec (d mod 2) 1); [lia|]. reflexivity.
Qed.
Lemma place_sep d out : place d -> (if (d <? -1)%Z then out ++ $", " else if (1 <? d)%Z && (d mod 2 =? 1)%Z then out ++ $", " else out) = out.
Proof. intros [->|[L M]]; [reflexivity|]. destruct (Z.ltb_spec d (-1)); [lia|]. destruct (Z.eqb_spec (d mod 2) 1); [lia|]. now rewrite andb_false_r. Qed.
(** The items of an array of atoms *)
Definition sep_join (first : bool) (l : list str) : str := concat (map (fun s => s) (match l with [] => [] | _ => [if first then join $", " l else $", " ++ join $", " l] end)).
Lemma sep_join_cons first x l : sep_join first (x :: l) = (if first then [] else $", ") ++ x ++ sep_join false l.
Proof.
  unfold sep_join. cbn [map concat]. rewrite !app_nil_r. destruct l as [|y l]; destruct first; cbn [map concat app]; rewrite ?app_nil_r; reflexivity.
Qed.
Lemma dump_atoms l st rest : forall n out, forallb is_atom l = true ->
  dump_tokens ((- 1 - Z.of_nat n)%Z :: st) out (flat_map tokens l ++ rest) =
  dump_tokens ((- 1 - Z.of_nat (n + length l))%Z :: st) (out ++ sep_join (n =? 0) (map py_dumps l)) rest.
Proof.
  induction l as [|v l IH]; intros n out A.
  - cbn [flat_map app map length]. rewrite Nat.add_0_r. unfold sep_join. cbn [map concat]. now rewrite app_nil_r.
  - cbn [forallb] in A. apply andb_true_iff in A as [A1 A2]. destruct v as [t| |]; try discriminate. cbn [flat_map tokens app map py_dumps].
    cbn [dump_tokens dump_token]. rewrite sep_join_cons.
    assert (E : (if (- 1 - Z.of_nat n <? -1)%Z then out ++ $", " else if (1 <? - 1 - Z.of_nat n)%Z && ((- 1 - Z.of_nat n) mod 2 =? 1)%Z then out ++ $", " else out)
      = out ++ (if n =? 0 then [] else $", ")).
    { destruct n as [|n]; [cbn; now rewrite app_nil_r|]. destruct (Z.ltb_spec (-1 - Z.of_nat (S n)) (-1)); [reflexivity|lia]. }
    rewrite E. unfold complete. destruct (Z.ltb_spec (-1 - Z.of_nat n) 0); [|lia].
    replace (-1 - Z.of_nat n - 1)%Z with (-1 - Z.of_nat (S n))%Z by lia. rewrite IH by auto. cbn [length]. replace (S n + length l) with (n + S (length l)) by lia.
    f_equal. change (S n =? 0) with false. now rewrite !app_assoc.
Qed.
(** Members of an object; [n] of them are written *)
Definition member_text (kv : str * json) : str := fst kv ++ $": " ++ py_dumps (snd kv).
Lemma odd_mod n : ((1 + 2 * Z.of_nat n) mod 2 = 1)%Z.
Proof. rewrite Z.add_comm, Z.mul_comm, Z.add_comm. now rewrite Z.mod_add by lia. Qed.
Lemma even_mod n : ((2 + 2 * Z.of_nat n) mod 2 = 0)%Z.
Proof. replace (2 + 2 * Z.of_nat n)%Z with ((1 + Z.of_nat n) * 2)%Z by lia. now rewrite Z.mod_mul by lia. Qed.
Lemma dump_members l st rest :
  (forall kv, In kv l -> forall d st out rest, place d -> dump_tokens (d :: st) out (tokens (snd kv) ++ rest) = dump_tokens (after d :: st) (out ++ py_dumps (snd kv)) rest) ->
  forall n out, dump_tokens ((1 + 2 * Z.of_nat n)%Z :: st) out (flat_map (fun kv => TAtom (fst kv) :: tokens (snd kv)) l ++ rest) =
  dump_tokens ((1 + 2 * Z.of_nat (n + length l))%Z :: st) (out ++ sep_join (n =? 0) (map member_text l)) rest.
Proof.
  induction l as [|[k v] l IH]; intros H n out.
  - cbn [flat_map app map length]. rewrite Nat.add_0_r. unfold sep_join. cbn [map concat]. now rewrite app_nil_r.
  - cbn [flat_map fst snd map]. rewrite <- !app_assoc. cbn [app dump_tokens dump_token].
    assert (E : (if (1 + 2 * Z.of_nat n <? -1)%Z then out ++ $", " else if (1 <? 1 + 2 * Z.of_nat n)%Z && ((1 + 2 * Z.of_nat n) mod 2 =? 1)%Z then out ++ $", " else out)
      = out ++ (if n =? 0 then [] else $", ")).
    { rewrite odd_mod. destruct n as [|n]; [cbn; now rewrite app_nil_r|]. destruct (Z.ltb_spec (1 + 2 * Z.of_nat (S n)) (-1)); [lia|]. destruct (Z.ltb_spec 1 (1 + 2 * Z.of_nat (S n))); [reflexivity|lia]. }
    rewrite E. unfold complete at 1. destruct (Z.ltb_spec (1 + 2 * Z.of_nat n) 0); [lia|]. rewrite odd_mod, Z.eqb_refl.
    replace (1 + 2 * Z.of_nat n + 1)%Z with (2 + 2 * Z.of_nat n)%Z by lia.
    rewrite (H (k, v) (or_introl eq_refl)); [|right; split; [lia|apply even_mod]]. cbn [snd].
    assert (A : after (2 + 2 * Z.of_nat n) = (1 + 2 * Z.of_nat (S n))%Z) by (unfold after; destruct (Z.ltb_spec (2 + 2 * Z.of_nat n) 0); lia). rewrite A.
    rewrite IH by (intros kv I; apply H; now right). cbn [length]. replace (S n + length l) with (n + S (length l)) by lia. f_equal.
    rewrite sep_join_cons. unfold member_text at 2. cbn [fst snd]. change (S n =? 0) with false. now rewrite !app_assoc.
Qed.
Lemma sep_join_true l : sep_join true l = join $", " l.
Proof. unfold sep_join. destruct l; [reflexivity|]. cbn [map concat]. now rewrite app_nil_r. Qed.
Lemma dump_value n : forall v, jsize v <= n -> flat_arrays v = true -> forall d st out rest, place d ->
  dump_tokens (d :: st) out (tokens v ++ rest) = dump_tokens (after d :: st) (out ++ py_dumps v) rest.
Proof.
  induction n as [|n IH]; intros v S F d st out rest P; [destruct v; cbn in S; lia|]. destruct v as [t|l|l].
  - cbn [tokens app dump_tokens dump_token py_dumps]. rewrite place_sep, place_complete by auto. reflexivity.
  - cbn [tokens app flat_arrays] in *. rewrite <- app_assoc. cbn [dump_tokens dump_token]. cbv [byte_eqb]. cbn [Ascii.eqb Bool.eqb].
    rewrite (dump_atoms l (d :: st) _ 0) by auto. cbn [app dump_tokens dump_token]. cbv [byte_eqb]. cbn [Ascii.eqb Bool.eqb orb].
    rewrite place_complete by auto. rewrite sep_join_true. f_equal. cbn [py_dumps]. now rewrite <- !app_assoc.
  - cbn [tokens app flat_arrays jsize] in *. rewrite <- app_assoc. cbn [dump_tokens dump_token]. cbv [byte_eqb]. cbn [Ascii.eqb Bool.eqb].
    rewrite (dump_members l (d :: st) _) with (n := 0).
    + cbn [app dump_tokens dump_token]. cbv [byte_eqb]. cbn [Ascii.eqb Bool.eqb orb].
      rewrite place_complete by auto. rewrite sep_join_true. f_equal. cbn [py_dumps]. unfold member_text. now rewrite <- !app_assoc.
    + intros kv I. intros. apply IH; auto.
      * assert (jsize (snd kv) <= list_sum (map (fun kv => jsize (snd kv)) l)) by (apply sum_in; apply in_map_iff; eauto). lia.
      * rewrite forallb_forall in F. now apply F.
Qed.
Theorem dumps_python v : flat_arrays v = true -> json_dumps v = Some (py_dumps v).
Proof.
  intros F. unfold json_dumps. rewrite <- (app_nil_r (tokens v)). rewrite (dump_value (jsize v)) by (auto; now left). reflexivity.
Qed.

(** ** Strings *)
Lemma byte_cases (P : ascii -> Prop) : (forall c, P c) <-> Forall P (map ascii_of_nat (seq 0 256)).
Proof.
  split; [intros H; apply Forall_forall; auto|]. intros H c. rewrite Forall_forall in H. apply H. apply in_map_iff. exists (nat_of_ascii c).
  split; [apply ascii_nat_embedding|]. apply in_seq. pose proof (nat_ascii_bounded c). lia.
Qed.
Lemma unescape_byte c s : unescape (go_quote_byte c ++ s) = match s with [] => unescape (go_quote_byte c) | _ => option_map (cons c) (unescape s) end.
Proof.
  destruct s as [|x s]; [now rewrite app_nil_r|]. revert c. apply byte_cases. vm_compute map. repeat (constructor; [reflexivity|]). constructor.
Qed.
Lemma unescape_quote s : unescape (concat (map go_quote_byte s) ++ $"""") = Some s.
Proof.
  induction s as [|c s IH]; [reflexivity|]. cbn [map concat]. rewrite <- app_assoc, unescape_byte, IH.
  destruct (concat (map go_quote_byte s)); reflexivity.
Qed.
Theorem quote_value s : string_value (go_quote s) = Some s.
Proof. apply unescape_quote. Qed.

(** ** direct_url.json *)
Lemma member_lit key v : member_text (member key v) = go_quote (list_ascii_of_string key) ++ $": " ++ py_dumps v.
Proof. reflexivity. Qed.
Theorem url_python u : json_dumps (url_value u) = Some (url_text u) /\ url_text u = url_json go_quote u.
Proof.
  assert (F : flat_arrays (url_value u) = true).
  { unfold url_value. cbn [flat_arrays]. rewrite !forallb_app. destruct u as [url [[v r c]|] [h|] [[|]|]]; try destruct r; try destruct h; reflexivity. }
  pose proof (dumps_python _ F) as D. unfold url_text. rewrite D. split; [reflexivity|].
  destruct u as [url [[v r c]|] [h|] [[|]|]]; try destruct r; try destruct h; reflexivity.
Qed.
