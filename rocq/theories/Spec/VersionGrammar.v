(** The PEP 440 version grammar with all permitted spellings, as a syntax tree
    ([surface]), its spelling ([render]) and its meaning ([value]).
    Written from the PEP; independent of the regular expression in the code. *)
From Coq Require Import String Ascii List Bool ZArith NArith.
From Verif.Model Require Import GoStr Pep440.
Import ListNotations.

(** sep? word sep? digits?   (absent pieces are empty strings) *)
Record letterpart := {
  lp_sep1 : str;  lp_word : str;  lp_sep2 : str;  lp_num : str
}.
Inductive postpart :=
| PDash (n : str)            (* implicit post release: -N *)
| PWord (p : letterpart).

Record surface := {
  g_lead : str;                              (* white space *)
  g_v : str;                                 (* "", "v" or "V" *)
  g_epoch : option str;                      (* N! *)
  g_rel0 : str;  g_rels : list str;          (* N(.N)* *)
  g_pre : option letterpart;
  g_post : option postpart;
  g_dev : option letterpart;
  g_local : option (str * list (ascii * str));  (* +seg(sep seg)* *)
  g_trail : str                              (* white space *)
}.

Definition render_lp (p : letterpart) : str :=
  lp_sep1 p ++ lp_word p ++ lp_sep2 p ++ lp_num p.
Definition render_epoch (x : surface) : str :=
  match g_epoch x with Some e => e ++ $"!" | None => [] end.
Definition render_release (x : surface) : str :=
  g_rel0 x ++ concat (map (fun r => "."%char :: r) (g_rels x)).
Definition render_pre (x : surface) : str :=
  match g_pre x with Some p => render_lp p | None => [] end.
Definition render_post (x : surface) : str :=
  match g_post x with
  | Some (PDash n) => "-"%char :: n
  | Some (PWord p) => render_lp p
  | None => []
  end.
Definition render_dev (x : surface) : str :=
  match g_dev x with Some p => render_lp p | None => [] end.
Definition render_local (x : surface) : str :=
  match g_local x with
  | Some (w, l) => "+"%char :: w ++ concat (map (fun p => fst p :: snd p) l)
  | None => []
  end.
Definition render (x : surface) : str :=
  g_lead x ++ g_v x ++ render_epoch x ++ render_release x ++ render_pre x
  ++ render_post x ++ render_dev x ++ render_local x ++ g_trail x.

(** Lexical conditions. *)
Definition blank (c : ascii) : bool :=       (* \t \n \f \r space *)
  existsb (fun n => (code c =? n)%N) [9; 10; 12; 13; 32]%N.
Definition sep_char (c : ascii) : bool := in_set $"-_." c.
Definition opt_sep (s : str) : Prop := s = [] \/ exists c, s = [c] /\ sep_char c = true.
Definition number (s : str) : Prop := s <> [] /\ forallb is_digit s = true.
Definition opt_number (s : str) : Prop := s = [] \/ number s.
Definition word (s : str) : Prop :=
  s <> [] /\ forallb (fun c => is_lower_alpha (lower c) || is_digit c) s = true.

Definition pre_words : list str := [$"a"; $"b"; $"c"; $"rc"; $"alpha"; $"beta"; $"pre"; $"preview"].
Definition post_words : list str := [$"post"; $"rev"; $"r"].
Definition dev_words : list str := [$"dev"].
Definition wf_lp (words : list str) (p : letterpart) : Prop :=
  opt_sep (lp_sep1 p) /\ In (to_lower (lp_word p)) words /\ opt_sep (lp_sep2 p)
  /\ opt_number (lp_num p).

Definition wf_surface (x : surface) : Prop :=
  forallb blank (g_lead x) = true /\
  (g_v x = [] \/ g_v x = $"v" \/ g_v x = $"V") /\
  (forall e, g_epoch x = Some e -> number e) /\
  number (g_rel0 x) /\ Forall number (g_rels x) /\
  (forall p, g_pre x = Some p -> wf_lp pre_words p) /\
  (forall n, g_post x = Some (PDash n) -> number n) /\
  (forall p, g_post x = Some (PWord p) -> wf_lp post_words p) /\
  (forall p, g_dev x = Some p -> wf_lp dev_words p) /\
  (forall w l, g_local x = Some (w, l) ->
     word w /\ Forall (fun p => sep_char (fst p) = true /\ word (snd p)) l) /\
  forallb blank (g_trail x) = true.

(** Longest match for the optional separator and number of a letter part:
    resolves the one ambiguity of the grammar (1a-1 is 1a1, not 1a0.post1). *)
Definition starts_sep (s : str) : bool := match s with c :: _ => sep_char c | [] => false end.
Definition munch (x : surface) : Prop :=
  (forall p, g_pre x = Some p -> lp_num p = [] -> lp_sep2 p = [] ->
     starts_sep (render_post x ++ render_dev x) = false) /\
  (forall p, g_post x = Some (PWord p) -> lp_num p = [] -> lp_sep2 p = [] ->
     starts_sep (render_dev x) = false).

(** Meaning. *)
Definition num_value (s : str) : option Z :=
  if (dec_val s <? 2 ^ 63)%N then Some (Z.of_N (dec_val s)) else None.
Definition opt_num_value (s : str) : option Z :=
  match s with [] => Some 0%Z | _ => num_value s end.
Definition letter_value (w : str) : str :=
  let w := to_lower w in
  if str_eqb w $"alpha" then $"a"
  else if str_eqb w $"beta" then $"b"
  else if str_eqb w $"c" || str_eqb w $"pre" || str_eqb w $"preview" then $"rc"
  else w.
Fixpoint nums_value (l : list str) : option (list Z) :=
  match l with
  | [] => Some []
  | s :: l' =>
      match num_value s, nums_value l' with
      | Some z, Some r => Some (z :: r)
      | _, _ => None
      end
  end.
(** A part that is present must have a representable number. *)
Definition part_value (o : option str) : option (option Z) :=
  match o with
  | None => Some None
  | Some n => match opt_num_value n with Some z => Some (Some z) | None => None end
  end.
Definition post_num (p : postpart) : str := match p with PDash n => n | PWord p => lp_num p end.

(** A local segment of digits is a number, any other one a lower-case string. *)
Definition seg_value (w : str) : intorstr :=
  if forallb is_digit w then SInt (Z.of_N (dec_val w)) else SStr (to_lower w).

Definition local_words (x : surface) : list str :=
  match g_local x with None => [] | Some (w, l) => w :: map snd l end.

Definition value_with (seg : str -> intorstr) (x : surface) : option version :=
  match (match g_epoch x with None => Some 0%Z | Some e => num_value e end),
        nums_value (g_rel0 x :: g_rels x),
        part_value (option_map lp_num (g_pre x)),
        part_value (option_map post_num (g_post x)),
        part_value (option_map lp_num (g_dev x)) with
  | Some e, Some r, Some pn, Some po, Some d =>
      Some {| pub := {| epoch := e; release := r;
                        pre := match g_pre x, pn with
                               | Some p, Some n => Some (letter_value (lp_word p), n)
                               | _, _ => None
                               end;
                        post := po; dev := d |};
              local := map seg (local_words x) |}
  | _, _, _, _, _ => None
  end.
Definition value (x : surface) : option version := value_with seg_value x.

(** Numeric local segments small enough for the code's int32 representation. *)
Definition locals_fit (x : surface) : Prop :=
  Forall (fun w => forallb is_digit w = true -> (dec_val w < 2 ^ 31)%N) (local_words x).

(** Every number that has to fit a machine integer. *)
Definition numbers (x : surface) : list str :=
  (match g_epoch x with Some e => [e] | None => [] end)
  ++ g_rel0 x :: g_rels x
  ++ (match g_pre x with Some p => [lp_num p] | None => [] end)
  ++ (match g_post x with Some p => [post_num p] | None => [] end)
  ++ (match g_dev x with Some p => [lp_num p] | None => [] end).
Definition numbers_fit (x : surface) : Prop := Forall (fun n => (dec_val n < 2 ^ 63)%N) (numbers x).

(** [s] is a spelling of a version. *)
Definition is_version (s : str) : Prop := exists x, wf_surface x /\ numbers_fit x /\ render x = s.
