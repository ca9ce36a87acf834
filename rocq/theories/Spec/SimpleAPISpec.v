(** The package index, written from PEP 503, 592 and 629 and the HTML standard. *)
From Coq Require Import String Ascii List Bool ZArith NArith Permutation Sorting.Sorted.
From Verif.Model Require Import GoStr GoPath Pep440 Specifier Pep345 WheelName SimpleAPI.
From Verif.Spec Require Import Pep440Spec SpecifierSpec WheelNameSpec.
Import ListNotations.
Open Scope Z_scope.

(** ** Pages *)
Inductive within (n : node) : node -> Prop :=
| W_self : within n n
| W_child ty data attrs children c : In c children -> within n c -> within n (Node ty data attrs children).
Fixpoint document_order (n : node) : list node :=
  match n with Node _ _ _ children => n :: flat_map document_order children end.

Definition anchor (n : node) : Prop := n_type n = ElementNode /\ n_data n = $"a".
Definition is_text (n : node) : bool := match n_type n with TextNode => true | _ => false end.
Definition text_content (n : node) : str :=
  concat (map n_data (filter is_text (document_order n))).

(** What an HTML parser guarantees: text has no children, and links are not
    nested. *)
Definition html_page (doc : node) : Prop :=
  (forall t, within t doc -> n_type t = TextNode -> n_children t = []) /\
  (forall a c b, within a doc -> anchor a -> In c (n_children a) -> within b c -> ~ anchor b).

(** The value of an attribute without namespace (the last one, if repeated). *)
Fixpoint attribute (key : str) (l : list attr) : option str :=
  match l with
  | [] => None
  | a :: l' =>
      match attribute key l' with
      | Some v => Some v
      | None => if str_eqb (a_ns a) [] && str_eqb (a_key a) key then Some (a_val a) else None
      end
  end.
(** The link that an anchor stands for. *)
Definition link_of (resolve : str -> option str) (n : node) (l : link) : Prop :=
  l_text l = text_content n /\
  match attribute $"href" (n_attrs n) with
  | Some h => resolve h = Some (l_href l)
  | None => l_href l = []
  end /\
  forall key, lookup key (l_attrs l) =
    (if has_prefix $"data-" key then attribute key (n_attrs n) else None).
Definition bad_href (resolve : str -> option str) (n : node) : Prop :=
  exists a, In a (n_attrs n) /\ a_ns a = [] /\ a_key a = $"href" /\ resolve (a_val a) = None.

(** ** Requires-Python *)
Definition acceptable (py : option version) (l : link) : Prop :=
  forall v req, py = Some v -> lookup $"data-requires-python" (l_attrs l) = Some req -> req <> [] ->
  have_required_python v req <> Some false.

(** ** Names *)
Definition valid_name (s : str) : Prop :=
  forall c, In c s ->
    (97 <= code c <= 122)%N \/ (65 <= code c <= 90)%N \/ (48 <= code c <= 57)%N \/
    c = "."%char \/ c = "-"%char \/ c = "_"%char.

(** ** Repository version *)
(** PEP 629: the page declares version [v] *)
Definition declares (doc : node) (v : str) : Prop :=
  exists n, within n doc /\ n_type n = ElementNode /\ n_data n = $"meta" /\
    get_attr [] $"name" (n_attrs n) = Some $"pypi:repository-version" /\
    get_attr [] $"content" (n_attrs n) = Some v.

(** ** Wheel selection *)
(** A sorting procedure such as sort.Slice: it permutes, and if [less] is a
    strict weak order then nothing in the result is less than something before
    it. *)
Definition strict_weak {A} (less : A -> A -> bool) (l : list A) : Prop :=
  (forall a b, In a l -> In b l -> less a b = true -> less b a = false) /\
  (forall a b c, In a l -> In b l -> In c l -> less a b = true -> less a c = true \/ less c b = true).
Definition sorts {A} (sort : (A -> A -> bool) -> list A -> list A) : Prop :=
  forall less l, Permutation (sort less l) l /\
    (strict_weak less l -> StronglySorted (fun a b => less b a = false) (sort less l)).

(** A link that may be installed: a wheel for this platform whose version
    satisfies the specifier. *)
Definition candidate (tags : list tag) (spec : specifier) (links : list link) (l : link) (d : filename_data) : Prop :=
  In l links /\ parse_filename (l_text l) = Some d /\
  (exists i, In i tags /\ overlap i (f_tag d)) /\
  match_specifier spec (f_version d) = true.
(** [a] is at least as preferred as [b]: every tag of the platform that [b]
    could be installed for comes no earlier than one for [a]. *)
Definition as_preferred (tags : list tag) (a b : tag) : Prop :=
  forall j t, nth_error tags j = Some t -> overlap t b ->
  exists j' t', (j' <= j)%nat /\ nth_error tags j' = Some t' /\ overlap t' a.

(** A sorting procedure, to show that [sorts] is satisfiable. *)
Fixpoint insert_sorted {A} (less : A -> A -> bool) (x : A) (l : list A) : list A :=
  match l with
  | [] => [x]
  | y :: l' => if less y x then y :: insert_sorted less x l' else x :: y :: l'
  end.
Definition insertion_sort {A} (less : A -> A -> bool) (l : list A) : list A :=
  fold_right (insert_sorted less) [] l.

(** Some installable file of version [v] on the page is marked as yanked. *)
Definition yanked_version (tags : list tag) (links : list link) (v : version) : Prop :=
  exists l d, In l links /\ parse_filename (l_text l) = Some d /\
    (exists i, In i tags /\ overlap i (f_tag d)) /\ is_yanked l = true /\ f_version d = v.
