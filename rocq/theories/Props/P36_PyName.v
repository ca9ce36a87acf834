(** C103: the file names of wheels mean what they mean to Python.  [parse_filename] is ParseFilename, [meaning] its
    result with the name normalized and the tags expanded; [parse_wheel_filename] is Python's (Spec/PyNameSpec.v). *)
From Coq Require Import String Ascii List Bool NArith ZArith Lia.
From Verif.Model Require Import GoStr Pep440 WheelName SimpleAPI.
From Verif.Spec Require Import PyNameSpec.
From Verif.Proofs Require Import PyNameFacts.
Import ListNotations.

(** ** C103: the same names are accepted, with the same meaning *)
Theorem C103_python_partial : forall s, agreed_name s -> option_map meaning (parse_filename s) = parse_wheel_filename s.
Proof. exact names_same. Qed.
Print Assumptions C103_python_partial.
(** What Normalize and Decompress give is what Python has, for all names and tags *)
Theorem C103_normalize : forall s, normalize s = canonicalize_name s.
Proof. intros s. symmetry. apply canonicalize_normalize. Qed.
Print Assumptions C103_normalize.
Theorem C103_tags : forall p a q,
  map (fun t => (py_lower (t_python t), py_lower (t_abi t), py_lower (t_platform t))) (decompress (mkTag p a q)) = py_tags p a q.
Proof. intros p a q. symmetry. apply tags_decompress. Qed.
Print Assumptions C103_tags.
Example C103_case : agreed_name $"My.Pkg-1.0RC1-2b-py2.py3-none-any.whl" /\
  option_map (fun w => (pw_name w, pw_build w, pw_tags w)) (parse_wheel_filename $"My.Pkg-1.0RC1-2b-py2.py3-none-any.whl") =
    Some ($"my-pkg", Some (2%N, $"b"), [($"py2", $"none", $"any"); ($"py3", $"none", $"any")]).
Proof. split; [exact ex_name_agreed|vm_compute; reflexivity]. Qed.
Example C103_error_case : agreed_name $"pkg-1.0-b2-py3-none-any.whl" /\ parse_wheel_filename $"pkg-1.0-b2-py3-none-any.whl" = None.
Proof. split; [exact ex_bad_name_agreed|vm_compute; reflexivity]. Qed.

(** Not so for project names with other characters or with two underscores, which Python refuses, *)
Theorem C103_project_refuted : exists s s', parse_wheel_filename s = None /\ parse_wheel_filename s' = None /\
  option_map f_dist (parse_filename s) = Some $"a+b" /\ option_map f_dist (parse_filename s') = Some $"a__b".
Proof. exists $"a+b-1-py3-none-any.whl", $"a__b-1-py3-none-any.whl". repeat split; vm_compute; reflexivity. Qed.
Print Assumptions C103_project_refuted.
(** for empty tags, which Python takes, *)
Theorem C103_empty_refuted : exists s, parse_filename s = None /\
  option_map pw_tags (parse_wheel_filename s) = Some [($"py3", [], $"any")].
Proof. exists $"a-1-py3--any.whl". split; vm_compute; reflexivity. Qed.
Print Assumptions C103_empty_refuted.
(** and for build numbers from 2^63 on, which all become the same. *)
Theorem C103_build_refuted : exists s s', parse_wheel_filename s <> parse_wheel_filename s' /\ parse_filename s <> None /\ parse_filename s = parse_filename s'.
Proof.
  exists $"a-1-9223372036854775808-py3-none-any.whl", $"a-1-9223372036854775809-py3-none-any.whl".
  split; [|split]; [vm_compute; discriminate|vm_compute; discriminate|vm_compute; reflexivity].
Qed.
Print Assumptions C103_build_refuted.
