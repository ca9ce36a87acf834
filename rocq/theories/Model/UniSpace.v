(** Standard library: white space of Unicode in UTF-8. *)
From Coq Require Import String Ascii List Bool NArith.
From Verif.Model Require Import GoStr.
Import ListNotations.

Definition utf8 (l : list N) : str := map ascii_of_N l.
(** unicode.IsSpace outside ASCII: U+0085, U+00A0, U+1680, U+2000 to U+200A, U+2028, U+2029, U+202F, U+205F, U+3000 *)
Definition wide_spaces : list str :=
  map utf8 ([[194; 133]; [194; 160]; [225; 154; 128]; [226; 128; 128]; [226; 128; 129]; [226; 128; 130]; [226; 128; 131]; [226; 128; 132];
             [226; 128; 133]; [226; 128; 134]; [226; 128; 135]; [226; 128; 136]; [226; 128; 137]; [226; 128; 138]; [226; 128; 168];
             [226; 128; 169]; [226; 128; 175]; [226; 129; 159]; [227; 128; 128]]%N).
(** strings.TrimSpace: from the left rune by rune, then from the right.  The first byte of a rune is not
    inside one, so a string ends with one of these runes if it ends with its bytes. *)
Fixpoint trim_wide (wide : list str) (fuel : nat) (s : str) : str :=
  match fuel with
  | O => s
  | S fuel =>
      match s with
      | [] => []
      | x :: s' =>
          if is_space x then trim_wide wide fuel s'
          else match find (fun w => has_prefix w s) wide with
               | Some w => trim_wide wide fuel (skipn (length w) s)
               | None => s
               end
      end
  end.
Definition trim_left_u (s : str) : str := trim_wide wide_spaces (length s) s.
Definition trim_right_u (s : str) : str := rev (trim_wide (map (@rev ascii) wide_spaces) (length s) (rev s)).
Definition trim_space_u (s : str) : str := trim_right_u (trim_left_u s).
