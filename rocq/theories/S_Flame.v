(** * Specification of the flame graph: samples counted per stack. *)
From Coq Require Import List Bool String Ascii ZArith DecimalString.
Import ListNotations.
Open Scope Z_scope.

(** The weight of the samples whose stack is exactly [p]. *)
Definition weight (samples : list (list string * Z)) (p : list string) : Z :=
  fold_right Z.add 0 (map snd (filter (fun s => if list_eq_dec string_dec (fst s) p then true else false) samples)).
Definition total (samples : list (list string * Z)) : Z := fold_right Z.add 0 (map snd samples).
(** One line of the file: the frames from the outermost, separated by semicolons, a blank, the weight, a line end. *)
Definition file_line (p : list string) (n : Z) : string :=
  (String.concat ";" p ++ " " ++ DecimalString.NilZero.string_of_int (Z.to_int n) ++ String (Ascii.ascii_of_nat 10) "")%string.
