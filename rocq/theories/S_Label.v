(** * Specification: the label of an event (C90). *)
From Coq Require Import ZArith List Bool String Ascii.
From Verif Require Import M_Kallsyms S_Kallsyms M_Label.
Import ListNotations.
Open Scope Z_scope.

(** [n] is a name of the function at address [a] in the symbol listing. *)
Definition named (ls : list (list string)) (a : Z) (n : string) : Prop := In (a, n) (text_syms ls).
(** It is its only name. *)
Definition only_name (ls : list (list string)) (a : Z) (n : string) : Prop := named ls a n /\ forall n', named ls a n' -> n' = n.
Definition free {B} (a : Z) (m : list (Z * B)) : Prop := ~ In a (map fst m).
(** Value of a string of hexadecimal digits. *)
Definition digit_value (c : ascii) : Z := let n := Z.of_nat (nat_of_ascii c) in if n <? 58 then n - 48 else n - 87.
Fixpoint hex_value (s : string) (acc : Z) : Z := match s with EmptyString => acc | String c s' => hex_value s' (acc * 16 + digit_value c) end.
