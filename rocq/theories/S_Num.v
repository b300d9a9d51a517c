(** * Specification of number notations: a digit string in a base denotes a number. *)
From Coq Require Import ZArith List Bool String Ascii.
Import ListNotations.
Open Scope Z_scope.

(** The digit denoted by a character: 0-9, a-z, A-Z. *)
Definition digit (c : ascii) : option Z :=
  let n := Z.of_nat (nat_of_ascii c) in
  if (48 <=? n) && (n <=? 57) then Some (n - 48)
  else if (97 <=? n) && (n <=? 122) then Some (n - 87)
  else if (65 <=? n) && (n <=? 90) then Some (n - 55) else None.
Definition is_digit (base : Z) (c : ascii) : bool := match digit c with Some d => d <? base | None => false end.
Fixpoint chars (s : string) : list ascii := match s with EmptyString => [] | String c s' => c :: chars s' end.
(** Positional value, most significant digit first: sum of d_i * base^(position from the right). *)
Fixpoint numval (base : Z) (l : list ascii) : Z :=
  match l with
  | [] => 0
  | c :: l' => (match digit c with Some d => d | None => 0 end) * base ^ Z.of_nat (List.length l') + numval base l'
  end.
Definition numeral (base : Z) (s : string) : bool :=
  negb (String.eqb s "") && forallb (is_digit base) (chars s).

(** A printer, to show that every number has a notation. *)
Definition digit_char (d : Z) : ascii := ascii_of_nat (Z.to_nat (if d <? 10 then 48 + d else 87 + d)).
Fixpoint print (fuel : nat) (base n : Z) (acc : string) : string :=
  match fuel with
  | O => acc
  | S k => let acc' := String (digit_char (n mod base)) acc in
           if n <? base then acc' else print k base (n / base) acc'
  end.
Definition print64 (base n : Z) : string := print 64 base n "".

(** int64 arithmetic: the exact result reduced into [-2^63, 2^63). *)
Definition int64 (z : Z) : Z := (z + 2 ^ 63) mod 2 ^ 64 - 2 ^ 63.
