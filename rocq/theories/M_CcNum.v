(** * Number literals: /repo/internal/cc/number.go. *)
From Coq Require Import ZArith List Bool String Ascii.
From Verif Require Import M_Ebpf.
Import ListNotations.
Open Scope Z_scope.

Definition byte (c : ascii) : Z := Z.of_nat (nat_of_ascii c).

(** strings.HasPrefix, and text[len(prefix):]. *)
Fixpoint has_prefix (p s : string) : bool :=
  match p, s with
  | EmptyString, _ => true
  | String a p', String b s' => Ascii.eqb a b && has_prefix p' s'
  | String _ _, EmptyString => false
  end.
Fixpoint drop (n : nat) (s : string) : string :=
  match n, s with
  | O, _ => s
  | S k, String _ s' => drop k s'
  | S _, EmptyString => EmptyString
  end.

(** Digit value as in strconv.ParseUint (digits, lower or upper case letters). *)
Definition digit_val (c : ascii) : option Z :=
  let b := byte c in
  if (48 <=? b) && (b <=? 57) then Some (b - 48)
  else if (97 <=? b) && (b <=? 122) then Some (b - 97 + 10)
  else if (65 <=? b) && (b <=? 90) then Some (b - 65 + 10)
  else None.

Inductive perr := ESyntax | ERange.

(** strconv.ParseUint(s, base, 64) for an explicit base (Go standard library): digits only, the
    empty string is a syntax error, a value >= 2^64 is a range error (reported at the digit where
    it overflows, before later digits are looked at). *)
Fixpoint parse_digits (base acc : Z) (s : string) : Z + perr :=
  match s with
  | EmptyString => inl acc
  | String c s' =>
      match digit_val c with
      | None => inr ESyntax
      | Some d =>
          if base <=? d then inr ESyntax
          else let acc' := acc * base + d in
               if M64 <=? acc' then inr ERange else parse_digits base acc' s'
      end
  end.
Definition parse_uint (base : Z) (s : string) : Z + perr :=
  match s with
  | EmptyString => inr ESyntax
  | _ => parse_digits base 0 s
  end.

Definition quote : ascii := "'"%char.

(** number.go:11-34 parseUnsigned.  For a three-byte quoted literal [[]rune(text[1:2])[0]] is the
    byte itself below 0x80 and U+FFFD (65533) for a stray byte >= 0x80. *)
Definition parse_unsigned (t : string) : Z + perr :=
  if has_prefix "0x" t then parse_uint 16 (drop 2 t)
  else if has_prefix "0o" t then parse_uint 8 (drop 2 t)
  else if has_prefix "0b" t then parse_uint 2 (drop 2 t)
  else if has_prefix "0" t && Nat.ltb 1 (String.length t) then parse_uint 8 (drop 1 t)
  else match t with
       | String q (String c (String q' EmptyString)) =>
           if Ascii.eqb q quote then
             if Ascii.eqb q' quote then inl (if byte c <? 128 then byte c else 65533)
             else inr ESyntax
           else parse_uint 10 t
       | String q _ => if Ascii.eqb q quote then inr ESyntax else parse_uint 10 t
       | EmptyString => parse_uint 10 t
       end.

(** number.go:36-50 parseNumber. *)
Definition parse_number (t : string) : Z + perr :=
  let neg := has_prefix "-" t in
  let t1 := if neg then drop 1 t else t in
  let t2 := if has_prefix "+" t1 then drop 1 t1 else t1 in
  match parse_unsigned t2 with
  | inr e => inr e
  | inl n => inl (if neg then s64 (- s64 n) else s64 n)
  end.
