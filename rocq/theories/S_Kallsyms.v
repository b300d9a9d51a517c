(** * What a symbol listing says (specification for C26, C27). *)
From Coq Require Import ZArith List Bool String Ascii.
From Verif Require Import M_Kallsyms.
Import ListNotations.
Open Scope Z_scope.

(** The text symbols (type t or T) of a listing, in file order. *)
Fixpoint text_syms (ls : list (list string)) : list (Z * string) :=
  match ls with
  | [] => []
  | (fa :: ft :: fn :: _) :: ls' =>
      if String.eqb ft "t" || String.eqb ft "T" then
        match parse_hex fa with
        | Some a => (a, fn) :: text_syms ls'
        | None => text_syms ls'
        end
      else text_syms ls'
  | _ :: ls' => text_syms ls'
  end.

(** [s] is the last symbol listed at its address. *)
Definition last_at (syms : list (Z * string)) (s : Z * string) : Prop :=
  exists pre post, syms = pre ++ s :: post /\ forall s', In s' post -> fst s' <> fst s.

(** lower-case hexadecimal notation, the way the kernel prints addresses *)
Definition hexdigit (d : Z) : Ascii.ascii :=
  Ascii.ascii_of_nat (Z.to_nat (if d <? 10 then 48 + d else 87 + d)).
Fixpoint hex_fixed (n : nat) (v : Z) (acc : string) : string :=
  match n with
  | O => acc
  | S k => hex_fixed k (v / 16) (String (hexdigit (v mod 16)) acc)
  end.
(** %016lx *)
Definition hex16 (v : Z) : string := hex_fixed 16 v EmptyString.

(** ** Look-up by name (C54) *)
Definition listed (ls : list (list string)) (n : string) : Prop := exists s, In s (text_syms ls) /\ snd s = n.
(** [s] is the first symbol listed under its name. *)
Definition first_named (syms : list (Z * string)) (s : Z * string) : Prop :=
  exists pre post, syms = pre ++ s :: post /\ forall s', In s' pre -> snd s' <> snd s.
(** Suffixes GCC gives to the clones of a function, in the order of preference. *)
Definition clone_suffixes : list string := [".constprop.0"; ".isra.0"; ".isra.0.cold"; ".cold"; ".part.0"]%string.
(** [n] is a clone of [sym] made by LLVM. *)
Definition llvm_clone (sym n : string) : Prop := exists hash, n = String.append (String.append sym ".llvm.") hash.
