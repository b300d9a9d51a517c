(** * Specification of the shown values: from the bytes of the variable in memory. *)
From Coq Require Import List Bool String ZArith.
From Verif Require Import M_Go M_Repr.
Import ListNotations.
Open Scope list_scope.
Open Scope Z_scope.

(** the number that n little-endian bytes are, signed or not *)
Definition num_of (signed : bool) (l : list Z) : Z :=
  let v := le_bytes l in if signed && (2 ^ (8 * Z.of_nat (List.length l) - 1) <=? v) then v - 2 ^ (8 * Z.of_nat (List.length l)) else v.
(** the number that is shown *)
Definition number (s : shown) : option Z := match s with SHex v | SDec v | SHexDec v | SFunc v _ | SBits v => Some v | _ => None end.
(** [shows t l s]: s tells the value of a variable of type t that occupies the first bytes of l *)
Inductive shows : vty -> list Z -> shown -> Prop :=
| sh_int n signed l s : (n <= List.length l)%nat -> number s = Some (num_of signed (firstn n l)) -> shows (VInt (Z.of_nat n) signed false) l s
| sh_bool l s : (1 <= List.length l)%nat -> s = SBool (negb (hd 0 l =? 0)) -> shows (VInt 1 false true) l s
| sh_enum n vals l x v : (n <= List.length l)%nat -> In (x, v) vals -> v mod 2 ^ (8 * Z.of_nat n) = le_bytes (firstn n l) -> shows (VEnum (Z.of_nat n) vals) l (SName x)
| sh_enum_other n vals l s : (n <= List.length l)%nat -> (forall x v, In (x, v) vals -> v mod 2 ^ (8 * Z.of_nat n) <> le_bytes (firstn n l)) ->
    number s = Some (le_bytes (firstn n l)) -> shows (VEnum (Z.of_nat n) vals) l s
| sh_ptr fn l s : (8 <= List.length l)%nat -> number s = Some (le_bytes (firstn 8 l)) -> shows (VPtr fn) l s
| sh_rec name ms l r : Forall2 (fun m x => fst x = fst (fst (fst m)) /\ shows_member m l (snd x)) ms r -> shows (VRec name ms) l (SRec name r)
with shows_member : string * Z * Z * vty -> list Z -> shown -> Prop :=
| sm_plain n boff t l s : shows t (skipn (Z.to_nat (boff / 8)) l) s -> shows_member (n, boff, 0, t) l s
| sm_bits n boff bsz t l s : bsz <> 0 -> number s = Some (Z.shiftr (le_bytes l) boff mod 2 ^ bsz) -> shows_member (n, boff, bsz, t) l s.
(** The types for which this is done right: integers and pointers, and records of them, in n bytes. *)
Fixpoint plain (t : vty) (n : Z) : Prop :=
  match t with
  | VInt s _ b => b = false /\ (s = 1 \/ s = 2 \/ s = 4 \/ s = 8) /\ s <= n
  | VPtr _ => 8 <= n
  | VRec _ ms => 1 <= n /\ (fix go ms := match ms with [] => True | (_, boff, bsz, mt) :: ms' => (bsz = 0 /\ 0 <= boff /\ boff mod 8 = 0 /\ plain mt (n - boff / 8)) /\ go ms' end) ms
  | VEnum _ _ | VOther _ => False
  end.
