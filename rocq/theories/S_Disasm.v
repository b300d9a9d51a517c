(** * What reads, look-ups and listings should be. *)
From Coq Require Import List Bool String Ascii ZArith Arith.
From Verif Require Import M_Go M_Kallsyms M_Disasm.
Import ListNotations.
Open Scope Z_scope.

(** every byte of [a, a + n) is readable *)
Definition readable (m : Z -> option Z) (a n : Z) : Prop := forall i, 0 <= i < n -> m (a + i) <> None.
(** [l] is what memory holds from [a] on *)
Definition holds (m : Z -> option Z) (a : Z) (l : list Z) : Prop := forall i, (i < List.length l)%nat -> m (a + Z.of_nat i) = Some (nth i l 0).
(** sizes the kernel is asked for are multiples of 8 *)
Definition round8 (n : Z) : Z := (n + 7) / 8 * 8.

(** [c] occurs in [s] *)
Fixpoint occurs (c : ascii) (s : string) : Prop := match s with EmptyString => False | String x s' => x = c \/ occurs c s' end.
(** a name that nobody would take for an address: no 0x in front, and some character other than a hexadecimal digit or underscore *)
Definition plain_name (n : string) : Prop :=
  (forall r, n <> String "0" (String "x" r)) /\ exists c, occurs c n /\ hexval c = None /\ c <> "_"%char.

(** a decoder never takes no byte, or more than there are *)
Definition sound_decoder (dec : list Z -> Z -> option nat) : Prop :=
  forall b pc sz, dec b pc = Some sz -> (1 <= sz <= List.length b)%nat.
(** instruction by instruction from [pc], as far as [b] can be decoded *)
Inductive Decoded (dec : list Z -> Z -> option nat) : list Z -> Z -> list (Z * list Z) -> Prop :=
| DEnd b pc : b = [] \/ dec b pc = None -> Decoded dec b pc []
| DIns b pc sz l : b <> [] -> dec b pc = Some sz -> Decoded dec (skipn sz b) (pc + Z.of_nat sz) l -> Decoded dec b pc ((pc, firstn sz b) :: l).

(** The lines of a listing, from offset [off] of the function at [start]: one after the other, without gap or overlap, together [b]. *)
Fixpoint lines_tile (start off : Z) (ls : list iline) (b : list Z) : Prop :=
  match ls with
  | [] => b = []
  | l :: ls' => l_addr l = start + off /\ l_off l = off /\ l_bytes l <> [] /\
      exists b', b = l_bytes l ++ b' /\ lines_tile start (off + Z.of_nat (List.length (l_bytes l))) ls' b'
  end.

(** the code of a program's functions lies one after the other: where the functions after [fns] begin *)
Definition fn_len (f : string * Z * nat) : nat := snd f.
Definition fn_start (fns : list (string * Z * nat)) : nat := fold_right Nat.add 0%nat (map fn_len fns).
(** the instructions to trace: from the fifth on, at most [cnt] of them (0: all) *)
Definition picked (cnt : nat) (l : list (Z * list Z)) : list (Z * list Z) := if (cnt =? 0)%nat then skipn 4 l else firstn cnt (skipn 4 l).
