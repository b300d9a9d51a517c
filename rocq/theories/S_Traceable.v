(** * What can be traced, and where trampolines return to. *)
From Coq Require Import List Bool ZArith.
From Verif Require Import M_Go M_Bytes S_Disasm.
Import ListNotations.
Open Scope Z_scope.

Definition byte_mem (m : Z -> option Z) : Prop := forall a b, m a = Some b -> 0 <= b < 256.
(** What tracing patches: the 5-byte nop that the compiler put there, or the call or jump that replaced it. *)
Definition patch_site (m : Z -> option Z) (a : Z) : Prop := holds m a [15; 31; 68; 0; 0] \/ m a = Some 232 \/ m a = Some 233.
(** Functions of kernels built with IBT begin with endbr64 (4 bytes). *)
Definition entry_of (has_endbr : bool) (f : Z) : Z := if has_endbr then f + 4 else f.
(** jmp rel32 at [a] goes to [t] *)
Definition jumps_to (m : Z -> option Z) (a t : Z) : Prop :=
  exists d0 d1 d2 d3, holds m a [233; d0; d1; d2; d3] /\
    let d := d0 + 256 * (d1 + 256 * (d2 + 256 * d3)) in t = (a + 5 + (if d <? 2 ^ 31 then d else d - 2 ^ 32)) mod 2 ^ 64.
(** The code of [n] bytes at [t] (padding at its end aside) has a call instruction that returns to [ip]. *)
Definition calls_back (dec : list Z -> Z -> option nat) (m : Z -> option Z) (t n ip : Z) : Prop :=
  exists d l a b, Z.of_nat (List.length d) = n /\ holds m t d /\ Decoded dec (trim_tail d) t l /\
    In (a, 232 :: b) l /\ ip = a + 1 + Z.of_nat (List.length b).
