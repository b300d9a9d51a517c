(** * Specification: the verdict of the tail-call probe (C88). *)
From Coq Require Import List Bool ZArith.
From Verif Require Import M_Go.
Import ListNotations.
Open Scope Z_scope.

(** The first instructions of a program with a trampoline attached: an endbr64 or not, a 5-byte call (e8) or jump (e9) to the trampoline with displacement
    [d] (signed, 32 bits), and then xor eax, eax: the program may be tail-called into. *)
Definition endbr_bytes : list Z := [243; 15; 30; 250].
Definition bytes4 (d : Z) : list Z := let u := d mod 2 ^ 32 in [u mod 256; u / 256 mod 256; u / 65536 mod 256; u / 16777216].
Definition prologue (endbr : bool) (op d : Z) : list Z := (if endbr then endbr_bytes else []) ++ op :: bytes4 d ++ [49; 192].
(** where the call or jump goes *)
Definition goes_to (endbr : bool) (ksym d : Z) : Z := ksym + (if endbr then 4 else 0) + 5 + d.
(** The instructions save rax (push rax) before they return (ret). *)
Definition saves_rax (l : list (Z * list Z)) : Prop := exists l1 a l2, l = l1 ++ (a, [80]) :: l2 /\ ~ In [195] (map snd l1).
Definition returns (l : list (Z * list Z)) : Prop := In [195] (map snd l).
(** the bytes that could not be decoded *)
Definition undecoded (data : list Z) (l : list (Z * list Z)) : nat := (List.length data - fold_right Nat.add 0 (map (fun i => List.length (snd i)) l))%nat.
