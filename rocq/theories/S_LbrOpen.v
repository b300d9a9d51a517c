(** * Specification for C99: what it means for branch recording to be set up as asked. *)
From Coq Require Import List String ZArith.
From Verif Require Import M_LbrOpen.
Import ListNotations.
Open Scope Z_scope.

(** perf_event_open(2): the names of --filter-br and the numbers of the bits PERF_SAMPLE_BRANCH_<NAME> *)
Definition names : list (string * Z) :=
  [("any", 3); ("any_call", 4); ("any_return", 5); ("ind_call", 6); ("abort_tx", 7); ("in_tx", 8); ("no_tx", 9); ("cond", 10);
   ("call_stack", 11); ("ind_jump", 12); ("call", 13)]%string.
Definition kernel_bit : Z := 1.
Definition asked (types : list string) (i : Z) : Prop := i = kernel_bit \/ exists s, In s types /\ In (s, i) names.
Definition known (s : string) : Prop := exists i, In (s, i) names.
(** descriptor i is that of CPU i *)
Definition per_cpu (f : Z -> option Z) (n : nat) (fds : list Z) : Prop :=
  List.length fds = n /\ forall i, (i < n)%nat -> exists fd, nth_error fds i = Some fd /\ f (Z.of_nat i) = Some fd.
Definition pow2 (n : Z) : Prop := exists k, 0 <= k /\ n = 2 ^ k.
(** the bytes of the buffer of a CPU *)
Definition buffer (m cpu b : Z) : Prop := lbr_offset m cpu <= b < lbr_offset m cpu + lbr_data_size.
(** n is the 32-bit number at address a, least significant byte first *)
Definition word32 (mem : Z -> option Z) (a n : Z) : Prop := 0 <= n < 2 ^ 32 /\ forall k, 0 <= k < 4 -> mem (a + k) = Some (n / 2 ^ (8 * k) mod 256).
