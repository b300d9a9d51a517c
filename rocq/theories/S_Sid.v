(** * Specification for C98: session ids. *)
From Coq Require Import ZArith List Bool String.
From Verif Require Import M_Go M_Sess S_Sess.
Import ListNotations.
Open Scope Z_scope.

(** The trampoline's frame (bpfsnoop_stack.h:10-25, 27-49 and the kernel's JITs): the context of the program is the first of [fr_args] argument
    words, then the return value if the trampoline saves one (it does when a program runs at the exit); on x86 the frame pointer points
    right behind, at the saved frame pointer of the tracee's caller.  On arm64 x19, x20 and [fr_pad] words of padding lie between. *)
Record tframe := { fr_ctx : Z; fr_args : Z; fr_ret : bool; fr_pad : Z; fr_caller : Z }.
Definition args_end (f : tframe) : Z := fr_ctx f + 8 * fr_args f + (if fr_ret f then 8 else 0).
Definition fp_x86 (f : tframe) : Z := args_end f.
Definition fp_arm (f : tframe) : Z := args_end f + 16 + 8 * fr_pad f.

(** Histories whose calls are numbered: the id field holds a number [i], the id drawn is [mk i]. *)
Definition with_ids (mk : Z -> Z) (h : list action) : list action :=
  map (fun a => match a with Call t f i ns pass txt => Call t f (mk i) ns pass txt | Ret t f ns txt => Ret t f ns txt end) h.
(** low half of an address *)
Definition low (x : Z) : Z := x mod 2 ^ 32.
(** Draw [i] is a 32-bit number and an address, not both zero; two open accepted calls of one task have different frames less than 4 GiB apart
    (they are on one stack), two of different tasks differ in the random number or in the low half of the frame. *)
Definition differs (rnd fp : Z -> Z) (same_task : bool) (i j : Z) : Prop :=
  if same_task then fp i <> fp j /\ Z.abs (fp i - fp j) < 2 ^ 32 else rnd i <> rnd j \/ low (fp i) <> low (fp j).
Fixpoint good_draws (rnd fp : Z -> Z) (st : stacks) (h : list action) : Prop :=
  match h with
  | [] => True
  | Call t f i ns pass txt :: h' =>
      0 <= rnd i < 2 ^ 32 /\ 0 <= fp i /\ (rnd i <> 0 \/ low (fp i) <> 0) /\
      (pass = true -> forall t' fr, In fr (st t') -> f_pass fr = true -> differs rnd fp (t' =? t) i (f_sid fr)) /\
      good_draws rnd fp (upds st t ({| f_func := f; f_sid := i; f_ns := ns; f_pass := pass; f_text := txt |} :: st t)) h'
  | Ret t f ns txt :: h' => good_draws rnd fp (upds st t (tl (st t))) h'
  end.
