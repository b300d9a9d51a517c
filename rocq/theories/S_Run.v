(** * Specification vocabulary for executions of compiled expressions. *)
From Coq Require Import ZArith List Bool.
From Verif Require Import M_Ebpf.
Import ListNotations.
Open Scope Z_scope.

(** Every relative jump goes forward and its target is an instruction of the program. *)
Definition jumps_inside (p : prog) : Prop :=
  forall i ins, nth_error (code p) i = Some ins ->
  match ins with
  | IJmpI _ _ _ off | IJmpR _ _ _ off | IJa off =>
      0 <= off /\ Z.of_nat i + 1 + off < Z.of_nat (List.length (code p))
  | IJmpL _ _ _ => exists l, label p = Some l /\ (i < l < List.length (code p))%nat
  | _ => True
  end.

(** Did the execution take a NULL-check exit (a jump to the exit label) within [fuel] steps? *)
Fixpoint null_exit (fuel : nat) (m : mach) (p : prog) (pc : Z) (s : mst) : bool :=
  match fuel with
  | O => false
  | S k =>
      if pc <? 0 then false else
      match nth_error (code p) (Z.to_nat pc) with
      | None => false
      | Some i =>
          let '(s', c) := step1 m i s in
          match c with
          | CNext => null_exit k m p (pc + 1) s'
          | CSkip off => null_exit k m p (pc + 1 + off) s'
          | CLabel => true
          | CExit => false
          end
      end
  end.
