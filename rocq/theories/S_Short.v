(** * Specification for short-circuiting: operands that C decides on, whatever the others do. *)
From Coq Require Import ZArith List Bool String.
From Verif Require Import M_Ebpf M_CcNum M_Cc S_CSem S_CSup S_Null.
Import ListNotations.
Open Scope Z_scope.

(** Some conjunct of the `&&` chain [e] is known to be false.  Nothing is asked of the other
    conjuncts: they may follow NULL pointers, read unmapped memory or be miscompiled. *)
Fixpoint refuted (K : cfg) (C : cenv) (e : expr) : bool :=
  known K C false e ||
  match e with
  | EParen a => refuted K C a
  | EAndAnd a b => refuted K C a || refuted K C b
  | _ => false
  end.
(** Some disjunct of the `||` chain [e] is known to be true. *)
Fixpoint asserted (K : cfg) (C : cenv) (e : expr) : bool :=
  known K C true e ||
  match e with
  | EParen a => asserted K C a
  | EOrOr a b => asserted K C a || asserted K C b
  | _ => false
  end.

(** What decides the filter [e]: it is supported as a whole, or one operand of its `&&` (`||`) chain is supported and
    false (true). *)
Definition decided (K : cfg) (C : cenv) (e : expr) : bool :=
  match sup K C e with Some _ => true | None => false end ||
  match e with
  | EAndAnd a b => refuted K C a || refuted K C b
  | EOrOr a b => (asserted K C a || asserted K C b) && runtime_expr K a && runtime_expr K b
  | _ => false
  end.
