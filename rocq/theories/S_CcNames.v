(** * Specification of the names in an expression. *)
From Coq Require Import ZArith List String Bool.
From Verif Require Import M_Cc M_CcNum.
Import ListNotations.
Open Scope Z_scope. Open Scope string_scope. Open Scope list_scope.

(** x is neither a variable of the traced function nor one of the words NULL, false, true. *)
Definition foreign (vars : list (string * ty)) (x : string) : Prop := ~ In x (map fst vars) /\ ~ In x ["NULL"; "false"; "true"].
(** The operand has the enumeration type t, in which x stands for n. *)
Definition enumerator (t : option ty) (x : string) (n : Z) : Prop :=
  exists u size before after, t = Some u /\ under u = TEnum size (before ++ (x, n) :: after) /\ ~ In x (map fst before).
(** x is no enumerator of the type of the operand. *)
Definition no_enumerator (t : option ty) (x : string) : Prop := forall n, ~ enumerator t x n.
(** The operand is only known when the program runs. *)
Definition known_at_run_time (v : value) : Prop := match v with VMat _ _ _ | VPend _ _ _ _ => True | VConst _ _ | VEnum _ _ => False end.
(** The operators of two operands. *)
Inductive operator := OBin (o : binop) | OCmp (o : cmpop) | OAnd | OOr.
Definition apply (o : operator) (a b : expr) : expr := match o with OBin o => EBin o a b | OCmp o => ECmp o a b | OAnd => EAndAnd a b | OOr => EOrOr a b end.
