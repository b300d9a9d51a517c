(** * Specification of the variables of an expression. *)
From Coq Require Import List Bool String.
From Verif Require Import M_Vars.
Import ListNotations.

(** the identifier x occurs in the expression (function names of calls are identifiers too) *)
Inductive occurs (x : string) : node -> Prop :=
| oc_name : occurs x (NName x)
| oc_op kids k : In k kids -> occurs x k -> occurs x (NOp kids)
| oc_fn f args : occurs x f -> occurs x (NCall f args)
| oc_arg f args k : In k args -> occurs x k -> occurs x (NCall f args).
(** what ExtractVarNames looks at *)
Definition looked_at (e : node) : option node := match e with NCall _ [] => None | NCall _ (a :: _) => Some a | _ => Some e end.
(** byte-wise order of strings, strict *)
Definition slt (a b : string) : Prop := String.compare a b = Lt.
