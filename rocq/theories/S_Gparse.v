(** * Specification of the exploration of call graphs. *)
From Coq Require Import List Bool ZArith.
From Verif Require Import M_Go M_Gparse.
Import ListNotations.
Open Scope list_scope.

(** The call at depth d of a function, from the roots, through traceable functions no deeper than the limit. *)
Inductive reach (w : gworld) (roots : list (Z * nat)) : Z -> nat -> Prop :=
| reach_root ip d : In (ip, d) roots -> reach w roots ip d
| reach_call ip d c : reach w roots ip d -> (d <= w_max w)%nat -> w_ok w ip = true -> w_repl w ip = None -> In c (w_callees w ip) -> reach w roots c (S d)
| reach_repl ip d r : reach w roots ip d -> (d <= w_max w)%nat -> w_ok w ip = true -> w_repl w ip = Some r -> reach w roots r d.
(** A finite set of addresses the code never leaves. *)
Definition closed (w : gworld) (roots : list (Z * nat)) (U : list Z) : Prop :=
  (forall ip d, In (ip, d) roots -> In ip U) /\ (forall ip c, In ip U -> In c (w_callees w ip) -> In c U) /\ (forall ip r, In ip U -> w_repl w ip = Some r -> In r U).
Definition width (w : gworld) (U : list Z) (L : nat) : Prop := forall ip, In ip U -> (List.length (w_callees w ip) <= L)%nat.
Definition chosen (s : gst) (ip : Z) : Prop := exists r, aget Z.eqb ip (g_graphs s) = Some (Some r).
