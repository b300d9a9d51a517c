(** * Specification for C97: many tasks at once. *)
From Coq Require Import ZArith List Bool String.
From Verif Require Import M_Go M_Sess S_Sess M_Conc.
Import ListNotations.
Open Scope Z_scope.

Definition actor (a : action) : Z := match a with Call t _ _ _ _ _ => t | Ret t _ _ _ => t end.
Definition func (a : action) : Z := match a with Call _ f _ _ _ _ => f | Ret _ f _ _ => f end.
(** Task [t] makes the calls and returns [prog t]; [tasks] are all of them; fewer than 65536 pairs of task and function. *)
Definition workload (tasks : list Z) (prog : Z -> list action) : Prop :=
  (forall t a, In a (prog t) -> actor a = t /\ In t tasks) /\
  exists ks, Z.of_nat (List.length ks) < 65536 /\ forall t a, In a (prog t) -> In (t, func a) ks.
(** The system can get from tracing's start to [s], the accesses of the tasks being interleaved as [ls] says. *)
Definition reaches (tasks : list Z) (prog : Z -> list action) (ls : list clabel) (s : cstate) : Prop :=
  crun tasks (cinit prog) ls = Some s.
Definition no_misses (ls : list clabel) : Prop := forall t cpu, ~ In (LMissed t cpu) ls.
(** The part of a history that task t took. *)
Definition of_task (t : Z) (h : list action) : list action := filter (fun a => actor a =? t) h.
Definition done (s : cstate) : Prop := forall t, t_todo (c_task s t) = [].
(** What is seen of the calls and returns of a task when probes are missed: a call as if rejected, a return not at all. *)
Inductive seen : list action -> list action -> Prop :=
| seen_nil : seen [] []
| seen_one : forall a l l', seen l l' -> seen (a :: l) (a :: l')
| seen_call : forall t f sid ns pass txt l l', seen l l' -> seen (Call t f sid ns pass txt :: l) (Call t f sid ns false txt :: l')
| seen_ret : forall t f ns txt l l', seen l l' -> seen (Ret t f ns txt :: l) l'.
(** Some step of task [t] is possible. *)
Definition can_move (tasks : list Z) (s : cstate) (t : Z) : Prop :=
  exists l s', cstep tasks s l = Some s' /\ match l with LStart u _ => u = t | LAccess u => u = t | LMissed u _ => u = t end.
