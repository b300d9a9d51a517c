(** * Specification of filter selection and of kprobe.multi tracing. *)
From Coq Require Import List Bool String ZArith.
From Verif Require Import M_Go M_Flags M_Multi.
Import ListNotations.
Open Scope string_scope.
Open Scope list_scope.

(** The expression mentions a parameter of the function. *)
Definition about (a : farg) (params : list string) : Prop := exists x, In x params /\ In x (fa_vars a).
(** The first expression about the function. *)
Definition first_about (args : list farg) (params : list string) (a : farg) : Prop :=
  exists l1 l2, args = l1 ++ a :: l2 /\ about a params /\ forall b, In b l1 -> ~ about b params.
(** What runs lets a call pass: the code is a predicate on the argument registers; a cleared stub lets everything pass. *)
Definition regs := nat -> Z.
Definition passes (fl : option (regs -> bool)) (r : regs) : Prop := match fl with Some c => c r = true | None => True end.

(** Functions with these prefixes are never attached to (as in the kernel's own selftests). *)
Definition never_attached : list string := ["arch_cpu_idle"; "default_idle"; "rcu_"; "__ftrace_invalid_address__"].
(** kprobe.multi: a function can be attached to *)
Definition attachable (avail : list string) (s : string) : Prop := In s avail /\ forall e, In e never_attached -> has_prefix e s = false.
(** the function whose pattern and parameters count for f: the first of the list whose matched argument is at the same position *)
Definition stands_for (fns : list mfn) (r f : mfn) : Prop :=
  exists l1 l2, fns = l1 ++ r :: l2 /\ arg_index r = arg_index f /\ forall q, In q l1 -> arg_index q <> arg_index f.
