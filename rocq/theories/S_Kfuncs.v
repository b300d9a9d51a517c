(** * Specification of kernel-function selection. *)
From Coq Require Import List Bool String ZArith.
From Verif Require Import M_Go M_Flags M_Kfuncs.
Import ListNotations.
Open Scope string_scope.
Open Scope list_scope.

(** The (first) parameter of that name. *)
Definition param_at (fn : func) (name : string) (i : nat) (p : param) : Prop :=
  nth_error (fn_params fn) i = Some p /\ pm_name p = name /\ forall j q, (j < i)%nat -> nth_error (fn_params fn) j = Some q -> pm_name q <> name.
(** A pattern fits a function: the glob matches the name; if it names a parameter, there is one, of the type given (if one is given). *)
Definition fits (glob : string -> string -> bool) (m : kflag) (fn : func) : Prop :=
  glob (f_name m) (fn_name fn) = true /\
  (f_arg m = "" \/ exists i p, param_at fn (f_arg m) i p /\ (f_typ m = "" \/ pm_type p = f_typ m)).
(** The first pattern of the list that fits. *)
Definition first_fit (glob : string -> string -> bool) (ms : list kflag) (m : kflag) (fn : func) : Prop :=
  exists l1 l2, ms = l1 ++ m :: l2 /\ fits glob m fn /\ forall q, In q l1 -> ~ fits glob q fn.
(** A function with a variable number of arguments: its last parameter is the nameless void. *)
Definition has_varargs (fn : func) : Prop := exists l p, fn_params fn = l ++ [p] /\ pm_name p = "" /\ pm_void p = true.
(** What is traced, and how. *)
Definition selected (glob : string -> string -> bool) (syms : string -> option ksym) (ms : list kflag) (max : Z) (fn : func) (m : kflag) (k : ksym) : Prop :=
  first_fit glob ms m fn /\ ~ has_varargs fn /\ fn_ret_struct fn = false /\ fn_params_ok fn = true /\
  syms (fn_name fn) = Some k /\ (ky_duped k = true -> f_multi m = true) /\
  ((Z.of_nat (List.length (fn_params fn)) <= max)%Z \/ (f_multi m = true /\ exists i p, param_at fn (f_argName m) i p /\ (Z.of_nat i < max)%Z)).
(** The last function visited that is selected at address [a] (each function with the BTF it was found in). *)
Definition the_last (glob : string -> string -> bool) (syms : string -> option ksym) (ms : list kflag) (max a : Z) (all : list (string * func)) (kf : kfunc) : Prop :=
  exists l1 l2 k, all = l1 ++ (kf_btf kf, kf_func kf) :: l2 /\ selected glob syms ms max (kf_func kf) (kf_flag kf) k /\ ky_addr k = a /\
    forall b f m k', In (b, f) l2 -> selected glob syms ms max f m k' -> ky_addr k' <> a.
(** Functions that never return, whose exit the kernel refuses to trace (its noreturn_deny set). *)
Definition never_returns (n : string) : Prop := In n
  ["do_exit"; "do_group_exit"; "kthread_complete_and_exit"; "kthread_exit"; "make_task_dead"; "__x64_sys_exit"; "__x64_sys_exit_group";
   "__ia32_sys_exit"; "__ia32_sys_exit_group"; "__kunit_abort"; "kunit_try_catch_throw"; "__module_put_and_kthread_exit"].
(** Functions the kernel refuses to trace (its btf_id_deny set), and two that are known to make trouble. *)
Definition denied (n : string) : Prop := In n
  ["migrate_disable"; "migrate_enable"; "rcu_read_unlock_strict"; "preempt_count_add"; "preempt_count_sub"; "__rcu_read_lock"; "__rcu_read_unlock";
   "bpf_get_numa_node_id"; "bpf_dispatcher_xdp_func"].
