(** * Which kernel functions are traced: /repo/internal/bpfsnoop/kernel_functions_match.go, kernel_functions.go, kernel_btf.go.

    - A BTF function is its name, its parameters (name, whether the type is void, the printed underlying type), whether it returns a
      struct, and whether getFuncParams succeeds on it.
    - The glob matcher (github.com/gobwas/glob) and the symbol table are parameters.
    - The BTF of the kernel and of the modules is a list of (module, functions) in the order in which they are searched.
    - Patterns are parsed flags ([kflag] of M_Flags). *)
From Coq Require Import List Bool String ZArith.
From Verif Require Import M_Go M_Flags.
Import ListNotations.
Open Scope string_scope.
Open Scope list_scope.

Record param := { pm_name : string; pm_void : bool; pm_type : string }.
Record func := { fn_name : string; fn_params : list param; fn_ret_struct : bool; fn_params_ok : bool }.
Record ksym := { ky_addr : Z; ky_duped : bool }.

(** kernel_functions.go:85-88 isValistParam; 93-96 *)
Definition is_valist (p : param) : bool := String.eqb (pm_name p) "" && pm_void p.
Definition variadic (fn : func) : bool := match rev (fn_params fn) with p :: _ => is_valist p | [] => false end.

Section Match.
  Variable glob : string -> string -> bool.
  Variable syms : string -> option ksym.

  (** kernel_functions_match.go:48-60: the loop over the parameters *)
  Fixpoint match_arg (arg typ : string) (ps : list param) : bool :=
    match ps with
    | [] => false
    | p :: ps' => if String.eqb (pm_name p) arg then String.eqb typ "" || String.eqb (pm_type p) typ else match_arg arg typ ps'
    end.
  (** kernel_functions_match.go:41-62 match *)
  Definition pmatch (m : kflag) (fn : func) : bool :=
    glob (f_name m) (fn_name fn) && (String.eqb (f_arg m) "" || match_arg (f_arg m) (f_typ m) (fn_params fn)).
  (** kernel_functions_match.go:64-71 matchKfunc *)
  Fixpoint match_kfunc (fn : func) (ms : list kflag) : option kflag :=
    match ms with [] => None | m :: ms' => if pmatch m fn then Some m else match_kfunc fn ms' end.
  (** kernel_functions.go:90-114 checkKfuncTraceable *)
  Definition traceable (fn : func) (allow_duped : bool) : option ksym :=
    if variadic fn then None
    else if fn_ret_struct fn then None
    else match syms (fn_name fn) with
         | None => None
         | Some k => if ky_duped k && negb allow_duped then None else Some k
         end.
  (** kernel_functions.go:156-175: is the first parameter of that name among the first maxArgs *)
  Fixpoint arg_within (name : string) (i max : Z) (ps : list param) : bool :=
    match ps with
    | [] => false
    | p :: ps' => if String.eqb (pm_name p) name then (i <? max)%Z else arg_within name (i + 1) max ps'
    end.
  (** kernel_functions.go:116-181 matchKernelFunc with findManyArgs = false: the flag and the symbol it is traced with *)
  Definition match_kernel_func (ms : list kflag) (max : Z) (fn : func) : option (kflag * ksym) :=
    match match_kfunc fn ms with
    | None => None
    | Some m =>
        match traceable fn (f_multi m) with
        | None => None
        | Some k =>
            if negb (fn_params_ok fn) then None
            else if (Z.of_nat (List.length (fn_params fn)) <=? max)%Z then Some (m, k)
            else if f_multi m && arg_within (f_argName m) 0 max (fn_params fn) then Some (m, k)
            else None
        end
    end.

  Record kfunc := { kf_func : func; kf_flag : kflag; kf_btf : string }.
  Definition kfuncs := list (Z * kfunc).
  (** kernel_functions.go:192-203: one function of one BTF *)
  Definition visit (ms : list kflag) (max : Z) (acc : kfuncs) (x : string * func) : kfuncs :=
    match match_kernel_func ms max (snd x) with
    | Some (m, k) => aput Z.eqb (ky_addr k) {| kf_func := snd x; kf_flag := m; kf_btf := fst x |} acc
    | None => acc
    end.
  (** kernel_functions.go:184-211 findKernelFuncs, over all functions in the order they are visited *)
  Definition find_funcs (ms : list kflag) (max : Z) (all : list (string * func)) : kfuncs := fold_left (visit ms max) all [].

  (** kernel_functions.go:23-40, 44-62 *)
  Definition noreturn : list string := ["__ia32_sys_exit"; "__ia32_sys_exit_group"; "__kunit_abort"; "kunit_try_catch_throw"; "__module_put_and_kthread_exit";
    "__x64_sys_exit"; "__x64_sys_exit_group"; "do_exit"; "do_group_exit"; "kthread_complete_and_exit"; "kthread_exit"; "make_task_dead"].
  Definition deny : list string := ["migrate_disable"; "migrate_enable"; "rcu_read_unlock_strict"; "preempt_count_add"; "preempt_count_sub"; "__rcu_read_lock";
    "__rcu_read_unlock"; "bpf_get_numa_node_id"; "bpf_dispatcher_xdp_func"].
  Definition mem (x : string) (l : list string) : bool := existsb (String.eqb x) l.
  (** kernel_functions.go:213-232 searchKernelFuncs *)
  Definition search_funcs (exit_mode : bool) (ms : list kflag) (max : Z) (all : list (string * func)) : kfuncs :=
    filter (fun kv => let kf := snd kv in
              negb ((exit_mode || f_both (kf_flag kf) || f_insn (kf_flag kf) || f_graph (kf_flag kf)) && mem (fn_name (kf_func kf)) noreturn)
              && negb (mem (fn_name (kf_func kf)) deny))
           (find_funcs ms max all).
End Match.

(** ** The BTF files that are searched *)
Definition sort_compact (l : list string) : list string := compact String.eqb (isort String.leb l).
Definition add_new (x : string) (l : list string) : list string := if mem x l then l else l ++ [x].
(** kernel_functions.go:234-251 inferenceKfuncKmods; [mods]: the modules in /proc/kallsyms; [fs]: the patterns as the user wrote them *)
Definition first_mod (mods : list string) (f : string) : option string := find (fun m => has_prefix m f) mods.
Definition infer (mods : list string) (kmods fs : list string) : list string :=
  sort_compact (fold_left (fun acc f => match first_mod mods f with Some m => if String.eqb m "" then acc else add_new m acc | None => acc end) fs kmods).
(** kernel_functions.go:253-268 prepareKmods; [sym_mod f]: the module of the symbol f *)
Definition prepare (mods : list string) (sym_mod : string -> option string) (kmods fs : list string) : list string :=
  sort_compact (fold_left (fun acc f => match sym_mod f with Some m => if String.eqb m "" then acc else add_new m acc | None => acc end) fs (infer mods kmods fs)).
(** slices.Delete(s, i, j): panics (None) unless i <= j <= len(s) *)
Definition slices_delete (s : list string) (i j : nat) : option (list string) :=
  if Nat.leb i j && Nat.leb j (List.length s) then Some (firstn i s ++ skipn j s) else None.
Fixpoint index_of (x : string) (l : list string) : option nat :=
  match l with [] => None | y :: l' => if String.eqb x y then Some O else option_map S (index_of x l') end.
(** kernel_btf.go:19-76 iterateKernelBtfs: the BTF names in the order searched; None: crash.  [files]: the names in /sys/kernel/btf.
    A module without file is skipped. *)
Definition btfs (all_kmods : bool) (files kmods : list string) : option (list string) :=
  if all_kmods then Some ("vmlinux" :: isort String.leb (filter (fun f => negb (String.eqb f "vmlinux")) files))
  else match kmods with
       | [] => Some ["vmlinux"]
       | _ =>
           let s := sort_compact kmods in
           match (match index_of "vmlinux" s with
                  | Some idx => option_map (cons "vmlinux") (slices_delete s idx 1)
                  | None => Some ("vmlinux" :: s)
                  end) with
           | None => None
           | Some l => Some (filter (fun m => mem m files) l)
           end
       end.
