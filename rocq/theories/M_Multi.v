(** * --filter-arg selection and kprobe.multi groups:
    /repo/internal/bpfsnoop/filter_arg.go, bpf_tracing.go, bpf_tracing_func_multi.go.

    - A filter expression is its text and the variable names in it (cc.ExtractVarNames, modelled in M_OutArg); compiling is a parameter.
    - A function is its symbol, its parameter names in order (parameter i is read from argument register i) and the flags of its pattern. *)
From Coq Require Import List Bool String ZArith Arith.
From Verif Require Import M_Go M_Flags.
Import ListNotations.
Open Scope string_scope.
Open Scope list_scope.

(** filter_arg.go:28-31 *)
Record farg := { fa_expr : string; fa_vars : list string }.
Definition memb (x : string) (l : list string) : bool := existsb (String.eqb x) l.
(** filter_arg.go:86-94 matchParams *)
Definition match_params (a : farg) (params : list string) : bool := existsb (fun p => memb p (fa_vars a)) params.
Inductive finject (I : Type) := FSkipped | FErr | FInjected (i : nat) (e : string) (code : I).
Arguments FSkipped {I}. Arguments FErr {I}. Arguments FInjected {I}.
(** filter_arg.go:125-146 argumentFilter.inject; [i]: the index of the first expression of the list *)
Fixpoint finj {I} (compile : string -> list string -> option I) (params : list string) (i : nat) (args : list farg) : finject I :=
  match args with
  | [] => FSkipped
  | a :: args' =>
      if negb (match_params a params) then finj compile params (S i) args'
      else match compile (fa_expr a) params with Some c => FInjected i (fa_expr a) c | None => FErr end
  end.
(** bpf_tracing.go:170-184 injectArgFilter: Some (Some c): the stub runs c; Some None: the stub is cleared (everything passes); None: error *)
Definition inject_filter {I} (compile : string -> list string -> option I) (args : list farg) (params : list string) : option (option I) :=
  match finj compile params 0 args with FSkipped => Some None | FErr => None | FInjected _ _ c => Some (Some c) end.

(** ** kprobe.multi *)
Record mopts := { mo_both : bool; mo_lbr : bool; mo_stack : bool; mo_pkt : bool; mo_graph : bool }.
Record mfn := { mf_name : string; mf_params : list string; mf_arg : string; mf_opts : mopts }.
Fixpoint pindex (x : string) (i : nat) (l : list string) : option nat :=
  match l with [] => None | y :: l' => if String.eqb y x then Some i else pindex x (S i) l' end.
(** bpf_tracing_func_multi.go:333-341 findMatchedArgIndex *)
Definition arg_index (f : mfn) : option nat := pindex (mf_arg f) 0 (mf_params f).
(** bpf_tracing_func_multi.go:38-43 *)
Record group := { gr_rep : mfn; gr_fns : list mfn }.
(** bpf_tracing_func_multi.go:102-118: the groups; None: the assertion fails *)
Fixpoint groups (acc : list (nat * group)) (fns : list mfn) : option (list (nat * group)) :=
  match fns with
  | [] => Some acc
  | f :: fns' =>
      match arg_index f with
      | None => None
      | Some i =>
          let g := match aget Nat.eqb i acc with Some g => {| gr_rep := gr_rep g; gr_fns := gr_fns g ++ [f] |} | None => {| gr_rep := f; gr_fns := [f] |} end in
          groups (aput Nat.eqb i g acc) fns'
      end
  end.
(** bpf_tracing_func_multi.go:23-36 *)
Definition skip_entries : list string := ["arch_cpu_idle"; "default_idle"; "rcu_"; "__ftrace_invalid_address__"].
Definition skip_symbol (s : string) : bool := existsb (fun e => has_prefix e s) skip_entries.
(** bpf_tracing_func_multi.go:77-93 filterKprobeMultiSymbols *)
Definition filter_symbols (avail : list string) (syms : list string) : list string * list string :=
  (filter (fun s => negb (skip_symbol s) && memb s avail) syms, filter (fun s => negb (negb (skip_symbol s) && memb s avail)) syms).

(** one link: what runs at which symbols.  [at_filter]: the code of the filter stub, None when it is cleared. *)
Record attach (I : Type) := { at_syms : list string; at_exit : bool; at_session : bool; at_filter : option I; at_opts : mopts }.
Arguments at_syms {I}. Arguments at_exit {I}. Arguments at_session {I}. Arguments at_filter {I}. Arguments at_opts {I}.
Arguments Build_attach {I}.
(** bpf_tracing_func_multi.go:319-331 validateKmultiArgOutput: the --output-arg expressions may mention the matched argument only *)
Definition valid_output (outs : list farg) (f : mfn) : bool := forallb (fun a => forallb (fun v => String.eqb v (mf_arg f)) (fa_vars a)) outs.
(** bpf_tracing_func_multi.go:165-317 traceKfuncMultiMode: the link; None: error.  Loading and attaching succeed. *)
Definition mode_link {I} (compile : string -> list string -> option I) (args outs : list farg) (g : group) (syms : list string) (is_exit session : bool) : option (attach I) :=
  if negb (valid_output outs (gr_rep g)) then None else
  let mk fl := {| at_syms := syms; at_exit := is_exit; at_session := session; at_filter := fl; at_opts := mf_opts (gr_rep g) |} in
  if is_exit then Some (mk None)
  else match inject_filter compile args (mf_params (gr_rep g)) with Some fl => Some (mk fl) | None => None end.
(** bpf_tracing_func_multi.go:147-163 traceKfuncMulti *)
Definition group_links {I} (compile : string -> list string -> option I) (args outs : list farg) (has_session mode_exit : bool) (g : group) (syms : list string) : option (list (attach I)) :=
  let link := mode_link compile args outs g syms in
  let both := mo_both (mf_opts (gr_rep g)) in
  if both && has_session then option_map (fun a => [a]) (link false true)
  else if both then match link false false, link true false with Some a, Some b => Some [a; b] | _, _ => None end
  else option_map (fun a => [a]) (link mode_exit false).
(** bpf_tracing_func_multi.go:95-145 traceFuncsMulti *)
Fixpoint all_links {I} (compile : string -> list string -> option I) (args outs : list farg) (has_session mode_exit : bool) (avail : list string) (gs : list (nat * group)) : option (list (attach I)) :=
  match gs with
  | [] => Some []
  | (_, g) :: gs' =>
      match fst (filter_symbols avail (map mf_name (gr_fns g))) with
      | [] => all_links compile args outs has_session mode_exit avail gs'
      | syms => match group_links compile args outs has_session mode_exit g syms, all_links compile args outs has_session mode_exit avail gs' with
                | Some l, Some l' => Some (l ++ l') | _, _ => None end
      end
  end.
Definition trace_multi {I} (compile : string -> list string -> option I) (args outs : list farg) (has_session mode_exit : bool) (avail : list string) (fns : list mfn) : option (list (attach I)) :=
  match groups [] fns with None => None | Some gs => all_links compile args outs has_session mode_exit avail gs end.
(** What the filter variable [x] reads, compiled for parameters [params]: the argument register of the parameter of that name. *)
Definition reads (x : string) (params : list string) : option nat := pindex x 0 params.
