(** * Tracing the functions of a graph: traceGraphs, traceGraph of /repo/internal/bpfsnoop/bpf_tracing_graph.go, and how their events are
    shown: bpfsnoop.go:104-122, outputFuncInfo of bpfsnoop_func.go:85-136.

    - Loading and attaching succeeds.  The goroutines are independent: each adds one hook and sets one field of its function. *)
From Coq Require Import List Bool ZArith.
From Verif Require Import M_Go M_Ebpf M_FnArgs.
Import ListNotations.
Open Scope list_scope.
Open Scope Z_scope.

(** func_graph.go:102-113 (what matters here): address, root, parameters (one per register) and result, number of C parameters *)
Record gfn := { gf_ip : Z; gf_root : bool; gf_prms : list prm; gf_ret : prm; gf_np : Z }.
Inductive hmode := HEntry | HExit | HSession.
(** one attached program: where, how, the code of output_fn_args (None: the call is removed), and its configuration *)
Record hook := { h_ip : Z; h_mode : hmode; h_code : option (list insn); h_buf : Z; h_nr : Z; h_withret : bool }.
(** func_arg.go:134-148 injectOutputFuncArgs *)
Definition inject_args (prms : list prm) (ret : prm) (withret : bool) : option (list insn) * Z :=
  match prms, withret with
  | [], false => (None, 0)
  | _, _ => let '(c, sz) := gen_output_fn_args prms ret withret in (Some c, sz)
  end.
(** bpf_tracing_graph.go:51-135 traceGraph: the hook, and what ArgsEnSz and ArgsExSz become *)
Definition trace_graph (g : gfn) (entry fsession : bool) (sz : Z * Z) : hook * (Z * Z) :=
  let '(c, n) := inject_args (gf_prms g) (gf_ret g) (negb entry || fsession) in
  ({| h_ip := gf_ip g; h_mode := if fsession then HSession else if entry then HEntry else HExit;
      h_code := c; h_buf := n; h_nr := Z.of_nat (List.length (gf_prms g)); h_withret := negb entry |},
   if entry then (n, snd sz) else (fst sz, n)).
(** bpf_tracing_graph.go:226-262: the loop; sizes by address, initially 0 *)
Fixpoint trace_graphs (has_fsession : bool) (gs : list gfn) : list hook * list (Z * (Z * Z)) :=
  match gs with
  | [] => ([], [])
  | g :: gs' =>
      let '(hs, szs) := trace_graphs has_fsession gs' in
      if gf_root g then (hs, (gf_ip g, (0, 0)) :: szs)
      else if has_fsession then let '(h, sz) := trace_graph g false true (0, 0) in (h :: hs, (gf_ip g, sz) :: szs)
      else let '(h1, sz1) := trace_graph g true false (0, 0) in
           let '(h2, sz2) := trace_graph g false false sz1 in (h1 :: h2 :: hs, (gf_ip g, sz2) :: szs)
  end.
(** bpfsnoop_fgraph.c:165-167: is this an entry event?  [is_return]: bpf_session_is_return *)
Definition ev_entry (h : hook) (is_return : bool) : bool := match h_mode h with HEntry => true | HExit => false | HSession => negb is_return end.
(** bpfsnoop_func.go:85-136 outputFuncInfo: arguments and result shown ("=()", "=() retval=(void)" when the size is 0); None: slice out of range *)
Definition output_info (g : gfn) (sz : Z * Z) (exit : bool) (data : list Z) : option (list sarg * option sarg) :=
  let n := if exit then snd sz else fst sz in
  if n =? 0 then Some ([], None)
  else if Z.of_nat (List.length data) <? n then None
  else output_fn_args (gf_np g) (gf_prms g) (gf_ret g) exit (firstn (Z.to_nat n) data).
