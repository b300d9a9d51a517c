(** * Function graph: depth of a call below its root.  Modelled: bpf/bpfsnoop_fgraph.c try_get_session,
    populateFgraphTraceeIPs (bpf_tracing_graph.go:280-319, kernel functions on x86).  Simplified: bpf_get_stack returns the
    return addresses of the task, innermost first, cut after STACK_DEPTH entries. *)
From Coq Require Import ZArith List Bool.
From Verif Require Import M_Go M_Sess.
Import ListNotations.
Open Scope Z_scope.

(** bpf_tracing_graph.go:295-302; insnCallqSize = 5, insnEndbrSize = 4. *)
Definition tracee_ip (has_endbr : bool) (func_ip : Z) : Z := u64 (func_ip + 5 + (if has_endbr then 4 else 0)).
Definition tracee_ips (has_endbr : bool) (funcs : list Z) : list (Z * Z) :=
  fold_left (fun m f => aput Z.eqb (tracee_ip has_endbr f) f m) funcs [].
(** bpfsnoop_fgraph.c:83-90 get_fgraph_func_ip *)
Definition fgraph_func_ip (ips : list (Z * Z)) (ip : Z) : Z := match aget Z.eqb ip ips with Some f => f | None => 0 end.
(** bpfsnoop_fgraph.c:111-130 the loop of try_get_session; result: session id (0: none) and *depth. *)
Fixpoint fgraph_walk (ips : list (Z * Z)) (sessions : Z -> Z) (cur max_depth : Z) (after : bool) (depth : Z) (stack : list Z) : Z * Z :=
  match stack with
  | [] => (0, depth)
  | ip :: stack' =>
      let f := fgraph_func_ip ips ip in
      if f =? 0 then fgraph_walk ips sessions cur max_depth after depth stack' else
      if after then
        let sid := sessions f in
        if negb (sid =? 0) then (sid, depth) else
        let d := depth + 1 in
        if max_depth <? d then (0, d) else fgraph_walk ips sessions cur max_depth after d stack'
      else fgraph_walk ips sessions cur max_depth (f =? cur) depth stack'
  end.
(** bpfsnoop_fgraph.c:92-133 try_get_session (a stack is never empty: nr_bytes > 0) *)
Definition try_get_session (ips : list (Z * Z)) (m : smap) (cur max_depth stack_depth pid_tgid : Z) (stack : list Z) : Z * Z :=
  fgraph_walk ips (fun f => get_session m (pid_tgid, f)) cur max_depth false 1 (firstn (Z.to_nat stack_depth) stack).
