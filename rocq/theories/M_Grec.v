(** * The configuration and the records of the graph and instruction programs, and how Go reads them.

    Modelled: bpfFgraphConfig and its assignment in traceGraph (bpf_tracing_graph.go:39-50,75-87), traceInsn's variables
    (bpf_tracing_insn.go:28-38), struct bpfsnoop_fgraph_configs, struct bpfsnoop_fgraph_event and the program bpfsnoop_fgraph
    (bpfsnoop_fgraph.c:14-52,134-187), struct bpfsnoop_insn_event and the program bpfsnoop_insn (bpfsnoop_insn.c:18-64),
    GraphEvent (bpfsnoop_graph.go:15-27), InsnEvent (bpfsnoop_insn.go:14-21), the dispatch on the record type and the slicing in
    record.Handle (bpfsnoop.go:96-126).
    Simplified: the session found by walking the stack and its depth are inputs (M_Fgraph); the bytes the injected capture function writes are
    an input (M_FnArgs); how the events are shown is in M_Sess.  Loads through unsafe.Pointer are not bounds checked; records are never
    shorter than their struct. *)
From Coq Require Import ZArith List Bool.
From Verif Require Import M_Go M_Cfg M_Ghook.
Import ListNotations.
Open Scope Z_scope.

(** bpf_tracing_graph.go:22-26: graphHookMode* *)
Definition mode_num (m : hmode) : Z := match m with HEntry => 0 | HExit => 1 | HSession => 2 end.
(** bpf_tracing_graph.go:39-50,75-87: the bytes of bpfFgraphConfig; [tin] supportTailcallInBpf2bpf *)
Definition go_graph_bytes (pid : Z) (tin : bool) (maxdepth : Z) (h : hook) : list Z :=
  le_put 8 (h_ip h) ++ le_put 4 (u32 maxdepth) ++ le_put 1 (mode_num (h_mode h)) ++ le_put 1 (Z.b2z tin) ++ le_put 2 0 ++ le_put 4 (u32 pid) ++
  le_put 4 (u32 (h_nr h)) ++ le_put 1 (Z.b2z (h_withret h)) ++ le_put 1 0 ++ le_put 1 0 ++ le_put 1 0 ++ le_put 4 (u32 (h_buf h)).

(** ** BPF side *)
(** bpfsnoop_fgraph.c:20-34: packed structs *)
Record gcfg := { gc_ip : Z; gc_depth : Z; gc_mode : Z; gc_tin : Z; gc_pid : Z; gc_nr : Z; gc_ret : bool; gc_buf : Z }.
Definition c_graph_config (d : list Z) : gcfg :=
  {| gc_ip := get 8 0 d; gc_depth := get 4 8 d; gc_mode := get 1 12 d; gc_tin := get 1 13 d; gc_pid := get 4 16 d; gc_nr := get 4 20 d;
     gc_ret := negb (get 1 24 d =? 0); gc_buf := get 4 28 d |}.
(** bpfsnoop_fgraph.c:41-49; bpfsnoop_insn.c:18-25, four bytes of padding behind it *)
Record rec := { r_type : Z; r_len : Z; r_ts : Z; r_sess : Z; r_ip : Z; r_cpu : Z; r_depth : Z }.
Definition rec_bytes (r : rec) : list Z :=
  layout [(2%nat, r_type r); (2%nat, r_len r); (4%nat, r_ts r); (8%nat, r_sess r); (8%nat, r_ip r); (4%nat, r_cpu r); (4%nat, r_depth r)] [].
(** What the probe finds: [x_task] pid of the process, [x_sess] session found on the stack (0: none) at depth [x_depth], [x_args] what the
    capture function writes, [x_pad] what the ring buffer held. *)
Record gprobe := { x_ready : bool; x_task : Z; x_room : bool; x_sess : Z; x_depth : Z; x_ts : Z; x_cpu : Z; x_ret : bool; x_args : list Z; x_pad : Z }.
(** bpfsnoop_fgraph.c:162-164 *)
Definition c_is_entry (c : gcfg) (is_return : bool) : bool := if gc_mode c =? 2 then negb is_return else gc_mode c =? 0.
(** bpfsnoop_fgraph.c:134-187: None: nothing is submitted *)
Definition graph_prog (c : gcfg) (x : gprobe) : option (list Z) :=
  if negb (x_ready x) then None else
  if gc_pid c =? x_task x then None else
  if x_sess x =? 0 then None else
  let size := 32 + gc_buf c in
  if negb (x_room x) then None else
  Some (rec_bytes {| r_type := if c_is_entry c (x_ret x) then 4 else 5; r_len := size mod 2 ^ 16; r_ts := x_ts x mod 2 ^ 32; r_sess := x_sess x;
                     r_ip := gc_ip c; r_cpu := x_cpu x; r_depth := x_depth x |} ++ x_args x).
(** bpfsnoop_insn.c:37-62 *)
Definition insn_prog (insn_ip : Z) (x : gprobe) : option (list Z) :=
  if negb (x_ready x) then None else
  if x_sess x =? 0 then None else
  if negb (x_room x) then None else
  Some (rec_bytes {| r_type := 3; r_len := 32; r_ts := x_ts x mod 2 ^ 32; r_sess := x_sess x; r_ip := insn_ip; r_cpu := x_cpu x; r_depth := x_pad x |}).

(** ** Go side *)
(** bpfsnoop_graph.go:15-27, bpfsnoop_insn.go:14-21 at their Go offsets *)
Definition go_rec (d : list Z) : rec :=
  {| r_type := get 2 0 d; r_len := get 2 2 d; r_ts := get 4 4 d; r_sess := get 8 8 d; r_ip := get 8 16 d; r_cpu := get 4 24 d; r_depth := get 4 28 d |}.
Inductive taken := TInsn (r : rec) | TGraph (r : rec) (exit : bool) (data : list Z) | TUnknown | TPanic | TShort | TFunc.
(** bpfsnoop.go:96-130: [data] the record, [spare] the memory behind it that the slice's capacity still covers, [known] helpers.Graphs.
    data[32 : 32+Length] panics if that is beyond the capacity. *)
Definition go_take (known : Z -> bool) (data spare : list Z) : taken :=
  let typ := get 2 0 data in
  if typ =? 3 then TInsn (go_rec data)
  else if (typ =? 4) || (typ =? 5) then
    let r := go_rec data in
    if negb (known (r_ip r)) then TUnknown
    else if (Z.of_nat (List.length (data ++ spare)) <? 32 + r_len r) then TPanic
    else TGraph r (typ =? 5) (firstn (Z.to_nat (r_len r)) (skipn 32 (data ++ spare)))
  else if (List.length data <? 80)%nat then TShort else TFunc.
