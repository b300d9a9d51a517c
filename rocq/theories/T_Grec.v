(** * C95: the records of graph and instruction programs. *)
From Coq Require Import ZArith List Bool Lia.
From Verif Require Import M_Go M_Cfg S_Cfg M_FnArgs M_Ghook M_Grec S_Grec P_Grec P_Ghook.
Import ListNotations.
Open Scope Z_scope.

(** The graph program reads from its configuration what Go put there. *)
Theorem C95_config : forall pid tin md h, fits pid -> fits md -> hook_ok h -> let c := c_graph_config (go_graph_bytes pid tin md h) in
  gc_ip c = h_ip h /\ gc_depth c = md /\ gc_pid c = pid /\ gc_nr c = h_nr h /\ gc_ret c = h_withret h /\ gc_buf c = h_buf h /\
  (gc_tin c = 1 <-> tin = true) /\ (forall r, c_is_entry c r = ev_entry h r).
Proof.
  intros pid tin md h A B H. cbv zeta. pose proof (buf_fits h H) as F. destruct H. rewrite config_read by assumption.
  cbn [gc_ip gc_depth gc_pid gc_nr gc_ret gc_buf gc_tin]. repeat (split; [reflexivity|]). split; [destruct tin; cbn; split; congruence|].
  intros r. apply is_entry_ok. reflexivity.
Qed.
(** It submits a record exactly for calls and returns inside a traced call, once tracing has started, of tasks other than bpfsnoop,
    while the ring buffer has room ... *)
Theorem C95_submits : forall pid tin md h x, fits pid -> fits md -> hook_ok h -> gprobe_ok (h_buf h) x ->
  (graph_prog (c_graph_config (go_graph_bytes pid tin md h)) x <> None <-> wanted pid x).
Proof.
  intros pid tin md h x A B C D. split; [|intros W; rewrite prog_graph by assumption; discriminate].
  intros H. destruct (x_ready x) eqn:E1, (Z.eq_dec (x_task x) pid) as [E2|E2], (Z.eq_dec (x_sess x) 0) as [E3|E3], (x_room x) eqn:E4;
    try (unfold wanted; auto; fail); exfalso; apply H; apply quiet; try assumption; unfold wanted; intuition congruence.
Qed.
(** ... which bpfsnoop takes for a graph record, with the kind of event, time, session, function, CPU and depth the program saw, and as data
    the captured arguments followed by 32 bytes that are not part of the record - if the memory of the slice goes on that far. *)
Theorem C95_graph_records_partial : forall pid tin md h x known spare, fits pid -> fits md -> hook_ok h -> gprobe_ok (h_buf h) x -> wanted pid x ->
  known (h_ip h) = true -> (32 <= List.length spare)%nat ->
  exists d, graph_prog (c_graph_config (go_graph_bytes pid tin md h)) x = Some d /\ Z.of_nat (List.length d) = 32 + h_buf h /\
  exists r, go_take known d spare = TGraph r (negb (ev_entry h (x_ret x))) (x_args x ++ firstn 32 spare) /\
  r_ts r = x_ts x mod 2 ^ 32 /\ r_sess r = x_sess x /\ r_ip r = h_ip h /\ r_cpu r = x_cpu x /\ r_depth r = x_depth x.
Proof.
  intros pid tin md h x known spare A B C D W K L. rewrite prog_graph by assumption. eexists. split; [reflexivity|].
  split; [rewrite app_length, rec_length; destruct D; lia|]. rewrite take_graph by assumption. destruct (Nat.ltb_spec (List.length spare) 32); [lia|].
  eexists. split; [reflexivity|]. repeat split.
Qed.
(** Refuted without that: the length in the record counts the header too, so bpfsnoop slices 32 bytes too many, and when the slice it is
    handed ends with the record it panics on the first graph record. *)
Theorem C95_record_end_refuted : forall pid tin md h x known spare, fits pid -> fits md -> hook_ok h -> gprobe_ok (h_buf h) x -> wanted pid x ->
  known (h_ip h) = true -> (List.length spare < 32)%nat ->
  exists d, graph_prog (c_graph_config (go_graph_bytes pid tin md h)) x = Some d /\ go_take known d spare = TPanic.
Proof.
  intros pid tin md h x known spare A B C D W K L. rewrite prog_graph by assumption. eexists. split; [reflexivity|].
  rewrite take_graph by assumption. destruct (Nat.ltb_spec (List.length spare) 32); [reflexivity|lia].
Qed.
(** A record of a function bpfsnoop does not know is left out. *)
Theorem C95_unknown : forall pid tin md h x known spare d, fits pid -> fits md -> hook_ok h -> gprobe_ok (h_buf h) x -> known (h_ip h) = false ->
  graph_prog (c_graph_config (go_graph_bytes pid tin md h)) x = Some d -> go_take known d spare = TUnknown.
Proof.
  intros pid tin md h x known spare d A B C D K E. assert (W : wanted pid x) by (apply (C95_submits pid tin md h x A B C D); congruence).
  rewrite prog_graph in E by assumption. injection E as <-. apply take_unknown; assumption.
Qed.
(** The extra bytes are harmless: what is shown for a function of the graph is decoded from the captured arguments only (entries under
    session programs aside, see C80). *)
Theorem C95_shown_partial : forall pid tin md fs gs g h x known spare sz, fits pid -> fits md -> hook_ok h -> gprobe_ok (h_buf h) x -> wanted pid x ->
  NoDup (map gf_ip gs) -> In g gs -> In h (filter (fun h => h_ip h =? gf_ip g) (fst (trace_graphs fs gs))) -> (fs = false \/ ev_entry h (x_ret x) = false) ->
  aget Z.eqb (gf_ip g) (snd (trace_graphs fs gs)) = Some sz -> known (h_ip h) = true -> (32 <= List.length spare)%nat ->
  exists d r exit data, graph_prog (c_graph_config (go_graph_bytes pid tin md h)) x = Some d /\ go_take known d spare = TGraph r exit data /\
  exit = negb (ev_entry h (x_ret x)) /\ output_info g sz exit data = output_fn_args (gf_np g) (gf_prms g) (gf_ret g) exit (x_args x).
Proof.
  intros pid tin md fs gs g h x known spare sz A B C D W N G H F S K L. pose proof D as [_ _ _ _ _ _ Hl].
  destruct (C95_graph_records_partial pid tin md h x known spare A B C D W K L) as (d & E & _ & r & T & _). exists d, r, (negb (ev_entry h (x_ret x))), (x_args x ++ firstn 32 spare).
  split; [exact E|]. split; [exact T|]. split; [reflexivity|]. exact (proj1 (shown fs gs g h (x_ret x) sz (x_args x) (firstn 32 spare) N G H F S Hl)).
Qed.
(** Instruction records. *)
Theorem C95_insn_records : forall ip x n known spare, word ip -> gprobe_ok n x ->
  (insn_prog ip x = None <-> x_ready x = false \/ x_sess x = 0 \/ x_room x = false) /\
  (forall d, insn_prog ip x = Some d -> exists r, go_take known d spare = TInsn r /\
     r_ts r = x_ts x mod 2 ^ 32 /\ r_sess r = x_sess x /\ r_ip r = ip /\ r_cpu r = x_cpu x).
Proof.
  intros ip x n known spare W G. split; [symmetry; apply quiet_insn|]. intros d E.
  assert (Hn : ~ (x_ready x = false \/ x_sess x = 0 \/ x_room x = false)) by (rewrite quiet_insn; rewrite E; discriminate).
  destruct (x_ready x) eqn:E1; [|exfalso; auto]. destruct (x_room x) eqn:E2; [|exfalso; auto].
  destruct (prog_insn ip x E1 (fun H => Hn (or_intror (or_introl H))) E2 W n G) as (d' & E' & T). rewrite E in E'. injection E' as <-.
  eexists. split; [apply T|]. repeat split.
Qed.
(** Records of functions, programs and tracepoints (C53) are never taken for either. *)
Theorem C95_function_records : forall kmulti pid c is_return p known spare, fits pid -> cfg_ok c -> probe_ok c p ->
  (if exits c is_return then tc_ex c else tc_en c) = tc_buf c -> go_take known (emit kmulti (c_config (go_cfg_bytes pid c)) is_return p) spare = TFunc.
Proof. exact func_taken. Qed.
Print Assumptions C95_config.
Print Assumptions C95_submits.
Print Assumptions C95_graph_records_partial.
Print Assumptions C95_record_end_refuted.
Print Assumptions C95_unknown.
Print Assumptions C95_shown_partial.
Print Assumptions C95_insn_records.
Print Assumptions C95_function_records.

(** A return of a function with two arguments, captured at depth 2 in session 77. *)
Definition demo_g : gfn := {| gf_ip := 2 ^ 63 + 8192; gf_root := false; gf_prms := repeat {| p_str := false; p_num := false; p_part := false |} 2;
  gf_ret := {| p_str := false; p_num := false; p_part := false |}; gf_np := 2 |}.
Definition demo_hs := fst (trace_graphs false [demo_g]).
Definition demo_x (n : nat) : gprobe := {| x_ready := true; x_task := 42; x_room := true; x_sess := 77; x_depth := 2; x_ts := 2 ^ 32 + 5; x_cpu := 3; x_ret := false;
  x_args := repeat 1 n; x_pad := 9 |}.
Example C95_case : (forall h, In h demo_hs -> hook_ok h /\ gprobe_ok (h_buf h) (demo_x (Z.to_nat (h_buf h)))) /\ wanted 7 (demo_x 24) /\
  map (fun h => match graph_prog (c_graph_config (go_graph_bytes 7 true 5 h)) (demo_x (Z.to_nat (h_buf h))) with
    | Some d => (List.length d, go_take (fun _ => true) d (repeat 255 32)) | None => (O, TShort) end) demo_hs =
  [(48%nat, TGraph {| r_type := 4; r_len := 48; r_ts := 5; r_sess := 77; r_ip := 2 ^ 63 + 8192; r_cpu := 3; r_depth := 2 |} false (repeat 1 16 ++ repeat 255 32));
   (56%nat, TGraph {| r_type := 5; r_len := 56; r_ts := 5; r_sess := 77; r_ip := 2 ^ 63 + 8192; r_cpu := 3; r_depth := 2 |} true (repeat 1 24 ++ repeat 255 32))].
Proof.
  split; [|split; [unfold wanted; cbn; intuition congruence|vm_compute; reflexivity]].
  intros h H. repeat destruct H as [<-|H]; try destruct H; (split; [split; vm_compute; split; congruence|split; vm_compute; try reflexivity; try (split; congruence); congruence]).
Qed.
