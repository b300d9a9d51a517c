(** * Property C112: the line printed for an event of kprobe.multi tracing tells what the argument registers held. *)
From Coq Require Import ZArith NArith List Bool String Lia.
From Verif Require M_Sess S_Sess.
From Verif Require Import M_Go M_Ebpf M_Bytes M_FnArgs M_Repr M_Proto M_Cfg M_Color M_CallLine S_FnArgs S_Cfg S_CallLine M_MultiLine S_MultiLine P_MultiLine T_FnArgs.
Import ListNotations.
Open Scope string_scope.
Open Scope Z_scope.

(** C112.  For every function traced with "(m)" (entry, exit, both, with or without kprobe.session; [maxargs] argument registers), every event of it
    (argument registers [vals] at that moment, memory, returned value) and everything else the probe reports: the injected program runs
    to completion, and from the record that is then sent bpfsnoop makes without failing an event whose line, printed without colours, is [multi_line]: direction,
    name, every parameter that has a register with its type, name and the register's value, on exit the returned value, then CPU, process, duration and time.
    Partial: parameters and results other than structs and unions; that an exit event's registers are not those of the call is C103. *)
Theorem C112_line_tells_the_registers_partial : forall find bit_text junk nocolor maxargs has_session modeexit f c pid is_return m s proto fi vals retval buf,
  In c (trace_kmulti (Z.of_nat maxargs) has_session modeexit f) -> fits pid -> cfg_ok c -> (1 <= maxargs <= 1000)%nat -> List.length vals = maxargs ->
  Forall (fun d => is_scalar (pd_ty d)) (fi_params fi) -> is_scalar (pd_ty (fi_ret fi)) ->
  call_state m s vals retval buf (tc_buf c) ->
  exists s', (forall p fuel, code p = fst (gen_output_kmulti maxargs (tc_ret c)) -> (List.length (code p) <= fuel)%nat -> run fuel m p 0 s = Done (rg s' R0) s') /\
    forall p dur time, probe_ok c p -> pr_args p = S_FnArgs.record s' buf (tc_buf c) ->
    exists e sec v, go_handle (emit true (c_config (go_cfg_bytes pid c)) is_return p) = Some (Some (e, sec)) /\
      any_event find junk bit_text maxargs proto fi e sec dur time = Some v /\
      out_func nocolor false v ++ out_tail nocolor false v =
        multi_line find bit_text proto fi f vals retval (exits c is_return) (pr_cpu p) (pr_pid p) (pr_comm p) dur time.
Proof. exact multi_line_ok. Qed.
Print Assumptions C112_line_tells_the_registers_partial.

(** C112.  Without the graph option, bpfsnoop keeps back until the exit exactly the events of the functions of which both entries and exits are traced. *)
Theorem C112_held_back_without_graph_partial : forall maxargs has_session modeexit f c pid is_return p e sec, f_graph f = false ->
  In c (trace_kmulti maxargs has_session modeexit f) -> fits pid -> cfg_ok c -> probe_ok c p ->
  go_handle (emit true (c_config (go_cfg_bytes pid c)) is_return p) = Some (Some (e, sec)) ->
  (M_Sess.required_session (e_flags e) = true <->
   (exists c' r, In c' (trace_kmulti maxargs has_session modeexit f) /\ exits c' r = true) /\ (exists c' r, In c' (trace_kmulti maxargs has_session modeexit f) /\ exits c' r = false)).
Proof.
  intros maxargs hs me f c pid r p e sec Hg Hin Hpid Hcfg Hp E. rewrite (multi_held _ _ _ _ _ _ _ _ _ _ Hin Hpid Hcfg Hp E), Hg, orb_false_r.
  exact (multi_both _ _ _ _ _ Hin).
Qed.
Print Assumptions C112_held_back_without_graph_partial.

(** C112, refuted with the graph option (-g together with -k '(m)...' is accepted, C36) and only entries or only exits traced: whatever happens, nothing is printed. *)
Theorem C112_graph_option_prints_nothing_refuted : forall maxargs has_session modeexit f c pid delta limit evs, f_graph f = true -> f_both f = false ->
  In c (trace_kmulti maxargs has_session modeexit f) -> fits pid -> cfg_ok c ->
  (forall ev, In ev evs -> exists is_return p e sec, probe_ok c p /\ go_handle (emit true (c_config (go_cfg_bytes pid c)) is_return p) = Some (Some (e, sec)) /\
     M_Sess.ev_type ev = M_Cfg.e_type e /\ M_Sess.ev_flags ev = e_flags e) ->
  S_Sess.out_of (M_Sess.run delta limit evs) = [].
Proof. exact graph_prints_nothing. Qed.
Print Assumptions C112_graph_option_prints_nothing_refuted.

(** f(void *p, int n, u64 a, u64 b), with three argument registers, both entry and exit traced *)
Definition md (n t : string) (y : vty) := {| pd_name := n; pd_type := t; pd_pt := t_u64; pd_ty := y; pd_target := VOther None |}.
Definition md_fi : finfo := {| fi_name := "f"; fi_params := [md "p" "void *" (M_Repr.VPtr false); md "n" "int" (VInt 4 true false); md "a" "u64" (VInt 8 false false); md "b" "u64" (VInt 8 false false)];
  fi_prms := []; fi_ret := md "" "u64" (VInt 8 false false); fi_void := false |}.
Definition md_fn (graph both : bool) : fn := {| M_Cfg.f_ip := 4096; f_nr := 4; f_buf := fun _ => 0; f_data := 0; f_lbr := false; f_stack := false; f_pkt := false; f_insn := false;
  f_graph := graph; f_both := both; f_tp := false; f_prog := false |}.
Definition md_comm : list Z := [98; 97; 115; 104; 0; 120; 0; 0; 0; 0; 0; 0; 0; 0; 0; 0].
Definition md_probe (args : list Z) : probe := {| pr_ts := 5; pr_sess := 6; pr_ip := 4096; pr_cpu := 3; pr_pid := 1234; pr_comm := md_comm; pr_stackid := 0; pr_lbr := 0;
  pr_args := args; pr_pkt := repeat 0 16; pr_data := []; pr_junk := 0 |}.
Example C112_hypotheses_met : exists c, In c (trace_kmulti 3 true false (md_fn false true)) /\ exits c true = true /\ fits 0 /\ cfg_ok c /\
  Forall (fun d => is_scalar (pd_ty d)) (fi_params md_fi) /\ is_scalar (pd_ty (fi_ret md_fi)) /\
  call_state fa_m (fa_s 8192 12288 77) [8192; 12288; 77] 99 16384 (tc_buf c) /\
  multi_line (fun _ => "") (fun _ => "") true md_fi (md_fn false true) [8192; 12288; 77] 99 true 3 1234 md_comm "1.5us" "12:00:00" =
    "← f args=((void *)p=0x2000, (int)n=12288, (u64)a=0x4d/77, ...) retval=(u64)0x63/99 cpu=3 process=(1234:bash) duration=1.5us timestamp=12:00:00" ++ eol /\
  multi_line (fun _ => "") (fun _ => "") false md_fi (md_fn false false) [8192; 12288; 77] 99 true 3 1234 md_comm "1.5us" "12:00:00" =
    "← f args=() retval=0x63/99 cpu=3 process=(1234:bash) timestamp=12:00:00" ++ eol.
Proof.
  eexists. split; [left; reflexivity|]. split; [reflexivity|]. split; [split; [lia|reflexivity]|].
  split. { split; unfold fits; cbn; lia. }
  split. { repeat apply Forall_cons; [..|apply Forall_nil]; exact I. }
  split; [exact I|]. split; [apply fa_call; cbn; auto; lia|]. split; vm_compute; reflexivity.
Qed.
(** What a session's events look like: entries with the graph option *)
Example C112_graph_hypotheses_met : exists c p e sec, In c (trace_kmulti 3 false false (md_fn true false)) /\ cfg_ok c /\ probe_ok c p /\
  go_handle (emit true (c_config (go_cfg_bytes 0 c)) false p) = Some (Some (e, sec)) /\ M_Cfg.e_type e = 1 /\ M_Sess.required_session (e_flags e) = true.
Proof.
  eexists. exists (md_probe (repeat 1 24)). do 2 eexists. split; [left; reflexivity|]. split. { split; unfold fits; cbn; lia. }
  split. { split; cbn; try lia; reflexivity. } split; [vm_compute; reflexivity|]. split; vm_compute; reflexivity.
Qed.
