(** * Property C111: the line printed for a call tells what the call's registers held. *)
From Coq Require Import ZArith NArith List Bool String Lia.
From Verif Require M_Sess.
From Verif Require Import M_Go M_Ebpf M_Bytes M_FnArgs M_Repr M_Proto M_Cfg M_Color M_CallLine S_FnArgs S_Cfg S_CallLine P_CallLine T_FnArgs.
Import ListNotations.
Open Scope string_scope.
Open Scope Z_scope.

(** C111.  For every traced function or program (fentry, fexit, fsession, tracepoint; [c] is one of the configurations it is attached with), every
    call of it (argument registers [vals], memory, returned value) and everything else a probe reports: the injected program runs to
    completion, and from the record that is then sent bpfsnoop makes without failing an event whose line, printed without colours, is [call_line]: direction,
    name, every parameter's type, name and value, on exit the returned value, then CPU, process, duration and time.
    Partial: parameters of at most 8 bytes other than structs and unions (see C16 and C68 for what happens to the others), results that
    are not actions of XDP or SchedCLS programs (C42). *)
Theorem C111_line_tells_the_call_partial : forall find bit_text junk nocolor hasfs modeexit f c pid is_return m s fi vals retval buf,
  In c (trace_fn hasfs modeexit f) -> fits pid -> cfg_ok c ->
  func_params false (map pd_pt (fi_params fi)) = Some (fi_prms fi) -> (List.length (fi_params fi) <= 200)%nat -> List.length vals = List.length (fi_params fi) ->
  Forall desc_scalar (fi_params fi) -> desc_scalar (fi_ret fi) ->
  (forall r, f_buf f r = snd (gen_output_fn_args (fi_prms fi) (ret_flags (pd_pt (fi_ret fi))) r)) ->
  call_state m s vals retval buf (tc_buf c) ->
  exists s', (forall p fuel, code p = fst (gen_output_fn_args (fi_prms fi) (ret_flags (pd_pt (fi_ret fi))) (tc_ret c)) -> (List.length (code p) <= fuel)%nat ->
                run fuel m p 0 s = Done (rg s' R0) s') /\
    forall p dur time, probe_ok c p -> pr_args p = S_FnArgs.record s' buf (tc_buf c) ->
    exists e sec v, go_handle (emit false (c_config (go_cfg_bytes pid c)) is_return p) = Some (Some (e, sec)) /\
      call_event find junk bit_text fi e sec dur time = Some v /\
      out_func nocolor false v ++ out_tail nocolor false v =
        call_line find bit_text fi f c (mem_of m s) vals retval (exits c is_return) (pr_cpu p) (pr_pid p) (pr_comm p) dur time.
Proof. exact line_ok. Qed.
Print Assumptions C111_line_tells_the_call_partial.

(** C111.  Which events bpfsnoop keeps back until the exit (M_Sess.required_session, see C22 and C49-C51): those of the functions and programs of
    which both entries and exits are traced.  (Tracepoints have no instruction mode, kernel_tracepoints.go:80-86.) *)
Theorem C111_held_back_iff_entry_and_exit_traced : forall hasfs modeexit f c pid is_return p e sec, (f_tp f = true -> f_insn f = false) ->
  In c (trace_fn hasfs modeexit f) -> fits pid -> cfg_ok c -> probe_ok c p ->
  go_handle (emit false (c_config (go_cfg_bytes pid c)) is_return p) = Some (Some (e, sec)) ->
  (M_Sess.required_session (e_flags e) = true <->
   (exists c' r, In c' (trace_fn hasfs modeexit f) /\ exits c' r = true) /\ (exists c' r, In c' (trace_fn hasfs modeexit f) /\ exits c' r = false)).
Proof. exact session_both. Qed.
Print Assumptions C111_held_back_iff_entry_and_exit_traced.

(** f(const char *s, int *p, u64 n), both entry and exit traced, called with ("hi", &7, 77), returning 99 *)
Definition d_s := {| pd_name := "s"; pd_type := "const char *"; pd_pt := t_str; pd_ty := M_Repr.VPtr false; pd_target := VInt 1 true false |}.
Definition d_p := {| pd_name := "p"; pd_type := "int *"; pd_pt := t_ptr; pd_ty := M_Repr.VPtr false; pd_target := VInt 4 true false |}.
Definition d_n := {| pd_name := "n"; pd_type := "u64"; pd_pt := t_u64; pd_ty := VInt 8 false false; pd_target := VOther None |}.
Definition d_fi : finfo := {| fi_name := "f"; fi_params := [d_s; d_p; d_n];
  fi_prms := [{| p_str := true; p_num := false; p_part := false |}; {| p_str := false; p_num := true; p_part := false |}; {| p_str := false; p_num := false; p_part := false |}];
  fi_ret := d_n; fi_void := false |}.
Definition d_fn : fn := {| M_Cfg.f_ip := 4096; f_nr := 3; f_buf := fun r => if r then 96 else 88; f_data := 0; f_lbr := false; f_stack := false; f_pkt := false; f_insn := false;
  f_graph := false; f_both := true; f_tp := false; f_prog := false |}.
Definition d_comm : list Z := [98; 97; 115; 104; 0; 120; 0; 0; 0; 0; 0; 0; 0; 0; 0; 0].
Example C111_hypotheses_met : exists c, In c (trace_fn false false d_fn) /\ exits c true = true /\ fits 0 /\ cfg_ok c /\
  func_params false (map pd_pt (fi_params d_fi)) = Some (fi_prms d_fi) /\ Forall desc_scalar (fi_params d_fi) /\ desc_scalar (fi_ret d_fi) /\
  (forall r, f_buf d_fn r = snd (gen_output_fn_args (fi_prms d_fi) (ret_flags (pd_pt (fi_ret d_fi))) r)) /\
  call_state fa_m (fa_s 8192 12288 77) [8192; 12288; 77] 99 16384 (tc_buf c) /\
  call_line (fun _ => "") (fun _ => "") d_fi d_fn c (mem_of fa_m (fa_s 8192 12288 77)) [8192; 12288; 77] 99 true 3 1234 d_comm "1.5us" "12:00:00" =
    "← f args=((const char *)s=""hi"", (int *)p=0x3000(7), (u64)n=0x4d/77) retval=(u64)0x63/99 cpu=3 process=(1234:bash) duration=1.5us timestamp=12:00:00" ++ eol.
Proof.
  eexists. split; [right; left; reflexivity|]. split; [reflexivity|]. split; [split; [lia|reflexivity]|].
  split. { split; unfold fits; cbn; lia. }
  split; [reflexivity|]. split. { repeat apply Forall_cons; [..|apply Forall_nil]; (split; [exact I|split; [exact I|cbn; lia]]). }
  split; [split; [exact I|split; [exact I|cbn; lia]]|]. split; [intros []; reflexivity|].
  split; [apply fa_call; cbn; auto; lia|]. vm_compute. reflexivity.
Qed.
Example C111_entry_and_tracepoint : exists c1 c2, In c1 (trace_fn true false d_fn) /\ exits c1 false = false /\
  In c2 (trace_fn true false {| M_Cfg.f_ip := 4096; f_nr := 3; f_buf := f_buf d_fn; f_data := 0; f_lbr := false; f_stack := false; f_pkt := false; f_insn := false;
  f_graph := false; f_both := true; f_tp := true; f_prog := false |}) /\
  call_line (fun _ => "") (fun _ => "") d_fi d_fn c1 (mem_of fa_m (fa_s 10 20 30)) [10; 20; 30] 99 false 3 1234 d_comm "1.5us" "12:00:00" =
    "→ f args=((const char *)s="""", (int *)p=0x14(0), (u64)n=0x1e/30) cpu=3 process=(1234:bash) timestamp=12:00:00" ++ eol.
Proof. do 2 eexists. split; [left; reflexivity|]. split; [reflexivity|]. split; [left; reflexivity|]. vm_compute. reflexivity. Qed.
