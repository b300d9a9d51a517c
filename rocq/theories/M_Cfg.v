(** * The configuration of a tracing program and the records it emits.

    Modelled: traceeConfig, setBpfsnoopConfig (bpf_tracing.go:27-75), BpfsnoopConfig and its flag setters
    (bpfsnoop_config.go:6-109), traceFuncs / traceFunc (bpf_tracing_func.go:68-137,187-226), traceProgs / traceProg
    (bpf_tracing_prog.go:73-139,187-224), traceKfuncMulti / traceKfuncMultiMode (bpf_tracing_func_multi.go:140-262), and on the BPF side
    bpfsnoop_cfg_flags.h, bpfsnoop_cfg.h, bpfsnoop_event.h, get_bpfsnoop_mode (bpfsnoop_mode.h:22-33),
    emit_bpfsnoop_event (bpfsnoop.c:57-136), emit_bpfsnoop_kmulti_event (bpfsnoop_kmulti.c:79-155), output_event
    (bpfsnoop_event_output.h:21-76); Event and the decoding part of record.Handle (bpfsnoop.go:35-50,114-193),
    outputFuncInfo, getArgSize (bpfsnoop_func.go:84-131).
    Simplified: the section contents (arguments, packet tuple, expression data) are byte lists; filters, sessions and
    what is printed are elsewhere (M_Sess, M_FnArgs, M_Pkt). *)
From Coq Require Import ZArith List Bool String.
From Verif Require Import M_Go.
Import ListNotations.
Open Scope Z_scope.

(** bpf_tracing.go:27-45 *)
Record tcfg := { tc_ip : Z; tc_nr : Z; tc_buf : Z; tc_en : Z; tc_ex : Z; tc_data : Z; tc_lbr : bool; tc_stack : bool; tc_pkt : bool; tc_insn : bool;
  tc_graph : bool; tc_both : bool; tc_tp : bool; tc_prog : bool; tc_kmulti : bool; tc_ret : bool; tc_sess : bool }.

(** bpfsnoop_config.go:51-109: the setters or in bit idx *)
Definition setf (v : bool) (idx : Z) (f : Z) : Z := if v then Z.lor f (Z.shiftl 1 idx) else f.
(** bpf_tracing.go:51-64 with the indices of bpfsnoop_config.go:6-19 *)
Definition go_flags (c : tcfg) : Z :=
  setf (tc_kmulti c) 11 (setf (tc_prog c) 10 (setf (tc_tp c) 9 (setf (tc_graph c) 8 (setf (tc_insn c) 7 (setf (tc_sess c) 6
  (setf (negb (tc_ret c)) 5 (setf (tc_both c) 4 (setf (negb (tc_data c =? 0)) 3 (setf (tc_pkt c) 2 (setf (tc_stack c) 1 (setf (tc_lbr c) 0 0))))))))))).

(** n low bytes of v, least significant first (the machines bpfsnoop runs on are little-endian) *)
Fixpoint le_put (n : nat) (v : Z) : list Z := match n with O => [] | S k => v mod 256 :: le_put k (v / 256) end.
Definition get (n : nat) (off : nat) (d : list Z) : Z := le_bytes (firstn n (skipn off d)).
Definition u32 (v : Z) : Z := v mod 2 ^ 32.

(** bpf_tracing.go:65-75: the bytes of BpfsnoopConfig (bpfsnoop_config.go:34-45), as written into the variable *)
Definition go_cfg_bytes (pid : Z) (c : tcfg) : list Z :=
  le_put 4 (go_flags c) ++ le_put 4 (u32 pid) ++ le_put 4 (u32 (tc_nr c)) ++ (Z.b2z (tc_ret c) :: [0; 0; 0]) ++ le_put 4 (u32 (tc_buf c)) ++
  le_put 4 (u32 (tc_data c)) ++ le_put 4 (u32 (tc_en c)) ++ le_put 4 (u32 (tc_ex c)) ++ le_put 4 (u32 (tc_data c)).

(** ** BPF side *)
(** bpfsnoop_cfg_flags.h:9-27: one-bit fields, allocated from the least significant bit on *)
Definition c_bits : list string :=
  ["output_lbr"; "output_stack"; "output_pkt"; "output_arg"; "both_entry_exit"; "is_entry"; "is_session"; "insn_mode"; "graph_mode";
   "is_tp"; "is_prog"; "kmulti_mode"]%string.
Fixpoint index (n : string) (l : list string) : Z := match l with [] => 0 | x :: l' => if String.eqb x n then 0 else 1 + index n l' end.
Definition cflag (n : string) (flags : Z) : bool := Z.testbit flags (index n c_bits).
(** bpfsnoop_cfg.h:12-28: packed structs *)
Record ccfg := { cc_flags : Z; cc_pid : Z; cc_nr : Z; cc_ret : bool; cc_buf : Z; cc_dsz : Z; cc_en : Z; cc_ex : Z; cc_data : Z }.
Definition c_config (d : list Z) : ccfg :=
  {| cc_flags := get 4 0 d; cc_pid := get 4 4 d; cc_nr := get 4 8 d; cc_ret := negb (get 1 12 d =? 0); cc_buf := get 4 16 d;
     cc_dsz := get 4 20 d; cc_en := get 4 24 d; cc_ex := get 4 28 d; cc_data := get 4 32 d |}.

(** bpfsnoop_mode.h:12-33 *)
Inductive bmode := MEntry | MExit | MSessEntry | MSessExit.
Definition get_mode (flags : Z) (is_return : bool) : bmode :=
  let e0 := cflag "is_entry" flags in
  let both := cflag "both_entry_exit" flags in
  let e := if both && cflag "is_session" flags then negb is_return else e0 in
  if both then (if e then MSessEntry else MSessExit) else (if e then MEntry else MExit).

(** bpfsnoop_event.h:21-36 *)
Record event := { e_type : Z; e_len : Z; e_ts : Z; e_sess : Z; e_ip : Z; e_cpu : Z; e_pid : Z; e_comm : list Z; e_stack : Z;
  e_flags : Z; e_en : Z; e_ex : Z; e_data : Z; e_lbr : Z }.
(** natural alignment: padding before a field of size n at offset off *)
Definition padto (n : nat) (off : nat) : nat := ((n - off mod n) mod n)%nat.
Fixpoint layout (l : list (nat * Z)) (acc : list Z) : list Z :=
  match l with [] => acc | (n, v) :: l' => layout l' (acc ++ repeat 0 (padto n (List.length acc)) ++ le_put n v) end.
Definition event_bytes (e : event) : list Z :=
  layout [(8%nat, e_stack e); (4%nat, e_flags e); (4%nat, e_en e); (4%nat, e_ex e); (4%nat, e_data e); (8%nat, e_lbr e)]
    (layout [(2%nat, e_type e); (2%nat, e_len e); (4%nat, e_ts e); (8%nat, e_sess e); (8%nat, e_ip e); (4%nat, e_cpu e); (4%nat, e_pid e)] [] ++ e_comm e).
(** bpfsnoop_event_output.h:46-49: clear a flag bit unless allowed *)
Definition mask (n : string) (can : bool) (flags : Z) : Z := if can then flags else Z.ldiff flags (Z.shiftl 1 (index n c_bits)).
Definition pkt_size : nat := 16.
(** What the probe supplies: values for the header, and the bytes the three injected output functions write. *)
Record probe := { pr_ts : Z; pr_sess : Z; pr_ip : Z; pr_cpu : Z; pr_pid : Z; pr_comm : list Z; pr_stackid : Z; pr_lbr : Z;
                  pr_args : list Z; pr_pkt : list Z; pr_data : list Z; pr_junk : Z }.
(** bpfsnoop_event_output.h:21-76: the record (the reserved buffer); bytes never written keep what the ring buffer held. *)
Definition output_event (c : ccfg) (typ : Z) (can_lbr can_pkt can_arg : bool) (p : probe) : list Z :=
  let total := (80 + Z.to_nat (cc_buf c) + Z.to_nat (cc_dsz c) + (if cflag "output_pkt" (cc_flags c) then pkt_size else 0))%nat in
  let e := {| e_type := typ; e_len := 80; e_ts := pr_ts p mod 2 ^ 32; e_sess := pr_sess p; e_ip := pr_ip p; e_cpu := pr_cpu p; e_pid := pr_pid p;
              e_comm := pr_comm p; e_stack := if cflag "output_stack" (cc_flags c) then pr_stackid p else 2 ^ 64 - 1;
              e_flags := mask "output_arg" can_arg (mask "output_pkt" can_pkt (mask "output_lbr" can_lbr (cc_flags c)));
              e_en := cc_en c; e_ex := cc_ex c; e_data := if can_arg then cc_data c else 0; e_lbr := if can_lbr then pr_lbr p else 0 |} in
  let body := event_bytes e ++ pr_args p ++ (if can_pkt then pr_pkt p else []) ++ (if can_arg then pr_data p else []) in
  body ++ repeat (pr_junk p) (total - List.length body).
(** bpfsnoop.c:57-136 / bpfsnoop_kmulti.c:79-155: event type and what may be output, after filters and sessions accepted *)
Definition is_exit_mode (m : bmode) : bool := match m with MExit | MSessExit => true | _ => false end.
Definition can_lbr_of (flags : Z) (m : bmode) : bool :=
  (negb (cflag "both_entry_exit" flags) || match m with MSessEntry => true | _ => false end) && cflag "output_lbr" flags.
Definition emit (kmulti : bool) (c : ccfg) (is_return : bool) (p : probe) : list Z :=
  let m := get_mode (cc_flags c) is_return in
  let typ := if is_exit_mode m then 2 else 1 in
  let cut := kmulti && match m with MSessExit => true | _ => false end in
  output_event c typ (can_lbr_of (cc_flags c) m) (cflag "output_pkt" (cc_flags c) && negb cut) (cflag "output_arg" (cc_flags c) && negb cut) p.

(** ** Which configurations are made *)
(** A kernel function to trace: [f_buf withret] is the size injectOutputFuncArgs returns. *)
Record fn := { f_ip : Z; f_nr : Z; f_buf : bool -> Z; f_data : Z; f_lbr : bool; f_stack : bool; f_pkt : bool; f_insn : bool;
               f_graph : bool; f_both : bool; f_tp : bool; f_prog : bool }.
(** bpf_tracing_func.go:91-130, bpf_tracing_prog.go:99-137 (a program is never a tracepoint and has no instruction mode) *)
Definition trace_one (f : fn) (both is_exit sess stack : bool) : tcfg :=
  let withret := negb (f_tp f) && is_exit in
  let b := f_buf f withret in
  {| tc_ip := f_ip f; tc_nr := f_nr f; tc_buf := b;
     tc_en := if both then b else if withret then 0 else b;
     tc_ex := if both then b else if withret then b else 0;
     tc_data := f_data f; tc_lbr := f_lbr f; tc_stack := stack; tc_pkt := f_pkt f; tc_insn := f_insn f; tc_graph := f_graph f;
     tc_both := both; tc_tp := f_tp f; tc_prog := f_prog f; tc_kmulti := false; tc_ret := withret; tc_sess := sess |}.
(** bpf_tracing_func.go:187-226, bpf_tracing_prog.go:187-224 *)
Definition trace_fn (has_fsession mode_exit : bool) (f : fn) : list tcfg :=
  let both := f_insn f || f_graph f || f_both f in
  if f_tp f then [trace_one f false false false (f_stack f)]
  else if both then
    (if has_fsession then [trace_one f true true true (f_stack f)]
     else [trace_one f true false false false; trace_one f true true false (f_stack f)])
  else [trace_one f false mode_exit false (f_stack f)].
(** bpf_tracing_func_multi.go:184-257; [maxargs] argument slots, injectOutputKmultiFnArgs returns 8 per slot and one more for the result.
    An exit-only program keeps the packet and data settings of the entry program (none if there was none: [had]). *)
Definition trace_kmulti_one (maxargs : Z) (f : fn) (is_exit sess had : bool) : tcfg :=
  let withret := sess || is_exit in
  let b := 8 * maxargs + (if withret then 8 else 0) in
  let here := negb is_exit || had in
  {| tc_ip := 0; tc_nr := maxargs; tc_buf := b;
     tc_en := if sess then b else if is_exit then 0 else b;
     tc_ex := if sess then b else if is_exit then b else 0;
     tc_data := if here then f_data f else 0; tc_lbr := f_lbr f; tc_stack := f_stack f; tc_pkt := here && f_pkt f; tc_insn := false;
     tc_graph := f_graph f; tc_both := f_both f; tc_tp := false; tc_prog := false; tc_kmulti := true; tc_ret := withret; tc_sess := sess |}.
(** bpf_tracing_func_multi.go:140-155 *)
Definition trace_kmulti (maxargs : Z) (has_session mode_exit : bool) (f : fn) : list tcfg :=
  if f_both f && has_session then [trace_kmulti_one maxargs f false true false]
  else if f_both f then [trace_kmulti_one maxargs f false false false; trace_kmulti_one maxargs f true false true]
  else [trace_kmulti_one maxargs f mode_exit false false].

(** ** Decoding *)
(** bpfsnoop.go:35-50 at its Go offsets *)
Definition go_event (d : list Z) : event :=
  {| e_type := get 2 0 d; e_len := get 2 2 d; e_ts := get 4 4 d; e_sess := get 8 8 d; e_ip := get 8 16 d; e_cpu := get 4 24 d; e_pid := get 4 28 d;
     e_comm := firstn 16 (skipn 32 d); e_stack := get 8 48 d; e_flags := get 4 56 d; e_en := get 4 60 d; e_ex := get 4 64 d; e_data := get 4 68 d;
     e_lbr := get 8 72 d |}.
Record sections := { s_args : option (list Z); s_pkt : option (list Z); s_data : option (list Z) }.
(** data[:n], data[n:]; None: slice out of range *)
Definition cut (n : nat) (d : list Z) : option (list Z * list Z) := if (List.length d <? n)%nat then None else Some (firstn n d, skipn n d).
(** bpfsnoop_config.go:47-49 haveFlag with the masks of :21-32 *)
Definition have_flag (flags idx : Z) : bool := negb (Z.land flags (Z.shiftl 1 idx) =? 0).
(** bpfsnoop.go:114-193: None: panic; Some None: ignored *)
Definition go_handle (d : list Z) : option (option (event * sections)) :=
  if (List.length d <? 80)%nat then Some None else
  let e := go_event d in
  let d1 := skipn 80 d in
  let argsz := if e_type e =? 2 then e_ex e else e_en e in
  match (if argsz =? 0 then Some (None, d1) else match cut (Z.to_nat argsz) d1 with Some (a, r) => Some (Some a, r) | None => None end) with
  | None => None
  | Some (a, d2) =>
      match (if have_flag (e_flags e) 2 then match cut pkt_size d2 with Some (a, r) => Some (Some a, r) | None => None end else Some (None, d2)) with
      | None => None
      | Some (p, d3) =>
          match (if e_data e =? 0 then Some (None, d3) else match cut (Z.to_nat (e_data e)) d3 with Some (a, r) => Some (Some a, r) | None => None end) with
          | None => None
          | Some (x, _) => Some (Some (e, {| s_args := a; s_pkt := p; s_data := x |}))
          end
      end
  end.
