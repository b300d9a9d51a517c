(** * Which values an event of a kprobe.multi link carries: /repo/bpf/bpfsnoop_kmulti.c:31-62 (read_args_from_ctx), 79-154
    (emit_bpfsnoop_kmulti_event), bpfsnoop_mode.h:23-36 (get_bpfsnoop_mode) and bpf_tracing_func_multi.go:139-311 (how the link is attached and
    configured).

    A call is seen twice by the kernel's hooks: when the function is entered and when it returns; each time the program is handed the CPU's
    registers of that moment.  Sending the event, its pairing and the packet parts are modelled in M_Emit and M_Sess; copying into the record
    and showing it in M_FnArgs. *)
From Coq Require Import List Bool ZArith.
From Verif Require Import M_FnArgs M_Multi.
Import ListNotations.
Open Scope Z_scope.

(** The argument registers when the function is entered and when it returns, and the returned value *)
Record kcall := { kc_in : list Z; kc_out : list Z; kc_ret : Z }.
(** bpfsnoop_mode.h:14-19 *)
Inductive kmode := MEntry | MExit | MSessEntry | MSessExit.
(** bpfsnoop_mode.h:23-36; [returning]: bpf_session_is_return *)
Definition get_mode (both session is_entry returning : bool) : kmode :=
  let e := if both && session then negb returning else is_entry in
  if both then (if e then MSessEntry else MSessExit) else if e then MEntry else MExit.
(** bpf_tracing_func_multi.go:219 withRet; bpfsnoop_config.go:87 through setBpfsnoopConfig: is_entry is its negation *)
Definition with_ret (session is_exit : bool) : bool := session || is_exit.
(** bpf_tracing_func_multi.go:281-291: at which moments of a call the program runs (true: at return) *)
Definition moments (session is_exit : bool) : list bool := if session then [false; true] else if is_exit then [true] else [false].
(** One event: whether it is an exit event, whether the filter is consulted, arguments and return value handed to output_fn_args *)
Record kevent := { ke_exit : bool; ke_filter : bool; ke_args : list Z; ke_ret : Z }.
(** bpfsnoop_kmulti.c:79-154 at one moment of a call *)
Definition emit_kmulti (both session is_exit : bool) (c : kcall) (returning : bool) : kevent :=
  let md := get_mode both session (negb (with_ret session is_exit)) returning in
  {| ke_exit := match md with MExit | MSessExit => true | MEntry | MSessEntry => false end;
     ke_filter := match md with MSessExit => false | _ => true end;
     ke_args := if returning then kc_out c else kc_in c;
     ke_ret := match md with MExit | MSessExit => kc_ret c | _ => 0 end |}.
(** the events that a link sends for a call that passes (order of time) *)
Definition link_events {I} (a : attach I) (c : kcall) : list kevent :=
  map (emit_kmulti (mo_both (at_opts a)) (at_session a) (at_exit a) c) (moments (at_session a) (at_exit a)).
(** bpf_tracing_func_multi.go:220, bpfsnoop_func.go:86-148: how the record of an event is written and shown *)
Definition event_code {I} (maxargs : nat) (a : attach I) := gen_output_kmulti maxargs (with_ret (at_session a) (at_exit a)).
Definition event_shown (maxargs nparams : nat) (e : kevent) (rec : list Z) := output_kmulti maxargs nparams rec (ke_exit e).
