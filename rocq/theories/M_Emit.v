(** * Which calls send events: /repo/bpf/bpfsnoop.c:58-132 emit_bpfsnoop_event, bpfsnoop_kmulti.c:79-150 emit_bpfsnoop_kmulti_event, bpfsnoop_insn.c:33-60,
    with the start of tracing (main.go:208-214: the ready flag) and the process options (main.go:100, bpfsnoop_config.go: pid).

    - Tasks are pid_tgid values (process number in the upper half); one run of a program is atomic; the ring buffer has room.
    - The filters are the verdicts of filter_arg and filter_pkt for the call.
    - The texts stand for the contents of the events (M_Cfg, M_FnArgs, ...). *)
From Coq Require Import ZArith List Bool String.
From Verif Require Import M_Go M_Sess.
Import ListNotations.
Open Scope Z_scope.

(** PID and cfg->pid *)
Record ecfg := { own_pid : Z; want_pid : Z }.
Inductive fire :=
| FReady
| FCall (task func sid ns : Z) (farg fpkt : bool) (text : string)
| FRet (task func ns : Z) (farg fpkt : bool) (text : string)
| FInsn (task func ns : Z) (text : string).

(** bpfsnoop.c:92-97 *)
Definition pid_pass (c : ecfg) (t : Z) : bool :=
  let pid := Z.shiftr t 32 in
  if pid =? own_pid c then false else if negb (want_pid c =? 0) && negb (pid =? want_pid c) then false else true.
Definition mk_event (ty sid ns fl : Z) (txt : string) : event :=
  {| ev_type := ty; ev_ns := u32 ns; ev_sid := sid; ev_flags := fl; ev_known := true; ev_short := false; ev_text := txt; ev_err := false |}.
Definition opt_event (ty ns fl : Z) (txt : string) (o : option Z) : list event := match o with Some sid => [mk_event ty sid ns fl txt] | None => [] end.

(** Entry and exit with the session map (two programs), and the instruction probes *)
Fixpoint sent_map (c : ecfg) (ready : bool) (m : smap) (h : list fire) : list event :=
  match h with
  | [] => []
  | FReady :: h' => sent_map c true m h'
  | FCall t f sid ns farg fpkt txt :: h' =>
      if ready && pid_pass c t then
        let '(m', o) := enter_map m (t, f) sid (farg && fpkt) in opt_event 1 ns flag_both txt o ++ sent_map c ready m' h'
      else sent_map c ready m h'
  | FRet t f ns _ _ txt :: h' =>
      if ready && pid_pass c t then
        let '(m', o) := exit_map m (t, f) in opt_event 2 ns flag_both txt o ++ sent_map c ready m' h'
      else sent_map c ready m h'
  | FInsn t f ns txt :: h' =>
      (if ready then let sid := get_session m (t, f) in if sid =? 0 then [] else [mk_event 3 sid ns 0 txt] else []) ++ sent_map c ready m h'
  end.
(** Entry and exit with one session program: the kernel's cell per call in progress, zero at first; the instruction probes look into the (empty) map *)
Fixpoint sent_cookie (c : ecfg) (ready : bool) (ck : Z -> list Z) (h : list fire) : list event :=
  match h with
  | [] => []
  | FReady :: h' => sent_cookie c true ck h'
  | FCall t f sid ns farg fpkt txt :: h' =>
      let '(v, o) := if ready && pid_pass c t then enter_cookie 0 sid (farg && fpkt) else (0, None) in
      opt_event 1 ns flag_both txt o ++ sent_cookie c ready (fun x => if x =? t then v :: ck t else ck x) h'
  | FRet t f ns _ _ txt :: h' =>
      match ck t with
      | [] => sent_cookie c ready ck h'
      | v :: l => (if ready && pid_pass c t then opt_event 2 ns flag_both txt (exit_cookie v) else []) ++
                  sent_cookie c ready (fun x => if x =? t then l else ck x) h'
      end
  | FInsn t f ns txt :: h' =>
      (if ready then let sid := get_session [] (t, f) in if sid =? 0 then [] else [mk_event 3 sid ns 0 txt] else []) ++ sent_cookie c ready ck h'
  end.
(** Entries only or exits only: one program; the session number is drawn anew ([sids]: the draws) *)
Fixpoint sent_single (c : ecfg) (is_exit : bool) (ready : bool) (h : list fire) : list event :=
  match h with
  | [] => []
  | FReady :: h' => sent_single c is_exit true h'
  | FCall t f sid ns farg fpkt txt :: h' =>
      (if is_exit then [] else if ready && pid_pass c t && (farg && fpkt) then [mk_event 1 sid ns 0 txt] else []) ++ sent_single c is_exit ready h'
  | FRet t f ns farg fpkt txt :: h' =>
      (if is_exit then if ready && pid_pass c t && (farg && fpkt) then [mk_event 2 0 ns 0 txt] else [] else []) ++ sent_single c is_exit ready h'
  | FInsn t f ns txt :: h' => sent_single c is_exit ready h'
  end.
