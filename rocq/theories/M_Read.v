(** * --read: reading kernel memory with a C expression.

    Modelled: readKernelData (internal/bpfsnoop/bpf_read_data.go:28-123), the program read_data (bpf/read.c:10-57),
    CompileEvalExpr with MemoryReadFlagForce (internal/cc/expr.go:193-203); the rest of the compilation of the
    expression and the display are those of --output-arg (M_OutArg).
    Simplified: the contents of the global variables buff and run are those the program sees; loading, attaching and
    prog.Run are the occurrence of calls of bpf_fentry_test1 (hits), by any threads, in any order; the printing of
    "Expr:" and "Out:" and of a histogram or t-digest is left out. *)
From Coq Require Import ZArith List Bool.
From Verif Require Import M_Go M_Ebpf M_CcNum M_Cc M_FnArgs M_OutArg.
Import ListNotations.
Open Scope Z_scope.

(** expr.go:140-214 CompileEvalExpr with MemoryReadFlagForce: a constant is accepted and not materialized; its register is
    the zero value, R0. *)
Definition compile_force (K : cfg) (e : expr) : option eres :=
  match split_call e with
  | inl (Some (rt, a, off, size)) =>
      match evaluate K a eval_init with
      | ROk v s =>
          match (if is_const v then ROk v s else materialize K s v) with
          | ROk w s' =>
              match post_check (cf_env K) rt (v_btf w) (v_mem w) off size with
              | Some (bt, o, n) => Some {| r_type := rt; r_code := c_code s'; r_reg := vreg w; r_lab := c_lab s'; r_btf := bt; r_off := o; r_size := n |}
              | None => None
              end
          | _ => None
          end
      | _ => None
      end
  | _ => None
  end.
(** bpf_read_data.go:39: compile(nil, krnl, krnl, 0, MemoryReadFlagForce, ...) *)
Definition read_compile (T : tinfo) (K : cfg) (e : expr) : option oarg :=
  match compile_force K e with Some r => gen_arg T (cf_env K) r 0 | None => None end.
(** bpf_read_data.go:44-51: the code put in place of read_stub(buff) *)
Definition read_prog (a : oarg) : prog := {| code := [IMovR R8 R1] ++ oa_insn a ++ [IExit]; label := None |}.

(** bpf_get_current_pid_tgid; bpf_read_data.go:59 *)
Definition pid_tgid (pid tid : Z) : Z := Z.lor (Z.shiftl pid 32) tid.
(** BUFF_SIZE (read.c:8) *)
Definition buff_size : Z := 65536.
(** The global variables run and buff *)
Record rdst := { rd_run : bool; rd_buff : Z -> Z }.
Definition rd0 : rdst := {| rd_run := false; rd_buff := fun _ => 0 |}.
(** A call of bpf_fentry_test1: the thread, and registers and memory at the entry of the injected code *)
Record hit := { h_pid : Z; h_tid : Z; h_st : mst }.
(** read.c:51-53: the injected code is entered with R1 = buff *)
Definition enter (B : Z) (st : rdst) (h : hit) : mst :=
  let s := h_st h in
  {| rg := fun r => if Nat.eqb r R1 then B else rg s r; stk := stk s;
     ker := fun x => if (B <=? x) && (x <? B + buff_size) then rd_buff st (x - B) else ker s x; ncall := ncall s |}.
(** read.c:39-57 read_data *)
Definition read_hit (m : mach) (a : oarg) (B : Z) (target : Z) (st : rdst) (h : hit) : rdst :=
  if negb (pid_tgid (h_pid h) (h_tid h) =? target) then st
  else if rd_run st then st
  else match run (List.length (code (read_prog a))) m (read_prog a) 0 (enter B st h) with
       | Done _ s' => {| rd_run := true; rd_buff := fun i => ker s' (B + i) |}
       | _ => {| rd_run := true; rd_buff := rd_buff st |}
       end.
(** bpf_read_data.go:84-111: what is displayed after the hits; None: index out of range *)
Inductive rout := NotTriggered | Out (l : option (list shown)).
Definition read_out (a : oarg) (st : rdst) : rout :=
  if negb (rd_run st) then NotTriggered
  else Out (dec_args [a] (map (fun i => rd_buff st (Z.of_nat i) mod 256) (seq 0 (Z.to_nat (oa_size a))))).
Definition read_session (m : mach) (a : oarg) (B pid tid : Z) (hs : list hit) : rout :=
  read_out a (fold_left (read_hit m a B (pid_tgid pid tid)) hs rd0).
