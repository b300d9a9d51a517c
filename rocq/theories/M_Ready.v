(** * Start-up in the background: Addr2Line.create/wait (addr2line.go:49-81) and bpfProgs.parseProgs/wait (bpf_prog.go:70-173).

    Threads take turns in any order, one shared access each (sequentially consistent; Go promises less, as these accesses are not
    synchronized). *)
From Coq Require Import List Bool ZArith.
Import ListNotations.
Open Scope Z_scope.

(** ** addr2line.go *)
(** Where create() is: building the table; then, in case of success, the three statements of :69-71 *)
Inductive cpos := CBuild | CClose | CReady | CTable | CEnd.
(** A look-up: reads ready (:76), waits for done (:77), reads err (:80), reads a2l (:279, 321) *)
Inductive wpos := WReady | WWait | WErr | WTable | WFound | WNotFound | WFailed.
Record a2l := { g_c : cpos; g_w : wpos; g_ready : bool; g_closed : bool; g_err : bool; g_table : bool }.
Definition a2l0 : a2l := {| g_c := CBuild; g_w := WReady; g_ready := false; g_closed := false; g_err := false; g_table := false |}.
(** addr2line.go:49-72; [ok]: the table can be built and names kernel/bpf/syscall.c for __x64_sys_bpf.  Every failing branch sets err and
    returns without closing done. *)
Definition create_step (ok : bool) (s : a2l) : a2l :=
  match g_c s with
  | CBuild => if ok then {| g_c := CClose; g_w := g_w s; g_ready := g_ready s; g_closed := g_closed s; g_err := g_err s; g_table := g_table s |}
              else {| g_c := CEnd; g_w := g_w s; g_ready := g_ready s; g_closed := g_closed s; g_err := true; g_table := g_table s |}
  | CClose => {| g_c := CReady; g_w := g_w s; g_ready := g_ready s; g_closed := true; g_err := g_err s; g_table := g_table s |}
  | CReady => {| g_c := CTable; g_w := g_w s; g_ready := true; g_closed := g_closed s; g_err := g_err s; g_table := g_table s |}
  | CTable => {| g_c := CEnd; g_w := g_w s; g_ready := g_ready s; g_closed := g_closed s; g_err := g_err s; g_table := true |}
  | CEnd => s
  end.
(** addr2line.go:75-81 wait, 277-280, 321-323 *)
Definition wait_step (s : a2l) : a2l :=
  let go w := {| g_c := g_c s; g_w := w; g_ready := g_ready s; g_closed := g_closed s; g_err := g_err s; g_table := g_table s |} in
  match g_w s with
  | WReady => go (if g_ready s then WErr else WWait)
  | WWait => if g_closed s then go WErr else s
  | WErr => go (if g_err s then WFailed else WTable)
  | WTable => go (if g_table s then WFound else WNotFound)
  | _ => s
  end.
(** true: create() runs; false: the look-up runs *)
Definition a2l_step (ok : bool) (s : a2l) (who : bool) : a2l := if who then create_step ok s else wait_step s.
Definition a2l_run (ok : bool) (s : a2l) (sched : list bool) : a2l := fold_left (a2l_step ok) sched s.
Definition returned (s : a2l) : Prop := match g_w s with WFound | WNotFound | WFailed => True | _ => False end.

(** ** bpf_prog.go *)
(** A program: the addresses of its functions, and whether its info can be parsed (bpf_prog_info.go:86-150) *)
Record prog := { p_funcs : list Z; p_parses : bool }.
(** What is still to be parsed, the functions known, the first error, and whether done is closed *)
Record progs := { h_todo : list prog; h_funcs : list Z; h_err : bool; h_done : bool; h_panic : bool }.
Inductive pev :=
| PParse (i : nat)     (* one goroutine of the errgroup ends: addProg, bpf_prog.go:88-102 *)
| PFinish              (* :78-85, after wg.Wait *)
| PTrace (ip : Z).     (* the main thread: traceProg, bpf_tracing_prog.go:87-88 *)
Fixpoint remove_at {A} (l : list A) (i : nat) : list A :=
  match l, i with [], _ => [] | _ :: l', O => l' | x :: l', S i' => x :: remove_at l' i' end.
Definition pstep (tracings : list Z) (s : progs) (e : pev) : option progs :=
  if h_panic s then None
  else
    match e with
    | PParse i =>
        match nth_error (h_todo s) i with
        | Some p =>
            Some (if p_parses p then {| h_todo := remove_at (h_todo s) i; h_funcs := p_funcs p ++ h_funcs s; h_err := h_err s; h_done := h_done s; h_panic := false |}
                  else {| h_todo := remove_at (h_todo s) i; h_funcs := h_funcs s; h_err := true; h_done := h_done s; h_panic := false |})
        | None => None
        end
    | PFinish =>
        match h_todo s, h_done s with
        | [], false => (* :80-82 writes through a nil pointer when the function is not there *)
            if forallb (fun ip => existsb (Z.eqb ip) (h_funcs s)) tracings
            then Some {| h_todo := []; h_funcs := h_funcs s; h_err := h_err s; h_done := true; h_panic := false |}
            else Some {| h_todo := []; h_funcs := h_funcs s; h_err := h_err s; h_done := false; h_panic := true |}
        | _, _ => None
        end
    | PTrace ip =>
        Some {| h_todo := h_todo s; h_funcs := h_funcs s; h_err := h_err s; h_done := h_done s; h_panic := negb (existsb (Z.eqb ip) (h_funcs s)) |}
    end.
Fixpoint prun (tracings : list Z) (s : progs) (l : list pev) : option progs :=
  match l with [] => Some s | e :: l' => match pstep tracings s e with Some s' => prun tracings s' l' | None => None end end.
Definition progs0 (ps : list prog) : progs := {| h_todo := ps; h_funcs := []; h_err := false; h_done := false; h_panic := false |}.
(** bpf_prog.go:135-173 wait, then get / contains: blocks (None) until done; fails on an error; else sees the functions *)
Inductive seen := SBlocked | SFatal | SFuncs (l : list Z).
Definition pget (s : progs) : seen := if h_done s then if h_err s then SFatal else SFuncs (h_funcs s) else SBlocked.
