(** * Starting up, running and shutting down (main.go, bpfsnoop.go:Run, internal/assert).

    A transition system: main, the two goroutines of its errgroup and the environment (signals, kernel answers,
    ring-buffer records).  Simplified: a check of main (assert.NoErr, assert.NoVerifierErr, assert.True) succeeds or fails
    as the environment says; the handling of a record is one step; acquiring and releasing a resource succeed. *)
From Coq Require Import ZArith List Bool String.
From Verif Require Import M_Go M_Sess.
Import ListNotations.
Open Scope Z_scope.

(** What main acquires and hands back with defer, in the order of main.go. *)
Inductive res :=
| Signals        (* main.go:60-61 signal.NotifyContext, stop *)
| LbrEvents      (* main.go:71-77 OpenLbrPerfEvent *)
| ReadObjs       (* main.go:98 FlushReadObjs *)
| Progs          (* main.go:150-152 NewBPFProgs *)
| Graphs         (* main.go:155-157 FindGraphFuncs *)
| Maps           (* main.go:176-177 PrepareBPFMaps *)
| UntraceMsg     (* main.go:187 message with the cost *)
| Links          (* main.go:183, 188 NewBPFTracing *)
| UntraceClock   (* main.go:189 *)
| Reader         (* main.go:200-202 ringbuf.NewReader *)
| OutFile        (* main.go:204-210 *)
| Ready          (* main.go:212-215 the probes report from now on *)
| ExitMsg.       (* main.go:217-219 *)
Record conf := { c_lbr : bool; c_file : bool; c_delta : Z; c_limit : Z }.
(** Check: fatal if it fails.  Poll: main.go:160-165, return if a signal has arrived. *)
Inductive op := Check | Acq (r : res) | Poll.
(** main.go:27-219; a Check stands for one or several consecutive asserts. *)
Definition setup (c : conf) : list op :=
  [Check; Acq Signals; Check] ++ (if c_lbr c then [Check; Acq LbrEvents; Check] else []) ++
  [Check; Acq ReadObjs; Check; Check; Acq Progs; Check; Acq Graphs; Poll; Check; Acq Maps; Check; Acq UntraceMsg; Acq Links; Acq UntraceClock; Check; Check; Acq Reader] ++
  (if c_file c then [Check; Acq OutFile] else []) ++ [Check; Acq Ready; Acq ExitMsg].

(** What Run prints or saves on return: bpfsnoop.go:79-86 (defer: last in, first out). *)
Inductive table := Tdigest | Hist | Flame.
Definition run_defers : list table := [Tdigest; Hist; Flame].
(** Observable effects, in the order in which they happen. *)
Inductive eff := Acquired (r : res) | Released (r : res) | Group (g : list item) | Table (t : table) (ok : bool).
(** How Run ends. *)
Inductive result := RNil | RFinished | RError | RPanic.
Inductive runner := Looping (i : Z) (m : sessions) | Rendering (l : list table) (r : result) | Done (r : result).
(** Exit: Status 0 / 1 / 2 (log.Fatal is 1, a panic 2), Killed: a signal without handler. *)
Inductive exit := Status (n : Z) | Killed.
Inductive phase :=
| Setup (l : list op)
| Running (closed : bool) (r : runner)   (* closed: the closer goroutine has closed the reader (and returned) *)
| Unwind
| Exited (e : exit).
Record state := { ph : phase; defers : list res; cancelled : bool; trace : list eff; seen : list event }.
Definition init (c : conf) : state := {| ph := Setup (setup c); defers := []; cancelled := false; trace := []; seen := [] |}.

Inductive label :=
| LSignal                (* SIGINT, SIGTERM, SIGQUIT *)
| LMain (ok : bool)      (* a step of main; ok: the outcome of a check *)
| LClose                 (* main.go:223-227 *)
| LRecord (e : event)    (* ReadInto handles a record *)
| LReadFails             (* ReadInto fails, the reader not being closed *)
| LRun (ok : bool).      (* another step of Run; ok: the outcome of saving the flame graph *)

Definition set_ph (s : state) (p : phase) : state :=
  {| ph := p; defers := defers s; cancelled := cancelled s; trace := trace s; seen := seen s |}.
Definition log_eff (s : state) (l : list eff) : state :=
  {| ph := ph s; defers := defers s; cancelled := cancelled s; trace := trace s ++ l; seen := seen s |}.
Definition res_eqb (a b : res) : bool :=
  match a, b with
  | Signals, Signals | LbrEvents, LbrEvents | ReadObjs, ReadObjs | Progs, Progs | Graphs, Graphs | Maps, Maps | UntraceMsg, UntraceMsg
  | Links, Links | UntraceClock, UntraceClock | Reader, Reader | OutFile, OutFile | Ready, Ready | ExitMsg, ExitMsg => true
  | _, _ => false
  end.
(** A signal: kills the process unless signal.NotifyContext is in force (from main.go:60 until stop); then it cancels the
    context, of which that of the errgroup is a child. *)
Definition step_signal (s : state) : option state :=
  match ph s with
  | Exited _ => None
  | _ => if existsb (res_eqb Signals) (defers s)
         then Some {| ph := ph s; defers := defers s; cancelled := true; trace := trace s; seen := seen s |}
         else Some (set_ph s (Exited Killed))
  end.
(** main: set-up, errgroup.Wait (main.go:242-246), deferred calls. *)
Definition step_main (c : conf) (s : state) (ok : bool) : option state :=
  match ph s with
  | Setup (Check :: l) => Some (set_ph s (if ok then Setup l else Exited (Status 1)))
  | Setup (Acq r :: l) =>
      Some {| ph := Setup l; defers := r :: defers s; cancelled := cancelled s; trace := trace s ++ [Acquired r]; seen := seen s |}
  | Setup (Poll :: l) => Some (set_ph s (if cancelled s then Unwind else Setup l))
  | Setup [] => Some (set_ph s (Running false (Looping (i64 (c_limit c)) [])))
  | Running _ (Done RPanic) => None               (* the process is dead before *)
  | Running true (Done RError) => Some (set_ph s (Exited (Status 1)))
  | Running true (Done _) => Some (set_ph s Unwind)
  | Running _ _ => None                           (* errgroup.Wait waits for both goroutines *)
  | Unwind =>
      match defers s with
      | [] => Some (set_ph s (Exited (Status 0)))
      | r :: l => Some {| ph := Unwind; defers := l; cancelled := cancelled s; trace := trace s ++ [Released r]; seen := seen s |}
      end
  | Exited _ => None
  end.
(** main.go:223-227 *)
Definition step_close (s : state) : option state :=
  match ph s with
  | Running false r => if cancelled s then Some (set_ph s (Running true r)) else None
  | _ => None
  end.
Definition more (c : conf) (i : Z) : bool := (c_limit c =? 0) || (0 <? i).
(** bpfsnoop.go:228-245, one record *)
Definition step_record (c : conf) (s : state) (e : event) : option state :=
  match ph s with
  | Running false (Looping i m) =>
      if negb (more c i) then None else
      let s' := {| ph := ph s; defers := defers s; cancelled := cancelled s; trace := trace s; seen := seen s ++ [e] |} in
      match handle (c_delta c) m e with
      | HPanic => Some (set_ph s' (Running false (Rendering run_defers RPanic)))
      | HErr => Some (set_ph s' (Running false (Rendering run_defers RError)))
      | HOk m' w cnt => Some (log_eff (set_ph s' (Running false (Looping (if cnt then i - 1 else i) m'))) (map Group w))
      end
  | _ => None
  end.
Definition step_read_fails (c : conf) (s : state) : option state :=
  match ph s with
  | Running false (Looping i m) => if more c i then Some (set_ph s (Running false (Rendering run_defers RError))) else None
  | _ => None
  end.
(** Run: ErrClosed (bpfsnoop.go:234-236), the limit (bpfsnoop.go:230, 247), the deferred calls (bpfsnoop.go:79-86; the error of
    Save is not looked at), the return; a non-nil error cancels the context of the errgroup, a panic ends the process. *)
Definition step_run (c : conf) (s : state) (ok : bool) : option state :=
  match ph s with
  | Running closed (Looping i m) =>
      if more c i then (if closed : bool then Some (set_ph s (Running closed (Rendering run_defers RNil))) else None)
      else Some (set_ph s (Running closed (Rendering run_defers RFinished)))
  | Running closed (Rendering (t :: l) r) =>
      Some (log_eff (set_ph s (Running closed (Rendering l r))) [Table t (match t with Flame => ok | _ => true end)])
  | Running closed (Rendering [] RNil) => Some (set_ph s (Running closed (Done RNil)))
  | Running closed (Rendering [] RPanic) => Some (set_ph s (Exited (Status 2)))
  | Running closed (Rendering [] r) =>
      Some {| ph := Running closed (Done r); defers := defers s; cancelled := true; trace := trace s; seen := seen s |}
  | _ => None
  end.
Definition step (c : conf) (s : state) (l : label) : option state :=
  match l with
  | LSignal => step_signal s
  | LMain ok => step_main c s ok
  | LClose => step_close s
  | LRecord e => step_record c s e
  | LReadFails => step_read_fails c s
  | LRun ok => step_run c s ok
  end.
Fixpoint run_steps (c : conf) (ls : list label) (s : state) : option state :=
  match ls with
  | [] => Some s
  | l :: ls' => match step c s l with Some s' => run_steps c ls' s' | None => None end
  end.
