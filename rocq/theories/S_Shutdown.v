(** * Specification: how a run of bpfsnoop ends. *)
From Coq Require Import ZArith List Bool String.
From Verif Require Import M_Go M_Sess S_Sess M_Shutdown.
Import ListNotations.
Open Scope Z_scope.

(** What bpfsnoop holds while it traces, oldest first; the first ones are held when it looks for an early signal. *)
Definition early_resources (c : conf) : list res :=
  [Signals] ++ (if c_lbr c then [LbrEvents] else []) ++ [ReadObjs; Progs; Graphs].
Definition all_resources (c : conf) : list res :=
  early_resources c ++ [Maps; UntraceMsg; Links; UntraceClock; Reader] ++ (if c_file c then [OutFile] else []) ++ [Ready; ExitMsg].
(** What was printed for the records that were read, then the tables. *)
Definition groups (c : conf) (s : state) : list eff := map Group (out_of (run (c_delta c) (c_limit c) (seen s))).
Definition tables (ok : bool) : list eff := [Table Tdigest true; Table Hist true; Table Flame ok].
(** How the handling of these records ends: [Closed] when none is left. *)
Definition verdict (c : conf) (s : state) : outcome := res_of (run (c_delta c) (c_limit c) (seen s)).

(** Steps that are not up to the environment. *)
Definition own (l : label) : bool := match l with LSignal | LRecord _ | LReadFails => false | _ => true end.
Definition is_release (e : eff) : bool := match e with Released _ => true | _ => false end.
