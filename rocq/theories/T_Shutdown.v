(** * C94: how a run of bpfsnoop ends (main.go, Run) *)
From Coq Require Import ZArith List Bool String Lia.
From Verif Require Import M_Go M_Sess S_Sess P_Sess2 M_Shutdown S_Shutdown P_Shutdown.
Import ListNotations.
Open Scope Z_scope.

Definition demo_conf : conf := {| c_lbr := true; c_file := true; c_delta := 0; c_limit := 0 |}.
Definition demo_limit : conf := {| c_lbr := false; c_file := false; c_delta := 0; c_limit := 1 |}.
Definition starting (c : conf) : list label := repeat (LMain true) (List.length (setup c) + 1).
Definition demo_events : list event := [entry_event 7 100 "in"; exit_event 6 150 "out"].

(** A run that ends with status 0 was either interrupted before it attached anything, and hands back what it held, newest
    first; or it printed exactly what the records it read call for, then the tables, once each, and only then handed back
    all that it held, newest first (in particular the probes are told to stop before they are detached, and the output file
    is closed after the last table). *)
Theorem C94_clean_exit : forall c ls s, run_steps c ls (init c) = Some s -> ph s = Exited (Status 0) ->
  (In LSignal ls /\ seen s = [] /\ trace s = map Acquired (early_resources c) ++ map Released (rev (early_resources c))) \/
  ((verdict c s = Finished \/ (verdict c s = Closed /\ In LSignal ls)) /\
   exists ok, trace s = map Acquired (all_resources c) ++ groups c s ++ tables ok ++ map Released (rev (all_resources c))).
Proof. exact clean_exit. Qed.
Print Assumptions C94_clean_exit.
(** Two records, then a signal while the tool waits for the next one. *)
Example C94_interrupted : exists s, run_steps demo_conf (starting demo_conf ++ map LRecord demo_events ++ [LSignal; LClose] ++
    repeat (LRun true) 5 ++ repeat (LMain true) 15) (init demo_conf) = Some s /\
  ph s = Exited (Status 0) /\ groups demo_conf s = [Group [line "in" None; line "out" (Some 50)]] /\ List.length (trace s) = 30%nat.
Proof. eexists. split; [vm_compute; reflexivity|]. split; [reflexivity|]. split; vm_compute; reflexivity. Qed.

(** Without a signal, status 0 means that --limit-events was given and that exactly that many events were printed. *)
Theorem C94_ends_by_itself : forall c ls s, run_steps c ls (init c) = Some s -> ph s = Exited (Status 0) -> ~ In LSignal ls -> 0 <= c_limit c < 2 ^ 63 ->
  0 < c_limit c /\ Z.of_nat (List.length (groups c s)) = c_limit c.
Proof. exact by_itself. Qed.
Print Assumptions C94_ends_by_itself.
Example C94_limit_case : exists s, run_steps demo_limit (starting demo_limit ++ map LRecord demo_events ++
    repeat (LRun true) 5 ++ [LClose] ++ repeat (LMain true) 13) (init demo_limit) = Some s /\ ph s = Exited (Status 0).
Proof. eexists. split; [vm_compute; reflexivity|]. reflexivity. Qed.

(** Status 1: a check failed while starting up; or a record could not be read or handled, and then all that was printed for the
    records before it, and the tables, are there. *)
Theorem C94_failure : forall c ls s, run_steps c ls (init c) = Some s -> ph s = Exited (Status 1) ->
  (exists rs rest, all_resources c = rs ++ rest /\ trace s = map Acquired rs /\ seen s = []) \/
  ((verdict c s = Failed \/ verdict c s = Closed) /\ exists ok, trace s = map Acquired (all_resources c) ++ groups c s ++ tables ok).
Proof. exact failed_exit. Qed.
Print Assumptions C94_failure.
Example C94_failure_case : exists s, run_steps demo_conf (starting demo_conf ++ map LRecord demo_events ++ [LReadFails] ++
    repeat (LRun true) 4 ++ [LClose; LMain true]) (init demo_conf) = Some s /\ ph s = Exited (Status 1) /\ groups demo_conf s <> [].
Proof. eexists. split; [vm_compute; reflexivity|]. split; [reflexivity|]. vm_compute. discriminate. Qed.

(** Status 2: the handling of a record crashed; the tables are there all the same.  It cannot happen when graph events refer to
    sessions of graph-mode functions. *)
Theorem C94_crash : forall c ls s, run_steps c ls (init c) = Some s -> ph s = Exited (Status 2) ->
  ~ graph_ids_ok (seen s) /\ exists ok, trace s = map Acquired (all_resources c) ++ groups c s ++ tables ok.
Proof.
  intros c ls s H Hp. destruct (panic_exit c ls s H Hp) as [Hv Ht]. split; [|exact Ht]. intros Hg.
  exact (never_panics (c_delta c) (c_limit c) (seen s) Hg Hv).
Qed.
Print Assumptions C94_crash.
(** There is no other way to end, except that a signal kills the process before it handles signals, or when it has handed back
    everything. *)
Theorem C94_statuses : forall c ls s e, run_steps c ls (init c) = Some s -> ph s = Exited e ->
  e = Status 0 \/ e = Status 1 \/ e = Status 2 \/ (e = Killed /\ In LSignal ls).
Proof. exact statuses. Qed.
Print Assumptions C94_statuses.

(** The tool ends after a signal: however many records arrive, main and the goroutines take at most 71 steps of their own in a
    run; after a signal one of them can take a step until the process is gone; and once the reader is closed no record is
    handled any more. *)
Theorem C94_terminates : forall c ls s, run_steps c ls (init c) = Some s ->
  (List.length (filter own ls) <= 71)%nat /\
  (In LSignal ls -> (forall e, ph s <> Exited e) -> exists l s', own l = true /\ step c s l = Some s') /\
  (forall l s', step c s l = Some s' -> (match ph s with Setup _ | Running false _ => False | _ => True end) ->
     (match ph s' with Setup _ | Running false _ => False | _ => True end) /\ seen s' = seen s).
Proof.
  intros c ls s H. split; [exact (bounded c ls s H)|]. split; [intros Hs Hn; exact (progress c ls s H Hn Hs)|].
  intros l s' Hl Hc. exact (closed_stays c s l s' Hl Hc).
Qed.
Print Assumptions C94_terminates.

(** A signal that arrives before the functions to trace have all been found - looking for them can take long - ends the run before anything
    of the kernel is touched: no map is created, no probe attached. *)
Theorem C94_early_signal : forall c ls1 ls2 s1 s, run_steps c ls1 (init c) = Some s1 -> ~ In (Acquired Graphs) (trace s1) ->
  run_steps c (ls1 ++ LSignal :: ls2) (init c) = Some s -> forall r, In (Acquired r) (trace s) -> In r (early_resources c).
Proof. exact early_signal. Qed.
Print Assumptions C94_early_signal.
Example C94_early_case : exists s, run_steps demo_conf (repeat (LMain true) 8 ++ LSignal :: repeat (LMain true) 12) (init demo_conf) = Some s /\ ph s = Exited (Status 0) /\ trace s = map Acquired (early_resources demo_conf) ++ map Released (rev (early_resources demo_conf)).
Proof. eexists. split; [vm_compute; reflexivity|]. split; reflexivity. Qed.

(** What the run has still to hand back is what it acquired and has not released, and a signal kills the process exactly if it does not hold
    the handler of signals: before it was installed, or after it was taken back.  Otherwise it does nothing but ask the run to end. *)
Theorem C94_signal_kills_iff_not_handled : forall c ls s, run_steps c ls (init c) = Some s -> (forall e, ph s <> Exited e) -> exists s', step c s LSignal = Some s' /\
  (In (Acquired Signals) (trace s) /\ ~ In (Released Signals) (trace s) -> ph s' = ph s /\ cancelled s' = true) /\
  (~ (In (Acquired Signals) (trace s) /\ ~ In (Released Signals) (trace s)) -> ph s' = Exited Killed).
Proof. exact signal_effect. Qed.
Print Assumptions C94_signal_kills_iff_not_handled.
Theorem C94_held : forall c ls s, run_steps c ls (init c) = Some s -> (forall e, ph s <> Exited e) ->
  forall r, In r (defers s) <-> In (Acquired r) (trace s) /\ ~ In (Released r) (trace s).
Proof. exact held_iff. Qed.
Print Assumptions C94_held.
(** The last moment: everything is handed back, the signal handler too, and the process has not exited yet. *)
Example C94_killed_late : exists s, run_steps demo_conf (repeat (LMain true) 8 ++ LSignal :: repeat (LMain true) 11) (init demo_conf) = Some s /\
  ph s = Unwind /\ In (Released Signals) (trace s).
Proof. eexists. split; [vm_compute; reflexivity|]. split; [reflexivity|]. cbn [trace In]. auto 20. Qed.

(** "However a run ends, what it held is handed back": false, log.Fatalf skips the deferred calls. *)
Theorem C94_handed_back_refuted : ~ (forall c ls s n, run_steps c ls (init c) = Some s -> ph s = Exited (Status n) ->
  forall r, In (Acquired r) (trace s) -> In (Released r) (trace s)).
Proof.
  intros H. destruct C94_failure_case as (s & Hs & Hp & _). specialize (H _ _ s 1 Hs Hp Signals).
  assert (Hn : existsb is_release (trace s) = false) by (vm_compute in Hs; injection Hs as <-; reflexivity).
  assert (Ha : In (Acquired Signals) (trace s)) by (vm_compute in Hs; injection Hs as <-; left; reflexivity).
  specialize (H Ha). assert (existsb is_release (trace s) = true) by (apply existsb_exists; eexists; split; [exact H|reflexivity]). congruence.
Qed.
Print Assumptions C94_handed_back_refuted.
(** "If the flame graph cannot be saved the status tells": false, the error of Save is dropped. *)
Theorem C94_flame_graph_saved_refuted : ~ (forall c ls s, run_steps c ls (init c) = Some s -> ph s = Exited (Status 0) -> ~ In (Table Flame false) (trace s)).
Proof.
  intros H. assert (E : exists s, run_steps demo_limit (starting demo_limit ++ map LRecord demo_events ++
    repeat (LRun false) 5 ++ [LClose] ++ repeat (LMain true) 13) (init demo_limit) = Some s /\ ph s = Exited (Status 0) /\ In (Table Flame false) (trace s)).
  { eexists. split; [vm_compute; reflexivity|]. split; [reflexivity|]. cbn [trace In]. auto 30. }
  destruct E as (s & Hs & Hp & Hi). exact (H _ _ s Hs Hp Hi).
Qed.
Print Assumptions C94_flame_graph_saved_refuted.
