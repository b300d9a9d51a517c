(** * Property theorems C21, C22, C23, C49, C50, C51: sessions and the event loop. *)
From Coq Require Import ZArith List Bool String.
From Verif Require Import M_Go M_Sess S_Sess P_Sess P_Sess2 P_Sess3.
Import ListNotations.
Open Scope Z_scope.

(** C21. fentry/fexit pairs (session map). For every history of properly nested calls of any number of tasks and functions
    within the limits of the map, exactly the accepted calls that return are printed, each group being the entry and the exit
    of the same call (durations: see C49). *)
Theorem C21_entry_exit_paired_partial : forall delta h,
  nested no_calls h -> fresh_ids no_calls h -> within_limits no_calls h ->
  printed delta (ring_map [] h) = expected dur32 delta no_calls h.
Proof. exact map_mode_pairs. Qed.
Print Assumptions C21_entry_exit_paired_partial.

(** fsession programs (cookie): no limits. *)
Theorem C21_entry_exit_paired_fsession : forall delta h,
  nested no_calls h -> fresh_ids no_calls h ->
  printed delta (ring_cookie (fun _ => []) h) = expected dur32 delta no_calls h.
Proof. exact cookie_mode_pairs. Qed.
Print Assumptions C21_entry_exit_paired_fsession.

Open Scope string_scope.
Definition h_demo : list action :=
  [Call 1 10 100 5 true "a"; Call 2 10 200 6 true "b"; Call 1 10 101 7 true "c"; Call 1 11 102 8 false "d";
   Ret 1 11 9 "d-"; Ret 2 10 10 "b-"; Ret 1 10 20 "c-"; Ret 1 10 30 "a-"].
Close Scope string_scope.
Example h_demo_nested : nested no_calls h_demo /\ brief no_calls h_demo.
Proof. cbn. repeat split; discriminate. Qed.
Example h_demo_fresh : fresh_ids no_calls h_demo.
Proof.
  unfold h_demo, fresh_ids. repeat split.
  all: intros _ (t & fr & Hin & _ & Hid); unfold upds, no_calls in Hin; repeat (destruct (t =? _) in Hin; cbn in Hin; [|]); cbn in Hin;
    repeat (destruct Hin as [<-|Hin]; [discriminate Hid|]); contradiction.
Qed.
Example h_demo_limits : within_limits no_calls h_demo.
Proof.
  unfold h_demo, within_limits. repeat split; try discriminate.
  all: exists [(1, 10); (2, 10); (1, 11)]; split; [reflexivity|];
    intros t' f'; unfold open_calls, upds, no_calls;
    (destruct (Z.eqb_spec t' 1) as [->|]; [|destruct (Z.eqb_spec t' 2) as [->|]]); cbn;
    (destruct (Z.eqb_spec 10 f') as [<-|]; [|destruct (Z.eqb_spec 11 f') as [<-|]]); cbn; intros Hx; auto 10; try congruence;
    exfalso; apply Hx; destruct f' as [|q|q]; cbn; try reflexivity; destruct (Pos.eqb_spec 10 q); subst; try reflexivity; congruence.
Qed.

(** Refuted without the limits: a call rejected by the filter inside an accepted call of the same function takes the session
    of the outer call at its return: the group printed pairs the entry of the outer call with the exit of the inner one. *)
Open Scope string_scope.
Definition h_rejected_inner : list action :=
  [Call 1 10 100 0 true "outer in"; Call 1 10 101 10 false "inner in"; Ret 1 10 20 "inner out"; Ret 1 10 30 "outer out"].
Theorem C21_rejected_inner_call_refuted :
  nested no_calls h_rejected_inner /\ fresh_ids no_calls h_rejected_inner /\
  expected dur32 0 no_calls h_rejected_inner = [[line "outer in" None; line "outer out" (Some 30)]] /\
  printed 0 (ring_map [] h_rejected_inner) = [[line "outer in" None; line "inner out" (Some 20)]].
Proof.
  split; [cbn; auto|]. split; [|split; reflexivity].
  cbn. repeat split; try discriminate. intros _ (t & fr & H & _). exact H.
Qed.
Print Assumptions C21_rejected_inner_call_refuted.
Close Scope string_scope.
(** Refuted beyond 64 nested calls: the 65th nested call overwrites the session of the outermost one, whose group is lost. *)
Fixpoint h_deep_calls (n : nat) : list action := match n with O => [] | S k => h_deep_calls k ++ [Call 1 10 (Z.of_nat n) (Z.of_nat n) true EmptyString] end.
Fixpoint h_deep_rets (n : nat) : list action := match n with O => [] | S k => Ret 1 10 1000 EmptyString :: h_deep_rets k end.
Theorem C21_recursion_beyond_64_refuted :
  List.length (expected dur32 0 no_calls (h_deep_calls 65 ++ h_deep_rets 65)) = 65%nat /\
  List.length (printed 0 (ring_map [] (h_deep_calls 65 ++ h_deep_rets 65))) = 64%nat.
Proof. split; vm_compute; reflexivity. Qed.
Print Assumptions C21_recursion_beyond_64_refuted.

(** C22. After any sequence of additions, look-ups and removals, a look-up (with or without removal) returns the session of the
    most recent addition under that id not removed since, and nothing otherwise. *)
Theorem C22_session_table : forall ops id o, o = OGet id \/ o = OGetDel id ->
  match sop_result (fold_left sop_run ops []) o with
  | Some s => exists st g, s = new_sess st g /\ last_added ops id st g
  | None => forall st g, ~ last_added ops id st g
  end.
Proof. exact table_result. Qed.
Print Assumptions C22_session_table.
Example C22_demo : sop_result (fold_left sop_run [OAdd 1 5 false; OAdd 2 6 true; OAdd 1 7 true; OGetDel 2] []) (OGet 1) = Some (new_sess 7 true) /\
  sop_result (fold_left sop_run [OAdd 1 5 false; OAdd 2 6 true; OAdd 1 7 true; OGetDel 2] []) (OGet 2) = None.
Proof. split; reflexivity. Qed.

(** C23. With a limit 0 < N < 2^63 the groups printed are the first N of those printed without limit; the run ends with
    "finished" as soon as there are N of them, and otherwise exactly as the unlimited run. *)
Theorem C23_limit_partial : forall delta N evs, 0 < N < 2 ^ 63 ->
  let r := run delta N evs in let r0 := run delta 0 evs in
  out_of r = firstn (Z.to_nat N) (out_of r0) /\
  (if (List.length (out_of r0) <? Z.to_nat N)%nat then res_of r = res_of r0 /\ rest_of r = rest_of r0 else res_of r = Finished).
Proof.
  exact (limit_run).
Qed.
Print Assumptions C23_limit_partial.
(** The event after the N-th printed group is not read. *)
Theorem C23_stops_at_once : forall delta N evs, 0 < N < 2 ^ 63 -> res_of (run delta N evs) = Finished ->
  exists used e, evs = used ++ e :: rest_of (run delta N evs) /\
    List.length (out_of (run delta 0 used)) = (Z.to_nat N - 1)%nat /\
    List.length (out_of (run delta 0 (used ++ [e]))) = Z.to_nat N.
Proof. exact limit_stops. Qed.
Print Assumptions C23_stops_at_once.
(** Without limit every event is handled, until the stream ends or handling one fails. *)
Theorem C23_no_limit_handles_all : forall delta evs, res_of (run delta 0 evs) <> Finished /\
  (res_of (run delta 0 evs) = Closed -> rest_of (run delta 0 evs) = []).
Proof. exact nolimit_all. Qed.
Print Assumptions C23_no_limit_handles_all.
(** Refuted: a limit of 2^63 or more ends the run before the first event. *)
Theorem C23_huge_limit_refuted : forall delta N evs, 2 ^ 63 <= N < 2 ^ 64 -> run delta N evs = ([], Finished, evs).
Proof. exact limit_huge. Qed.
Print Assumptions C23_huge_limit_refuted.
Example C23_demo : out_of (run 0 1 (ring_map [] h_demo)) = firstn 1 (expected dur32 0 no_calls h_demo) /\ res_of (run 0 1 (ring_map [] h_demo)) = Finished.
Proof. split; vm_compute; reflexivity. Qed.

(** C49. Durations: exact for calls shorter than 2^32 ns (4.29 s), and the threshold drops exactly the shorter calls. *)
Theorem C49_durations_partial : forall delta h,
  nested no_calls h -> fresh_ids no_calls h -> within_limits no_calls h -> brief no_calls h ->
  printed delta (ring_map [] h) = expected true_dur delta no_calls h.
Proof. exact brief_map. Qed.
Print Assumptions C49_durations_partial.
Theorem C49_durations_fsession_partial : forall delta h,
  nested no_calls h -> fresh_ids no_calls h -> brief no_calls h ->
  printed delta (ring_cookie (fun _ => []) h) = expected true_dur delta no_calls h.
Proof. exact brief_cookie. Qed.
Print Assumptions C49_durations_fsession_partial.
(** Refuted for longer calls: a call of 5 s is shown with a duration of 0.7 s and dropped by a threshold of 1 s. *)
Definition h_slow : list action := [Call 1 10 100 0 true EmptyString; Ret 1 10 5000000000 EmptyString].
Theorem C49_long_calls_refuted :
  expected true_dur 1000000000 no_calls h_slow = [[line EmptyString None; line EmptyString (Some 5000000000)]] /\
  printed 0 (ring_map [] h_slow) = [[line EmptyString None; line EmptyString (Some 705032704)]] /\
  printed 1000000000 (ring_map [] h_slow) = [].
Proof. repeat split; vm_compute; reflexivity. Qed.
Print Assumptions C49_long_calls_refuted.

(** C50. Handling events never crashes when graph events refer to sessions opened in graph mode... *)
Theorem C50_events_never_crash_partial : forall delta limit evs, graph_ids_ok evs -> res_of (run delta limit evs) <> Panicked.
Proof. exact never_panics. Qed.
Print Assumptions C50_events_never_crash_partial.
(** ... and crashes otherwise: a graph event below a function that is also traced in entry+exit mode without graph. *)
Definition ev_graph (ty sid ns : Z) (txt : string) : event :=
  {| ev_type := ty; ev_ns := ns; ev_sid := sid; ev_flags := 0; ev_known := true; ev_short := false; ev_text := txt; ev_err := false |}.
Theorem C50_graph_event_on_plain_session_refuted :
  res_of (run 0 0 [entry_event 7 100 EmptyString; ev_graph 4 7 101 EmptyString]) = Panicked.
Proof. reflexivity. Qed.
Print Assumptions C50_graph_event_on_plain_session_refuted.

(** C51. Graph sessions: whatever other events are interleaved, the group printed for a root call contains its entry, all the
    calls below it in order, each return with the time since its own entry, and its exit. *)
Theorem C51_graph_group : forall delta id e0 gs ex ls evs,
  filter (belongs id) evs = e0 :: gs ++ [ex] ->
  ev_type e0 = 1 -> have_flag (ev_flags e0) bit_graph = true -> have_flag (ev_flags e0) bit_tp = false -> ev_short e0 = false ->
  (forall g, In g gs -> (ev_type g = 4 \/ ev_type g = 5) /\ ev_known g = true) ->
  graph_lines (ev_ns e0) [ev_ns e0] gs = Some ls ->
  ev_type ex = 2 -> required_session (ev_flags ex) = true -> ev_short ex = false -> delta <= dur32 (ev_ns e0) (ev_ns ex) ->
  res_of (run delta 0 evs) = Closed ->
  In (line (ev_text e0) None :: ls ++ [line (ev_text ex) (Some (dur32 (ev_ns e0) (ev_ns ex)))]) (printed delta evs).
Proof. exact graph_session. Qed.
Print Assumptions C51_graph_group.
Open Scope string_scope.
Definition root_in := {| ev_type := 1; ev_ns := 100; ev_sid := 7; ev_flags := bit_both + bit_graph; ev_known := true; ev_short := false; ev_text := "root"; ev_err := false |}.
Definition root_out := {| ev_type := 2; ev_ns := 200; ev_sid := 6; ev_flags := bit_both + bit_graph; ev_known := true; ev_short := false; ev_text := "root-"; ev_err := false |}.
Definition evs_demo := [root_in; entry_event 20 101 "x"; ev_graph 4 7 110 "a"; ev_graph 4 7 120 "b"; exit_event 19 125 "x-"; ev_graph 5 7 150 "b-"; ev_graph 5 7 160 "a-"; root_out].
Example C51_demo : filter (belongs 7) evs_demo = root_in :: [ev_graph 4 7 110 "a"; ev_graph 4 7 120 "b"; ev_graph 5 7 150 "b-"; ev_graph 5 7 160 "a-"] ++ [root_out] /\
  res_of (run 0 0 evs_demo) = Closed /\
  exists ls, graph_lines 100 [100] [ev_graph 4 7 110 "a"; ev_graph 4 7 120 "b"; ev_graph 5 7 150 "b-"; ev_graph 5 7 160 "a-"] = Some ls /\
    map it_cost ls = [Some 10; Some 10; Some 30; Some 50].
Proof. split; [reflexivity|]. split; [reflexivity|]. eexists. split; reflexivity. Qed.
Example C50_demo : graph_ids_ok evs_demo.
Proof.
  intros pre e post H Hty x Hin Hx Hid.
  assert (Hev : In x evs_demo) by (rewrite H; apply in_or_app; left; exact Hin).
  assert (He : In e evs_demo) by (rewrite H; apply in_or_app; right; left; reflexivity).
  unfold evs_demo in Hev, He. cbn [In] in Hev, He.
  decompose [or] Hev; try contradiction; subst x; try discriminate Hx; try reflexivity;
  decompose [or] He; try contradiction; subst e; destruct Hty as [Hty|Hty]; try discriminate Hty; discriminate Hid.
Qed.

(** C55. Instruction mode: whatever other events are interleaved, the group printed for a call is its entry, the traced
    instructions it executed, in order and each with the time since the call began, and its exit. *)
Theorem C55_instruction_group : forall delta id e0 gs ex evs,
  filter (belongs id) evs = e0 :: gs ++ [ex] ->
  ev_type e0 = 1 -> have_flag (ev_flags e0) bit_insn = true -> ev_short e0 = false ->
  (forall g, In g gs -> ev_type g = 3) ->
  ev_type ex = 2 -> have_flag (ev_flags ex) bit_insn = true -> ev_short ex = false -> delta <= dur32 (ev_ns e0) (ev_ns ex) ->
  res_of (run delta 0 evs) = Closed ->
  In (line (ev_text e0) None :: insn_lines (ev_ns e0) gs ++ [line (ev_text ex) (Some (dur32 (ev_ns e0) (ev_ns ex)))]) (printed delta evs).
Proof. exact insn_session. Qed.
Print Assumptions C55_instruction_group.
Definition insn_ev (ns : Z) (known : bool) (txt : string) := {| ev_type := 3; ev_ns := ns; ev_sid := 7; ev_flags := 0; ev_known := known; ev_short := false; ev_text := txt; ev_err := false |}.
Definition insn_in := {| ev_type := 1; ev_ns := 4294967290; ev_sid := 7; ev_flags := bit_both + bit_insn; ev_known := true; ev_short := false; ev_text := "root"; ev_err := false |}.
Definition insn_out := {| ev_type := 2; ev_ns := 200; ev_sid := 6; ev_flags := bit_both + bit_insn; ev_known := true; ev_short := false; ev_text := "root-"; ev_err := false |}.
Definition insn_evs := [insn_in; entry_event 20 101 "x"; insn_ev 4 true "mov"; exit_event 19 125 "x-"; insn_ev 5 false "?"; insn_ev 14 true "ret"; insn_out].
Example C55_demo : filter (belongs 7) insn_evs = insn_in :: [insn_ev 4 true "mov"; insn_ev 5 false "?"; insn_ev 14 true "ret"] ++ [insn_out] /\
  res_of (run 0 0 insn_evs) = Closed /\ map it_dur (insn_lines 4294967290 [insn_ev 4 true "mov"; insn_ev 5 false "?"; insn_ev 14 true "ret"]) = [Some 10; Some 20].
Proof. repeat split. Qed.
