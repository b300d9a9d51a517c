(** * Property C89: exactly the calls asked for are reported. *)
From Coq Require Import ZArith List Bool String Lia.
From Verif Require Import M_Go M_Sess S_Sess P_Sess M_Emit S_Emit P_Emit.
Import ListNotations.
Open Scope Z_scope.

(** C89 (entries only, exits only).  For every history: one event for each call (return) that happens after tracing began, in a process other than
    bpfsnoop's, in the process of --pid if given, and that the filters accept - in order, and no other event. *)
Theorem C89_single_mode : forall c exits h,
  map (fun e => (ev_ns e, ev_text e)) (sent_single c exits false h) = singles c exits false h /\
  Forall (fun e => ev_type e = if exits then 2 else 1) (sent_single c exits false h).
Proof. intros c exits h. exact (sent_single_ok c exits h false). Qed.
Print Assumptions C89_single_mode.
Theorem C89_wanted : forall c t, wantedb c t = true <-> wanted c t.
Proof. exact wantedb_ok. Qed.
Print Assumptions C89_wanted.
(** C89 (entry and exit, session program): for every properly nested history the user sees the pairs of exactly the accepted calls that return, also when
    tracing begins while calls are in progress: these are not reported, and do not disturb others. *)
Theorem C89_session_mode : forall c delta h, let a := calls_of c false h in nested no_calls a -> fresh_ids no_calls a ->
  printed delta (sent_cookie c false (fun _ => []) h) = expected dur32 delta no_calls a.
Proof. exact cookie_printed. Qed.
Print Assumptions C89_session_mode.
(** C89 (entry and exit, two programs), within the limits of the session map (C21): as above. *)
Theorem C89_two_programs_partial : forall c delta h, no_insns h -> let a := calls_of c false h in
  nested no_calls a -> fresh_ids no_calls a -> within_limits no_calls a ->
  printed delta (sent_map c false [] h) = expected dur32 delta no_calls a.
Proof. exact both_printed. Qed.
Print Assumptions C89_two_programs_partial.
(** C89 (instructions): an instruction is reported exactly when it runs inside an accepted call of its function by the same task, with the innermost
    such call's session, and instruction probes do not change what is sent about calls. *)
Theorem C89_instructions_partial : forall c h, let a := calls_of c false h in nested no_calls a -> fresh_ids no_calls a -> within_limits no_calls a ->
  insn_part (sent_map c false [] h) = insns_of c false no_calls h /\
  filter (fun e => negb (ev_type e =? 3)) (sent_map c false [] h) = ring_map [] a.
Proof.
  intros c h a H1 H2 H3. destruct (sent_map_ok c h false [] no_calls minv_init) as [E1 E2]; try assumption; try (intros; exact I); try (intros ? ? []).
  split; [exact E2|]. fold a in E1. change (filter _ (sent_map c false [] h)) with (rest_part (sent_map c false [] h)). rewrite E1. symmetry.
  apply ring_map_spec; try assumption; [apply minv_init|intros; exact I|intros ? ? []].
Qed.
Print Assumptions C89_instructions_partial.
(** Refuted where the kernel has session programs (fsession): the session is kept in the kernel's cell, the instruction probes look into the map - no
    instruction is ever reported. *)
Theorem C89_no_instructions_refuted : forall c h r ck, insn_part (sent_cookie c r ck h) = [].
Proof.
  intros c h. induction h as [|[|t f sid ns fa fp txt|t f ns fa fp txt|t f ns txt] h IH]; intros r ck; [reflexivity|..]; cbn [sent_cookie].
  - apply IH.
  - destruct (if r && pid_pass c t then _ else _) as [v o]. rewrite insn_app, IH. destruct o; reflexivity.
  - destruct (ck t) as [|v l]; [apply IH|]. rewrite insn_app, IH. destruct (r && pid_pass c t); [|reflexivity]. destruct (exit_cookie v); reflexivity.
  - rewrite insn_app, IH. destruct r; reflexivity.
Qed.
Print Assumptions C89_no_instructions_refuted.

(** bpfsnoop is process 9, --pid 5.  Process 5 is inside f (4096) when tracing begins; then it recurses, a filter rejects a call, process 6 calls. *)
Definition tk (p : Z) : Z := p * 2 ^ 32 + p.
Definition ec : ecfg := {| own_pid := 9; want_pid := 5 |}.
Open Scope string_scope.
Definition eh (insns : bool) : list fire :=
  [FCall (tk 5) 4096 70 1 true true "early"; FReady; FCall (tk 5) 4096 71 2 true true "in"; FCall (tk 6) 4096 72 3 true true "other"; FCall (tk 9) 4096 73 4 true true "own"] ++
  (if insns then [FInsn (tk 5) 4096 5 "mov"; FInsn (tk 6) 4096 5 "mov6"] else []) ++
  [FRet (tk 6) 4096 6 true true "other out"; FRet (tk 5) 4096 7 true true "out"; FCall (tk 5) 8192 74 8 false true "rejected"; FRet (tk 5) 8192 9 true true "rej out";
   FRet (tk 5) 4096 10 true true "early out"; FRet (tk 9) 4096 11 true true "own out"].
Example demo_C89 : let a := calls_of ec false (eh true) in nested no_calls a /\ fresh_ids no_calls a /\ within_limits no_calls a /\
  calls_of ec false (eh false) = a /\
  expected dur32 0 no_calls a = [[line "in" None; line "out" (Some 5)]] /\ insns_of ec false no_calls (eh true) = [(71, 5, "mov")] /\
  singles ec false false (eh true) = [(2, "in")] /\ singles ec true false (eh true) = [(7, "out"); (9, "rej out"); (10, "early out")].
Proof.
  intros a. split; [vm_compute; tauto|]. split.
  - cbn. unfold tk. repeat split; try lia; try discriminate. intros _ (t & fr & Hin & Hp & _). unfold upds, no_calls in Hin. destruct (Z.eqb t _); [|contradiction].
    cbn in Hin. destruct Hin as [<-|[]]. discriminate.
  - split; [|vm_compute; repeat split].
    assert (K : forall st t f, open_calls st t f = [] -> (forall t' f', open_calls st t' f' <> [] -> False) ->
      (Z.of_nat (List.length (open_calls st t f)) < 64)%Z /\ exists ks, (Z.of_nat (List.length ks) < 65536)%Z /\ forall t' f', open_calls st t' f' <> [] -> In (t', f') ks).
    { intros st t f E N. rewrite E. split; [reflexivity|]. exists []. split; [reflexivity|]. intros t' f' H. exact (N t' f' H). }
    cbn [a eh app calls_of within_limits]. change (wantedb ec (tk 5)) with true. change (wantedb ec (tk 6)) with false. change (wantedb ec (tk 9)) with false. cbn [andb].
    repeat split; try discriminate; try (vm_compute; reflexivity).
    exists []. split; [reflexivity|]. intros t' f' HH. exfalso. apply HH. unfold open_calls, upds, no_calls. destruct (Z.eqb t' _); [|reflexivity]. cbn [filter f_func f_pass]. rewrite andb_false_r. reflexivity.
Qed.
