(** * Properties C37 (configuration bits) and C53 (event records). *)
From Coq Require Import ZArith List Bool String Lia.
From Verif Require Import M_Go M_Cfg S_Cfg P_Cfg.
Import ListNotations.
Open Scope Z_scope.

(** ** C37: what the BPF program reads from the bytes Go wrote. *)
Theorem C37_flags_mean_the_same : forall pid c, fits pid -> cfg_ok c ->
  forall name v, In (name, v) (flags_table c) -> cflag name (cc_flags (c_config (go_cfg_bytes pid c))) = v.
Proof.
  intros pid c Hp [A B C D E] name v H. rewrite c_config_go by assumption. apply flags_ok. exact H.
Qed.
Print Assumptions C37_flags_mean_the_same.
Theorem C37_sizes_mean_the_same : forall pid c, fits pid -> cfg_ok c -> let k := c_config (go_cfg_bytes pid c) in
  cc_pid k = pid /\ cc_nr k = tc_nr c /\ cc_ret k = tc_ret c /\ cc_buf k = tc_buf c /\ cc_dsz k = tc_data c /\
  cc_en k = tc_en c /\ cc_ex k = tc_ex c /\ cc_data k = tc_data c.
Proof. intros pid c Hp [A B C D E]. cbv zeta. rewrite c_config_go by assumption. repeat split. Qed.
Print Assumptions C37_sizes_mean_the_same.
(** Every bit the BPF side declares is one of the options, and distinct names are distinct bits. *)
Theorem C37_table_is_complete : forall c, map fst (flags_table c) = c_bits /\ NoDup c_bits.
Proof.
  intros c. split; [reflexivity|]. unfold c_bits. repeat constructor; cbn; intuition discriminate.
Qed.
Print Assumptions C37_table_is_complete.
(** Flags read back from an event by Go are the ones put into it (events carry the same word). *)
Theorem C37_event_flag_masks : forall f i, 0 <= i -> have_flag f i = Z.testbit f i.
Proof. exact have_flag_bit. Qed.
Print Assumptions C37_event_flag_masks.

(** ** C53: event records.  For every kernel function or BPF program (fentry/fexit/fsession/tracepoint) ... *)
Theorem C53_function_records_decode : forall hasfs modeexit f c pid is_return p,
  In c (trace_fn hasfs modeexit f) -> fits pid -> cfg_ok c -> probe_ok c p ->
  exists e sec, go_handle (emit false (c_config (go_cfg_bytes pid c)) is_return p) = Some (Some (e, sec)) /\
    e_type e = (if exits c is_return then 2 else 1) /\ (e_type e = 2 -> tc_buf c = f_buf f true) /\
    e_ts e = pr_ts p mod 2 ^ 32 /\ e_sess e = pr_sess p /\ e_ip e = pr_ip p /\ e_cpu e = pr_cpu p /\ e_pid e = pr_pid p /\ e_comm e = pr_comm p /\
    s_args sec = (if tc_buf c =? 0 then None else Some (pr_args p)) /\
    s_pkt sec = (if f_pkt f then Some (pr_pkt p) else None) /\
    s_data sec = (if f_data f =? 0 then None else Some (pr_data p)).
Proof.
  intros hasfs modeexit f c pid is_return p Hin Hpid Hc Hp.
  destruct (trace_fn_sizes hasfs modeexit f c is_return Hin) as (Hsz & Hret & Hbuf & _).
  destruct (emit_handled false pid c is_return p Hpid Hc Hp Hsz) as (e & sec & E & Ht & Hts & Hss & Hip & Hcpu & Hpd & Hcm & _ & _ & _ & _ & Ha & Hk & Hd).
  assert (Hf : tc_pkt c = f_pkt f /\ tc_data c = f_data f).
  { revert Hin. unfold trace_fn. destruct (f_tp f), (f_insn f || f_graph f || f_both f), hasfs; cbn [In]; intros H; repeat destruct H as [<-|H]; try destruct H; auto. }
  destruct Hf as [Hf1 Hf2]. cbn [andb negb] in *. rewrite andb_true_r, Hf1 in Hk. rewrite orb_false_r, Hf2 in Hd.
  exists e, sec. split; [exact E|]. split; [exact Ht|].
  split. { intros H2. rewrite Ht in H2. destruct (exits c is_return); [|discriminate]. rewrite Hbuf, Hret by reflexivity. reflexivity. }
  repeat (split; [assumption|]). exact Hd.
Qed.
Print Assumptions C53_function_records_decode.
(** ... and for every kprobe.multi function; there exits of a both-mode probe carry neither packet nor expressions. *)
Theorem C53_multi_records_decode : forall maxargs hassess modeexit f c pid is_return p,
  In c (trace_kmulti maxargs hassess modeexit f) -> fits pid -> cfg_ok c -> probe_ok c p ->
  exists e sec, go_handle (emit true (c_config (go_cfg_bytes pid c)) is_return p) = Some (Some (e, sec)) /\
    e_type e = (if exits c is_return then 2 else 1) /\ (e_type e = 2 -> tc_buf c = 8 * maxargs + 8) /\
    e_ts e = pr_ts p mod 2 ^ 32 /\ e_sess e = pr_sess p /\ e_ip e = pr_ip p /\ e_cpu e = pr_cpu p /\ e_pid e = pr_pid p /\ e_comm e = pr_comm p /\
    s_args sec = (if tc_buf c =? 0 then None else Some (pr_args p)) /\
    s_pkt sec = (if f_pkt f && negb (exits c is_return) then Some (pr_pkt p) else None) /\
    s_data sec = (if (f_data f =? 0) || exits c is_return then None else Some (pr_data p)).
Proof.
  intros maxargs hassess modeexit f c pid is_return p Hin Hpid Hc Hp.
  destruct (trace_kmulti_sizes maxargs hassess modeexit f c is_return Hin) as (Hsz & Hret & Hbuf).
  destruct (emit_handled true pid c is_return p Hpid Hc Hp Hsz) as (e & sec & E & Ht & Hts & Hss & Hip & Hcpu & Hpd & Hcm & _ & _ & _ & _ & Ha & Hk & Hd).
  exists e, sec. split; [exact E|]. split; [exact Ht|].
  split. { intros H2. rewrite Ht in H2. destruct (exits c is_return); [|discriminate]. rewrite Hbuf, Hret by reflexivity. reflexivity. }
  repeat (split; [assumption|]).
  cbn [andb] in Hk, Hd. rewrite Hk, Hd. clear - Hin. revert Hin. unfold trace_kmulti.
  destruct (f_both f) eqn:Eb, hassess; cbn [andb In]; intros H; repeat destruct H as [<-|H]; try destruct H;
    unfold trace_kmulti_one, exits; cbn; rewrite ?Eb; cbn; destruct modeexit; cbn; destruct is_return, (f_pkt f), (f_data f =? 0); cbn; auto.
Qed.
Print Assumptions C53_multi_records_decode.
(** Branch records and stacks: present in the record exactly when asked for; with both probes, branches only at the entry. *)
Theorem C53_lbr_and_stack : forall kmulti pid c is_return p, fits pid -> cfg_ok c -> probe_ok c p ->
  (if exits c is_return then tc_ex c else tc_en c) = tc_buf c ->
  exists e sec, go_handle (emit kmulti (c_config (go_cfg_bytes pid c)) is_return p) = Some (Some (e, sec)) /\
    have_flag (e_flags e) 0 = tc_lbr c && negb (tc_both c && exits c is_return) /\
    e_lbr e = (if have_flag (e_flags e) 0 then pr_lbr p else 0) /\
    have_flag (e_flags e) 1 = tc_stack c /\ e_stack e = (if tc_stack c then pr_stackid p else 2 ^ 64 - 1).
Proof.
  intros kmulti pid c is_return p Hpid Hc Hp Hsz.
  destruct (emit_handled kmulti pid c is_return p Hpid Hc Hp Hsz) as (e & sec & E & _ & _ & _ & _ & _ & _ & _ & Hst & Hl & Hf0 & Hf1 & _).
  exists e, sec. rewrite Hf0. auto.
Qed.
Print Assumptions C53_lbr_and_stack.

(** Which probes there are.  A tracepoint has one, without result, pairing or session.  A function has one probe at the place asked for;
    or, when both ends are to be shown, one of a session if the kernel has such, else one at the entry and one at the exit. *)
Theorem C53_probes : forall hasfs modeexit f, map (fun c => (tc_ret c, tc_both c, tc_sess c)) (trace_fn hasfs modeexit f) =
  if f_tp f then [(false, false, false)]
  else if f_insn f || f_graph f || f_both f then (if hasfs then [(true, true, true)] else [(false, true, false); (true, true, false)])
  else [(modeexit, false, false)].
Proof. intros hasfs modeexit f. unfold trace_fn, trace_one. destruct (f_tp f), (f_insn f || f_graph f || f_both f), hasfs; reflexivity. Qed.
Print Assumptions C53_probes.
Theorem C53_multi_probes : forall maxargs hassess modeexit f, map (fun c => (tc_ret c, tc_both c, tc_sess c)) (trace_kmulti maxargs hassess modeexit f) =
  if f_both f then (if hassess then [(true, true, true)] else [(false, true, false); (true, true, false)])
  else [(modeexit, false, false)].
Proof. intros maxargs hassess modeexit f. unfold trace_kmulti, trace_kmulti_one. destruct (f_both f) eqn:E, hassess; cbn; rewrite ?E; reflexivity. Qed.
Print Assumptions C53_multi_probes.
(** What was asked for is in every configuration: branches, packet, instructions, graph, and of what kind the target is; the stack too,
    but for the entry probe when there are two. *)
Theorem C53_probes_say_what_was_asked : forall hasfs modeexit f c, In c (trace_fn hasfs modeexit f) ->
  (tc_ip c, tc_nr c, tc_data c) = (f_ip f, f_nr f, f_data f) /\
  (tc_lbr c, tc_pkt c, tc_insn c, tc_graph c) = (f_lbr f, f_pkt f, f_insn f, f_graph f) /\
  tc_stack c = f_stack f && negb (tc_both c && negb (tc_ret c)) /\
  (tc_tp c, tc_prog c, tc_kmulti c) = (f_tp f, f_prog f, false).
Proof.
  intros hasfs modeexit f c. unfold trace_fn. destruct (f_tp f) eqn:Et, (f_insn f || f_graph f || f_both f), hasfs; cbn [In]; intros H;
    repeat destruct H as [<-|H]; try destruct H; cbn; rewrite ?Et; cbn; repeat split; rewrite ?andb_true_r, ?andb_false_r; try reflexivity.
Qed.
Print Assumptions C53_probes_say_what_was_asked.
Theorem C53_multi_probes_say_what_was_asked : forall maxargs hassess modeexit f c, In c (trace_kmulti maxargs hassess modeexit f) ->
  (tc_ip c, tc_nr c) = (0, maxargs) /\ (tc_lbr c, tc_stack c, tc_insn c, tc_graph c) = (f_lbr f, f_stack f, false, f_graph f) /\
  (tc_tp c, tc_prog c, tc_kmulti c) = (false, false, true).
Proof.
  intros maxargs hassess modeexit f c. unfold trace_kmulti. destruct (f_both f), hassess; cbn [andb In]; intros H;
    repeat destruct H as [<-|H]; try destruct H; repeat split; reflexivity.
Qed.
Print Assumptions C53_multi_probes_say_what_was_asked.

(** A function with 24 bytes of arguments (32 with the result), packet output and 9 bytes of expression data, both probes, no fsession. *)
Definition demo_fn : fn := {| f_ip := 2 ^ 63; f_nr := 3; f_buf := fun r => if r then 32 else 24; f_data := 9; f_lbr := true; f_stack := true; f_pkt := true;
  f_insn := false; f_graph := false; f_both := true; f_tp := false; f_prog := false |}.
Definition demo_probe (n : nat) : probe := {| pr_ts := 2 ^ 32 + 5; pr_sess := 77; pr_ip := 2 ^ 63; pr_cpu := 3; pr_pid := 42; pr_comm := repeat 65 16; pr_stackid := 8;
  pr_lbr := 24; pr_args := repeat 1 n; pr_pkt := repeat 2 16; pr_data := repeat 3 9; pr_junk := 255 |}.
Example C53_hypotheses_met : forall c, In c (trace_fn false true demo_fn) -> cfg_ok c /\ probe_ok c (demo_probe (Z.to_nat (tc_buf c))).
Proof.
  intros c H. repeat destruct H as [<-|H]; try destruct H; (split; [split; vm_compute; split; congruence|split; vm_compute; try reflexivity; split; congruence]).
Qed.
Example C53_demo : map (fun c => match go_handle (emit false (c_config (go_cfg_bytes 0 c)) false (demo_probe (Z.to_nat (tc_buf c)))) with
    | Some (Some (e, s)) => (e_type e, e_ts e, s_args s, s_pkt s, s_data s) | _ => (0, 0, None, None, None) end) (trace_fn false true demo_fn) =
  [(1, 5, Some (repeat 1 24), Some (repeat 2 16), Some (repeat 3 9)); (2, 5, Some (repeat 1 32), Some (repeat 2 16), Some (repeat 3 9))].
Proof. vm_compute. reflexivity. Qed.
