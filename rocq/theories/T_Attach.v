(** * C92: attaching the probes (bpf_tracing.go: NewBPFTracing, HaveTracing, Close) *)
From Coq Require Import List Bool String PeanoNat.
From Verif Require Import M_Attach S_Attach P_Attach.
Import ListNotations.

(** When the attaching is reported as a success - whatever the order of the goroutines and whatever the kernel answered -
    - the probes that are live are exactly those whose attachment the kernel accepted, each once, and no other program is left open;
    - every probe that the command line asks for is live, or was refused for a reason that is tolerated for its kind;
    - every live probe is one that the command line asks for;
    - nothing failed for another reason. *)
Theorem C92_success : forall c s, reached c s -> pc s = MReturned true ->
  (forall x, In x (links s) <-> attached s x) /\ (forall x, In x (opened s) <-> In x (links s)) /\ NoDup (links s) /\
  (forall k t p, wanted c k t p -> exists x, is_probe c x k t p /\ (In x (links s) \/ exists att e, refused s x att e /\ tolerable k att e)) /\
  (forall x, In x (links s) -> exists k t p, wanted c k t p /\ is_probe c x k t p) /\
  (forall x, ~ real c s x).
Proof. exact success. Qed.
Print Assumptions C92_success.
(** ... and if the kernel refused nothing, the live probes are the wanted ones. *)
Theorem C92_nothing_refused : forall c s, reached c s -> pc s = MReturned true -> (forall x att e, ~ refused s x att e) ->
  forall k t p, wanted c k t p <-> exists x, In x (links s) /\ is_probe c x k t p.
Proof. exact all_yes. Qed.
Print Assumptions C92_nothing_refused.
(** bpfsnoop goes on to trace exactly if a probe is live. *)
Theorem C92_have_tracing : forall c s, reached c s -> pc s = MReturned true -> (have_tracing s = true <-> links s <> []).
Proof. exact have. Qed.
Print Assumptions C92_have_tracing.
(** When the goroutines' failure is reported, nothing is left behind: no link, no program, no goroutine that could still act; and there was a reason - a probe failed for a reason that is not tolerated, or the maps of the
    call graphs could not be made or filled. *)
Theorem C92_failure : forall c ls s ok s', run c ls (init c) = Some s -> pc s = MWait -> step c s (LMain ok) = Some s' -> pc s' = MReturned false ->
  links s' = [] /\ opened s' = [] /\ (forall l, step c s' l = None) /\ ((exists x, real c s x) \/ In (LGraph false) ls).
Proof. exact failure. Qed.
Print Assumptions C92_failure.
(** The attaching ends: no execution takes more steps than this, and one that has not returned can go on. *)
Theorem C92_terminates : forall c ls s, run c ls (init c) = Some s ->
  List.length ls <= 7 + 3 * fold_right plus 0 (map (fun j => List.length (j_probes j)) (jobs c)) /\
  ((forall ok, pc s <> MReturned ok) -> exists l s', step c s l = Some s').
Proof.
  intros c ls s H. split.
  - pose proof (bounded c ls s H) as B. rewrite weight_init in B. unfold sum in B. apply (Nat.le_trans _ _ _ (Nat.le_add_r _ _) B).
  - intro P. apply progress; [exists ls|]; auto.
Qed.
Print Assumptions C92_terminates.
(** "A success means that a function asked for at both ends is seen at both ends, or not at all": false - where the kernel has no fsession, the two probes are tolerated to fail one by one. *)
Theorem C92_both_ends_refuted : exists c ls s, run c ls (init c) = Some s /\ pc s = MReturned true /\ links s = [(0, 0)] /\ is_probe c (0, 0) KFn "do_exit" PEntry /\
  wanted c KFn "do_exit" PExit /\ (forall x, In x (links s) -> ~ is_probe c x KFn "do_exit" PExit).
Proof. destruct half as [s H]. exists half_cfg, half_run, s. exact H. Qed.
Print Assumptions C92_both_ends_refuted.
(** "An error means that nothing is left attached": false of the errors before the waiting - the list of symbols for kprobe.multi, which is read even if no such probe is asked for, cannot be read: the probes of
    the goroutines that ran already stay attached (until the process exits, which is what main does next). *)
Theorem C92_error_detaches_refuted : exists c ls s, run c ls (init c) = Some s /\ pc s = MReturned false /\ links s = [(0, 0)] /\ c_multi c = [].
Proof. destruct leak as [s H]. exists leak_cfg, [LMain true; LJob 0 AOk; LJob 0 AOk; LMain false], s. exact H. Qed.
Print Assumptions C92_error_detaches_refuted.

(** A case: a function at both ends without fsession, a BPF function, a group of two symbols at both ends, an instruction and a graph with its root; the instruction is refused with a tolerated error; the goroutines are interleaved. *)
Definition ex_cfg : cfg := {| c_fsession := false; c_ksession := false; c_exit := true;
  c_progs := [{| a_target := "xdp_main"; a_tp := false; a_insn := false; a_graph := false; a_both := false |}];
  c_fns := [{| a_target := "tcp_connect"; a_tp := false; a_insn := false; a_graph := true; a_both := false |}];
  c_multi := [("ip_rcv,ip6_rcv"%string, true)]; c_insns := ["tcp_connect+8"%string]; c_graphs := [("tcp_connect"%string, true); ("tcp_v4_connect"%string, false)] |}.
Definition ex_run : list label :=
  [LMain true; LJob 1 AOk; LJob 0 AOk; LJob 1 AOk; LMain true; LJob 3 AOk; LMain true; LMain true; LJob 4 AOk; LGraph true; LJob 5 AOk; LJob 2 AOk; LJob 3 AOk; LJob 3 AOk; LJob 3 AOk;
   LJob 4 (AErr [ENOENT]); LJob 6 AOk; LJob 6 AOk; LJob 5 AOk; LJob 5 AOk; LJob 6 AOk; LGraph true; LJob 1 AOk; LJob 0 AOk; LJob 0 AOk; LJob 2 AOk; LJob 2 AOk; LJob 3 AOk; LJob 3 AOk; LMain true].
Example C92_ex : exists s, run ex_cfg ex_run (init ex_cfg) = Some s /\ pc s = MReturned true /\ have_tracing s = true /\
  links s = [(1, 0); (3, 0); (6, 0); (5, 0); (0, 0); (2, 0); (3, 1)].
Proof. eexists. vm_compute. auto. Qed.
(** ... and one in which the second probe of the group fails for good: it ends with nothing attached. *)
Definition ex_bad : list label :=
  [LMain true; LJob 1 AOk; LJob 0 AOk; LJob 1 AOk; LMain true; LJob 3 AOk; LMain true; LMain true; LJob 4 AOk; LGraph true; LJob 5 AOk; LJob 2 AOk; LJob 3 AOk; LJob 3 AOk; LJob 3 (AErr [EINVAL]);
   LJob 4 (AErr [ENOENT]); LJob 6 AOk; LJob 6 AOk; LJob 5 AOk; LJob 5 AOk; LJob 6 AOk; LGraph true; LJob 1 AOk; LJob 0 AOk; LJob 0 AOk; LJob 2 AOk; LJob 2 AOk].
Example C92_ex_bad : exists s, run ex_cfg ex_bad (init ex_cfg) = Some s /\ pc s = MWait /\ links s = [(1, 0); (3, 0); (6, 0); (5, 0); (0, 0); (2, 0)] /\
  exists s', step ex_cfg s (LMain true) = Some s' /\ pc s' = MReturned false.
Proof. eexists. vm_compute. eauto 8. Qed.
