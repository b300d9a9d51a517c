(** * Property theorems C97: entry and exit probes of many tasks running at once. *)
From Coq Require Import ZArith List Bool String Permutation.
From Verif Require Import M_Go M_Sess S_Sess M_Conc S_Conc P_Conc P_Conc2.
Import ListNotations.
Open Scope Z_scope.

(** Whatever the interleaving of the probes' memory accesses, on whatever CPUs, the events are those of a history in which each probe ran
    at one moment; that history has each task's calls and returns in their order (all of them, if no probe was missed). *)
Theorem C97_probes_as_if_atomic : forall tasks prog ls s, workload tasks prog -> reaches tasks prog ls s ->
  c_ring s = ring_map [] (c_log s) /\
  (forall t, exists pre, prog t = pre ++ t_todo (c_task s t) /\ seen pre (of_task t (c_log s))) /\
  (no_misses ls -> forall t, prog t = of_task t (c_log s) ++ t_todo (c_task s t)).
Proof. exact as_if_atomic. Qed.
Print Assumptions C97_probes_as_if_atomic.

(** No probe ever finds its session entry gone: a task that has something left to do can always go on. *)
Theorem C97_probes_never_stuck : forall tasks prog ls s t, workload tasks prog -> reaches tasks prog ls s -> t_todo (c_task s t) <> [] ->
  can_move tasks s t.
Proof. exact never_stuck. Qed.
Print Assumptions C97_probes_never_stuck.

(** When the tasks are through and no probe was missed, what is printed is, up to order, what each task alone would have given: every
    accepted call paired with its own return. *)
Theorem C97_concurrent_tasks_paired_partial : forall tasks prog ls s delta, NoDup tasks -> workload tasks prog -> reaches tasks prog ls s -> no_misses ls -> done s ->
  (forall t, nested no_calls (prog t)) -> (forall t, within_limits no_calls (prog t)) -> fresh_ids no_calls (c_log s) ->
  Permutation (printed delta (c_ring s)) (flat_map (fun t => expected dur32 delta no_calls (prog t)) tasks).
Proof. exact printed_tasks. Qed.
Print Assumptions C97_concurrent_tasks_paired_partial.

Open Scope string_scope.
Definition demo_prog (t : Z) : list action :=
  if (t =? 1)%Z then [Call 1 10 100 0 true "outer in"; Call 1 10 101 10 true "inner in"; Ret 1 10 20 "inner out"; Ret 1 10 30 "outer out"]
  else if (t =? 2)%Z then [Call 2 10 200 5 true "other in"; Ret 2 10 18 "other out"] else [].
Close Scope string_scope.
Definition demo_tasks := [1; 2].
(** Both tasks in the entry program, then both in the exit program, accesses alternating. *)
Definition demo_ls : list clabel :=
  [LStart 1 0; LStart 2 1; LAccess 1; LAccess 2; LAccess 1; LAccess 2; LAccess 2; LAccess 1; LAccess 1; LAccess 2; LAccess 2; LAccess 1;
   LStart 1 1; LAccess 1; LStart 2 1; LAccess 2; LAccess 1; LAccess 2; LAccess 1; LAccess 1; LStart 1 0; LAccess 1; LAccess 2; LAccess 1; LAccess 2; LAccess 1; LAccess 1;
   LStart 1 3; LAccess 1; LAccess 1; LAccess 1; LAccess 1].
Definition demo_end : cstate := match crun demo_tasks (cinit demo_prog) demo_ls with Some s => s | None => cinit demo_prog end.
Lemma demo_only (Q : Z -> list action -> Prop) : Q 1 (demo_prog 1) -> Q 2 (demo_prog 2) -> (forall t, t <> 1 -> t <> 2 -> Q t []) -> forall t, Q t (demo_prog t).
Proof.
  intros H1 H2 H0 t. destruct (Z.eq_dec t 1) as [->|N1]; [exact H1|]. destruct (Z.eq_dec t 2) as [->|N2]; [exact H2|].
  unfold demo_prog. apply Z.eqb_neq in N1, N2. rewrite N1, N2. apply H0; apply Z.eqb_neq; assumption.
Qed.
Example demo_workload : NoDup demo_tasks /\ workload demo_tasks demo_prog.
Proof.
  split; [repeat constructor; cbn; intuition discriminate|]. split.
  - refine (demo_only (fun t l => forall a, In a l -> actor a = t /\ In t demo_tasks) _ _ _); [..|intros t _ _ a []]; cbn; intros a H;
      repeat destruct H as [<-|H]; auto; destruct H.
  - exists [(1, 10); (2, 10)]. split; [reflexivity|].
    refine (demo_only (fun t l => forall a, In a l -> In (t, func a) [(1, 10); (2, 10)]) _ _ _); [..|intros t _ _ a []]; cbn; intros a H;
      repeat destruct H as [<-|H]; auto; destruct H.
Qed.
Example demo_reaches : reaches demo_tasks demo_prog demo_ls demo_end /\ no_misses demo_ls /\ done demo_end.
Proof.
  split; [|split].
  - unfold reaches, demo_end. destruct (crun _ _ _) as [s|] eqn:E; [reflexivity|]. exfalso. vm_compute in E. discriminate.
  - intros t cpu H. unfold demo_ls in H. cbn [In] in H. repeat destruct H as [H|H]; try discriminate; destruct H.
  - assert (He : forall P : cstate -> Prop, (forall s, crun demo_tasks (cinit demo_prog) demo_ls = Some s -> P s) -> P demo_end).
    { intros P H. apply H. unfold demo_end. destruct (crun _ _ _) as [s|] eqn:E; [reflexivity|]. exfalso. vm_compute in E. discriminate. }
    intros t. destruct (Z.eq_dec t 1) as [->|N1]; [vm_compute; reflexivity|]. destruct (Z.eq_dec t 2) as [->|N2]; [vm_compute; reflexivity|].
    destruct (as_if_atomic demo_tasks demo_prog demo_ls demo_end (proj2 demo_workload)) as (_ & Hp & _).
    { unfold reaches, demo_end. destruct (crun _ _ _) as [s|] eqn:E; [reflexivity|]. exfalso. vm_compute in E. discriminate. }
    destruct (Hp t) as (pre & Heq & _). unfold demo_prog in Heq. apply Z.eqb_neq in N1, N2. rewrite N1, N2 in Heq.
    destruct (t_todo (c_task demo_end t)); [reflexivity|]. destruct pre; discriminate.
Qed.
Example demo_good : (forall t, nested no_calls (demo_prog t)) /\ (forall t, within_limits no_calls (demo_prog t)).
Proof.
  split.
  - refine (demo_only (fun t l => nested no_calls l) _ _ _); cbn; auto.
  - assert (Hk : forall t', within_limits no_calls (demo_prog t')); [|exact Hk].
    refine (demo_only (fun t l => within_limits no_calls l) _ _ _); [..|intros; exact I].
    + apply (own_within [(1, 10)]); [reflexivity| | |].
      * cbn. intros a H; repeat destruct H as [<-|H]; auto; destruct H.
      * intros t f H. contradiction H. reflexivity.
      * cbn. repeat split; discriminate.
    + apply (own_within [(2, 10)]); [reflexivity| | |].
      * cbn. intros a H; repeat destruct H as [<-|H]; auto; destruct H.
      * intros t f H. contradiction H. reflexivity.
      * cbn. repeat split; discriminate.
Qed.
Example demo_fresh : fresh_ids no_calls (c_log demo_end).
Proof.
  let l := eval vm_compute in (c_log demo_end) in assert (E : c_log demo_end = l) by (vm_compute; reflexivity); rewrite E; clear E.
  unfold fresh_ids. repeat split.
  all: intros _ (t & fr & Hin & _ & Hid); unfold upds, no_calls in Hin; repeat (destruct (t =? _) in Hin; cbn in Hin; [|]); cbn in Hin;
    repeat (destruct Hin as [<-|Hin]; [discriminate Hid|]); contradiction.
Qed.

(** A task preempted in the middle of a probe keeps the probe from running on that CPU, and the kernel lets the traced call go on without
    it.  Here task 2 is preempted in its exit probe and task 1 returns from its inner call on the same CPU: the exit probe is missed, and the
    outer call's return is then printed with the inner call's entry; the outer call is never printed. *)
Definition miss_ls : list clabel :=
  [LStart 1 0; LAccess 1; LAccess 1; LAccess 1; LAccess 1; LAccess 1; LStart 1 0; LAccess 1; LAccess 1; LAccess 1; LAccess 1;
   LStart 2 0; LAccess 2; LAccess 2; LAccess 2; LAccess 2; LAccess 2; LStart 2 0; LAccess 2; LMissed 1 0; LAccess 2; LAccess 2; LAccess 2;
   LStart 1 0; LAccess 1; LAccess 1; LAccess 1; LAccess 1].
Open Scope string_scope.
Theorem C97_missed_probe_mispairs_refuted : exists s, workload demo_tasks demo_prog /\ reaches demo_tasks demo_prog miss_ls s /\
  t_todo (c_task s 1) = [] /\ t_todo (c_task s 2) = [] /\
  printed 0 (c_ring s) = [[line "other in" None; line "other out" (Some 13)]; [line "inner in" None; line "outer out" (Some 20)]].
Proof.
  destruct (crun demo_tasks (cinit demo_prog) miss_ls) as [s|] eqn:E; [|exfalso; vm_compute in E; discriminate].
  exists s. split; [exact (proj2 demo_workload)|]. split; [exact E|].
  assert (H : option_map (fun s => (t_todo (c_task s 1), t_todo (c_task s 2), printed 0 (c_ring s))) (crun demo_tasks (cinit demo_prog) miss_ls) =
    Some ([], [], [[line "other in" None; line "other out" (Some 13)]; [line "inner in" None; line "outer out" (Some 20)]])) by (vm_compute; reflexivity).
  rewrite E in H. cbn [option_map] in H. injection H as H1 H2 H3. auto.
Qed.
Print Assumptions C97_missed_probe_mispairs_refuted.
Close Scope string_scope.
