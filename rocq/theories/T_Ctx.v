(** * Property theorems C96: execution contexts that share a process id. *)
From Coq Require Import ZArith List Bool String.
From Verif Require Import M_Go M_Sess S_Sess P_Sess2 S_Ctx P_Ctx.
Import ListNotations.
Open Scope Z_scope.

(** Threads have ids of their own: entries and exits are paired whatever the ids. *)
Theorem C96_distinct_ids_paired : forall pid delta h, nested no_calls h -> fresh_ids no_calls h -> within_limits no_calls h ->
  (forall a b, In a h -> In b h -> pid (context a) = pid (context b) -> context a = context b) ->
  printed delta (ring_map [] (as_seen pid h)) = expected dur32 delta no_calls h.
Proof. exact own_ids. Qed.
Print Assumptions C96_distinct_ids_paired.

(** Contexts that share an id: enough that two of them are not inside the same traced function at once. *)
Theorem C96_shared_id_paired_partial : forall pid delta h, nested no_calls h -> fresh_ids no_calls h -> within_limits no_calls h ->
  apart pid no_calls h ->
  printed delta (ring_map [] (as_seen pid h)) = expected dur32 delta no_calls h.
Proof. exact pid_pairs. Qed.
Print Assumptions C96_shared_id_paired_partial.

Open Scope string_scope.
(** CPUs 1 and 2 are idle (id 0), context 3 is a thread. *)
Definition idle_pid (c : Z) : Z := if Z.eqb c 3 then 77 else 0.
Definition h_apart : list action :=
  [Call 1 10 100 0 true "a"; Call 2 11 200 1 true "b"; Call 3 10 300 2 true "c"; Ret 1 10 3 "a-"; Call 2 10 201 4 true "d"; Ret 2 10 5 "d-"; Ret 2 11 6 "b-"; Ret 3 10 7 "c-"].
Definition h_idle : list action := [Call 1 10 100 0 true "cpu1 in"; Call 2 10 200 5 true "cpu2 in"; Ret 1 10 20 "cpu1 out"; Ret 2 10 40 "cpu2 out"].
Close Scope string_scope.
Example h_apart_ok : nested no_calls h_apart /\ apart idle_pid no_calls h_apart /\ ~ (forall a b, In a h_apart -> In b h_apart -> idle_pid (context a) = idle_pid (context b) -> context a = context b).
Proof.
  split; [cbn; repeat split; discriminate|]. split.
  - unfold h_apart, apart, others_out. repeat split; first [intros _ c' Hne He|intros c' Hne He]; unfold open_calls, upds, no_calls; cbn.
    all: repeat (match goal with |- context [Z.eqb ?x ?k] => is_var x; destruct (Z.eqb_spec x k) as [->|] end; cbn); try reflexivity; try contradiction; try (match goal with H : idle_pid _ = idle_pid _ |- _ => discriminate H end).
  - intros H. specialize (H (Call 1 10 100 0 true "a"%string) (Call 2 11 200 1 true "b"%string)). cbn in H. discriminate H; auto.
Qed.

(** All idle CPUs have id 0: two of them inside the same function at once exchange their sessions, and the calls are printed with each
    other's ends (and so with wrong durations). *)
Theorem C96_idle_cpus_mispaired_refuted :
  nested no_calls h_idle /\ fresh_ids no_calls h_idle /\ within_limits no_calls h_idle /\
  expected dur32 0 no_calls h_idle = [[line "cpu1 in"%string None; line "cpu1 out"%string (Some 20)]; [line "cpu2 in"%string None; line "cpu2 out"%string (Some 35)]] /\
  printed 0 (ring_map [] (as_seen idle_pid h_idle)) = [[line "cpu2 in"%string None; line "cpu1 out"%string (Some 15)]; [line "cpu1 in"%string None; line "cpu2 out"%string (Some 40)]].
Proof.
  split; [cbn; repeat split; discriminate|]. split; [|split; [|split; vm_compute; reflexivity]].
  - unfold h_idle, fresh_ids. repeat split.
    all: intros _ (t & fr & Hin & _ & Hid); unfold upds, no_calls in Hin; repeat (destruct (t =? _) in Hin; cbn in Hin; [|]); cbn in Hin;
      repeat (destruct Hin as [<-|Hin]; [discriminate Hid|]); contradiction.
  - unfold h_idle, within_limits. repeat split; try discriminate.
    all: exists [(1, 10); (2, 10)]; split; [reflexivity|]; intros t' f'; unfold open_calls, upds, no_calls;
      (destruct (Z.eqb_spec t' 1) as [->|]; [|destruct (Z.eqb_spec t' 2) as [->|]]); cbn; try congruence;
      (destruct (Z.eq_dec f' 10) as [->|Hf]; [auto|]); intros Hx; exfalso; apply Hx; destruct f' as [|q|q]; try reflexivity;
      destruct (Pos.eqb_spec 10 q); try reflexivity; congruence.
Qed.
Print Assumptions C96_idle_cpus_mispaired_refuted.
(** With session programs (cookie) the same history is paired right. *)
Theorem C96_idle_cpus_paired_fsession : forall delta h, nested no_calls h -> fresh_ids no_calls h ->
  printed delta (ring_cookie (fun _ => []) h) = expected dur32 delta no_calls h.
Proof. exact cookie_mode_pairs. Qed.
Print Assumptions C96_idle_cpus_paired_fsession.
