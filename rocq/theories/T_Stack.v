(** * C69: function stacks. *)
From Coq Require Import List Bool String ZArith Lia.
From Verif Require Import M_Go P_Go M_Flags M_Stack S_Stack P_Stack.
Import ListNotations.
Open Scope list_scope.
Open Scope Z_scope.

(** Every history in which all events are output and no event is recorded while one of the same bucket waits: each event shows its own
    stack, from the frame below the trampoline (everything with -v), and the events come in order. *)
Theorem C69_own_stack_partial : forall hash fname line maxstack verbose flame os,
  ops_ok maxstack os -> ~ In OSkip os -> no_clash hash os [] ->
  let shown := run hash fname line maxstack verbose flame (sys0 maxstack) os in
  map fst shown = handled os [] /\
  Forall (fun r => exists fr, to_show fname verbose (fst r) fr /\ shows line flame fr (snd r)) shown.
Proof.
  intros hash fname line maxstack verbose flame os Hok Hsk Hnc.
  exact (own_stack hash fname line maxstack verbose flame os Hok Hsk Hnc).
Qed.
(** With events that are dropped before output (--filter-delta, unknown sessions): an event shows its own stack or nothing, when stacks
    of the same hash are equal. *)
Theorem C69_own_or_none_partial : forall hash fname line maxstack verbose flame os,
  ops_ok maxstack os -> no_clash hash os [] -> no_collision hash os ->
  let shown := run hash fname line maxstack verbose flame (sys0 maxstack) os in
  map fst shown = handled os [] /\
  Forall (fun r => (exists fr, to_show fname verbose (fst r) fr /\ shows line flame fr (snd r)) \/ snd r = ([], None)) shown.
Proof.
  intros hash fname line maxstack verbose flame os Hok Hnc Hcol.
  exact (own_or_none hash fname line maxstack verbose flame os Hok Hnc Hcol).
Qed.
(** Two calls from the same place, recorded before the first is handled: the second shows no stack, whatever the hash. *)
Theorem C69_second_event_refuted : forall hash fname line maxstack verbose flame s, stack_ok maxstack s ->
  exists out, run hash fname line maxstack verbose flame (sys0 maxstack) [ORec s; ORec s; OHandle; OHandle] = [(s, out); (s, ([], None))].
Proof. intros hash fname line maxstack verbose flame s Hs. exact (second_event hash fname line maxstack verbose flame s Hs). Qed.
(** Three calls: the second shows the stack of the third, and the third shows nothing. *)
Theorem C69_foreign_stack_refuted : forall hash fname line maxstack verbose flame s s',
  stack_ok maxstack s -> stack_ok maxstack s' -> hash s mod 256 = hash s' mod 256 ->
  exists out1 out2 fr, run hash fname line maxstack verbose flame (sys0 maxstack) [ORec s; ORec s; OHandle; ORec s'; OHandle; OHandle] =
      [(s, out1); (s, out2); (s', ([], None))] /\ to_show fname verbose s' fr /\ shows line flame fr out2.
Proof. intros hash fname line maxstack verbose flame s s' Hs Hs' Hh. exact (foreign_stack hash fname line maxstack verbose flame s s' Hs Hs' Hh). Qed.
(** After a dropped event its bucket stays occupied: another stack of the same bucket is never shown. *)
Theorem C69_dropped_event_refuted : forall hash fname line maxstack verbose flame s s', stack_ok maxstack s' ->
  hash s mod 256 = hash s' mod 256 -> hash s <> hash s' -> forall n,
  run hash fname line maxstack verbose flame (sys0 maxstack) (ORec s :: OSkip :: List.concat (repeat [ORec s'; OHandle] n)) =
  repeat (s', ([], None)) n.
Proof. intros hash fname line maxstack verbose flame s s' Hs Hh Hne n. exact (dropped_event hash fname line maxstack verbose flame s s' Hs Hh Hne n). Qed.
(** A stack without trampoline frame (functions traced by kprobe.multi) is never shown without -v. *)
Theorem C69_no_trampoline_refuted : forall hash fname line maxstack flame s, stack_ok maxstack s ->
  (forall x, In x s -> ~ tracing_fn (fname x)) ->
  run hash fname line maxstack false flame (sys0 maxstack) [ORec s; OHandle] = [(s, ([], None))].
Proof. intros hash fname line maxstack flame s Hs Hn. exact (no_trampoline hash fname line maxstack flame s Hs Hn). Qed.

(** A concrete case: two different stacks. *)
Definition ex_fname (a : Z) : string := if a =? 10 then "bpf_prog_x" else if a =? 20 then "bpf_trampoline_1" else if a =? 30 then "ip_rcv" else "netif".
Definition ex_line (sym : bool) (a : Z) : string := if sym then ex_fname a else ("  " ++ ex_fname a)%string.
Definition ex_hash (l : list Z) : Z := fold_right Z.add 0 l.
Example C69_case : let os := [ORec [10; 20; 30; 40]; ORec [10; 20; 30]; OHandle; OHandle] in
  ops_ok 127 os /\ ~ In OSkip os /\ no_clash ex_hash os [] /\ no_collision ex_hash os /\
  run ex_hash ex_fname ex_line 127 false false (sys0 127) os =
    [([10; 20; 30; 40], (["Func stack:"; "  ip_rcv"; "  netif"]%string, None)); ([10; 20; 30], (["Func stack:"; "  ip_rcv"]%string, None))].
Proof.
  intros os. split; [|split; [|split; [|split; [|reflexivity]]]].
  - intros ips H. cbn [os In] in H. destruct H as [H|[H|[H|[H|[]]]]]; try discriminate; injection H as <-; (split; [cbn; lia|]); cbn [In]; lia.
  - intros F. cbn [os In] in F. destruct F as [F|[F|[F|[F|[]]]]]; discriminate.
  - cbn [os no_clash]. split; [intros ? []|]. split; [|exact I]. cbn [app In]. intros s' [<-|[]]. vm_compute. discriminate.
  - intros s s' H H'. cbn [os In] in H, H'. destruct H as [H|[H|[H|[H|[]]]]]; try discriminate; injection H as <-;
      destruct H' as [H'|[H'|[H'|[H'|[]]]]]; try discriminate; injection H' as <-; vm_compute; congruence.
Qed.
Example C69_same_bucket : ex_hash [10; 20; 30] mod 256 = ex_hash [286; 20; 10] mod 256 /\ ex_hash [10; 20; 30] <> ex_hash [286; 20; 10].
Proof. split; [reflexivity|vm_compute; discriminate]. Qed.

Print Assumptions C69_own_stack_partial.
Print Assumptions C69_own_or_none_partial.
Print Assumptions C69_second_event_refuted.
Print Assumptions C69_foreign_stack_refuted.
Print Assumptions C69_dropped_event_refuted.
Print Assumptions C69_no_trampoline_refuted.
