(** * Property theorem C45: depth of graph calls. *)
From Coq Require Import ZArith List Bool String.
From Verif Require Import M_Go M_Sess S_Sess M_Fgraph S_Fgraph P_Fgraph.
Import ListNotations.
Open Scope Z_scope.

(** C45. After any history of nested calls within the limits of the session map, a call [cur] of a graph function, whose
    callers are [callers], is reported with the session of the nearest accepted root call among its callers and with its
    distance to that root (1: called by the root), exactly if the distance is at most the maximum depth; calls without such a
    root are not reported.  [shows]: one return site per traced call is on the stack, which fits in STACK_DEPTH entries.
    Missing for the full property: stacks that do not fit, the limits of the session map, fsession roots (below). *)
Theorem C45_graph_depth_partial : forall endbr funcs h t cur callers stack maxd sdepth,
  nested no_calls h -> fresh_ids no_calls h -> within_limits no_calls h ->
  stacks_after no_calls h t = cur :: callers -> f_pass cur = false ->
  (forall f, In f funcs -> 0 < f < 2 ^ 64) -> shows endbr funcs stack (map f_func (cur :: callers)) ->
  Z.of_nat (List.length stack) <= sdepth -> 1 <= maxd ->
  let r := try_get_session (tracee_ips endbr funcs) (smap_after [] h) (f_func cur) maxd sdepth t stack in
  match root_below callers 1 with
  | Some (fr, d) => if d <=? maxd then r = (f_sid fr, d) else fst r = 0
  | None => fst r = 0
  end.
Proof. exact graph_depth. Qed.
Print Assumptions C45_graph_depth_partial.

(** root 4096 (accepted, session 77) -> 8192 -> 12288; the call of 12288 is at depth 2. *)
Definition h_graph : list action := [Call 1 4096 77 0 true EmptyString; Call 1 8192 78 1 false EmptyString; Call 1 12288 79 2 false EmptyString].
Example C45_demo_history : nested no_calls h_graph /\ fresh_ids no_calls h_graph /\ within_limits no_calls h_graph.
Proof.
  split; [cbn; auto|]. split.
  - cbn. repeat split; try discriminate. intros _ (t & fr & [] & _).
  - unfold h_graph, within_limits. repeat split; try discriminate. exists []. split; [reflexivity|]. intros t f Hx. exfalso. apply Hx. reflexivity.
Qed.
Example C45_demo_stack : map f_func (stacks_after no_calls h_graph 1) = [12288; 8192; 4096] /\
  shows true [4096; 8192; 12288] [1; 12297; 2; 8201; 3; 4105; 4] [12288; 8192; 4096] /\
  try_get_session (tracee_ips true [4096; 8192; 12288]) (smap_after [] h_graph) 12288 5 127 1 [1; 12297; 2; 8201; 3; 4105; 4] = (77, 2).
Proof.
  split; [reflexivity|]. split; [|vm_compute; reflexivity].
  repeat first [apply shows_nil | apply shows_traced; [cbn; auto|reflexivity|] |
    apply shows_other; [cbn; intros f Hf; repeat destruct Hf as [<-|Hf]; discriminate || contradiction|]].
Qed.

(** Refuted when the roots are traced with fsession programs, as on kernels that have them: no call is ever reported. *)
Theorem C45_fsession_roots_refuted : forall ips h cur maxd sdepth t stack,
  fst (try_get_session ips (smap_after_fsession [] h) cur maxd sdepth t stack) = 0.
Proof. exact fsession_none. Qed.
Print Assumptions C45_fsession_roots_refuted.

(** Refuted for deep stacks: the same call is not reported when the root's return site lies beyond STACK_DEPTH entries. *)
Theorem C45_deep_stack_refuted :
  try_get_session (tracee_ips true [4096; 8192; 12288]) (smap_after [] h_graph) 12288 5 127 1 ([1; 12297; 2; 8201] ++ repeat 3 123 ++ [4105; 4]) = (0, 2).
Proof. vm_compute. reflexivity. Qed.
Print Assumptions C45_deep_stack_refuted.
