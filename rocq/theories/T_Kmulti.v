(** * Property C103: the values shown with an event of kprobe.multi tracing; and C66 there. *)
From Coq Require Import List Bool ZArith String Lia.
From Verif Require Import M_Go M_Ebpf M_FnArgs S_FnArgs M_Multi S_Multi M_Kmulti P_Kmulti T_FnArgs T_Multi.
Import ListNotations.
Open Scope Z_scope.

(** C103.  For every link that multi-mode tracing attaches, every call and every event of it: an entry event shows the registers with which the
    function was called, an exit event its return value.
    Missing: the arguments in exit events (refuted below). *)
Theorem C103_values_shown_partial : forall (I : Type) (compile : string -> list string -> option I) args outs has_session mode_exit avail fns ls a call ev maxargs nparams m s buf c size,
  trace_multi compile args outs has_session mode_exit avail fns = Some ls -> In a ls -> In ev (link_events a call) ->
  List.length (kc_in call) = maxargs -> List.length (kc_out call) = maxargs -> (maxargs <= 1000)%nat ->
  event_code maxargs a = (c, size) -> call_state m s (ke_args ev) (ke_ret ev) buf size ->
  exists s', (forall p fuel, code p = c -> (List.length c <= fuel)%nat -> run fuel m p 0 s = Done (rg s' R0) s') /\
    exists shown, event_shown maxargs nparams ev (record s' buf size) = (shown, (maxargs <? nparams)%nat, if ke_exit ev then Some (kc_ret call) else None) /\
      (ke_exit ev = false -> shown = map (fun i => (nth i (kc_in call) 0, nth (i + 1) (kc_in call) 0)) (seq 0 (Nat.min nparams maxargs))).
Proof.
  intros. edestruct (event_shown_ok I) as (s' & R1 & R2); [eassumption..|]. exists s'. split; [exact R1|]. eexists. split; [rewrite R2; cbv zeta; reflexivity|]. intros ->. reflexivity.
Qed.
Print Assumptions C103_values_shown_partial.
(** Which events a link sends for a call it reports: entry first, then exit; the filter decides at the entry, or where there is only one event. *)
Theorem C103_events_of_a_call : forall (I : Type) (compile : string -> list string -> option I) args outs has_session mode_exit avail fns ls a call,
  trace_multi compile args outs has_session mode_exit avail fns = Some ls -> In a ls ->
  (at_session a = true -> map ke_exit (link_events a call) = [false; true] /\ map ke_filter (link_events a call) = [true; false]) /\
  (at_session a = false -> map ke_exit (link_events a call) = [at_exit a] /\ map ke_filter (link_events a call) = [negb (mo_both (at_opts a) && at_exit a)]).
Proof.
  intros I compile args outs hs me avail fns ls a call Ht Ha. pose proof (session_both _ _ _ _ _ _ _ _ _ Ht a Ha) as Hb. unfold link_events, moments, emit_kmulti, get_mode, with_ret.
  split; intros E; rewrite E.
  - rewrite (Hb E). split; reflexivity.
  - destruct (at_exit a), (mo_both (at_opts a)); split; reflexivity.
Qed.
Print Assumptions C103_events_of_a_call.
(** C103, refuted for exit events: what stands for the arguments is what the argument registers hold when the function returns. *)
Theorem C103_exit_arguments_refuted : forall (I : Type) (compile : string -> list string -> option I) args outs has_session mode_exit avail fns ls a call ev maxargs nparams m s buf c size i,
  trace_multi compile args outs has_session mode_exit avail fns = Some ls -> In a ls -> In ev (link_events a call) -> ke_exit ev = true ->
  List.length (kc_in call) = maxargs -> List.length (kc_out call) = maxargs -> (maxargs <= 1000)%nat ->
  event_code maxargs a = (c, size) -> call_state m s (ke_args ev) (ke_ret ev) buf size ->
  (i < Nat.min nparams maxargs)%nat -> nth i (kc_in call) 0 <> nth i (kc_out call) 0 ->
  exists s' shown, (forall p fuel, code p = c -> (List.length c <= fuel)%nat -> run fuel m p 0 s = Done (rg s' R0) s') /\
    fst (fst (event_shown maxargs nparams ev (record s' buf size))) = shown /\ fst (nth i shown (0, 0)) = nth i (kc_out call) 0 /\ fst (nth i shown (0, 0)) <> nth i (kc_in call) 0.
Proof.
  intros I compile args outs hs me avail fns ls a call ev maxargs nparams m s buf c size i Ht Ha He Hx Hi Ho Hm Hc Hcs Hlt Hne.
  destruct (event_shown_ok _ _ _ _ _ _ _ _ _ _ _ _ maxargs nparams _ _ _ _ _ Ht Ha He Hi Ho Hm Hc Hcs) as (s' & R1 & R2). rewrite Hx in R2. exists s'. eexists. split; [exact R1|]. split; [reflexivity|]. rewrite R2. cbn [fst].
  assert (E : fst (nth i (map (fun i => (nth i (kc_out call) 0, nth (i + 1) (kc_out call) 0)) (seq 0 (Nat.min nparams maxargs))) (0, 0)) = nth i (kc_out call) 0).
  { rewrite nth_indep with (d' := (fun i => (nth i (kc_out call) 0, nth (i + 1) (kc_out call) 0)) O) by (rewrite map_length, seq_length; exact Hlt).
    rewrite (map_nth (fun i => (nth i (kc_out call) 0, nth (i + 1) (kc_out call) 0))), seq_nth by exact Hlt. reflexivity. }
  rewrite E. split; [reflexivity|]. congruence.
Qed.
Print Assumptions C103_exit_arguments_refuted.
(** C66, refuted for multi mode with -m exit: no filter is in force, whatever --filter-arg says. *)
Theorem C66_multi_exit_unfiltered_refuted : forall (I : Type) (compile : string -> list string -> option I) args outs has_session avail fns ls,
  trace_multi compile args outs has_session true avail fns = Some ls ->
  (forall a, In a ls -> mo_both (at_opts a) = false -> at_exit a = true /\ at_filter a = None) /\
  (forall f, In f fns -> attachable avail (mf_name f) -> exists a, In a ls /\ In (mf_name f) (at_syms a)).
Proof.
  intros I compile args outs hs avail fns ls Ht. split; [apply (exit_unfiltered _ _ _ _ _ _ _ _ Ht)|]. intros f Hf Hat.
  destruct (P_Multi.traced_all compile _ _ _ _ _ _ _ Ht f Hf Hat) as (r & a & _ & H1 & H2 & _). exists a. auto.
Qed.
Print Assumptions C66_multi_exit_unfiltered_refuted.

(** f_rcv(skb, a) with --filter-arg 'a>1': filtered at entry, not at exit. *)
Example C66_exit_demo : exists p,
  trace_multi len_gt [fa_a] [] false false ["ip_rcv"%string] [f_rcv] = Some [{| at_syms := ["ip_rcv"%string]; at_exit := false; at_session := false; at_filter := Some p; at_opts := oo false true |}] /\
  trace_multi len_gt [fa_a] [] false true ["ip_rcv"%string] [f_rcv] = Some [{| at_syms := ["ip_rcv"%string]; at_exit := true; at_session := false; at_filter := None; at_opts := oo false true |}].
Proof. eexists. split; reflexivity. Qed.
Definition k_call := {| kc_in := [55; 20; 44]; kc_out := [10; 20; 77]; kc_ret := 99 |}.
Definition k_link : attach Z := {| at_syms := ["ip_rcv"%string]; at_exit := true; at_session := false; at_filter := None; at_opts := oo false true |}.
Example C103_demo : exists ev c size, link_events k_link k_call = [ev] /\ ke_exit ev = true /\ ke_args ev = [10; 20; 77] /\ ke_ret ev = 99 /\
  event_code 3 k_link = (c, size) /\ call_state fa_m (fa_s 10 20 77) (ke_args ev) (ke_ret ev) 16384 size.
Proof. do 3 eexists. split; [reflexivity|]. split; [reflexivity|]. split; [reflexivity|]. split; [reflexivity|]. split; [reflexivity|]. apply fa_call; cbn; auto. lia. Qed.
