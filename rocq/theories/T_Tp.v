(** * C75-C77: tracepoints. *)
From Coq Require Import List Bool String Ascii ZArith Lia Permutation.
From Verif Require Import M_Go M_Flags M_Kfuncs S_Kfuncs M_Tp S_Tp P_Tp.
Import ListNotations.
Open Scope string_scope.
Open Scope list_scope.
Open Scope Z_scope.

(** ** C75: the tracepoints found in a table *)
(** For a table of any number of entries, whatever the batches and the map order: exactly its tracepoints are found, each under its name, with
    its own symbol, number of arguments and function. *)
Theorem C75_all_found : forall table size a2s btf_fn order start total, 0 < size -> (forall l, Permutation (order l) l) -> 0 <= start -> 0 <= total ->
  start + size * (total + 256) < 2 ^ 64 -> good_names table start size total ->
  (forall i, 0 <= i < total -> live (entry table start size i) -> exists fn, resolved a2s btf_fn (entry table start size i) fn) ->
  exists m, probe_tracepoints table size a2s btf_fn order size start total = Some m /\
    forall n t, aget String.eqb n m = Some t <->
      exists i fn, 0 <= i < total /\ live (entry table start size i) /\ r_name (entry table start size i) = n /\
        resolved a2s btf_fn (entry table start size i) fn /\
        t = {| t_name := n; t_kmod := EmptyString; t_sym := r_sym (entry table start size i); t_nargs := r_nargs (entry table start size i); t_fn := fn |}.
Proof. exact probe_ok. Qed.
(** One tracepoint without known symbol or BTF function: an error, not a shorter list. *)
Theorem C75_unknown_is_error : forall table size a2s btf_fn order start total i, 0 < size -> (forall l, Permutation (order l) l) -> 0 <= start ->
  start + size * (total + 256) < 2 ^ 64 -> good_names table start size total ->
  0 <= i < total -> live (entry table start size i) -> (forall fn, ~ resolved a2s btf_fn (entry table start size i) fn) ->
  probe_tracepoints table size a2s btf_fn order size start total = None.
Proof. exact probe_bad. Qed.
(** Refuted for names of 64 characters or more: no such name is ever found. *)
Theorem C75_long_name_refuted : forall table csize a2s btf_fn order size start total m nm, (forall l, Permutation (order l) l) -> (64 <= String.length nm)%nat ->
  probe_tracepoints table csize a2s btf_fn order size start total = Some m -> aget String.eqb nm m = None.
Proof. exact probe_long. Qed.
(** The kernel's own table lies between two symbols. *)
Theorem C75_vmlinux_table : forall table csize a2s btf_fn order size start stop, 0 < size -> 0 < start < stop ->
  probe_vmlinux table csize a2s btf_fn order size start stop = probe_tracepoints table csize a2s btf_fn order size start ((stop - start) / size).
Proof.
  intros table csize a2s btf_fn order size start stop Hs Hb. unfold probe_vmlinux. destruct (Z.eqb_spec start 0); [lia|]. destruct (Z.eqb_spec stop 0); [lia|].
  destruct (Z.leb_spec stop start); [lia|]. destruct (Z.eqb_spec size 0); [lia|]. reflexivity.
Qed.

Definition demo_fn (n : nat) : func := {| fn_name := "__bpf_trace_x"; fn_params := repeat {| pm_name := "p"; pm_void := false; pm_type := "int" |} n; fn_ret_struct := false; fn_params_ok := true |}.
(** 300 entries (two batches): entry i is named by its digits in unary, over few letters; entries 0, 2, 4, ... have no function *)
Fixpoint unary (n : nat) : string := match n with O => "" | S n' => String "a"%char (unary n') end.
Definition demo_table (a : Z) : raw_tp :=
  let i := (a - 4096) / 32 in {| r_name := unary (Z.to_nat (i / 8)); r_sym := if i mod 8 =? 3 then 1000 + i else 0; r_nargs := i mod 3 |}.
Example C75_case : probe_vmlinux demo_table 32 (fun s => Some "__bpf_trace_x") (fun _ => Some (demo_fn 4)) (fun l => rev l) 32 4096 (4096 + 32 * 300) <> None /\
  option_map (fun m => (List.length m, option_map t_sym (aget String.eqb (unary 37) m), option_map t_sym (aget String.eqb (unary 3) m)))
    (probe_vmlinux demo_table 32 (fun s => Some "__bpf_trace_x") (fun _ => Some (demo_fn 4)) (fun l => rev l) 32 4096 (4096 + 32 * 300)) = Some (38%nat, Some 1299, Some 1027).
Proof. split; vm_compute; [discriminate|reflexivity]. Qed.
Lemma unary_len n : String.length (unary n) = n.
Proof. induction n; cbn; congruence. Qed.
Example C75_case_names : good_names demo_table 4096 32 300 /\ (forall l : list (string * (Z * Z)), Permutation (rev l) l).
Proof.
  split; [|intros l; apply Permutation_sym, Permutation_rev].
  assert (E : forall i, entry demo_table 4096 32 i = {| r_name := unary (Z.to_nat (i / 8)); r_sym := if i mod 8 =? 3 then 1000 + i else 0; r_nargs := i mod 3 |}).
  { intros i. unfold entry, demo_table. replace ((4096 + 32 * i - 4096) / 32) with i; [reflexivity|].
    replace (4096 + 32 * i - 4096) with (i * 32) by lia. symmetry. apply Z.div_mul. lia. }
  split.
  - intros i Hi Hl. rewrite E. cbn [r_name]. rewrite unary_len. assert (i / 8 < 64) by (apply Z.div_lt_upper_bound; lia). assert (0 <= i / 8) by (apply Z.div_pos; lia). lia.
  - intros i j Hi Hj. rewrite !E. unfold live. cbn [r_sym r_name]. intros Hli Hlj En.
    destruct (Z.eqb_spec (i mod 8) 3) as [Ei|]; [|congruence]. destruct (Z.eqb_spec (j mod 8) 3) as [Ej|]; [|congruence].
    apply (f_equal String.length) in En. rewrite !unary_len in En.
    pose proof (Z.div_mod i 8 ltac:(lia)). pose proof (Z.div_mod j 8 ltac:(lia)).
    assert (0 <= i / 8) by (apply Z.div_pos; lia). assert (0 <= j / 8) by (apply Z.div_pos; lia). lia.
Qed.

(** ** C76: tracepoints of modules *)
(** Up to 256 modules with tracepoints are all found ... *)
Theorem C76_modules_found : forall next info head nodes, chain next head (next head) nodes -> (List.length nodes <= 256)%nat ->
  mod_list next info head = Some (map (fun a => cut (info a)) nodes).
Proof. exact mod_list_ok. Qed.
(** ... more are an error, not a shorter list. *)
Theorem C76_too_many_modules : forall next info head nodes, chain next head (next head) nodes -> (256 < List.length nodes)%nat -> mod_list next info head = None.
Proof. exact mod_list_many. Qed.
(** Of these, the usable ones are probed, each with its own table. *)
Theorem C76_modules_probed : forall probe has_btf ms, NoDup (map m_name ms) ->
  (forall m, In m ms -> usable has_btf m = true -> has_btf (m_name m) = 1 /\ exists tps, probe m = Some tps) ->
  exists r, mod_tps probe has_btf ms [] = Some r /\ forall n tps, aget String.eqb n r = Some tps <->
    exists m, In m ms /\ usable has_btf m = true /\ m_name m = n /\ probe m = Some tps.
Proof.
  intros probe has_btf ms Hnd Hall. destruct (mod_tps_ok probe has_btf ms [] Hnd Hall) as (r & Er & Hr). exists r. split; [exact Er|].
  intros n tps. rewrite Hr. split; [intros [X|[_ X]]; [exact X|discriminate]|intros X; left; exact X].
Qed.
(** The kernel's own tracepoint of a name is kept; one that only a single module has is added, with that module; no other is. *)
Theorem C76_kernel_first : forall mods tps n t, wf_mods mods -> aget String.eqb n tps = Some t -> aget String.eqb n (merge_mods tps mods) = Some t.
Proof. exact merge_vmlinux. Qed.
Theorem C76_module_added_partial : forall mods tps n md t, wf_mods mods -> aget String.eqb n tps = None -> offers mods md n t ->
  (forall md' t', offers mods md' n t' -> md' = md /\ t' = t) -> aget String.eqb n (merge_mods tps mods) = Some (with_kmod md t).
Proof. exact merge_one. Qed.
Theorem C76_nothing_else : forall mods tps n, wf_mods mods -> aget String.eqb n tps = None -> (forall md t, ~ offers mods md n t) ->
  aget String.eqb n (merge_mods tps mods) = None.
Proof. exact merge_none. Qed.
(** Refuted when two modules have a tracepoint of the same name: which of them is traced depends on the order of a Go map, i.e. changes from run
    to run, and the other cannot be traced. *)
Theorem C76_same_name_refuted : forall n m1 m2 t1 t2, t_name t1 = n -> t_name t2 = n ->
  aget String.eqb n (merge_mods [] [(m1, [(n, t1)]); (m2, [(n, t2)])]) = Some (with_kmod m1 t1) /\
  aget String.eqb n (merge_mods [] [(m2, [(n, t2)]); (m1, [(n, t1)])]) = Some (with_kmod m2 t2).
Proof. exact merge_ambiguous. Qed.

Definition demo_tp (n : string) (s : Z) : tp_info := {| t_name := n; t_kmod := ""; t_sym := s; t_nargs := 2; t_fn := demo_fn 3 |}.
Example C76_case : let next := fun a => if a =? 100 then 200 else if a =? 200 then 300 else 100 in
  chain next 100 (next 100) [200; 300] /\
  mod_list next (fun a => {| m_name := if a =? 200 then "kvm" else "nfs"; m_nr := 3; m_events := a |}) 100 =
    Some [{| m_name := "kvm"; m_nr := 3; m_events := 200 |}; {| m_name := "nfs"; m_nr := 3; m_events := 300 |}] /\
  let mods := [("kvm", [("kvm_exit", demo_tp "kvm_exit" 5); ("sched_switch", demo_tp "sched_switch" 6)])] in
  wf_mods mods /\ offers mods "kvm" "kvm_exit" (demo_tp "kvm_exit" 5) /\
  map (fun x => (fst x, t_kmod (snd x))) (merge_mods [("sched_switch", demo_tp "sched_switch" 1)] mods) = [("sched_switch", ""); ("kvm_exit", "kvm")].
Proof.
  cbv zeta. split; [cbn; lia|]. split; [reflexivity|]. split; [|split; [|reflexivity]].
  - intros md l [E|[]]. injection E as <- <-. split.
    + cbn. repeat constructor; cbn; [intros [X|[]]; discriminate|intros []].
    + intros k t [E|[E|[]]]; injection E as <- <-; reflexivity.
  - exists [("kvm_exit", demo_tp "kvm_exit" 5); ("sched_switch", demo_tp "sched_switch" 6)]. cbn. auto.
Qed.

(** ** C77: which tracepoints are traced *)
(** Exactly those that a pattern fits and whose function can be traced, with the parameters after the first, never with instruction or graph tracing. *)
Theorem C77_selected : forall glob mod_btf flags tps, NoDup (keys tps) ->
  (forall n t, In (n, t) tps -> fn_params (t_fn t) <> [] /\ (t_kmod t = EmptyString \/ mod_btf (t_kmod t) = true)) ->
  exists r, select_tps glob mod_btf flags tps = MOk r /\ forall n k,
    aget String.eqb n r = Some k <-> exists t, aget String.eqb n tps = Some t /\ chosen glob flags n t k.
Proof. exact select_ok. Qed.
(** They are traced in addition to all kernel functions: no function is lost, each tracepoint has an identifier of its own. *)
Theorem C77_added_to_functions : forall V (tps : list V) kfs rnd r, NoDup (keys kfs) -> merge_tps tps kfs rnd = Some r ->
  exists ids, List.length ids = List.length tps /\ NoDup ids /\ (forall id, In id ids -> ~ In id (keys kfs)) /\ NoDup (keys r) /\
    forall a v, aget Z.eqb a r = Some v <-> aget Z.eqb a kfs = Some v \/ In (a, v) (combine ids tps).
Proof. exact (@merge_tps_ok). Qed.
(** Among as many different random numbers as there are functions and one more, there is a free one. *)
Theorem C77_identifier_found : forall V (kfs : list (Z * V)) rnd, NoDup rnd -> (List.length kfs < List.length rnd)%nat -> draw kfs rnd <> None.
Proof. exact (@draw_some). Qed.

Definition demo_flag (n : string) : kflag := {| f_name := n; f_arg := ""; f_typ := ""; f_insn := false; f_graph := true; f_stack := true; f_lbr := false;
  f_both := false; f_pkt := false; f_multi := false; f_argName := ""; f_argType := "" |}.
Example C77_case : match select_tps String.eqb (fun _ => true) [demo_flag "sched_switch"] [("sched_switch", demo_tp "sched_switch" 1); ("kvm_exit", demo_tp "kvm_exit" 5)] with
  | MOk r => map (fun x => (fst x, List.length (kt_params (snd x)), f_graph (kt_flag (snd x)), f_stack (kt_flag (snd x)))) r = [("sched_switch", 2%nat, false, true)]
  | _ => False
  end /\
  merge_tps [7; 8] [(1, 5); (2, 6)] [2; 1; 9; 9; 4] = Some [(1, 5); (2, 6); (9, 7); (4, 8)].
Proof. split; reflexivity. Qed.

Print Assumptions C75_all_found.
Print Assumptions C75_unknown_is_error.
Print Assumptions C75_long_name_refuted.
Print Assumptions C75_vmlinux_table.
Print Assumptions C76_modules_found.
Print Assumptions C76_too_many_modules.
Print Assumptions C76_modules_probed.
Print Assumptions C76_kernel_first.
Print Assumptions C76_module_added_partial.
Print Assumptions C76_nothing_else.
Print Assumptions C76_same_name_refuted.
Print Assumptions C77_selected.
Print Assumptions C77_added_to_functions.
Print Assumptions C77_identifier_found.
