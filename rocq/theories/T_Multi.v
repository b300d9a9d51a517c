(** * Properties C65, C66: kprobe.multi tracing and the choice of the argument filter. *)
From Coq Require Import List Bool String ZArith Lia.
From Verif Require Import M_Go M_Flags M_Multi S_Multi P_Multi.
Import ListNotations.
Open Scope string_scope.
Open Scope list_scope.

(** C66.  For every compiler, list of --filter-arg expressions and function: nothing filters a function no expression is about; else the first
    expression about it, compiled for its parameters, does; the error of compiling that one is reported. *)
Theorem C66_first_expression : forall (I : Type) (compile : string -> list string -> option I) args params,
  (inject_filter compile args params = Some None <-> forall a, In a args -> ~ about a params) /\
  (forall c, inject_filter compile args params = Some (Some c) <-> exists a, first_about args params a /\ compile (fa_expr a) params = Some c) /\
  (inject_filter compile args params = None <-> exists a, first_about args params a /\ compile (fa_expr a) params = None).
Proof. exact @inject_iff. Qed.
Print Assumptions C66_first_expression.
(** C66, refuted for several expressions about one function: a call that satisfies the first is reported whatever the others say. *)
Theorem C66_later_ignored_refuted : forall compile args params a (p : regs -> bool) r, first_about args params a -> compile (fa_expr a) params = Some p -> p r = true ->
  forall b q, In b args -> about b params -> compile (fa_expr b) params = Some q -> q r = false ->
  exists fl, inject_filter compile args params = Some fl /\ passes fl r.
Proof.
  intros compile args params a p r Ha Hc Hp b q Hb Hab Hcb Hq. exists (Some p). split; [|exact Hp]. apply (inject_iff compile args params). exists a. auto.
Qed.
Print Assumptions C66_later_ignored_refuted.
Definition len_gt (e : string) (ps : list string) : option (regs -> bool) :=
  if String.eqb e "a>1" then option_map (fun i (r : regs) => (1 <? r i)%Z) (pindex "a" 0 ps) else if String.eqb e "b>1" then option_map (fun i (r : regs) => (1 <? r i)%Z) (pindex "b" 0 ps) else None.
Definition fa_a := {| fa_expr := "a>1"; fa_vars := ["a"] |}.
Definition fa_b := {| fa_expr := "b>1"; fa_vars := ["b"] |}.
Example C66_demo : first_about [fa_a; fa_b] ["x"; "a"; "b"] fa_a /\ about fa_b ["x"; "a"; "b"] /\ inject_filter len_gt [fa_a; fa_b] ["q"] = Some None
  /\ (exists p, inject_filter len_gt [fa_a; fa_b] ["x"; "b"] = Some (Some p) /\ p (fun i => Z.of_nat i * 2)%Z = true /\ p (fun _ => 1%Z) = false)
  /\ exists fl, inject_filter len_gt [fa_a; fa_b] ["x"; "a"; "b"] = Some fl /\ passes fl (fun i => if Nat.eqb i 1 then 5 else 0)%Z.
Proof.
  split; [exists [], [fa_b]; split; [reflexivity|]; split; [exists "a"; cbn; auto|intros b []]|]. split; [exists "b"; cbn; auto|]. split; [reflexivity|]. split.
  - eexists. split; [reflexivity|]. split; reflexivity.
  - eexists. split; [reflexivity|]. reflexivity.
Qed.

(** C65.  For every list of functions, filters and modes: each function that can be attached to is attached, and nothing else; what runs there has
    the flags and the filter of the function that stands for it (the first whose matched argument is at the same position). *)
Theorem C65_attached_partial : forall (I : Type) (compile : string -> list string -> option I) args outs has_session mode_exit avail fns ls,
  trace_multi compile args outs has_session mode_exit avail fns = Some ls ->
  (forall f, In f fns -> attachable avail (mf_name f) -> exists r a, stands_for fns r f /\ In a ls /\ In (mf_name f) (at_syms a) /\ at_opts a = mf_opts r /\
     (at_exit a = false -> inject_filter compile args (mf_params r) = Some (at_filter a))) /\
  (forall a s, In a ls -> In s (at_syms a) -> attachable avail s /\ exists f r, In f fns /\ mf_name f = s /\ stands_for fns r f /\ at_opts a = mf_opts r /\
     (at_exit a = false -> inject_filter compile args (mf_params r) = Some (at_filter a)) /\ (at_exit a = true -> at_filter a = None) /\
     (mo_both (mf_opts r) = false -> at_exit a = mode_exit)).
Proof. intros I compile args outs hs me avail fns ls H. split; [apply (traced_all compile _ _ _ _ _ _ _ H)|apply (traced_only compile _ _ _ _ _ _ _ H)]. Qed.
Print Assumptions C65_attached_partial.
(** C65.  When functions whose matched argument is at the same position also agree in flags and parameter names, every function is traced with the
    flags of its own pattern and the filter compiled for its own parameters. *)
Theorem C65_own_pattern_partial : forall (I : Type) (compile : string -> list string -> option I) args outs has_session mode_exit avail fns ls,
  trace_multi compile args outs has_session mode_exit avail fns = Some ls ->
  (forall f g, In f fns -> In g fns -> arg_index f = arg_index g -> mf_opts f = mf_opts g /\ mf_params f = mf_params g) ->
  forall a s, In a ls -> In s (at_syms a) -> exists f, In f fns /\ mf_name f = s /\ at_opts a = mf_opts f /\
    (at_exit a = false -> inject_filter compile args (mf_params f) = Some (at_filter a)).
Proof.
  intros I compile args outs hs me avail fns ls H Hsame a s Ha Hs. destruct (traced_only compile _ _ _ _ _ _ _ H a s Ha Hs) as (_ & f & r & Hf & Hn & Hr & Ho & Hfl & _).
  exists f. split; [exact Hf|]. split; [exact Hn|]. assert (In r fns /\ arg_index r = arg_index f) as [R1 R2] by (destruct Hr as (l1 & l2 & -> & E & _); split; [apply in_or_app; right; left; reflexivity|exact E]).
  destruct (Hsame r f R1 Hf R2) as [E1 E2]. rewrite <- E1, <- E2. auto.
Qed.
Print Assumptions C65_own_pattern_partial.
(** C65, refuted without that: a function that another one stands for is traced with the other's flags, and with the filter compiled for the
    other's parameters (whatever its own parameters at those positions are). *)
Theorem C65_other_pattern_refuted : forall (I : Type) (compile : string -> list string -> option I) args outs has_session mode_exit avail fns ls r f,
  trace_multi compile args outs has_session mode_exit avail fns = Some ls ->
  In f fns -> stands_for fns r f -> attachable avail (mf_name f) -> (forall g, In g fns -> mf_name g = mf_name f -> g = f) ->
  (mf_opts r <> mf_opts f -> exists a, In a ls /\ In (mf_name f) (at_syms a) /\ forall a, In a ls -> In (mf_name f) (at_syms a) -> at_opts a <> mf_opts f) /\
  (inject_filter compile args (mf_params r) <> inject_filter compile args (mf_params f) ->
   forall a, In a ls -> In (mf_name f) (at_syms a) -> at_exit a = false -> inject_filter compile args (mf_params f) <> Some (at_filter a)).
Proof.
  intros I compile args outs hs me avail fns ls r f H Hf Hr Hat Hu.
  assert (X : forall a, In a ls -> In (mf_name f) (at_syms a) -> at_opts a = mf_opts r /\ (at_exit a = false -> inject_filter compile args (mf_params r) = Some (at_filter a))).
  { intros a Ha Hs. destruct (traced_only compile _ _ _ _ _ _ _ H a _ Ha Hs) as (_ & g & r' & Hg & Hn & Hr' & Ho & Hfl & _). rewrite (Hu g Hg Hn) in Hr'. rewrite (stands_unique _ _ _ _ Hr' Hr) in Ho, Hfl. auto. }
  split.
  - intros Hne. destruct (traced_all compile _ _ _ _ _ _ _ H f Hf Hat) as (r' & a & _ & Ha & Hs & _). exists a. split; [exact Ha|]. split; [exact Hs|].
    intros b Hb Hbs. destruct (X b Hb Hbs) as [E _]. rewrite E. exact Hne.
  - intros Hne a Ha Hs He. destruct (X a Ha Hs) as [_ E]. rewrite <- (E He). intros E'. apply Hne. symmetry. exact E'.
Qed.
Print Assumptions C65_other_pattern_refuted.
Definition oo (both stack : bool) : mopts := {| mo_both := both; mo_lbr := false; mo_stack := stack; mo_pkt := false; mo_graph := false |}.
Definition f_rcv := {| mf_name := "ip_rcv"; mf_params := ["skb"; "a"]; mf_arg := "skb"; mf_opts := oo false true |}.
Definition f_xmit := {| mf_name := "dev_xmit"; mf_params := ["skb"; "b"; "a"]; mf_arg := "skb"; mf_opts := oo false false |}.
Definition f_task := {| mf_name := "wake_up"; mf_params := ["rq"; "p"]; mf_arg := "p"; mf_opts := oo true false |}.
(** Non-vacuous: two groups; wake_up gets its own flags; dev_xmit (without the stack option) gets ip_rcv's, and the filter a>1, compiled for ip_rcv's
    second argument, reads dev_xmit's b. *)
Example C65_demo : exists p, trace_multi len_gt [fa_a] [] false false ["ip_rcv"; "dev_xmit"; "wake_up"] [f_rcv; f_task; f_xmit] =
   Some [{| at_syms := ["ip_rcv"; "dev_xmit"]; at_exit := false; at_session := false; at_filter := Some p; at_opts := oo false true |};
         {| at_syms := ["wake_up"]; at_exit := false; at_session := false; at_filter := None; at_opts := oo true false |};
         {| at_syms := ["wake_up"]; at_exit := true; at_session := false; at_filter := None; at_opts := oo true false |}]
  /\ p (fun i => if Nat.eqb i 1 then 9 else 0)%Z = true /\ p (fun i => if Nat.eqb i 2 then 9 else 0)%Z = false
  /\ stands_for [f_rcv; f_task; f_xmit] f_rcv f_xmit /\ attachable ["ip_rcv"; "dev_xmit"; "wake_up"] "dev_xmit".
Proof.
  eexists. split; [reflexivity|]. split; [reflexivity|]. split; [reflexivity|]. split; [exists [], [f_task; f_xmit]; split; [reflexivity|]; split; [reflexivity|intros q []]|].
  split; [cbn; auto|]. intros e He. cbn in He. repeat (destruct He as [<-|He]; [reflexivity|]). destruct He.
Qed.
(** C65, refuted: a function two patterns match at the same argument is listed twice in the same link. *)
Theorem C65_listed_twice_refuted : forall avail l1 f l2 g l3 gs i gr, arg_index f = Some i -> arg_index g = Some i -> mf_name f = mf_name g -> attachable avail (mf_name f) ->
  groups [] (l1 ++ f :: l2 ++ g :: l3) = Some gs -> aget Nat.eqb i gs = Some gr ->
  exists x y z, fst (filter_symbols avail (map mf_name (gr_fns gr))) = x ++ mf_name f :: y ++ mf_name f :: z.
Proof.
  intros avail l1 f l2 g l3 gs i gr Hf Hg Hn Hat Eg Hgr. destruct (groups_ok _ [] [] gs (fun j => eq_refl) ltac:(constructor) Eg) as [Hget _]. rewrite Hget in Hgr. cbn [app] in Hgr.
  assert (E : gr_fns gr = filter (of_index i) (l1 ++ f :: l2 ++ g :: l3)) by (unfold grouped in Hgr; destruct (filter (of_index i) _) as [|x r]; [discriminate|injection Hgr as <-; reflexivity]).
  apply of_index_iff in Hf, Hg. assert (K : negb (skip_symbol (mf_name f)) && memb (mf_name f) avail = true).
  { assert (In (mf_name f) (fst (filter_symbols avail [mf_name f]))) by (apply filter_symbols_keep; split; [left; reflexivity|exact Hat]). unfold filter_symbols in H. cbn [fst] in H. apply filter_In in H. tauto. }
  rewrite E. unfold filter_symbols. cbn [fst]. rewrite !filter_app. cbn [filter]. rewrite Hf. rewrite !filter_app. cbn [filter]. rewrite Hg.
  rewrite map_app, filter_app. cbn [map filter]. rewrite K. rewrite map_app, filter_app. cbn [map filter]. rewrite <- Hn, K. eexists _, _, _. reflexivity.
Qed.
Print Assumptions C65_listed_twice_refuted.
Example C65_twice_demo : exists gs gr, groups [] [f_rcv; f_task; f_rcv] = Some gs /\ aget Nat.eqb 0%nat gs = Some gr /\ fst (filter_symbols ["ip_rcv"] (map mf_name (gr_fns gr))) = ["ip_rcv"; "ip_rcv"].
Proof. eexists _, _. split; [reflexivity|]. split; reflexivity. Qed.
