(** * Proofs about kprobe.multi events. *)
From Coq Require Import List Bool ZArith String Lia.
From Verif Require Import M_Go M_Ebpf M_FnArgs S_FnArgs P_FnArgs2 M_Multi S_Multi P_Multi M_Kmulti.
Import ListNotations.
Open Scope Z_scope.

Lemma kind_ok both session is_exit c returning : In returning (moments session is_exit) -> (session = true -> both = true) ->
  ke_exit (emit_kmulti both session is_exit c returning) = returning.
Proof.
  unfold moments, emit_kmulti, get_mode, with_ret. cbn [ke_exit]. destruct session, is_exit, both, returning; cbn; intros H1 H2; try reflexivity; try (specialize (H2 eq_refl); discriminate); repeat (destruct H1 as [H1|H1]; try discriminate); destruct H1.
Qed.
Lemma moments_shape session is_exit : moments session is_exit = [false] \/ moments session is_exit = [true] \/ moments session is_exit = [false; true].
Proof. destruct session, is_exit; cbn; auto. Qed.
(** links made by trace_multi: session only with both *)
Lemma session_both I (compile : string -> list string -> option I) args outs hs me avail fns ls :
  trace_multi compile args outs hs me avail fns = Some ls -> forall a, In a ls -> at_session a = true -> mo_both (at_opts a) = true.
Proof.
  unfold trace_multi. destruct (groups [] fns) as [gs|] eqn:Eg; [|discriminate]. intros Hl a Ha Hs.
  apply (all_links_In compile args outs hs me avail gs ls Hl) in Ha as (i & g & l & Hin & Hne & El & Hal).
  destruct (group_links_ok compile args outs hs me _ _ _ El) as (_ & R & _ & _ & R'). destruct (R a Hal) as (_ & R2 & _). rewrite R2.
  destruct (mo_both (mf_opts (gr_rep g))) eqn:E; [reflexivity|]. destruct (R' eq_refl a Hal). congruence.
Qed.
Lemma exit_unfiltered I (compile : string -> list string -> option I) args outs hs avail fns ls :
  trace_multi compile args outs hs true avail fns = Some ls -> forall a, In a ls -> mo_both (at_opts a) = false -> at_exit a = true /\ at_filter a = None.
Proof.
  unfold trace_multi. destruct (groups [] fns) as [gs|] eqn:Eg; [|discriminate]. intros Hl a Ha Hb.
  apply (all_links_In compile args outs hs true avail gs ls Hl) in Ha as (i & g & l & Hin & Hne & El & Hal).
  destruct (group_links_ok compile args outs hs true _ _ _ El) as (_ & R & _ & _ & R'). destruct (R a Hal) as (_ & R2 & _ & R4). rewrite R2 in Hb.
  destruct (R' Hb a Hal) as [E _]. auto.
Qed.
Lemma shown_args maxargs nparams d w w' : fst (output_kmulti maxargs nparams d w) = fst (output_kmulti maxargs nparams d w').
Proof. reflexivity. Qed.
Theorem event_shown_ok I (compile : string -> list string -> option I) args outs hs me avail fns ls a kc ev maxargs nparams m s buf c size :
  trace_multi compile args outs hs me avail fns = Some ls -> In a ls -> In ev (link_events a kc) ->
  List.length (kc_in kc) = maxargs -> List.length (kc_out kc) = maxargs -> (maxargs <= 1000)%nat ->
  event_code maxargs a = (c, size) -> call_state m s (ke_args ev) (ke_ret ev) buf size ->
  exists s', (forall p fuel, code p = c -> (List.length c <= fuel)%nat -> run fuel m p 0 s = Done (rg s' R0) s') /\
    event_shown maxargs nparams ev (record s' buf size) =
      let regs := if ke_exit ev then kc_out kc else kc_in kc in
      (map (fun i => (nth i regs 0, nth (i + 1) regs 0)) (seq 0 (Nat.min nparams maxargs)), (maxargs <? nparams)%nat, if ke_exit ev then Some (kc_ret kc) else None).
Proof.
  intros Ht Ha He Hi Ho Hm Hc Hcs. apply in_map_iff in He as (rt & <- & Hr). pose proof (session_both _ _ _ _ _ _ _ _ _ Ht a Ha) as Hb.
  pose proof (kind_ok (mo_both (at_opts a)) (at_session a) (at_exit a) kc rt Hr Hb) as Hk. rewrite Hk. set (ev := emit_kmulti _ _ _ kc rt) in *.
  assert (Ea : ke_args ev = if rt then kc_out kc else kc_in kc) by reflexivity.
  assert (Er : rt = true -> ke_ret ev = kc_ret kc).
  { intros ->. revert Hk. unfold ev, emit_kmulti. cbn [ke_exit ke_ret]. destruct (get_mode _ _ _ _); intros; congruence. }
  assert (Hw : rt = true -> with_ret (at_session a) (at_exit a) = true).
  { intros ->. unfold with_ret. clear -Hr. unfold moments in Hr. destruct (at_session a), (at_exit a); cbn in Hr |- *; try reflexivity. destruct Hr as [Hr|[]]. discriminate. }
  unfold event_code in Hc. destruct (kmulti_round_trip m s maxargs nparams (with_ret (at_session a) (at_exit a)) (ke_args ev) (ke_ret ev) buf c size) as (s' & R1 & _ & R3); [rewrite Ea; destruct rt; assumption|assumption..|].
  exists s'. split; [exact R1|]. unfold event_shown. rewrite Hk. rewrite Ea in R3. destruct rt.
  - rewrite (Hw eq_refl), (Er eq_refl) in R3. exact R3.
  - pose proof (f_equal fst R3) as R4. cbn [fst] in R4. rewrite (shown_args _ _ _ _ false) in R4. cbn [ke_exit]. rewrite <- R4. reflexivity.
Qed.
