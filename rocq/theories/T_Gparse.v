(** * Properties C30 and C31: which functions --output-fgraph traces. *)
From Coq Require Import List Bool ZArith Lia Arith.
From Verif Require Import M_Go P_Go M_Gparse S_Gparse P_Gparse.
Import ListNotations.
Open Scope list_scope.

(** C30.  Whatever the calls (cycles included), the limit and the schedule of the workers: the number of steps is bounded by a number that does not depend
    on the schedule, and until every worker has ended some worker can make a step. *)
Theorem C30_terminates : forall w roots U L, closed w roots U -> width w U L ->
  exists N, forall n b s, gsteps w n b (ginit roots) s -> (n <= N)%nat /\ (gdone s \/ exists b' s', gstep w b' s s').
Proof.
  intros w roots U L HU HL. exists (measure w U L (ginit roots)). intros n b s H. split.
  - assert (X := steps_bound w roots U L HU HL n b _ s H (sound_init w roots)). lia.
  - destruct (list_eq_dec (fun a b : task => ltac:(decide equality; repeat (decide equality; try apply Z.eq_dec))) (g_tasks s) []) as [E|E]; [left; exact E|right]. exact (progress w s E).
Qed.
Print Assumptions C30_terminates.
(** C30.  Only traceable functions that a chain of calls of at most the limit leads to are selected; one is marked as root only if it is one (or a root's replacement). *)
Theorem C30_depth : forall w roots n b s ip r, gsteps w n b (ginit roots) s -> aget Z.eqb ip (g_graphs s) = Some (Some r) ->
  w_ok w ip = true /\ exists d, reach w roots ip d /\ (d <= w_max w)%nat /\ r = Nat.eqb d 0.
Proof. intros w roots n b s ip r H. exact (si_graph w roots s (sound_steps w roots n b _ s H (sound_init w roots)) ip r). Qed.
Print Assumptions C30_depth.

(** C31.  If no worker ever meets an entry that another worker has inserted and not yet filled, then every traceable function within the limit is selected. *)
Theorem C31_all_found_partial : forall w roots n s, gsteps w n false (ginit roots) s -> gdone s ->
  forall ip d, reach w roots ip d -> (d <= w_max w)%nat -> w_ok w ip = true -> chosen s ip.
Proof. exact complete. Qed.
Print Assumptions C31_all_found_partial.
(** C31.  A root that no chain of calls leads to is marked as root whenever it is selected. *)
Theorem C31_root_flag_partial : forall w roots n b s ip r, gsteps w n b (ginit roots) s -> aget Z.eqb ip (g_graphs s) = Some (Some r) ->
  (forall d, reach w roots ip d -> d = 0%nat) -> r = true.
Proof.
  intros w roots n b s ip r H Hg Hu. destruct (C30_depth w roots n b s ip r H Hg) as (_ & d & Hr & _ & ->). rewrite (Hu d Hr). reflexivity.
Qed.
Print Assumptions C31_root_flag_partial.
(** C31.  Nothing is traced that is within the limit of a function of the deny list, when no such race happened in the run over the deny list. *)
Theorem C31_denied_partial : forall w roots denied n n' b s sd ip r, gsteps w n b (ginit roots) s -> gsteps w n' false (ginit denied) sd -> gdone sd ->
  In (ip, r) (gfinal false (g_graphs sd) s) -> forall d, reach w denied ip d -> (w_max w < d)%nat.
Proof.
  intros w roots denied n n' b s sd ip r H Hd Hdone Hin d Hr. destruct (le_lt_dec d (w_max w)) as [Hle|Hlt]; [exfalso|exact Hlt].
  unfold gfinal in Hin. apply in_flat_map in Hin as ([k v] & Hk & Hin). cbn [fst snd negb andb] in Hin. destruct v as [r'|]; [|destruct Hin].
  destruct (aget Z.eqb k (g_graphs sd)) as [x|] eqn:E; [destruct Hin|]. destruct Hin as [Hin|[]]. injection Hin as -> ->.
  assert (Hok : w_ok w ip = true).
  { assert (HN : NoDup (map fst (g_graphs s))).
    { assert (HK : forall n b s0 s, gsteps w n b s0 s -> NoDup (map fst (g_graphs s0)) -> NoDup (map fst (g_graphs s))).
      { clear. induction 1 as [|n b b' s1 s2 s3 H IH H1]; auto. intros HN. specialize (IH HN). inversion H1; subst; cbn [put g_graphs]; auto; apply (NoDup_aput _ Zeqb_ok); exact IH. }
      eapply HK; [exact H|]. constructor. }
    assert (G : aget Z.eqb ip (g_graphs s) = Some (Some r)).
    { clear - HN Hk. induction (g_graphs s) as [|[k v] l IH]; [destruct Hk|]. cbn [aget map fst] in *. inversion HN as [|? ? Hni HN' E]; subst. destruct Hk as [Hk|Hk].
      - injection Hk as -> ->. rewrite Z.eqb_refl. reflexivity.
      - destruct (Z.eqb_spec ip k) as [->|]; [exfalso; apply Hni, in_map_iff; exists (k, Some r); auto|]. apply IH; auto. }
    apply (C30_depth w roots n b s ip r H G). }
  destruct (complete w denied n' sd Hd Hdone ip d Hr Hle Hok) as [r' X]. congruence.
Qed.
Print Assumptions C31_denied_partial.

Lemma head w n b b' s1 s2 s3 : gstep w b s1 s2 -> gsteps w n b' s2 s3 -> gsteps w (S n) (b || b') s1 s3.
Proof.
  intros H H2. induction H2 as [s|n b1 b2 s s' s'' H2 IH H3].
  - replace (b || false) with (false || b) by (destruct b; reflexivity). eapply g_trans; [apply g_refl|exact H].
  - rewrite orb_assoc. eapply g_trans; [exact (IH H)|exact H3].
Qed.
Local Ltac ins l1 := eapply head; [eapply (s_insert _ _ l1); [cbn; reflexivity|cbn; lia|reflexivity]|cbn [aput Z.eqb put app g_tasks g_graphs g_parsed Pos.eqb]].
Local Ltac fil l1 := eapply head; [eapply (s_fill _ _ l1); [cbn; reflexivity|reflexivity]|cbn [aput Z.eqb put app g_tasks g_graphs g_parsed Pos.eqb Nat.eqb]].
Local Ltac fnd l1 := eapply head; [eapply (s_found _ _ l1); [cbn; reflexivity|cbn; lia|reflexivity]|cbn [aput Z.eqb put app g_tasks g_graphs g_parsed Pos.eqb]].
Local Ltac prs l1 := eapply head; [eapply (s_parse _ _ l1); [cbn; reflexivity|cbn; intuition congruence]|cbn [aput Z.eqb put app g_tasks g_graphs g_parsed Pos.eqb succ w_repl w_callees map]].
Local Ltac dep l1 := eapply head; [eapply (s_deep _ _ l1); [cbn; reflexivity|cbn; lia]|cbn [aput Z.eqb put app g_tasks g_graphs g_parsed Pos.eqb]].
Local Ltac fin l1 := eapply head; [eapply (s_end _ _ l1); cbn; reflexivity|cbn [aput Z.eqb put app g_tasks g_graphs g_parsed Pos.eqb]].
Local Ltac agn l1 := eapply head; [eapply (s_again _ _ l1); [cbn; reflexivity|cbn; intuition congruence]|cbn [put app g_tasks g_graphs g_parsed]].
Local Ltac go := first [fin (@nil task)|prs (@nil task)|agn (@nil task)|dep (@nil task)|fnd (@nil task)|ins (@nil task)|fil (@nil task)].

(** Function 1 calls 2 and 3, 2 calls 3, 3 calls 4. *)
Definition demo_w : gworld := {| w_ok := fun ip => Z.leb 1 ip; w_callees := fun ip => match ip with 1 => [2; 3] | 2 => [3] | 3 => [4] | _ => [] end%Z; w_repl := fun _ => None; w_max := 2 |}.
(** C31, refuted: a schedule that ends without selecting function 4, which is two calls away from the root: the worker of 2 inserts 3 (at depth 2), the worker of 1 meets
    it not yet filled and drops it (at depth 1), and at depth 2 the callees of 3 are too deep. *)
Theorem C31_race_refuted : exists n b s, gsteps demo_w n b (ginit [(1%Z, 0%nat)]) s /\ gdone s /\
  reach demo_w [(1%Z, 0%nat)] 4 2 /\ (2 <= w_max demo_w)%nat /\ w_ok demo_w 4 = true /\ ~ chosen s 4.
Proof.
  eexists _, _, _. split; [|split].
  - unfold ginit. ins (@nil task). fil (@nil task). fin (@nil task). prs (@nil task).
    ins (@nil task). fil (@nil task). prs [Run None [(3%Z, 1%nat)]]. ins [Run None [(3%Z, 1%nat)]].
    eapply head. { eapply (s_empty _ _ (@nil task)) with (b := true); [cbn; reflexivity|cbn; lia|reflexivity|]. split; [|reflexivity]. intros _. cbn. eauto. }
    cbn [put app g_tasks g_graphs g_parsed]. fin (@nil task). fil (@nil task). fin (@nil task). prs (@nil task). dep (@nil task). fin (@nil task). apply g_refl.
  - reflexivity.
  - repeat split; cbn; auto.
    + apply (reach_call _ _ 3 1 4); cbn; auto. apply (reach_call _ _ 1 0 3); cbn; auto. apply reach_root. left. reflexivity.
    + intros [r H]. discriminate.
Qed.
Print Assumptions C31_race_refuted.
(** C31, refuted: a function requested as root that another root calls loses its mark when the worker gets to it first; it is then traced a second time, as a callee. *)
Theorem C31_root_flag_refuted : exists n b s, gsteps demo_w n b (ginit [(1%Z, 0%nat); (2%Z, 0%nat)]) s /\ b = false /\ gdone s /\ aget Z.eqb 2%Z (g_graphs s) = Some (Some false).
Proof.
  eexists _, _, _. split; [|split; [|split]].
  - unfold ginit. ins (@nil task). fil (@nil task). prs [Run None [(2%Z, 0%nat)]]. ins [Run None [(2%Z, 0%nat)]]. fil [Run None [(2%Z, 0%nat)]].
    ins [Run None [(2%Z, 0%nat)]]. fil [Run None [(2%Z, 0%nat)]]. fin [Run None [(2%Z, 0%nat)]]. fnd (@nil task). fin (@nil task).
    repeat go. apply g_refl.
  - reflexivity.
  - reflexivity.
  - reflexivity.
Qed.
Print Assumptions C31_root_flag_refuted.
(** The hypotheses are met: by a run over the same code that ends without race and selects everything. *)
Example C31_example : exists n s, gsteps demo_w n false (ginit [(1%Z, 0%nat)]) s /\ gdone s /\ chosen s 4.
Proof.
  eexists _, _. split; [|split].
  - unfold ginit. eapply (head demo_w _ false false). { eapply (s_insert _ _ (@nil task)); [cbn; reflexivity|cbn; lia|reflexivity]. } cbn [aput app g_tasks g_graphs g_parsed].
    repeat (change false with (false || false) at 1; go). apply g_refl.
  - reflexivity.
  - exists false. reflexivity.
Qed.
Example C30_example : closed demo_w [(1%Z, 0%nat)] [1; 2; 3; 4]%Z /\ width demo_w [1; 2; 3; 4]%Z 2.
Proof.
  split; [split; [|split]|].
  - intros ip d [H|[]]. injection H as <- <-. left. reflexivity.
  - intros ip c [<-|[<-|[<-|[<-|[]]]]]; cbn; tauto.
  - discriminate.
  - intros ip [<-|[<-|[<-|[<-|[]]]]]; cbn; lia.
Qed.
