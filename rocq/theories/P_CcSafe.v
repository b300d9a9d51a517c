(** * Safety of the emitted code, for every expression the compiler accepts: it never leaves itself,
    never writes kernel memory, and preserves the registers that were live. *)
From Coq Require Import ZArith List Bool Lia String.
From Verif Require Import M_Ebpf P_Ebpf M_CcNum M_Cc S_CSem S_CSup P_CcMach P_CcWalk P_CcNumr P_CcMat P_CcVal P_CcOps P_CcOps2 P_CcSim P_CcSim2.
Import ListNotations.
Open Scope Z_scope.

Definition uses_label (l : list insn) : bool :=
  existsb (fun i => match i with IJmpL _ _ _ => true | _ => false end) l.
Lemma uses_app a b : uses_label (a ++ b) = uses_label a || uses_label b.
Proof. apply existsb_app. Qed.

(** The 8-byte save slots below the reserved area [z], and the frame bytes an expression may write. *)
Definition slot (z off : Z) : Prop := exists j, 0 <= j <= 5 /\ off = s16 (- z - 8 - 8 * j).
Definition scratch (z x : Z) : Prop := (-8 <= x < 0) \/ exists off, slot z off /\ off <= x < off + 8.

(** A store of the emitted code: an 8-byte save slot of the frame. *)
Definition st_ok (z : Z) (i : insn) : Prop :=
  match i with ISt b off _ n => b = RFP /\ slot z off /\ n = 8%nat | _ => True end.

Section Safe.
Variable z : Z.
Definition safe (d : list insn) : Prop := Forall (st_ok z) d /\ forall m ms, exists ms',
  (exec m d 0 ms = FFall 0 ms' \/ exec m d 0 ms = FLabel ms') /\
  (ker ms' = ker ms /\ forall x, ~ scratch z x -> stk ms' x = stk ms x) /\ rg ms' RFP = rg ms RFP.

Lemma safe_nil : safe [].
Proof. split; [constructor|]. intros m ms. exists ms. cbn. auto. Qed.
Lemma safe_app a b : safe a -> safe b -> safe (a ++ b).
Proof.
  intros [Fa Ha] [Fb Hb]. split; [apply Forall_app; auto|]. intros m ms. rewrite exec_app. destruct (Ha m ms) as (ms1 & [-> | ->] & [H1 H1'] & H2); [|exists ms1; auto].
  destruct (Hb m ms1) as (ms2 & H3 & [H4 H4'] & H5). exists ms2. split; [exact H3|]. split; [|congruence].
  split; [congruence|]. intros x Hx. rewrite H4', H1' by assumption. reflexivity.
Qed.

(** One instruction without relative jump. *)
Definition simple (i : insn) : Prop :=
  match i with
  | IMovI d _ | IMovR d _ | IAluI _ d _ | IAluR _ d _ | INegR d _ | ILd d _ _ _ => d <> RFP
  | ISt b off _ n => b = RFP /\ slot z off /\ n = 8%nat
  | IJmpL _ _ _ | IRdonlyCast _ => True
  | _ => False
  end.
Lemma safe_simple i : simple i -> safe [i].
Proof.
  intros H. split; [constructor; [destruct i; try exact I; exact H|constructor]|]. intros m ms. cbn [exec].
  destruct i; cbn [simple] in H; try contradiction; cbn [step1];
    try (eexists; split; [left; reflexivity|]; split; [split; reflexivity|apply rg_setr_neq; congruence]).
  - destruct H as (-> & Hs & ->). unfold store. cbn [Nat.eqb RFP]. eexists. split; [left; reflexivity|]. split; [|reflexivity].
    split; [reflexivity|]. intros x Hx. cbn [set_stk stk]. unfold wr.
    destruct (Z.leb_spec off x), (Z.ltb_spec x (off + Z.of_nat 8)); try reflexivity.
    exfalso. apply Hx. right. exists off. split; [exact Hs|lia].
  - destruct (jop_sem op (rg ms d) (immv c)); eexists; (split; [auto|]); auto.
  - eexists. split; [left; reflexivity|]. split; [split; reflexivity|]. unfold clobber. cbn [rg].
    destruct fast; reflexivity.
Qed.
Lemma safe_call : safe probe_call.
Proof.
  split; [repeat constructor|]. intros m ms. unfold probe_call. cbn [exec step1].
  set (s1 := setr (setr (setr ms R2 (immv 8)) R1 (rg (setr ms R2 (immv 8)) RFP)) R1
     (alu_sem AAdd (rg (setr (setr ms R2 (immv 8)) R1 (rg (setr ms R2 (immv 8)) RFP)) R1) (immv (-8)))).
  assert (H1 : rg s1 RFP = rg ms RFP) by reflexivity.
  assert (H2 : rg s1 R1 = wrap (rg ms RFP + immv (-8))) by reflexivity.
  assert (H3 : rg s1 R2 = 8) by reflexivity.
  assert (Hw : forall g, write_at s1 (rg s1 R1) (rg s1 R2) g = set_stk s1 (wr (stk s1) (-8) 8 g)).
  { intros g. unfold write_at. rewrite H1, H2, H3. rewrite wrap_sub_l.
    replace (rg ms RFP + immv (-8) - rg ms RFP) with (immv (-8)) by lia.
    change (wrap (immv (-8))) with (M64 - 8). cbn [Z.leb]. reflexivity. }
  eexists. split; [left; reflexivity|]. unfold do_probe_read. rewrite !Hw.
  assert (Hst : forall g x, ~ scratch z x -> wr (stk s1) (-8) 8 g x = stk ms x).
  { intros g x Hx. unfold wr. destruct (Z.leb_spec (-8) x), (Z.ltb_spec x (-8 + 8)); try reflexivity.
    exfalso. apply Hx. left. lia. }
  destruct (all_mapped m (rg s1 R3) (Z.to_nat (rg s1 R2))); (split; [split; [reflexivity|]|reflexivity]); intros x Hx; apply Hst; exact Hx.
Qed.

Inductive lin : list insn -> Prop :=
| lin_nil : lin []
| lin_cons i l : simple i -> lin l -> lin (i :: l)
| lin_call l : lin l -> lin (probe_call ++ l).
Lemma lin_app a b : lin a -> lin b -> lin (a ++ b).
Proof.
  induction 1 as [|i l Hi Hl IH|l Hl IH]; intros Hb.
  - exact Hb.
  - cbn [app]. constructor; auto.
  - rewrite <- app_assoc. apply lin_call. auto.
Qed.
Lemma lin_safe l : lin l -> safe l.
Proof.
  induction 1; [apply safe_nil| |apply safe_app; [apply safe_call|assumption]].
  change (i :: l) with ([i] ++ l). apply safe_app; [apply safe_simple|]; assumption.
Qed.
Lemma lin_wfc l : lin l -> wfc l.
Proof.
  induction 1; cbn [wfc]; auto.
  - split; [|assumption]. destruct i; cbn in *; auto; contradiction.
  - apply wfc_app; [|assumption]. cbn. tauto.
Qed.
Lemma lin_forall l : Forall simple l -> lin l.
Proof. induction 1; constructor; auto. Qed.

Lemma addi_lin r n : r <> RFP -> lin (addi r n).
Proof. intros H. unfold addi. destruct (n =? 0); repeat constructor; assumption. Qed.
Lemma count_used_le u a n : (count_used u a n <= n)%nat.
Proof. revert a; induction n as [|n IH]; intros a; cbn [count_used]; [lia|]. specialize (IH (S a)). destruct (u a); lia. Qed.
Lemma push_lin u n : (n <= 5)%nat -> lin (push_regs z u n).
Proof.
  intros Hn. pose proof (count_used_le u 1 n) as Hc. unfold push_regs. apply lin_app.
  - destruct (u R0); repeat constructor. exists (Z.of_nat (count_used u 1 n)). split; [lia|]. f_equal. lia.
  - apply lin_forall, Forall_forall. intros i Hi. apply in_map_iff in Hi as (k & <- & Hk). apply in_seq in Hk.
    split; [reflexivity|]. split; [|reflexivity]. exists (Z.of_nat (count_used u 1 n) - 1 - Z.of_nat k). split; [lia|]. f_equal. lia.
Qed.
Lemma pop_lin u n : (n <= 5)%nat -> lin (pop_regs z u n).
Proof.
  intros Hn. unfold pop_regs. apply lin_app.
  - apply lin_forall, Forall_forall. intros i Hi. apply in_map_iff in Hi as (k & <- & Hk).
    apply in_seq in Hk. cbn [simple]. pose proof (count_used_le u 1 n). unfold RFP. lia.
  - destruct (u R0); repeat constructor. cbn. unfold R0, RFP. lia.
Qed.
Lemma direct_lin r l c u : direct_read r l = (c, u) -> r <> RFP -> lin c /\ uses_label c = u /\ Forall (fun i => forall x, dest i = Some x -> x = r) c.
Proof.
  revert c u; induction l as [|o l IH]; intros c u H Hr; cbn [direct_read] in H.
  - inversion H; subst. repeat constructor.
  - destruct (direct_read r l) as [c0 u0] eqn:Hd. destruct (IH _ _ eq_refl Hr) as (H1 & H2 & H3).
    destruct (o_deref o); cbn [negb] in H.
    + destruct l; inversion H; subst; (split; [repeat constructor; assumption|]); (split; [reflexivity|]);
        repeat (apply Forall_cons; [cbn [dest]; congruence|]); assumption.
    + inversion H; subst. split; [apply lin_app; [apply addi_lin|]; assumption|].
      split; [rewrite uses_app; unfold addi; destruct (o_off o =? 0); reflexivity|].
      apply Forall_app. split; [|assumption]. unfold addi. destruct (o_off o =? 0); [constructor|]. apply Forall_cons; [cbn [dest]; congruence|constructor].
Qed.
Definition low (r x : reg) : Prop := x = r \/ (x <= 5)%nat.
Definition dlow (r : reg) (l : list insn) : Prop := Forall (fun i => forall x, dest i = Some x -> low r x) l.
Lemma dlow_app r a b : dlow r a -> dlow r b -> dlow r (a ++ b).
Proof. unfold dlow. rewrite Forall_app. auto. Qed.
Lemma addi_dlow r q n : low r q -> dlow r (addi q n).
Proof. intros H. unfold addi, dlow. destruct (n =? 0); [constructor|]. apply Forall_cons; [cbn [dest]; congruence|constructor]. Qed.
Lemma addi_nolab q n : uses_label (addi q n) = false.
Proof. unfold addi. destruct (n =? 0); reflexivity. Qed.
Ltac dl := unfold dlow; repeat (apply Forall_cons; [cbn [dest]; intros ? Hdl; inversion Hdl; subst; unfold low, R0, R1, R2, R3 in *; auto; right; lia|]); apply Forall_nil.
Lemma probe_lin r l c u : probe_read r l = (c, u) -> r <> RFP -> lin c /\ uses_label c = u /\ dlow r c.
Proof.
  revert c u; induction l as [|o l IH]; intros c u H Hr; cbn [probe_read] in H.
  - inversion H; subst. repeat constructor.
  - destruct (probe_read r l) as [c0 u0] eqn:Hd. destruct (IH _ _ eq_refl Hr) as (H1 & H2 & H3).
    assert (H3' : R3 <> RFP) by discriminate.
    assert (Hlow : low r R3) by (right; unfold R3; lia).
    destruct (o_deref o); cbn [negb] in H.
    + destruct l; injection H as <- <-.
      * split; [apply lin_app; [apply addi_lin; assumption|apply lin_call; repeat constructor; assumption]|].
        split; [rewrite uses_app, addi_nolab; first [reflexivity|exact H2]|].
        apply dlow_app; [apply addi_dlow; assumption|]. apply (dlow_app r probe_call (_ :: c0)); [dl|]. apply (dlow_app r [_] c0); [dl|assumption].
      * split; [apply lin_app; [apply addi_lin; assumption|apply lin_call; repeat constructor; assumption]|].
        split; [rewrite uses_app, addi_nolab; first [reflexivity|exact H2]|].
        apply dlow_app; [apply addi_dlow; assumption|]. apply (dlow_app r probe_call (_ :: _ :: c0)); [dl|]. apply (dlow_app r [_; _] c0); [dl|assumption].
    + injection H as <- <-.
      set (x := if (match l with [] => true | _ => false end) && negb (Nat.eqb r R3) then [IMovR r R3] else []).
      assert (Hx : lin x /\ uses_label x = false /\ dlow r x).
      { unfold x. destruct (_ && _); (split; [repeat constructor; assumption|]); (split; [reflexivity|dl]). }
      destruct Hx as (Hx1 & Hx2 & Hx3).
      split; [apply lin_app; [apply addi_lin; assumption|apply lin_app; assumption]|].
      split; [rewrite !uses_app, addi_nolab, Hx2; assumption|].
      apply dlow_app; [apply addi_dlow; assumption|apply dlow_app; assumption].
Qed.
Lemma core_probe_lin r last : r <> RFP -> lin (core_probe r last) /\ uses_label (core_probe r last) = false /\ dlow r (core_probe r last).
Proof.
  intros Hr. unfold core_probe.
  assert (Hd : (if last && negb (Nat.eqb r R1) then r else R1) <> RFP /\ low r (if last && negb (Nat.eqb r R1) then r else R1)).
  { destruct (_ && _); split; auto; [left; reflexivity|discriminate|right; unfold R1; lia]. }
  destruct Hd as [Hd1 Hd2]. split.
  - constructor; [discriminate|]. apply (lin_call [_]). repeat constructor. exact Hd1.
  - split; [reflexivity|]. dl.
Qed.
Lemma core_lin K r l c u : core_read K r l = Some (c, u) -> r <> RFP -> lin c /\ uses_label c = u /\ dlow r c.
Proof.
  revert c u; induction l as [|o l IH]; intros c u H Hr; cbn [core_read] in H.
  - inversion H; subst. repeat constructor.
  - set (last := match l with [] => true | _ => false end) in *.
    match type of H with (match ?h with _ => _ end) = _ => destruct h as [[c1 u1]|] eqn:Hh; [|discriminate] end.
    destruct (core_read K r l) as [[c2 u2]|] eqn:Hd; [|discriminate].
    injection H as <- <-. destruct (IH _ _ eq_refl Hr) as (H1 & H2 & H3).
    assert (Hc1 : lin c1 /\ uses_label c1 = u1 /\ dlow r c1).
    { clear - Hh Hr. assert (H1' : R1 <> RFP) by discriminate. assert (Hl : low r R1) by (right; unfold R1; lia).
      destruct (o_deref o); cbn [negb] in Hh.
      - destruct (can_cast K (o_prev o)) as [[id|]|]; [| |discriminate].
        + destruct (ld_size (cf_env K) (o_btf o)) as [sz|]; [|discriminate].
          destruct (can_read_cast (o_btf o)); cbn [negb] in Hh.
          * destruct last; cbn [negb] in Hh.
            -- destruct (Nat.eqb r R1); cbn [negb] in Hh; injection Hh as <- <-;
                 (split; [repeat constructor; try discriminate; assumption|]); (split; [reflexivity|dl]).
            -- injection Hh as <- <-. split; [repeat constructor; discriminate|]. split; [reflexivity|dl].
          * injection Hh as <- <-. apply core_probe_lin; assumption.
        + injection Hh as <- <-. apply core_probe_lin; assumption.
      - injection Hh as <- <-.
        assert (Hx : let x := (if last && negb (Nat.eqb r R1) then [IMovR r R1] else []) in lin x /\ uses_label x = false /\ dlow r x).
        { cbn zeta. destruct (_ && _); (split; [repeat constructor; assumption|]); (split; [reflexivity|dl]). }
        destruct Hx as (Hx1 & Hx2 & Hx3).
        split; [apply lin_app; [apply addi_lin; assumption|assumption]|].
        split; [rewrite uses_app, addi_nolab; assumption|].
        apply dlow_app; [apply addi_dlow; assumption|assumption]. }
    destruct Hc1 as (Hc1 & Hc2 & Hc3). split; [apply lin_app; assumption|].
    split; [rewrite uses_app, Hc2, H2; reflexivity|apply dlow_app; assumption].
Qed.
Lemma push_dlow r y u n : dlow r (push_regs y u n).
Proof.
  unfold push_regs. apply dlow_app.
  - destruct (u R0); dl.
  - apply Forall_forall. intros i Hi. apply in_map_iff in Hi as (k & <- & _). cbn. discriminate.
Qed.
Lemma pop_dlow r y u n : (n <= 5)%nat -> dlow r (pop_regs y u n).
Proof.
  intros Hn. unfold pop_regs. apply dlow_app.
  - apply Forall_forall. intros i Hi. apply in_map_iff in Hi as (k & <- & Hk). cbn [dest]. intros x Hx. inversion Hx; subst.
    apply in_seq in Hk. pose proof (count_used_le u 1 n). right. lia.
  - destruct (u R0); dl.
Qed.
Lemma push_nolab y u n : uses_label (push_regs y u n) = false.
Proof.
  unfold push_regs. rewrite uses_app. apply orb_false_intro; [destruct (u R0); reflexivity|].
  unfold uses_label. induction (seq 0 _) as [|x l IH]; cbn; auto.
Qed.
Lemma pop_nolab y u n : uses_label (pop_regs y u n) = false.
Proof.
  unfold pop_regs. rewrite uses_app. apply orb_false_intro; [|destruct (u R0); reflexivity].
  unfold uses_label. induction (seq 0 _) as [|x l IH]; cbn; auto.
Qed.

End Safe.

Ltac dl := unfold dlow; repeat (apply Forall_cons; [cbn [dest]; intros ? Hdl; inversion Hdl; subst; unfold low, R0, R1, R2, R3 in *; auto; right; lia|]); apply Forall_nil.
(** What materialize appends. *)
Lemma chain_lin K s l r s' : emit_chain K s l r = ROk tt s' -> r <> RFP ->
  exists d, c_code s' = c_code s ++ d /\ c_regs s' = c_regs s /\ c_lab s' = c_lab s || uses_label d /\
    lin (cf_resv K) d /\ dlow r d /\ (cf_mode K = MDirect -> Forall (fun i => forall x, dest i = Some x -> x = r) d).
Proof.
  intros H Hr. unfold emit_chain in H. destruct (all_addr l).
  { injection H as <-. eexists. split; [reflexivity|]. split; [reflexivity|]. cbn [emit c_lab].
    assert (Hx : lin (cf_resv K) (flat_map (fun o => addi r (o_off o)) l) /\ uses_label (flat_map (fun o => addi r (o_off o)) l) = false /\
                 Forall (fun i => forall x, dest i = Some x -> x = r) (flat_map (fun o => addi r (o_off o)) l)).
    { induction l as [|o l IH]; cbn [flat_map]; [repeat constructor|]. destruct IH as (I1 & I2 & I3).
      split; [apply lin_app; [apply addi_lin|]; assumption|]. split; [rewrite uses_app, addi_nolab; assumption|].
      apply Forall_app. split; [|assumption]. unfold addi. destruct (o_off o =? 0); [constructor|]. apply Forall_cons; [cbn [dest]; congruence|constructor]. }
    destruct Hx as (H1 & H2 & H3). rewrite H2, orb_false_r. split; [reflexivity|]. split; [assumption|].
    split; [|auto]. eapply Forall_impl; [|exact H3]. intros i Hi x Hx. left. apply Hi, Hx. }
  destruct (cf_mode K) eqn:HM.
  - injection H as <-. unfold emit_probe_read. destruct (probe_read r l) as [c u] eqn:Hp.
    destruct (probe_lin (cf_resv K) _ _ _ _ Hp Hr) as (H1 & H2 & H3).
    assert (Hm : lin (cf_resv K) (if Nat.eqb r R3 then [] else [IMovR R3 r]) /\ uses_label (if Nat.eqb r R3 then [] else [IMovR R3 r]) = false
                 /\ dlow r (if Nat.eqb r R3 then [] else [IMovR R3 r])).
    { destruct (Nat.eqb r R3); (split; [repeat constructor; discriminate|]); (split; [reflexivity|dl]). }
    destruct Hm as (Hm1 & Hm2 & Hm3).
    exists (push_regs (cf_resv K) (c_regs s) 5 ++ (if Nat.eqb r R3 then [] else [IMovR R3 r]) ++ c ++
              pop_regs (cf_resv K) (c_regs s) 5).
    split; [destruct u; reflexivity|]. split; [destruct u; reflexivity|].
    rewrite !uses_app, push_nolab, pop_nolab, Hm2, H2. cbn [orb]. rewrite orb_false_r.
    split; [destruct u; cbn; rewrite ?orb_true_r, ?orb_false_r; reflexivity|].
    split; [apply lin_app; [apply push_lin; lia|]; apply lin_app; [assumption|]; apply lin_app; [assumption|]; apply pop_lin; lia|].
    split; [apply dlow_app; [apply push_dlow|]; apply dlow_app; [assumption|]; apply dlow_app; [assumption|]; apply pop_dlow; lia|discriminate].
  - unfold emit_core_read in H. destruct (core_read K r l) as [[c u]|] eqn:Hp; [|discriminate].
    injection H as <-. destruct (core_lin (cf_resv K) _ _ _ _ _ Hp Hr) as (H1 & H2 & H3).
    assert (Hm : lin (cf_resv K) (if Nat.eqb r R1 then [] else [IMovR R1 r]) /\ uses_label (if Nat.eqb r R1 then [] else [IMovR R1 r]) = false
                 /\ dlow r (if Nat.eqb r R1 then [] else [IMovR R1 r])).
    { destruct (Nat.eqb r R1); (split; [repeat constructor; discriminate|]); (split; [reflexivity|dl]). }
    destruct Hm as (Hm1 & Hm2 & Hm3).
    set (n := if cf_fast K then 2%nat else 5%nat). assert (Hn : (n <= 5)%nat) by (unfold n; destruct (cf_fast K); lia).
    exists (push_regs (cf_resv K) (c_regs s) n ++ (if Nat.eqb r R1 then [] else [IMovR R1 r]) ++ c ++
              pop_regs (cf_resv K) (c_regs s) n).
    split; [destruct u; reflexivity|]. split; [destruct u; reflexivity|].
    rewrite !uses_app, push_nolab, pop_nolab, Hm2, H2. cbn [orb]. rewrite orb_false_r.
    split; [destruct u; cbn; rewrite ?orb_true_r, ?orb_false_r; reflexivity|].
    split; [apply lin_app; [apply push_lin; lia|]; apply lin_app; [assumption|]; apply lin_app; [assumption|]; apply pop_lin; lia|].
    split; [apply dlow_app; [apply push_dlow|]; apply dlow_app; [assumption|]; apply dlow_app; [assumption|]; apply pop_dlow; lia|discriminate].
  - destruct (direct_read r l) as [c u] eqn:Hp. injection H as <-.
    destruct (direct_lin (cf_resv K) _ _ _ _ Hp Hr) as (H1 & H2 & H3).
    exists c. split; [destruct u; reflexivity|]. split; [destruct u; reflexivity|].
    split; [rewrite H2; destruct u; cbn; rewrite ?orb_true_r, ?orb_false_r; reflexivity|].
    split; [assumption|]. split; [|auto]. eapply Forall_impl; [|exact H3]. intros i Hi x Hx. left. apply Hi, Hx.
Qed.
