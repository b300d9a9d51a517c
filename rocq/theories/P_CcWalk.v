(** * Correctness of the emitted offset chains (all three read modes). *)
From Coq Require Import ZArith List Bool Lia String.
From Verif Require Import M_Ebpf P_Ebpf M_CcNum M_Cc S_CSem S_CSup P_CcMach.
Import ListNotations.
Open Scope Z_scope.

Definition frame (u : reg -> bool) (a b : mst) : Prop :=
  (forall r, u r = true \/ r = RFP -> rg b r = rg a r) /\ ker b = ker a.
Lemma frame_refl u a : frame u a a. Proof. split; auto. Qed.
Lemma frame_trans u a b c : frame u a b -> frame u b c -> frame u a c.
Proof. intros [H1 H2] [H3 H4]. split; [|congruence]. intros r Hr. rewrite H3, H1; auto. Qed.
Lemma frame_mono (u u' : reg -> bool) a b : (forall r, u' r = true -> u r = true) -> frame u a b -> frame u' a b.
Proof. intros H [H1 H2]. split; [|assumption]. intros r [Hr|Hr]; apply H1; auto. Qed.
Lemma frame_setr (u : reg -> bool) s r v : u r = false -> r <> RFP -> frame u s (setr s r v).
Proof.
  intros Hu Hr. split; [|reflexivity]. intros x Hx. rewrite rg_setr_neq; [reflexivity|].
  intros ->. destruct Hx as [Hx|Hx]; congruence.
Qed.

(** Only the scratch stack area and registers below 6 (and r) may change. *)
Definition ksave (r : reg) (a b : mst) : Prop :=
  (forall x, (6 <= x)%nat -> x <> r -> rg b x = rg a x) /\ ker b = ker a.
Lemma ksave_refl r a : ksave r a a. Proof. split; auto. Qed.
Lemma ksave_trans r a b c : ksave r a b -> ksave r b c -> ksave r a c.
Proof. intros [H1 H2] [H3 H4]. split; [|congruence]. intros x Hx Hn. rewrite H3, H1; auto. Qed.
Lemma ksave_setr r x s v : (x < 6)%nat \/ x = r -> ksave r s (setr s x v).
Proof.
  intros Hx. split; [|reflexivity]. intros y Hy Hn. apply rg_setr_neq. intros ->. lia.
Qed.

Section Walk.
  Variables (K : cfg) (C : cenv) (m : mach).
  Hypothesis Hmap : forall a, ce_map C a = true -> mapped m a = true.
  Notation E := (cf_env K).

  Definition hopread (v : Z) (o : poff) : option Z :=
    if (0 <=? o_off o) && (o_off o <? 2 ^ 15) then
      match nbytes K (o_prev o) (o_btf o) (o_off o) with
      | Some n => rd C (v + o_off o) n
      | None => None
      end
    else None.
  Fixpoint walk (v : Z) (l : list poff) : option Z :=
    match l with
    | [] => Some v
    | o :: rest =>
        if negb (o_deref o) then
          if s32ok (o_off o) then walk (wrap (v + o_off o)) rest else None
        else match hopread v o with
             | Some p => match rest with
                         | [] => Some p
                         | _ => if p =? 0 then None else walk p rest
                         end
             | None => None
             end
    end.

  Definition ends_deref (l : list poff) : bool :=
    match rev l with [] => false | o :: _ => o_deref o end.
  Lemma ends_deref_snoc l o : ends_deref (l ++ [o]) = o_deref o.
  Proof. unfold ends_deref. rewrite rev_unit. reflexivity. Qed.
  Lemma ends_deref_cons o o' l : ends_deref (o :: o' :: l) = ends_deref (o' :: l).
  Proof.
    unfold ends_deref. cbn [rev]. destruct (rev l ++ [o']) eqn:H; [|reflexivity].
    destruct (rev l); discriminate.
  Qed.

  Lemma walk_app v l1 l2 : l2 <> [] ->
    walk v (l1 ++ l2) =
    match walk v l1 with
    | Some p => if ends_deref l1 && (p =? 0) then None else walk p l2
    | None => None
    end.
  Proof.
    intros Hl2. revert v; induction l1 as [|o l1 IH]; intros v.
    - cbn [app walk ends_deref rev]. reflexivity.
    - cbn [app walk]. destruct (negb (o_deref o)) eqn:Hd.
      + destruct (s32ok (o_off o)); [|reflexivity]. rewrite IH.
        destruct l1 as [|o' l1]; [|rewrite ends_deref_cons; reflexivity].
        cbn [walk]. unfold ends_deref; cbn [rev app]. destruct (o_deref o); [discriminate|]. reflexivity.
      + destruct (hopread v o) as [p|]; [|reflexivity].
        destruct l1 as [|o' l1].
        * cbn [app]. destruct l2 as [|o2 l2]; [contradiction|].
          unfold ends_deref; cbn [rev app]. destruct (o_deref o); [|discriminate]. reflexivity.
        * cbn [app] in IH |- *. destruct (p =? 0) eqn:Hp; [reflexivity|].
          rewrite IH. rewrite ends_deref_cons. reflexivity.
  Qed.
  Lemma walk_snoc v l o : walk v (l ++ [o]) =
    match walk v l with
    | Some p => if ends_deref l && (p =? 0) then None
                else if negb (o_deref o) then (if s32ok (o_off o) then Some (wrap (p + o_off o)) else None)
                else hopread p o
    | None => None
    end.
  Proof.
    rewrite walk_app by discriminate. destruct (walk v l) as [p|]; [|reflexivity].
    destruct (ends_deref l && (p =? 0)); [reflexivity|]. cbn [walk].
    destruct (negb (o_deref o)); [reflexivity|].
    destruct (hopread p o); reflexivity.
  Qed.

  Lemma nbytes_le8 p t off n : nbytes K p t off = Some n -> (n <= 8)%nat.
  Proof.
    intros H. assert (Hl : forall k, ld_size E t = Some k -> (k <= 8)%nat).
    { unfold ld_size. intros k. destruct t as [u|]; [|discriminate].
      destruct (sizeof E u) as [z|]; [|discriminate].
      destruct (z =? 1), (z =? 2), (z =? 4); intros Hk; inversion Hk; lia. }
    unfold nbytes in H. destruct (cf_mode K); [inversion H; lia| |inversion H; lia].
    destruct (can_cast K p) as [[id|]|]; [| |discriminate].
    - destruct (ld_size E t) as [k|] eqn:Hk; [|discriminate].
      destruct (can_read_cast t); [inversion H; subst; auto|].
      destruct (off =? 0); inversion H; lia.
    - destruct (off =? 0); inversion H; lia.
  Qed.
  Lemma hopread_range v o p : hopread v o = Some p -> 0 <= p < M64.
  Proof.
    unfold hopread. destruct ((0 <=? o_off o) && (o_off o <? 2 ^ 15)); [|discriminate].
    destruct (nbytes K _ _ _) as [n|] eqn:Hn; [|discriminate]. intros H.
    apply (rd_range m C Hmap) in H. apply nbytes_le8 in Hn.
    assert (2 ^ (8 * Z.of_nat n) <= 2 ^ 64) by (apply Z.pow_le_mono_r; lia).
    rewrite M64_pow. lia.
  Qed.
  Lemma walk_range v l p : 0 <= v < M64 -> walk v l = Some p -> 0 <= p < M64.
  Proof.
    revert v; induction l as [|o l IH]; intros v Hv; cbn [walk].
    - intros H; inversion H; subst; assumption.
    - destruct (negb (o_deref o)).
      + destruct (s32ok (o_off o)); [|discriminate]. apply IH. apply wrap_range.
      + destruct (hopread v o) as [q|] eqn:Hq; [|discriminate].
        apply hopread_range in Hq. destruct l; [intros H; inversion H; subst; assumption|].
        destruct (q =? 0); [discriminate|]. apply IH. assumption.
  Qed.

  Lemma s32ok_spec c : s32ok c = true -> - 2 ^ 31 <= c < 2 ^ 31.
  Proof. unfold s32ok. intros H. apply andb_prop in H as [H1 H2]. apply Z.leb_le in H1. apply Z.ltb_lt in H2. lia. Qed.

  (** addi. *)
  Lemma exec_addi r off ms : r <> RFP -> s32ok off = true -> 0 <= rg ms r < M64 ->
    exists ms', exec m (addi r off) 0 ms = FFall 0 ms' /\ rg ms' r = wrap (rg ms r + off) /\
                (forall x, x <> r -> rg ms' x = rg ms x) /\ ker ms' = ker ms /\ stk ms' = stk ms.
  Proof.
    intros Hr Hs Hv. apply s32ok_spec in Hs. unfold addi. destruct (Z.eqb_spec off 0) as [->|Hz].
    - exists ms. cbn. rewrite Z.add_0_r, wrap_small by assumption. auto.
    - eexists. cbn [exec step1 alu_sem]. split; [reflexivity|].
      rewrite rg_setr_eq, immv_s32' by lia. rewrite wrap_add_r.
      repeat split; auto. intros x Hx. apply rg_setr_neq; assumption.
  Qed.

  (** Direct mode. *)
  Lemma direct_ok r l : cf_mode K = MDirect -> r <> RFP -> forall ms v p,
    rg ms r = v -> 0 <= v < M64 -> kagree C (ker ms) -> walk v l = Some p ->
    exists ms', exec m (fst (direct_read r l)) 0 ms = FFall 0 ms' /\ rg ms' r = p /\
                (forall x, x <> r -> rg ms' x = rg ms x) /\ ker ms' = ker ms.
  Proof.
    intros HM Hr. induction l as [|o l IH]; intros ms v p Hv Hrange Hk Hw.
    - cbn in *. inversion Hw; subst. exists ms. auto.
    - cbn [direct_read walk] in *. destruct (direct_read r l) as [c u] eqn:Hd. cbn [fst] in IH.
      destruct (negb (o_deref o)) eqn:Hde.
      + destruct (s32ok (o_off o)) eqn:Hs; [|discriminate]. cbn [fst].
        subst v. destruct (exec_addi r (o_off o) ms Hr Hs Hrange) as (ms1 & H1 & H2 & H3 & H4 & _).
        rewrite exec_app, H1.
        destruct (IH ms1 _ p H2 (wrap_range _) ltac:(kagr) Hw) as (ms2 & H5 & H6 & H7 & H8).
        exists ms2. rewrite H5. split; [reflexivity|]. split; [assumption|]. split.
        * intros x Hx. rewrite H7, H3; auto.
        * congruence.
      + destruct (hopread v o) as [q|] eqn:Hq; [|discriminate].
        pose proof (hopread_range _ _ _ Hq) as Hqr.
        unfold hopread, nbytes in Hq. rewrite HM in Hq.
        destruct ((0 <=? o_off o) && (o_off o <? 2 ^ 15)) eqn:Hoff; [|discriminate].
        apply andb_prop in Hoff as [Ho1 Ho2]. apply Z.leb_le in Ho1. apply Z.ltb_lt in Ho2.
        assert (Hld : load m ms r (s16 (o_off o)) 8 = q).
        { unfold load. rewrite s16_id by lia.
          destruct (Nat.eqb_spec r RFP); [contradiction|]. rewrite Hv.
          eapply rd_kread; eauto. }
        destruct l as [|o' l'].
        * cbn in Hd. inversion Hd; subst c u. cbn [fst exec step1]. rewrite Hld.
          inversion Hw; subst. eexists; split; [reflexivity|].
          split; [apply rg_setr_eq|]. split; [|reflexivity]. intros. apply rg_setr_neq; assumption.
        * destruct (q =? 0) eqn:Hq0; [discriminate|].
          cbn [fst]. cbn [exec step1]. rewrite Hld.
          cbn [jop_sem]. rewrite rg_setr_eq. change (immv 0) with 0. rewrite Hq0.
          destruct (IH (setr ms r q) q p (rg_setr_eq _ _ _) Hqr Hk Hw) as (ms2 & H5 & H6 & H7 & H8).
          exists ms2. rewrite H5. repeat split; auto. intros x Hx. rewrite H7 by auto. apply rg_setr_neq; auto.
  Qed.

  (** probe_read_kernel(R10-8, 8, R3). *)
  Lemma le_wr8 f g : le (wr f (-8) 8 g) (-8) 8 = le (fun i => g (i + 8)) (-8) 8.
  Proof.
    apply le_ext. intros x Hx. unfold wr.
    destruct (Z.leb_spec (-8) x); [|lia]. destruct (Z.ltb_spec x (-8 + 8)); [|lia]. cbn [andb].
    replace (x - -8) with (x + 8) by lia. reflexivity.
  Qed.
  Lemma le_shift f a b n : le f (a + b) n = le (fun i => f (i + b)) a n.
  Proof.
    revert a; induction n as [|n IH]; intros a; cbn [le]; [reflexivity|].
    rewrite <- IH. replace (a + b + 1) with (a + 1 + b) by lia. reflexivity.
  Qed.
  Lemma rd_wrap a n : rd C (wrap a) n = rd C a n.
  Proof.
    unfold rd.
    assert (Hw8 : forall x, wrap (wrap a + x) = wrap (a + x)) by (intros; apply wrap_add_l).
    rewrite (forallb_ext (fun i => ce_map C (wrap (wrap a + Z.of_nat i)))
               (fun i => ce_map C (wrap (a + Z.of_nat i)))) by (intros; rewrite Hw8; reflexivity).
    destruct (forallb _ _); [|reflexivity]. f_equal.
    transitivity (le (fun x => ce_mem C (wrap x)) (0 + wrap a) n); [f_equal; lia|].
    transitivity (le (fun x => ce_mem C (wrap x)) (0 + a) n); [|f_equal; lia].
    rewrite !le_shift. apply le_ext. intros x _. f_equal. f_equal.
    rewrite Z.add_comm, Hw8. f_equal. lia.
  Qed.
  Lemma write_at_scratch s g : let s' := set_stk s (wr (stk s) (-8) 8 g) in
    forall a, wrap (a - rg s RFP) = M64 - 8 -> write_at s a 8 g = s'.
  Proof.
    intros s' a H. unfold write_at. rewrite H. cbn. reflexivity.
  Qed.
  Lemma probe_call_ok ms r3 q : rg ms R3 = r3 -> rd C r3 8 = Some q -> kagree C (ker ms) ->
    exists ms', exec m probe_call 0 ms = FFall 0 ms' /\ le (stk ms') (-8) 8 = q /\
      (forall x, (6 <= x)%nat -> rg ms' x = rg ms x) /\ ker ms' = ker ms.
  Proof.
    intros H3 Hrd Hk. unfold probe_call. cbn [exec step1].
    set (s1 := setr _ _ _) at 1. 
    assert (Hr2 : rg s1 R2 = 8) by reflexivity.
    assert (Hr3 : rg s1 R3 = r3) by (subst s1; rewrite !rg_setr_neq by discriminate; assumption).
    assert (Hr1 : wrap (rg s1 R1 - rg s1 RFP) = M64 - 8).
    { subst s1. rewrite rg_setr_eq. cbn [alu_sem]. rewrite !rg_setr_eq, !rg_setr_neq by discriminate.
      change (immv (-8)) with (M64 - 8). rewrite wrap_add_r || idtac.
      unfold wrap. rewrite Zminus_mod_idemp_l.
      replace (rg ms RFP + (M64 - 8) - rg ms RFP) with (M64 - 8) by lia. reflexivity. }
    assert (Hs : stk s1 = stk ms) by reflexivity.
    assert (Hks : ker s1 = ker ms) by reflexivity.
    assert (Hx : forall x, (6 <= x)%nat -> rg s1 x = rg ms x).
    { intros x Hx. subst s1. rewrite !rg_setr_neq; try reflexivity; intros ->; unfold R1, R2 in *; lia. }
    clearbody s1. unfold do_probe_read. rewrite Hr2, Hr3.
    destruct (rd_mapped m C Hmap _ _ _ Hrd) as [Hm Hq].
    change (Z.to_nat 8) with 8%nat. rewrite Hm.
    rewrite (write_at_scratch s1 _ _ Hr1). eexists; split; [reflexivity|].
    cbn [clobber set_stk stk rg ker]. split; [|split].
    - rewrite le_wr8. subst q.
      transitivity (le (fun x => ce_mem C (wrap x)) (-8 + (r3 + 8)) 8); [|f_equal; lia].
      transitivity (le (kb ms) (-8 + (r3 + 8)) 8).
      { rewrite le_shift. apply le_ext. intros x _. cbv beta. unfold kb. rewrite Hks.
        rewrite Z.mod_mod by lia. f_equal. f_equal. f_equal. lia. }
      pose proof (rd_kread m C Hmap _ _ _ _ Hrd Hk) as Hkr. unfold kread in Hkr. rewrite Hm in Hkr.
      replace (-8 + (r3 + 8)) with r3 by lia. exact Hkr.
    - intros x Hx6. destruct (Nat.eqb_spec x 0); [lia|]. destruct (Nat.leb_spec x 5); [lia|]. auto.
    - congruence.
  Qed.

  Lemma le_stk8_range s : 0 <= le (stk s) (-8) 8 < M64.
  Proof. pose proof (le_range (stk s) (-8) 8). change (256 ^ Z.of_nat 8) with M64 in H. exact H. Qed.

  (** Probe mode: R3 carries the pointer. *)
  Lemma probe_ok r l : cf_mode K = MProbe -> (6 <= r)%nat -> r <> RFP -> l <> [] -> forall ms v p,
    rg ms R3 = v -> 0 <= v < M64 -> kagree C (ker ms) -> walk v l = Some p ->
    exists ms', exec m (fst (probe_read r l)) 0 ms = FFall 0 ms' /\ rg ms' r = p /\ ksave r ms ms'.
  Proof.
    intros HM H6 Hr. induction l as [|o l IH]; intros Hne ms v p Hv Hrange Hk Hw; [contradiction|].
    cbn [probe_read walk] in *. destruct (probe_read r l) as [c u] eqn:Hd. cbn [fst] in IH.
    destruct (negb (o_deref o)) eqn:Hde.
    - destruct (s32ok (o_off o)) eqn:Hs; [|discriminate]. cbn [fst].
      subst v. destruct (exec_addi R3 (o_off o) ms ltac:(discriminate) Hs Hrange) as (ms1 & H1 & H2 & H3 & H4 & _).
      rewrite exec_app, H1.
      assert (Hks : ksave r ms ms1) by (split; [intros x Hx _; apply H3; unfold R3; lia|assumption]).
      destruct l as [|o' l'].
      + cbn [andb]. destruct (Nat.eqb_spec r R3); [unfold R3 in *; lia|]. cbn [negb].
        cbn in Hd. inversion Hd; subst. cbn [app exec step1]. cbn in Hw. inversion Hw; subst.
        eexists; split; [reflexivity|]. rewrite rg_setr_eq. split; [assumption|].
        eapply ksave_trans; [exact Hks|]. apply ksave_setr. auto.
      + cbn [andb app].
        destruct (IH ltac:(discriminate) ms1 _ p H2 (wrap_range _) ltac:(kagr) Hw) as (ms2 & H5 & H6' & H7).
        exists ms2. rewrite H5. split; [reflexivity|]. split; [assumption|].
        eapply ksave_trans; [exact Hks|exact H7].
    - destruct (hopread v o) as [q|] eqn:Hq; [|discriminate].
      pose proof (hopread_range _ _ _ Hq) as Hqr.
      unfold hopread, nbytes in Hq. rewrite HM in Hq.
      destruct ((0 <=? o_off o) && (o_off o <? 2 ^ 15)) eqn:Hoff; [|discriminate].
      apply andb_prop in Hoff as [Ho1 Ho2]. apply Z.leb_le in Ho1. apply Z.ltb_lt in Ho2.
      assert (Hs : s32ok (o_off o) = true).
      { unfold s32ok. apply andb_true_intro; split; [apply Z.leb_le|apply Z.ltb_lt]; lia. }
      subst v. destruct (exec_addi R3 (o_off o) ms ltac:(discriminate) Hs Hrange) as (ms1 & H1 & H2 & H3 & H4 & _).
      assert (Hks : ksave r ms ms1) by (split; [intros x Hx _; apply H3; unfold R3; lia|assumption]).
      assert (Hrd : rd C (wrap (rg ms R3 + o_off o)) 8 = Some q).
      { rewrite rd_wrap. exact Hq. }
      destruct (probe_call_ok ms1 _ q H2 Hrd ltac:(kagr)) as (ms2 & H5 & H6' & H7 & H8).
      assert (Hks2 : ksave r ms ms2).
      { eapply ksave_trans; [exact Hks|]. split; [intros; auto|assumption]. }
      destruct l as [|o' l'].
      + cbn in Hd. inversion Hd; subst c u. cbn [fst].
        rewrite exec_app, H1, exec_app, H5. cbn [app exec step1].
        inversion Hw; subst p. eexists; split; [reflexivity|].
        rewrite rg_setr_eq. unfold load. cbn [Nat.eqb RFP].
        split; [exact H6'|]. eapply ksave_trans; [exact Hks2|]. apply ksave_setr; auto.
      + destruct (q =? 0) eqn:Hq0; [discriminate|]. cbn [fst].
        rewrite exec_app, H1, exec_app, H5. cbn [app exec step1].
        set (ms3 := setr ms2 R3 _).
        assert (Hl : rg ms3 R3 = q) by (unfold ms3; rewrite rg_setr_eq; exact H6').
        cbn [jop_sem]. change (immv 0) with 0. rewrite Hl, Hq0.
        assert (Hks3 : ksave r ms ms3).
        { eapply ksave_trans; [exact Hks2|]. apply ksave_setr; unfold R3; lia. }
        destruct (IH ltac:(discriminate) ms3 q p Hl Hqr ltac:(destruct Hks3 as [_ ->]; kagr) Hw) as (ms4 & H9 & H10 & H11).
        exists ms4. rewrite H9. split; [reflexivity|]. split; [assumption|].
        eapply ksave_trans; [exact Hks3|exact H11].
  Qed.

  (** CO-RE mode: R1 carries the pointer. *)
  Lemma core_probe_ok r last ms v q : (6 <= r)%nat -> r <> RFP -> rg ms R1 = v -> rd C v 8 = Some q ->
    kagree C (ker ms) ->
    exists ms', exec m (core_probe r last) 0 ms = FFall 0 ms' /\
      rg ms' (if last then r else R1) = q /\ ksave r ms ms'.
  Proof.
    intros H6 Hr H1 Hrd Hk.
    assert (Hcode : core_probe r last = IMovR R3 R1 :: probe_call ++
              [ILd (if last then r else R1) RFP (-8) 8]).
    { unfold core_probe, probe_call. destruct (Nat.eqb_spec r R1); [unfold R1 in *; lia|].
      destruct last; reflexivity. }
    rewrite Hcode. cbn [exec step1].
    set (ms1 := setr ms R3 _).
    assert (H3 : rg ms1 R3 = v) by (unfold ms1; rewrite rg_setr_eq; assumption).
    destruct (probe_call_ok ms1 v q H3 Hrd Hk) as (ms2 & H5 & H6' & H7 & H8).
    rewrite exec_app, H5. cbn [exec step1]. eexists; split; [reflexivity|].
    rewrite rg_setr_eq. split; [exact H6'|].
    assert (Hks : ksave r ms ms2).
    { split; [|assumption]. intros x Hx _. rewrite H7 by assumption. unfold ms1. apply rg_setr_neq. unfold R3; lia. }
    eapply ksave_trans; [exact Hks|]. apply ksave_setr. destruct last; [auto|]. unfold R1; lia.
  Qed.

  Lemma core_ok r l : cf_mode K = MCore -> (6 <= r)%nat -> r <> RFP -> l <> [] ->
    forall c u, core_read K r l = Some (c, u) -> forall ms v p,
    rg ms R1 = v -> 0 <= v < M64 -> kagree C (ker ms) -> walk v l = Some p ->
    exists ms', exec m c 0 ms = FFall 0 ms' /\ rg ms' r = p /\ ksave r ms ms'.
  Proof.
    intros HM H6 Hr. assert (HrR1 : Nat.eqb r R1 = false) by (apply Nat.eqb_neq; unfold R1; lia).
    induction l as [|o l IH]; intros Hne c u Hcr ms v p Hv Hrange Hk Hw; [contradiction|].
    cbn [core_read walk] in *. 
    set (last := match l with [] => true | _ => false end) in *.
    match type of Hcr with match ?h with _ => _ end = _ => set (hd := h) in *; destruct hd as [[c1 u1]|] eqn:Hh end; [|discriminate].
    destruct (core_read K r l) as [[c2 u2]|] eqn:Hrest; [|discriminate]. inversion Hcr; subst c u; clear Hcr.
    (* it suffices to run the head *)
    assert (Hhead : exists q, (if negb (o_deref o) then s32ok (o_off o) = true /\ q = wrap (v + o_off o)
                               else hopread v o = Some q /\ (last = false -> q <> 0)) /\
              exists ms1, exec m c1 0 ms = FFall 0 ms1 /\ rg ms1 (if last then r else R1) = q /\ ksave r ms ms1).
    { subst hd. destruct (negb (o_deref o)) eqn:Hde.
      - destruct (s32ok (o_off o)) eqn:Hs; [|discriminate].
        exists (wrap (v + o_off o)). split; [auto|]. inversion Hh; subst c1 u1; clear Hh.
        subst v. destruct (exec_addi R1 (o_off o) ms ltac:(discriminate) Hs Hrange) as (ms1 & H1 & H2 & H3 & H4 & _).
        assert (Hks : ksave r ms ms1) by (split; [intros x Hx _; apply H3; unfold R1; lia|assumption]).
        rewrite exec_app, H1. rewrite HrR1. cbn [negb]. rewrite andb_true_r.
        destruct last.
        + cbn [exec step1]. eexists; split; [reflexivity|]. rewrite rg_setr_eq. split; [assumption|].
          eapply ksave_trans; [exact Hks|]. apply ksave_setr; auto.
        + cbn [exec]. exists ms1. auto.
      - destruct (hopread v o) as [q|] eqn:Hq; [|discriminate].
        exists q. split.
        { split; [reflexivity|]. intros Hl ->. destruct l; [discriminate|]. cbn in Hw. discriminate. }
        unfold hopread, nbytes in Hq. rewrite HM in Hq.
        destruct ((0 <=? o_off o) && (o_off o <? 2 ^ 15)) eqn:Hoff; [|discriminate].
        apply andb_prop in Hoff as [Ho1 Ho2]. apply Z.leb_le in Ho1. apply Z.ltb_lt in Ho2.
        destruct (can_cast K (o_prev o)) as [[id|]|]; [| |discriminate].
        + destruct (ld_size E (o_btf o)) as [sz|]; [|discriminate].
          destruct (can_read_cast (o_btf o)); cbn [negb] in Hh.
          * assert (Hld : forall msx (x : Z), rg msx R0 = v -> kagree C (ker msx) ->
                       load m msx R0 (s16 (o_off o)) sz = q).
            { intros msx _ H0 Hkx. unfold load. cbn [Nat.eqb R0 RFP]. rewrite H0, s16_id by lia.
              eapply rd_kread; eauto. }
            set (ms1 := clobber m (setr ms R2 (immv (s32 id))) (if cf_fast K then 2 else 5) (rg ms R1)).
            assert (Hks : ksave r ms ms1).
            { split; [|reflexivity]. intros x Hx _. unfold ms1. cbn [clobber rg].
              destruct (Nat.eqb_spec x 0); [lia|].
              destruct (Nat.leb_spec x (if cf_fast K then 2 else 5)%nat); [destruct (cf_fast K); lia|].
              apply rg_setr_neq. unfold R2; lia. }
            assert (H0 : rg ms1 R0 = v) by (unfold ms1; cbn; assumption).
            assert (Hk1 : kagree C (ker ms1)) by (destruct Hks as [_ ->]; assumption).
            rewrite HrR1 in Hh. cbn [negb] in Hh.
            destruct last eqn:Hlast; cbn [negb] in Hh; inversion Hh; subst c1 u1; clear Hh; cbn [app exec step1];
              change (rg (setr ms R2 (immv (s32 id))) R1) with (rg ms R1); fold ms1;
              rewrite (Hld ms1 0 H0 Hk1).
            -- eexists; split; [reflexivity|]. rewrite rg_setr_eq. split; [reflexivity|].
               eapply ksave_trans; [exact Hks|]. apply ksave_setr; auto.
            -- assert (Hq0 : q <> 0).
               { intros ->. destruct l; [discriminate|]. cbn in Hw. discriminate. }
               cbn [jop_sem]. rewrite rg_setr_eq. change (immv 0) with 0.
               destruct (Z.eqb_spec q 0); [contradiction|].
               eexists; split; [reflexivity|]. rewrite rg_setr_eq. split; [reflexivity|].
               eapply ksave_trans; [exact Hks|]. apply ksave_setr; unfold R1; lia.
          * destruct (Z.eqb_spec (o_off o) 0) as [Hz|]; [|discriminate].
            rewrite Hz, Z.add_0_r in Hq. inversion Hh; subst c1 u1.
            eapply core_probe_ok; eauto.
        + destruct (Z.eqb_spec (o_off o) 0) as [Hz|]; [|discriminate].
          rewrite Hz, Z.add_0_r in Hq. inversion Hh; subst c1 u1.
          eapply core_probe_ok; eauto. }
    destruct Hhead as (q & Hq & ms1 & He1 & Hr1 & Hks1).
    rewrite exec_app, He1.
    destruct l as [|o' l'].
    - cbn in Hrest. inversion Hrest; subst c2 u2. exists ms1. cbn [exec]. split; [reflexivity|].
      split; [|assumption]. cbn in Hr1. rewrite Hr1.
      destruct (negb (o_deref o)).
      + destruct Hq as [Hs Hq]. rewrite Hs in Hw. cbn in Hw. inversion Hw; subst; reflexivity.
      + destruct Hq as [Hq _]. rewrite Hq in Hw. inversion Hw; reflexivity.
    - cbn in Hr1.
      assert (Hwq : walk q (o' :: l') = Some p /\ 0 <= q < M64).
      { destruct (negb (o_deref o)).
        - destruct Hq as [Hs Hq]. rewrite Hs in Hw. subst q. split; [assumption|apply wrap_range].
        - destruct Hq as [Hq Hnz]. rewrite Hq in Hw. specialize (Hnz eq_refl).
          destruct (Z.eqb_spec q 0); [contradiction|]. split; [assumption|]. eapply hopread_range; eauto. }
      destruct Hwq as [Hwq Hqr].
      destruct (IH ltac:(discriminate) _ _ eq_refl ms1 q p Hr1 Hqr ltac:(destruct Hks1 as [_ ->]; assumption) Hwq)
        as (ms2 & H5 & H7 & H8).
      exists ms2. rewrite H5. split; [reflexivity|]. split; [assumption|].
      eapply ksave_trans; eauto.
  Qed.

  (** Address-only chains. *)
  Lemma addr_ok r l : r <> RFP -> all_addr l = true -> forall ms v p,
    rg ms r = v -> 0 <= v < M64 -> walk v l = Some p ->
    exists ms', exec m (flat_map (fun o => addi r (o_off o)) l) 0 ms = FFall 0 ms' /\ rg ms' r = p /\
                (forall x, x <> r -> rg ms' x = rg ms x) /\ ker ms' = ker ms.
  Proof.
    intros Hr. induction l as [|o l IH]; intros Ha ms v p Hv Hrange Hw.
    - cbn in *. inversion Hw; subst. exists ms. auto.
    - unfold all_addr in Ha. cbn [forallb] in Ha. apply andb_prop in Ha as [Ha1 Ha2].
      cbn [walk flat_map] in *. rewrite Ha1 in Hw.
      destruct (s32ok (o_off o)) eqn:Hs; [|discriminate]. subst v.
      destruct (exec_addi r (o_off o) ms Hr Hs Hrange) as (ms1 & H1 & H2 & H3 & H4 & _).
      rewrite exec_app, H1.
      destruct (IH Ha2 ms1 _ p H2 (wrap_range _) Hw) as (ms2 & H5 & H6 & H7 & H8).
      exists ms2. rewrite H5. split; [reflexivity|]. split; [assumption|]. split.
      + intros x Hx. rewrite H7, H3; auto.
      + congruence.
  Qed.
End Walk.
