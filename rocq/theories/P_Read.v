(** * Proofs for M_Read *)
From Coq Require Import ZArith List Bool Lia.
From Verif Require Import M_Go M_Ebpf P_Ebpf M_CcNum M_Cc M_Bytes M_FnArgs S_FnArgs S_CSem S_CSup S_Null M_OutArg S_OutArg M_Read S_Read.
From Verif Require Import P_CcMach P_CcWalk P_CcMat P_Null2 P_FnArgs P_FnArgs2 P_OutArg P_OutArg2 P_OutArg3 P_OutArg4 P_OutArg5.
Import ListNotations.
Open Scope Z_scope.

Lemma force_runtime K C m e r : (forall a, ce_map C a = true -> mapped m a = true) -> cf_vars K = [] -> compile_force K e = Some r -> runtime_expr K (subject e) = true -> compile_eval K e = Some r.
Proof.
  intros Hm HK. unfold compile_force, compile_eval. destruct (split_call e) as [[[[[rt a] off] size]|]|[]] eqn:Hs; try discriminate.
  pose proof (split_subject _ _ _ _ _ Hs) as ->.
  destruct (evaluate K (subject e) eval_init) as [v s| |] eqn:Hev; try discriminate.
  assert (Hslot : forall i, (i < List.length (cf_vars K))%nat -> Z.of_nat i * 8 < 2 ^ 15 /\ rd C (0 + Z.of_nat i * 8) 8 = Some (ce_slot C i)).
  { intros i Hi. rewrite HK in Hi. cbn in Hi. lia. }
  intros H Hr. pose proof (rt_expr K C m 0 Hm Hslot (subject e) _ _ _ Hev Hr) as Hv. destruct v; cbn [is_const] in H; try exact H. discriminate.
Qed.

Lemma pid_tgid_inj p t p' t' : thread p t -> thread p' t' -> pid_tgid p t = pid_tgid p' t' -> p = p' /\ t = t'.
Proof.
  intros [Hp Ht] [Hp' Ht'].
  assert (E : forall p t, 0 <= p < 2 ^ 31 -> 0 <= t < 2 ^ 31 -> pid_tgid p t = p * 2 ^ 32 + t).
  { intros a b Ha Hb. unfold pid_tgid. rewrite Z.shiftl_mul_pow2 by lia.
    assert (Hl : Z.land (a * 2 ^ 32) b = 0).
    { apply Z.bits_inj'. intros n Hn. rewrite Z.land_spec, Z.bits_0. destruct (Z_lt_le_dec n 32) as [Hlt|Hge].
      - rewrite Z.mul_pow2_bits_low by lia. reflexivity.
      - replace b with (b mod 2 ^ 32) by (apply Z.mod_small; lia). rewrite Z.mod_pow2_bits_high by lia. apply andb_false_r. }
    rewrite <- Z.lxor_lor by exact Hl. symmetry. apply Z.add_nocarry_lxor. exact Hl. }
  rewrite !E by assumption. lia.
Qed.

Section Hits.
  Variables (m : mach) (a : oarg) (B pid tid : Z).
  Hypothesis Hme : thread pid tid.
  Notation step := (read_hit m a B (pid_tgid pid tid)).
  Lemma other_hits hs st : Forall (fun h => thread (h_pid h) (h_tid h) /\ ~ made_by pid tid h) hs -> fold_left step hs st = st.
  Proof.
    revert st. induction hs as [|h hs IH]; intros st H; [reflexivity|]. inversion H as [|? ? [Ht Hn] H']; subst. cbn [fold_left].
    replace (step st h) with st; [apply IH; exact H'|]. unfold read_hit.
    destruct (Z.eqb_spec (pid_tgid (h_pid h) (h_tid h)) (pid_tgid pid tid)) as [E|]; [|reflexivity].
    exfalso. apply Hn. exact (pid_tgid_inj _ _ _ _ Ht Hme E).
  Qed.
  Lemma later_hits hs st : rd_run st = true -> fold_left step hs st = st.
  Proof.
    revert st. induction hs as [|h hs IH]; intros st H; [reflexivity|]. cbn [fold_left].
    replace (step st h) with st; [apply IH; exact H|]. unfold read_hit. rewrite H. destruct (negb _); reflexivity.
  Qed.
End Hits.

Lemma view_frame m s s0 B size a o : (forall x, ~ (B <= x < B + size) -> ker s x = ker s0 x) -> arg_apart B size a o -> wf_arg a ->
  (oa_type a = RDefault -> oa_off a = 0) -> view_arg (mem_of m s) a o = view_arg (mem_of m s0) a o.
Proof.
  intros Hk Hap [Hw1 Hw2] Hd. destruct o as [v|]; [|reflexivity]. unfold view_arg. destruct (oa_chk a && (v =? 0)); [reflexivity|].
  specialize (Hap v eq_refl). unfold reads in Hap.
  assert (Hb : forall x n, apart B size x n -> bytes (mem_of m s) x n = bytes (mem_of m s0) x n) by (intros; apply (bytes_frame m s s0 B size); assumption).
  assert (Hc : forall x n, apart B size x n -> cstr (mem_of m s) x n = cstr (mem_of m s0) x n) by (intros; apply (cstr_frame m s s0 B size); assumption).
  destruct (oa_type a) eqn:Ht; try reflexivity; try (unfold dump, str_to; rewrite ?Hb, ?Hc by (apply Hap; reflexivity); reflexivity).
  rewrite (Hd eq_refl), Z.add_0_r in Hap. clear Hd. specialize (Hw2 eq_refl).
  assert (Hap' : oa_str a || oa_num a = true -> apart B size v (Z.to_nat (oa_true a))).
  { intros H i Hi. specialize (Hap H i Hi). rewrite Zplus_mod_idemp_l in Hap. exact Hap. }
  destruct (oa_str a) eqn:Hs; cbn [orb] in *.
  { unfold str_to. rewrite Hc by auto. reflexivity. }
  destruct (oa_num a) eqn:Hn; [|reflexivity]. specialize (Hw2 eq_refl). unfold num_at. rewrite Hb; [reflexivity|].
  intros i Hi. apply Hap'; [reflexivity|]. rewrite Hw2. change (Z.of_nat (Z.to_nat 16)) with 16. lia.
Qed.
Lemma gen_off T E r off a : gen_arg T E r off = Some a -> oa_off a = r_off r /\ oa_type a = r_type r.
Proof.
  unfold gen_arg. destruct (r_btf r) as [t|]; [|discriminate]. destruct (sizeof E t) as [n|]; [|discriminate]. cbv zeta.
  destruct (r_type r) eqn:Hr; try (intros H; injection H as <-; split; reflexivity);
    (destruct (is_str_ty T t); [destruct (ti_chars T t)|destruct (_ || _); [discriminate|]]; intros H; injection H as <-; split; reflexivity).
Qed.

Theorem read_shows T K C m e a B pid tid before h after v :
  tinfo_ok T -> sees K C m (h_st h) -> buff_at C (h_st h) B ->
  (forall r, compile_force K e = Some r -> ready K r) -> read_compile T K e = Some a ->
  runtime_expr K (subject e) = true -> outcome K C e v ->
  1 <= oa_true a < 2 ^ 15 - 1 -> - 2 ^ 31 <= oa_off a < 2 ^ 31 -> arg_apart B buff_size a v ->
  thread pid tid -> Forall (fun x => thread (h_pid x) (h_tid x) /\ ~ made_by pid tid x) before -> made_by pid tid h ->
  read_session m a B pid tid (before ++ h :: after) = Out (Some [view_arg (S_FnArgs.mem_of m (h_st h)) a v]).
Proof.
  intros HT (HE & HK & HV & Hm & Hk) [[Hb0 Hb1] Hfr Hap] Hrd Hrc Hrt Ho Ht Hoff Hpa Hme Hbef [Hp1 Hp2].
  unfold read_compile in Hrc. destruct (compile_force K e) as [r|] eqn:Hcf; [|discriminate].
  pose proof (force_runtime K C m e r Hm HK Hcf Hrt) as Hce. specialize (Hrd r eq_refl).
  set (s0 := enter B rd0 h). set (s1 := setr s0 R8 (rg s0 R1)). set (size := oa_size a).
  assert (Hsz : 0 <= size <= buff_size) by (unfold size, oa_size, buff_size; lia).
  assert (K0 : forall x, ~ (B <= x < B + buff_size) -> ker s0 x = ker (h_st h) x).
  { intros x Hx. unfold s0, enter. cbn [ker]. destruct (Z.leb_spec B x); [|reflexivity]. destruct (Z.ltb_spec x (B + buff_size)); [|reflexivity]. exfalso. lia. }
  assert (I1 : oinv B size s0 (rg s0 R9) (rg s0 RFP) s1).
  { unfold s1. split; [rewrite rg_setr_eq; reflexivity|rewrite rg_setr_neq by (unfold R8, R9; lia); reflexivity|rewrite rg_setr_neq by (unfold R8, RFP; lia); reflexivity|reflexivity]. }
  assert (Hka : kagree C (ker s1)).
  { intros x Hx. change (ker s1 x) with (ker s0 x). rewrite K0 by (apply Hap; exact Hx). apply Hk. exact Hx. }
  assert (Hslot : forall i, (i < List.length (cf_vars K))%nat -> Z.of_nat i * 8 < 2 ^ 15 /\ rd C (rg s0 R9 + Z.of_nat i * 8) 8 = Some (ce_slot C i)).
  { intros i Hi. rewrite HK in Hi. cbn in Hi. lia. }
  destruct (compile_eval_kind K e r Hce) as [Hd Hsm].
  pose proof (evals_ok K C m (rg s0 R9) Hm HE ltac:(congruence) Hslot e r v s1 Hce Ho (proj1 Hrd) (ready_nowr K r Hrd) (oi9 _ _ _ _ _ _ I1) Hka) as Hev.
  assert (Hpa1 : forall w, v = Some w -> reads a = true -> apart B size ((w + oa_off a) mod 2 ^ 64) (Z.to_nat (oa_true a))).
  { intros w Hw Hr i Hi. specialize (Hpa w Hw Hr i Hi). lia. }
  assert (Hinf : inframe B size (rg s0 RFP)).
  { intros i Hi. apply Hfr. lia. }
  destruct (gen_off _ _ _ _ _ Hrc) as [Hgo Hgt].
  destruct (block m B size ltac:(rewrite M64_pow; lia) s0 (rg s0 R9) (rg s0 RFP) ltac:(unfold size, oa_size; lia) Hinf s1 r T (cf_env K) 0 a v Hrc HT I1 Hev ltac:(lia) ltac:(lia) ltac:(unfold size; lia) Hoff Hd Hsm Hpa1) as (s2 & E2 & I2 & K2 & N2).
  rewrite Z.add_0_r in N2.
  assert (Hrun : run (List.length (code (read_prog a))) m (read_prog a) 0 s0 = Done (rg s2 R0) s2).
  { apply (exec_run m ([IMovR R8 R1] ++ oa_insn a)); [|unfold read_prog; cbn [code app]; reflexivity|lia].
    rewrite exec_app. cbn [app exec step1]. fold s1. rewrite E2. reflexivity. }
  unfold read_session. rewrite fold_left_app, (other_hits m a B pid tid Hme before rd0 Hbef). cbn [fold_left].
  unfold read_hit at 2. rewrite Hp1, Hp2, Z.eqb_refl. cbn [negb rd_run rd0]. fold s0. rewrite Hrun.
  rewrite later_hits by reflexivity. unfold read_out. cbn [rd_run negb rd_buff]. f_equal.
  change (map (fun i : nat => ker s2 (B + Z.of_nat i) mod 256) (seq 0 (Z.to_nat (oa_size a)))) with (record s2 B (oa_size a)). rewrite record_bl.
  assert (Hw : Forall wf_arg [a]).
  { constructor; [|constructor]. split; [lia|]. exact (gen_arg_wf _ _ _ _ _ Hrc). }
  destruct (dec_args_total [a] (bl (ker s2) B (Z.to_nat (oa_size a))) Hw) as (got & Hg & Hlen); [rewrite bl_length; cbn [total]; lia|].
  rewrite Hg. f_equal.
  pose proof (dec_args_enc m s0 [a] [v] s2 B (Z.to_nat (oa_size a)) got Hw (conj N2 I) ltac:(cbn [total]; lia) Hg [] (view_arg (mem_of m s0) a v) [] eq_refl ltac:(constructor)) as Hn.
  destruct got as [|x [|? ?]]; try discriminate. cbn in Hn. injection Hn as ->. f_equal.
  apply (view_frame m s0 (h_st h) B buff_size); [exact K0|exact Hpa|inversion Hw; assumption|].
  intros Htd. rewrite Hgo. apply Hd. left. congruence.
Qed.
Theorem read_not_triggered m a B pid tid hs : thread pid tid -> Forall (fun x => thread (h_pid x) (h_tid x)) hs ->
  read_session m a B pid tid hs = NotTriggered <-> Forall (fun x => ~ made_by pid tid x) hs.
Proof.
  intros Hme Hth. split; intros H.
  - assert (D : forall x, {~ made_by pid tid x} + {~ ~ made_by pid tid x}).
    { intros x. unfold made_by. destruct (Z.eq_dec (h_pid x) pid), (Z.eq_dec (h_tid x) tid); tauto. }
    destruct (Forall_Exists_dec _ D hs) as [F|X]; [exact F|].
    exfalso. apply Exists_exists in X as (x & Hx & Hn). apply in_split in Hx as (l1 & l2 & ->).
    unfold read_session in H. rewrite fold_left_app in H. cbn [fold_left] in H.
    assert (E : forall st, rd_run (read_hit m a B (pid_tgid pid tid) st x) = true).
    { intros st. unfold read_hit. destruct (Z.eqb_spec (pid_tgid (h_pid x) (h_tid x)) (pid_tgid pid tid)) as [_|N]; cbn [negb].
      - destruct (rd_run st) eqn:R; [exact R|]. destruct (run _ _ _ _ _); reflexivity.
      - exfalso. apply Hn. intros [E1 E2]. apply N. rewrite E1, E2. reflexivity. }
    rewrite later_hits in H by apply E. unfold read_out in H. rewrite E in H. discriminate.
  - unfold read_session. rewrite other_hits; [reflexivity|exact Hme|]. rewrite Forall_forall in *. intros x Hx. split; auto.
Qed.
