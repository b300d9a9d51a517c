(** * Materialization of compiler values into registers. *)
From Coq Require Import ZArith List Bool Lia String.
From Verif Require Import M_Ebpf P_Ebpf M_CcNum M_Cc S_CSem S_CSup P_CcMach P_CcWalk P_CcNumr.
Import ListNotations.
Open Scope Z_scope.

Definition dest (i : insn) : option reg :=
  match i with
  | IMovI d _ | IMovR d _ | IAluI _ d _ | IAluR _ d _ | INegR d _ | ILd d _ _ _ => Some d
  | _ => None
  end.
Definition vregs (v : value) : list reg :=
  match v with
  | VMat r _ _ => [r]
  | VPend (PReg r) _ _ _ => [r]
  | _ => []
  end.

Lemma alloc_from_spec u n r : alloc_from u n = Some r ->
  u r = false /\ (r <= n)%nat /\ forall x, (r < x <= n)%nat -> u x = true.
Proof.
  induction n as [|n IH]; cbn [alloc_from].
  - destruct (u 0%nat) eqn:H0; [discriminate|]. intros H; inversion H; subst. repeat split; auto. lia.
  - destruct (u (S n)) eqn:H0.
    + intros H. destruct (IH H) as (H1 & H2 & H3). repeat split; auto.
      intros x Hx. destruct (Nat.eq_dec x (S n)) as [->|]; [assumption|]. apply H3; lia.
    + intros H; inversion H; subst. repeat split; auto. intros; lia.
Qed.
Lemma alloc_from_none u n : alloc_from u n = None <-> forall x, (x <= n)%nat -> u x = true.
Proof.
  induction n as [|n IH]; cbn [alloc_from].
  - destruct (u 0%nat) eqn:H0; split; intros H; try reflexivity; try discriminate.
    + intros x Hx. replace x with 0%nat by lia. assumption.
    + rewrite (H 0%nat) in H0 by lia. discriminate.
  - destruct (u (S n)) eqn:H0; split; intros H; try discriminate.
    + intros x Hx. destruct (Nat.eq_dec x (S n)) as [->|]; [assumption|]. apply IH; [assumption|lia].
    + apply IH. intros; apply H; lia.
    + rewrite H in H0 by lia. discriminate.
Qed.

Lemma calloc_spec s r s1 : calloc s = ROk r s1 ->
  c_regs s r = false /\ (r <= 8)%nat /\ (forall x, (r < x <= 8)%nat -> c_regs s x = true) /\
  c_regs s1 = upd (c_regs s) r true /\ c_code s1 = c_code s.
Proof.
  unfold calloc, alloc. destruct (alloc_from (c_regs s) 8) as [q|] eqn:Ha; [|discriminate].
  intros H; inversion H; subst. cbn [c_regs c_code].
  destruct (alloc_from_spec _ _ _ Ha) as (H1 & H2 & H3). auto.
Qed.

Lemma count_used_0 u a n : (forall x, (a <= x < a + n)%nat -> u x = false) -> count_used u a n = 0%nat.
Proof.
  revert a; induction n as [|n IH]; intros a H; cbn [count_used]; [reflexivity|].
  rewrite (H a) by lia. rewrite IH; [reflexivity|]. intros; apply H; lia.
Qed.
Lemma push_nil resv u n : (forall x, u x = true -> (6 <= x)%nat) -> (n <= 5)%nat -> push_regs resv u n = [].
Proof.
  intros H Hn. assert (Hf : forall x, (x <= 5)%nat -> u x = false).
  { intros x Hx. destruct (u x) eqn:Hu; [|reflexivity]. apply H in Hu. lia. }
  unfold push_regs. rewrite count_used_0 by (intros; apply Hf; lia).
  rewrite (Hf R0) by (unfold R0; lia). reflexivity.
Qed.
Lemma pop_nil resv u n : (forall x, u x = true -> (6 <= x)%nat) -> (n <= 5)%nat -> pop_regs resv u n = [].
Proof.
  intros H Hn. assert (Hf : forall x, (x <= 5)%nat -> u x = false).
  { intros x Hx. destruct (u x) eqn:Hu; [|reflexivity]. apply H in Hu. lia. }
  unfold pop_regs. rewrite count_used_0 by (intros; apply Hf; lia).
  rewrite (Hf R0) by (unfold R0; lia). reflexivity.
Qed.

Section Mat.
  Variables (K : cfg) (C : cenv) (m : mach) (A : Z).
  Hypothesis Hmap : forall a, ce_map C a = true -> mapped m a = true.
  Hypothesis HE : ce_bt C = cf_env K.
  Hypothesis Hslot : forall i, (i < List.length (cf_vars K))%nat ->
    Z.of_nat i * 8 < 2 ^ 15 /\ rd C (A + Z.of_nat i * 8) 8 = Some (ce_slot C i).
  Notation E := (cf_env K).
  Notation walk := (walk K C).

  Definition nowr (l : list insn) : Prop :=
    cf_mode K = MDirect \/ Forall (fun i => dest i <> Some 5%nat) l.
  Lemma nowr_app a b : nowr (a ++ b) <-> nowr a /\ nowr b.
  Proof.
    unfold nowr. rewrite Forall_app. tauto.
  Qed.
  Definition Sok (s : cst) : Prop :=
    c_regs s 9%nat = true /\ (forall r, c_regs s r = true -> (r <= 9)%nat) /\
    (cf_mode K <> MDirect -> forall r, c_regs s r = true -> (6 <= r)%nat).
  Definition pre (ms : mst) : Prop := rg ms R9 = A /\ kagree C (ker ms).
  Lemma pre_frame s ms ms' : Sok s -> frame (c_regs s) ms ms' -> pre ms -> pre ms'.
  Proof.
    intros (H9 & _) [Hf Hk] [H1 H2]. split; [|kagr]. rewrite Hf; [assumption|]. left. exact H9.
  Qed.
  Lemma pre_frameU (U : reg -> bool) ms ms' : U 9%nat = true -> frame U ms ms' -> pre ms -> pre ms'.
  Proof.
    intros H9 [Hf Hk] [H1 H2]. split; [|kagr]. rewrite Hf; [assumption|]. left. exact H9.
  Qed.

  Definition bval (ms : mst) (b : pbase) : Z :=
    match b with PVar i => ce_slot C i | PUptr n => n | PReg r => rg ms r end.
  Definition bok (ms : mst) (b : pbase) : Prop :=
    match b with
    | PVar i => (i < List.length (cf_vars K))%nat
    | PUptr n => 0 < n < 2 ^ 31 \/ 2 ^ 64 - 2 ^ 31 <= n < 2 ^ 64
    | PReg r => 0 <= rg ms r < M64
    end.
  Lemma bval_range ms b : bok ms b -> 0 <= bval ms b < M64.
  Proof.
    destruct b as [i|n|r]; cbn [bok bval]; intros H.
    - destruct (Hslot i H) as [_ Hr]. apply (rd_range m C Hmap) in Hr. rewrite M64_pow.
      change (8 * Z.of_nat 8) with 64 in Hr. exact Hr.
    - unfold M64. lia.
    - exact H.
  Qed.
  Lemma immv_literal n : 0 < n < 2 ^ 31 \/ 2 ^ 64 - 2 ^ 31 <= n < 2 ^ 64 -> immv (s64 n) = n.
  Proof.
    intros [H|H]; [rewrite s64_id by lia; apply immv_small; lia|].
    assert (Hs : s64 n = n - 2 ^ 64).
    { unfold s64, sgn. rewrite Z.mod_small by lia. change (64 - 1) with 63. destruct (Z.ltb_spec n (2 ^ 63)); lia. }
    rewrite Hs. unfold immv, wrap, s32, sgn. change (32 - 1) with 31. replace ((n - 2 ^ 64) mod 2 ^ 32) with (n - (2 ^ 64 - 2 ^ 32)).
    - destruct (Z.ltb_spec (n - (2 ^ 64 - 2 ^ 32)) (2 ^ 31)); [lia|]. rewrite M64_pow.
      replace (n - (2 ^ 64 - 2 ^ 32) - 2 ^ 32) with (n + (-1) * 2 ^ 64) by lia. rewrite Z_mod_plus_full, Z.mod_small by lia. reflexivity.
    - apply (Z.mod_unique _ _ (-1)); lia.
  Qed.
  Lemma base_ok ms b r : pre ms -> bok ms b -> (r <= 8)%nat ->
    exec m (base_code b r) 0 ms = FFall 0 (setr ms r (bval ms b)).
  Proof.
    intros [H9 Hk] Hb Hr. destruct b as [i|n|q]; cbn [base_code bok bval] in *.
    - destruct (Hslot i Hb) as [Hi Hrd]. unfold load_arg. cbn [exec step1].
      rewrite s16_id by lia. unfold load. cbn [Nat.eqb R9 RFP].
      change (rg ms 9%nat) with (rg ms R9). rewrite H9.
      rewrite (rd_kread m C Hmap _ _ _ _ Hrd Hk). reflexivity.
    - destruct (Z.eqb_spec n 0); [lia|]. cbn [exec step1]. rewrite immv_literal by assumption. reflexivity.
    - reflexivity.
  Qed.

  Lemma chain_ok s l r s' : emit_chain K s l r = ROk tt s' -> l <> [] ->
    exists d, c_code s' = c_code s ++ d /\ c_regs s' = c_regs s /\
    ((cf_mode K <> MDirect -> (6 <= r)%nat /\ forall x, c_regs s x = true -> (6 <= x)%nat) ->
     r <> RFP -> forall ms v p, rg ms r = v -> 0 <= v < M64 -> kagree C (ker ms) -> walk v l = Some p ->
     exists ms', exec m d 0 ms = FFall 0 ms' /\ rg ms' r = p /\
       (forall x, x <> r -> cf_mode K = MDirect \/ (6 <= x)%nat -> rg ms' x = rg ms x) /\ ker ms' = ker ms).
  Proof.
    intros H Hl. unfold emit_chain in H. destruct (all_addr l) eqn:Ha.
    { inversion H; subst. eexists; split; [reflexivity|]. split; [reflexivity|].
      intros _ Hr ms v p Hv Hvr Hk Hw.
      destruct (addr_ok K C m r l Hr Ha ms v p Hv Hvr Hw) as (ms' & H1 & H2 & H3 & H4).
      exists ms'. auto. }
    destruct (cf_mode K) eqn:HM.
    - inversion H; subst s'; clear H. unfold emit_probe_read.
      destruct (probe_read r l) as [c u] eqn:Hp.
      exists (push_regs (cf_resv K) (c_regs s) 5 ++ (if Nat.eqb r R3 then [] else [IMovR R3 r]) ++ c ++
              pop_regs (cf_resv K) (c_regs s) 5).
      split; [destruct u; reflexivity|]. split; [destruct u; reflexivity|].
      intros Hlow Hr ms v p Hv Hvr Hk Hw. destruct (Hlow ltac:(discriminate)) as [Hr6 Hlo].
      rewrite push_nil, pop_nil by (auto; lia). cbn [app]. rewrite app_nil_r.
      destruct (Nat.eqb_spec r R3); [unfold R3 in *; lia|].
      cbn [app exec step1].
      destruct (probe_ok K C m Hmap r l HM Hr6 Hr Hl (setr ms R3 (rg ms r)) v p) as (ms' & H1 & H2 & H3 & H4).
      + rewrite rg_setr_eq. assumption.
      + assumption.
      + assumption.
      + assumption.
      + rewrite Hp in H1. cbn [fst] in H1. exists ms'. rewrite H1. split; [reflexivity|]. split; [assumption|].
        split; [|assumption]. intros x Hx [Hd|Hx6]; [discriminate|]. rewrite H3 by assumption.
        apply rg_setr_neq. unfold R3; lia.
    - unfold emit_core_read in H. destruct (core_read K r l) as [[c u]|] eqn:Hp; [|discriminate].
      inversion H; subst s'; clear H.
      exists (push_regs (cf_resv K) (c_regs s) (if cf_fast K then 2 else 5) ++ (if Nat.eqb r R1 then [] else [IMovR R1 r]) ++ c ++
              pop_regs (cf_resv K) (c_regs s) (if cf_fast K then 2 else 5)).
      split; [destruct u; reflexivity|]. split; [destruct u; reflexivity|].
      intros Hlow Hr ms v p Hv Hvr Hk Hw. destruct (Hlow ltac:(discriminate)) as [Hr6 Hlo].
      rewrite push_nil, pop_nil by (auto; destruct (cf_fast K); lia). cbn [app]. rewrite app_nil_r.
      destruct (Nat.eqb_spec r R1); [unfold R1 in *; lia|].
      cbn [app exec step1].
      destruct (core_ok K C m Hmap r l HM Hr6 Hr Hl c u Hp (setr ms R1 (rg ms r)) v p) as (ms' & H1 & H2 & H3 & H4).
      + rewrite rg_setr_eq. assumption.
      + assumption.
      + assumption.
      + assumption.
      + exists ms'. rewrite H1. split; [reflexivity|]. split; [assumption|].
        split; [|assumption]. intros x Hx [Hd|Hx6]; [discriminate|]. rewrite H3 by assumption.
        apply rg_setr_neq. unfold R1; lia.
    - destruct (direct_read r l) as [c u] eqn:Hp. exists c. inversion H; subst s'; clear H.
      split; [destruct u; reflexivity|]. split; [destruct u; reflexivity|].
      intros _ Hr ms v p Hv Hvr Hk Hw.
      destruct (direct_ok K C m Hmap r l HM Hr ms v p Hv Hvr Hk Hw) as (ms' & H1 & H2 & H3 & H4).
      rewrite Hp in H1. exists ms'. auto.
  Qed.

  (** Final adjustment of the register. *)
  Definition tailf (t : option ty) (mm : option member) (raw : Z) : Z :=
    match mm with
    | Some x => if is_bf mm then Z.shiftr raw (m_bitoff x mod 8) mod 2 ^ m_bits x else raw mod lim K t
    | None => raw mod lim K t
    end.
  Definition bfok (mm : option member) : Prop :=
    match mm with Some x => is_bf mm = true -> 0 < m_bits x < 32 | None => True end.
  Definition tail_code (t : option ty) (mm : option member) (r : reg) : list insn :=
    match mm with
    | Some x => if is_bf mm then bf_extract x r else adjust_size E t r
    | None => adjust_size E t r
    end.
  Lemma lim_cases t : (sizeof0 E t = 1 /\ lim K t = 2 ^ 8) \/ (sizeof0 E t = 2 /\ lim K t = 2 ^ 16) \/
    (sizeof0 E t = 4 /\ lim K t = 2 ^ 32) \/
    (sizeof0 E t <> 1 /\ sizeof0 E t <> 2 /\ sizeof0 E t <> 4 /\ lim K t = 2 ^ 64).
  Proof.
    unfold lim, tw. destruct (Z.eqb_spec (sizeof0 E t) 1) as [->|H1]; [left; auto|].
    destruct (Z.eqb_spec (sizeof0 E t) 2) as [->|H2]; [right; left; auto|].
    destruct (Z.eqb_spec (sizeof0 E t) 4) as [->|H4]; [right; right; left; auto|].
    right; right; right. auto.
  Qed.
  Lemma lim_pos t : 0 < lim K t <= 2 ^ 64.
  Proof. destruct (lim_cases t) as [[_ ->]|[[_ ->]|[[_ ->]|(_ & _ & _ & ->)]]]; lia. Qed.
  Lemma adjust_ok t r ms : 0 <= rg ms r < M64 ->
    exists ms', exec m (adjust_size E t r) 0 ms = FFall 0 ms' /\ rg ms' r = rg ms r mod lim K t /\
      (forall x, x <> r -> rg ms' x = rg ms x) /\ ker ms' = ker ms.
  Proof.
    intros Hr. unfold adjust_size. destruct (lim_cases t) as [[Hs ->]|[[Hs ->]|[[Hs ->]|(H1 & H2 & H4 & ->)]]].
    - rewrite Hs. cbn [Z.eqb Pos.eqb exec step1 alu_sem]. eexists; split; [reflexivity|].
      rewrite rg_setr_eq. split; [apply (and_mask _ 8); lia|]. split; [intros; apply rg_setr_neq; assumption|reflexivity].
    - rewrite Hs. cbn [Z.eqb Pos.eqb exec step1 alu_sem]. eexists; split; [reflexivity|].
      rewrite rg_setr_eq. split; [apply (and_mask _ 16); lia|]. split; [intros; apply rg_setr_neq; assumption|reflexivity].
    - rewrite Hs. cbn [Z.eqb Pos.eqb exec step1 alu_sem]. eexists; split; [reflexivity|].
      rewrite !rg_setr_eq. split; [apply shl32_shr32|].
      split; [intros; rewrite !rg_setr_neq by assumption; reflexivity|reflexivity].
    - destruct (Z.eqb_spec (sizeof0 E t) 1); [contradiction|].
      destruct (Z.eqb_spec (sizeof0 E t) 2); [contradiction|].
      destruct (Z.eqb_spec (sizeof0 E t) 4); [contradiction|].
      exists ms. cbn [exec]. split; [reflexivity|]. split; [|auto].
      rewrite Z.mod_small by (rewrite <- M64_pow; assumption). reflexivity.
  Qed.
  Lemma tail_ok t mm r ms : 0 <= rg ms r < M64 -> bfok mm ->
    exists ms', exec m (tail_code t mm r) 0 ms = FFall 0 ms' /\ rg ms' r = tailf t mm (rg ms r) /\
      (forall x, x <> r -> rg ms' x = rg ms x) /\ ker ms' = ker ms.
  Proof.
    intros Hr Hb. unfold tail_code, tailf. destruct mm as [x|]; [|apply adjust_ok; assumption].
    destruct (is_bf (Some x)) eqn:Hbf; [|apply adjust_ok; assumption].
    cbn [bfok] in Hb. specialize (Hb Hbf). unfold bf_extract.
    assert (Hm : s32 (wrap (Z.shiftl 1 (m_bits x)) - 1) = 2 ^ m_bits x - 1).
    { rewrite Z.shiftl_1_l. assert (0 < 2 ^ m_bits x) by (apply Z.pow_pos_nonneg; lia).
      assert (2 ^ m_bits x <= 2 ^ 31) by (apply Z.pow_le_mono_r; lia).
      rewrite wrap_small by (unfold M64; lia). apply s32_id. lia. }
    rewrite Hm. pose proof (Z.mod_pos_bound (m_bitoff x) 8 ltac:(lia)) as Hd.
    destruct (Z.eqb_spec (m_bitoff x mod 8) 0) as [->|Hnz].
    - cbn [app exec step1 alu_sem]. eexists; split; [reflexivity|]. rewrite rg_setr_eq.
      split; [rewrite and_mask by lia; rewrite Z.shiftr_0_r; reflexivity|].
      split; [intros; apply rg_setr_neq; assumption|reflexivity].
    - cbn [app exec step1 alu_sem]. eexists; split; [reflexivity|]. rewrite !rg_setr_eq.
      rewrite immv_small by lia. rewrite (Z.mod_small (m_bitoff x mod 8) 64) by lia.
      split; [apply and_mask; lia|].
      split; [intros; rewrite !rg_setr_neq by assumption; reflexivity|reflexivity].
  Qed.

  Definition mval (ms : mst) (v : value) (n : Z) : Prop :=
    match v with
    | VMat r _ _ => rg ms r = n
    | VConst c _ => (- 2 ^ 31 <= c < 2 ^ 31) /\ n = wrap c
    | VPend b offs t mm => bok ms b /\ bfok mm /\
        exists raw, walk (bval ms b) offs = Some raw /\ n = tailf t mm raw
    | VEnum _ _ => False
    end.
  Lemma mval_frame u ms ms' v n : frame u ms ms' -> (forall r, In r (vregs v) -> u r = true) ->
    mval ms v n -> mval ms' v n.
  Proof.
    intros [Hf _] Hu. destruct v as [c t|b offs t mm|r t mm|x t]; cbn [mval vregs] in *; auto.
    - destruct b as [i|k|r]; cbn [bok bval] in *; auto.
      rewrite (Hf r) by (left; apply Hu; left; reflexivity). auto.
    - rewrite (Hf r) by (left; apply Hu; left; reflexivity). auto.
  Qed.

  Lemma base_dest b r : exists i, base_code b r = [i] /\ dest i = Some r.
  Proof.
    destruct b as [i|n|q]; cbn [base_code load_arg]; try (eexists; split; reflexivity).
    destruct (n =? 0); eexists; split; reflexivity.
  Qed.

  Lemma Sok_upd s s' r : Sok s -> (r <= 8)%nat -> (cf_mode K <> MDirect -> (6 <= r)%nat) ->
    c_regs s' = upd (c_regs s) r true -> Sok s'.
  Proof.
    intros (H9 & Hle & Hlo) Hr Hr6 Hu. unfold Sok. rewrite Hu. repeat split.
    - destruct (Nat.eq_dec 9 r); [lia|]. rewrite upd_neq by assumption. assumption.
    - intros x. destruct (Nat.eq_dec x r) as [->|]; [intros; lia|]. rewrite upd_neq by assumption. apply Hle.
    - intros Hm x. destruct (Nat.eq_dec x r) as [->|]; [intros; auto|]. rewrite upd_neq by assumption. apply Hlo; assumption.
  Qed.
  Lemma alloc_high s r : Sok s -> (forall x, (r < x <= 8)%nat -> c_regs s x = true) ->
    cf_mode K <> MDirect -> r <> 5%nat -> (6 <= r)%nat.
  Proof.
    intros (_ & _ & Hlo) Ha Hm H5. destruct (Nat.lt_ge_cases r 5) as [Hlt|]; [|lia].
    specialize (Hlo Hm 5%nat (Ha 5%nat ltac:(lia))). lia.
  Qed.

  Definition tail_spec (s s' : cst) (r : reg) (d : list insn) : Prop :=
    c_regs s r = false /\ (r <= 8)%nat /\ c_regs s' = upd (c_regs s) r true.

  Lemma nowr_dest l r : nowr l -> (exists i, In i l /\ dest i = Some r) -> cf_mode K <> MDirect -> r <> 5%nat.
  Proof.
    intros [Hd|Hf] (i & Hi & Hdest) Hm; [contradiction|]. rewrite Forall_forall in Hf.
    intros ->. apply (Hf i Hi). assumption.
  Qed.

  Lemma mat_pending_ok s b offs t mm v' s' : mat_pending K s b offs t mm = ROk v' s' ->
    exists r d, v' = VMat r t mm /\ c_code s' = c_code s ++ d /\
      c_regs s r = false /\ (r <= 8)%nat /\ c_regs s' = upd (c_regs s) r true /\
      (nowr d -> Sok s -> Sok s' /\ forall ms n, pre ms -> mval ms (VPend b offs t mm) n ->
         exists ms', exec m d 0 ms = FFall 0 ms' /\ frame (c_regs s) ms ms' /\ rg ms' r = n).
  Proof.
    unfold mat_pending. destruct (calloc s) as [r s1| |] eqn:Hal; cbn [bind]; try discriminate.
    apply calloc_spec in Hal as (Hfr & Hr8 & Hhi & Hrg1 & Hc1).
    intros H.
    assert (Hx : exists s3 d1, (match offs with [] => ROk tt (emit s1 (base_code b r)) | _ => emit_chain K (emit s1 (base_code b r)) offs r end)
                  = ROk tt s3 /\ v' = VMat r t mm /\ s' = emit s3 (tail_code t mm r) /\
              c_code s3 = c_code s ++ base_code b r ++ d1 /\ c_regs s3 = upd (c_regs s) r true /\
              ((cf_mode K <> MDirect -> (6 <= r)%nat /\ forall x, upd (c_regs s) r true x = true -> (6 <= x)%nat) ->
               forall ms v p, rg ms r = v -> 0 <= v < M64 -> kagree C (ker ms) -> walk v offs = Some p ->
               exists ms', exec m d1 0 ms = FFall 0 ms' /\ rg ms' r = p /\
                 (forall x, x <> r -> cf_mode K = MDirect \/ (6 <= x)%nat -> rg ms' x = rg ms x) /\ ker ms' = ker ms)).
    { destruct offs as [|o offs'].
      - cbn [bind] in H. inversion H; subst. exists (emit s1 (base_code b r)), [].
        split; [reflexivity|]. split; [reflexivity|]. split; [destruct mm; reflexivity|].
        split; [cbn [emit c_code]; rewrite Hc1, app_nil_r; reflexivity|]. split; [exact Hrg1|].
        intros _ ms v p Hv Hvr Hk Hw. cbn in Hw. inversion Hw; subst. exists ms. cbn [exec]. auto.
      - destruct (emit_chain K (emit s1 (base_code b r)) (o :: offs') r) as [[] s3| |] eqn:Hch; cbn [bind] in H; try discriminate.
        inversion H; subst. destruct (chain_ok _ _ _ _ Hch ltac:(discriminate)) as (d & Hd1 & Hd2 & Hd3).
        exists s3, d. split; [reflexivity|]. split; [reflexivity|]. split; [destruct mm; reflexivity|].
        cbn [emit c_code c_regs] in Hd1, Hd2, Hd3. rewrite Hc1 in Hd1. rewrite Hrg1 in Hd2, Hd3.
        split; [rewrite Hd1, <- app_assoc; reflexivity|]. split; [assumption|].
        intros Hlo. apply Hd3; [assumption|]. unfold RFP; lia. }
    clear H. destruct Hx as (s3 & d1 & _ & Hv' & Hs' & Hcode & Hregs & Hex).
    exists r, (base_code b r ++ d1 ++ tail_code t mm r). split; [assumption|].
    split; [subst s'; cbn [emit c_code]; rewrite Hcode, <- !app_assoc; reflexivity|].
    split; [assumption|]. split; [assumption|]. split; [subst s'; exact Hregs|].
    intros Hnw Hs.
    assert (Hr6 : cf_mode K <> MDirect -> (6 <= r)%nat).
    { intros Hm. apply (alloc_high s); auto. eapply nowr_dest; eauto.
      destruct (base_dest b r) as (i & Hi & Hdi). exists i. rewrite Hi. split; [left; reflexivity|assumption]. }
    split; [eapply Sok_upd; eauto; subst s'; exact Hregs|].
    intros ms n Hpre (Hb & Hbf & raw & Hw & Hn).
    rewrite exec_app, (base_ok ms b r Hpre Hb Hr8).
    assert (Hlo : cf_mode K <> MDirect -> (6 <= r)%nat /\ forall x, upd (c_regs s) r true x = true -> (6 <= x)%nat).
    { intros Hm. split; [auto|]. intros x. destruct (Nat.eq_dec x r) as [->|]; [auto|].
      rewrite upd_neq by assumption. apply Hs; assumption. }
    pose proof (bval_range ms b Hb) as Hbr.
    destruct (Hex Hlo (setr ms r (bval ms b)) (bval ms b) raw) as (ms1 & E1 & R1' & F1 & K1).
    { apply rg_setr_eq. } { exact Hbr. } { apply Hpre. } { exact Hw. }
    rewrite exec_app, E1.
    assert (Hraw : 0 <= rg ms1 r < M64) by (rewrite R1'; eapply walk_range; eauto).
    destruct (tail_ok t mm r ms1 Hraw Hbf) as (ms2 & E2 & R2' & F2 & K2).
    exists ms2. split; [assumption|]. split; [|rewrite R2', R1'; symmetry; assumption].
    split; [|rewrite K2, K1; reflexivity].
    intros x Hx. assert (Hxr : x <> r).
    { intros ->. destruct Hx as [Hx|Hx]; [congruence|unfold RFP in Hx; lia]. }
    assert (Hxm : cf_mode K = MDirect \/ (6 <= x)%nat).
    { destruct Hx as [Hx|Hx]; [|right; unfold RFP in Hx; lia].
      destruct (cf_mode K) eqn:HM; [right|right|left; reflexivity];
        (destruct Hs as (_ & _ & Hs3); apply Hs3; [congruence|assumption]). }
    rewrite F2 by assumption. rewrite F1 by assumption.
    apply rg_setr_neq. assumption.
  Qed.

  Lemma mat_ok s v v' s' : materialize K s v = ROk v' s' ->
    exists r d, v' = VMat r (v_btf v) (v_mem v) /\ c_code s' = c_code s ++ d /\
      ((In r (vregs v) /\ s' = s) \/ (c_regs s r = false /\ (r <= 8)%nat /\ c_regs s' = upd (c_regs s) r true)) /\
      (nowr d -> Sok s -> Sok s' /\ forall ms n, pre ms -> mval ms v n ->
         exists ms', exec m d 0 ms = FFall 0 ms' /\ frame (c_regs s) ms ms' /\ rg ms' r = n).
  Proof.
    destruct v as [c t|b offs t mm|r t mm|x t]; cbn [materialize]; intros H.
    - destruct (calloc s) as [r s1| |] eqn:Hal; cbn [bind] in H; try discriminate. inversion H; subst.
      apply calloc_spec in Hal as (Hfr & Hr8 & Hhi & Hrg1 & Hc1).
      exists r, [IMovI r c]. split; [reflexivity|]. split; [cbn [emit c_code]; rewrite Hc1; reflexivity|].
      split; [right; auto|]. intros Hnw Hs.
      assert (Hr6 : cf_mode K <> MDirect -> (6 <= r)%nat).
      { intros Hm. apply (alloc_high s); auto. eapply nowr_dest; eauto.
        eexists; split; [left; reflexivity|reflexivity]. }
      split; [eapply Sok_upd; eauto|].
      intros ms n Hpre [Hc ->]. cbn [exec step1]. eexists; split; [reflexivity|].
      rewrite rg_setr_eq, immv_s32 by lia. split; [|reflexivity].
      apply frame_setr; [assumption|unfold RFP; lia].
    - destruct (mat_pending_ok _ _ _ _ _ _ _ H) as (r & d & H1 & H2 & H3 & H4 & H5 & H6).
      exists r, d. split; [assumption|]. split; [assumption|]. split; [right; auto|assumption].
    - inversion H; subst. exists r, []. split; [reflexivity|]. rewrite app_nil_r. split; [reflexivity|].
      split; [left; split; [left; reflexivity|reflexivity]|].
      intros _ Hs. split; [assumption|]. intros ms n Hpre Hn. exists ms. cbn [exec].
      split; [reflexivity|]. split; [apply frame_refl|exact Hn].
    - discriminate.
  Qed.
End Mat.
