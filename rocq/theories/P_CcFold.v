(** * Constant folding against the emitted instructions; absence of Go panics. *)
From Coq Require Import ZArith List Bool String Ascii Lia.
From Verif Require Import M_Ebpf P_Ebpf M_CcNum M_Cc S_CSem S_Num P_CcMach P_CcNumr P_CcSim P_CcOps P_Num S_Run.
Import ListNotations.
Open Scope Z_scope.

Lemma wrap_mod (z : Z) : wrap z = z mod 2 ^ 64. Proof. reflexivity. Qed.
Lemma wrap_s64 z : wrap (s64 z) = wrap z.
Proof. rewrite !wrap_mod. apply (sgn_mod 64). lia. Qed.
Lemma wrap_bits f g a b :
  (forall x y i, Z.testbit (f x y) i = g (Z.testbit x i) (Z.testbit y i)) -> g false false = false ->
  f (wrap a) (wrap b) = wrap (f a b).
Proof.
  intros H Hg. apply Z.bits_inj'. intros i Hi. rewrite H, !wrap_mod.
  destruct (Z.ltb_spec i 64).
  - rewrite !Z.mod_pow2_bits_low by lia. symmetry; apply H.
  - rewrite !Z.mod_pow2_bits_high by lia. exact Hg.
Qed.
Lemma wrap_nonneg a : 0 <= a -> - 2 ^ 63 <= a < 2 ^ 63 -> wrap a = a.
Proof. intros. apply wrap_small. unfold M64. lia. Qed.

Definition in64 (z : Z) : bool := (- 2 ^ 63 <=? z) && (z <? 2 ^ 63).
Lemma in64_ok z : in64 z = true -> - 2 ^ 63 <= z < 2 ^ 63.
Proof. unfold in64. intros H. apply andb_prop in H as [A B]. apply Z.leb_le in A. apply Z.ltb_lt in B. lia. Qed.
(** Where the two agree. *)
Definition same_arith (op : binop) (a b : Z) : bool :=
  match op with
  | BAdd | BSub | BMul | BAnd | BOr | BXor => true
  | BDiv | BMod => (0 <=? a) && (0 <? b)
  | BLsh => (0 <=? b) && (b <? 64)
  | BRsh => (0 <=? a) && (0 <=? b) && (b <? 64)
  end.
Definition not_zero_div (op : binop) (b : Z) : Prop := match op with BDiv | BMod => b <> 0 | _ => True end.

Ltac regs Hne := repeat (rewrite rg_setr_eq || rewrite rg_setr_neq by (exact Hne || (apply not_eq_sym; exact Hne))).

Lemma fold_agrees K s m ms op rl rr a b n ta tb :
  rl <> rr -> in64 a = true -> in64 b = true -> same_arith op a b = true ->
  bin_values K op s (VConst a ta) (VConst b tb) = ROk (VConst n None) s ->
  rg ms rl = wrap a -> rg ms rr = wrap b ->
  exists s' d ms', bin_values K op s (VMat rl None None) (VMat rr None None) = ROk (VMat rl None None) s' /\
    c_code s' = c_code s ++ d /\ exec m d 0 ms = FFall 0 ms' /\ rg ms' rl = wrap n.
Proof.
  intros Hne Ha Hb Hs Hc Hl Hr. apply in64_ok in Ha, Hb.
  assert (Hf : fold_const op a b = Some n /\ not_zero_div op b).
  { unfold bin_values in Hc. cbn [resolve_enums] in Hc.
    destruct op; try (cbn [fold_const] in *; split; [congruence|exact I]).
    - destruct b; [discriminate| |]; (split; [cbn [fold_const] in *; congruence|cbn; lia]).
    - destruct b; [discriminate| |]; (split; [cbn [fold_const] in *; congruence|cbn; lia]).
    - destruct (fold_const BLsh a b); [split; [congruence|exact I]|discriminate].
    - destruct (fold_const BRsh a b); [split; [congruence|exact I]|discriminate]. }
  destruct Hf as [Hf Hz]. clear Hc.
  destruct op; cbn [fold_const same_arith not_zero_div] in *.
  - injection Hf as <-. unfold bin_values; cbn -[exec Z.add app]. eexists _, _, _. split; [reflexivity|]. split; [reflexivity|].
    split; [reflexivity|]. cbn [step1 fst snd]. regs Hne. rewrite Hl, Hr. cbn [alu_sem].
    rewrite wrap_add_l, wrap_add_r, wrap_s64. reflexivity.
  - injection Hf as <-. unfold bin_values; cbn -[exec Z.sub app]. eexists _, _, _. split; [reflexivity|]. split; [reflexivity|].
    split; [reflexivity|]. cbn [step1 fst snd]. regs Hne. rewrite Hl, Hr. cbn [alu_sem].
    rewrite wrap_sub_l, wrap_sub_r, wrap_s64. reflexivity.
  - injection Hf as <-. unfold bin_values; cbn -[exec Z.mul app]. eexists _, _, _. split; [reflexivity|]. split; [reflexivity|].
    split; [reflexivity|]. cbn [step1 fst snd]. regs Hne. rewrite Hl, Hr. cbn [alu_sem].
    rewrite wrap_mul_l, wrap_mul_r, wrap_s64. reflexivity.
  - apply andb_prop in Hs as [H1 H2]. apply Z.leb_le in H1. apply Z.ltb_lt in H2.
    rewrite wrap_nonneg in Hl by lia. rewrite wrap_nonneg in Hr by lia.
    injection Hf as <-. unfold bin_values; cbn -[exec Z.div app Z.quot]. eexists _, _, (setr ms rl (alu_sem ADiv (rg ms rl) (rg ms rr))). split; [reflexivity|]. split; [reflexivity|].
    split.
    + cbn [exec step1]. rewrite !Hr. change (immv 0) with 0. cbn [jop_sem]. destruct (Z.eqb_spec b 0); [lia|]. rewrite Hl. reflexivity.
    + cbn [step1 fst snd]. regs Hne. rewrite Hl, Hr. cbn [alu_sem]. destruct (Z.eqb_spec b 0); [lia|].
      rewrite wrap_s64, Z.quot_div_nonneg by lia. symmetry. apply wrap_small. pose proof (Z.div_le_upper_bound a b a ltac:(lia) ltac:(nia)).
      pose proof (Z.div_pos a b ltac:(lia) ltac:(lia)). unfold M64. lia.
  - apply andb_prop in Hs as [H1 H2]. apply Z.leb_le in H1. apply Z.ltb_lt in H2.
    rewrite wrap_nonneg in Hl by lia. rewrite wrap_nonneg in Hr by lia.
    injection Hf as <-. unfold bin_values; cbn -[exec Z.modulo app Z.rem]. eexists _, _, (setr ms rl (alu_sem AMod (rg ms rl) (rg ms rr))). split; [reflexivity|]. split; [reflexivity|].
    split.
    + cbn [exec step1]. rewrite !Hr. change (immv 0) with 0. cbn [jop_sem]. destruct (Z.eqb_spec b 0); [lia|]. rewrite Hl. reflexivity.
    + cbn [step1 fst snd]. regs Hne. rewrite Hl, Hr. cbn [alu_sem]. destruct (Z.eqb_spec b 0); [lia|].
      rewrite wrap_s64, Z.rem_mod_nonneg by lia. symmetry. apply wrap_small. pose proof (Z.mod_pos_bound a b ltac:(lia)). unfold M64. lia.
  - injection Hf as <-. unfold bin_values; cbn -[exec Z.land app]. eexists _, _, _. split; [reflexivity|]. split; [reflexivity|].
    split; [reflexivity|]. cbn [step1 fst snd]. regs Hne. rewrite Hl, Hr. cbn [alu_sem].
    apply (wrap_bits Z.land andb); [intros; apply Z.land_spec|reflexivity].
  - injection Hf as <-. unfold bin_values; cbn -[exec Z.lor app]. eexists _, _, _. split; [reflexivity|]. split; [reflexivity|].
    split; [reflexivity|]. cbn [step1 fst snd]. regs Hne. rewrite Hl, Hr. cbn [alu_sem].
    apply (wrap_bits Z.lor orb); [intros; apply Z.lor_spec|reflexivity].
  - injection Hf as <-. unfold bin_values; cbn -[exec Z.lxor app]. eexists _, _, _. split; [reflexivity|]. split; [reflexivity|].
    split; [reflexivity|]. cbn [step1 fst snd]. regs Hne. rewrite Hl, Hr. cbn [alu_sem].
    apply (wrap_bits Z.lxor xorb); [intros; apply Z.lxor_spec|reflexivity].
  - apply andb_prop in Hs as [H1 H2]. apply Z.leb_le in H1. apply Z.ltb_lt in H2.
    destruct (Z.ltb_spec b 0); [lia|]. destruct (Z.leb_spec 64 b); [lia|]. injection Hf as <-.
    rewrite wrap_nonneg in Hr by lia. unfold bin_values; cbn -[exec app Z.shiftl].
    destruct (Z.eqb_spec b 0) as [->|Hb0].
    + eexists _, _, _. split; [reflexivity|]. split; [reflexivity|]. split.
      * cbn [exec step1]. rewrite Hr. reflexivity.
      * rewrite Hl, wrap_s64. reflexivity.
    + eexists _, _, (setr ms rl (alu_sem ALsh (rg ms rl) (rg ms rr))). split; [reflexivity|]. split; [reflexivity|]. split.
      * cbn [exec step1]. rewrite !Hr. change (immv 0) with 0. cbn [jop_sem]. destruct (Z.leb_spec b 0); [lia|]. reflexivity.
      * cbn [step1 fst snd]. regs Hne. rewrite Hl, Hr. cbn [alu_sem]. rewrite (Z.mod_small b 64) by lia.
        rewrite wrap_s64, !Z.shiftl_mul_pow2 by lia. apply wrap_mul_l.
  - apply andb_prop in Hs as [H1 H2]. apply andb_prop in H1 as [H0 H1]. apply Z.leb_le in H0, H1. apply Z.ltb_lt in H2.
    destruct (Z.ltb_spec b 0); [lia|]. destruct (Z.leb_spec 64 b); [lia|]. injection Hf as <-.
    rewrite wrap_nonneg in Hr by lia. rewrite wrap_nonneg in Hl by lia. unfold bin_values; cbn -[exec app Z.shiftr].
    destruct (Z.eqb_spec b 0) as [->|Hb0].
    + eexists _, _, _. split; [reflexivity|]. split; [reflexivity|]. split.
      * cbn [exec step1]. rewrite Hr. reflexivity.
      * rewrite Hl, Z.shiftr_0_r. symmetry; apply wrap_nonneg; lia.
    + eexists _, _, (setr ms rl (alu_sem ARsh (rg ms rl) (rg ms rr))). split; [reflexivity|]. split; [reflexivity|]. split.
      * cbn [exec step1]. rewrite !Hr. change (immv 0) with 0. cbn [jop_sem]. destruct (Z.leb_spec b 0); [lia|]. reflexivity.
      * cbn [step1 fst snd]. regs Hne. rewrite Hl, Hr. cbn [alu_sem]. rewrite (Z.mod_small b 64) by lia.
        symmetry; apply wrap_small. rewrite Z.shiftr_div_pow2 by lia. assert (0 < 2 ^ b) by (apply Z.pow_pos_nonneg; lia).
        pose proof (Z.div_pos a (2 ^ b) ltac:(lia) ltac:(lia)). pose proof (Z.div_le_upper_bound a (2 ^ b) a ltac:(lia) ltac:(nia)). unfold M64; lia.
Qed.

(** Comparisons: agree when the operands have the same sign, or for == and !=. *)
Definition same_cmp (op : cmpop) (a b : Z) : bool :=
  match op with CEq | CNe => true | _ => Bool.eqb (a <? 0) (b <? 0) end.
Lemma wrap_eq_iff a b : - 2 ^ 63 <= a < 2 ^ 63 -> - 2 ^ 63 <= b < 2 ^ 63 -> (wrap a =? wrap b) = (a =? b).
Proof.
  intros Ha Hb. destruct (Z.eqb_spec a b) as [->|Hn]; [apply Z.eqb_refl|]. apply Z.eqb_neq. intros H. apply Hn.
  rewrite <- (s64_id a Ha), <- (s64_id b Hb). unfold s64, sgn. rewrite !wrap_mod in H. rewrite H. reflexivity.
Qed.
Lemma wrap_val a : - 2 ^ 63 <= a < 2 ^ 63 -> wrap a = if a <? 0 then a + M64 else a.
Proof.
  intros Ha. destruct (Z.ltb_spec a 0).
  - unfold wrap. rewrite <- (Z_mod_plus_full a 1 M64). apply Z.mod_small. unfold M64. lia.
  - apply wrap_nonneg; lia.
Qed.
Lemma cmp_agrees K s m ms op rl rr a b n ta tb :
  rl <> rr -> in64 a = true -> in64 b = true -> same_cmp op a b = true ->
  cmp_values K op s (VConst a ta) (VConst b tb) = ROk (VConst n None) s ->
  rg ms rl = wrap a -> rg ms rr = wrap b ->
  exists s' d ms', cmp_values K op s (VMat rl None None) (VMat rr None None) = ROk (VMat rl None None) s' /\
    c_code s' = c_code s ++ d /\ exec m d 0 ms = FFall 0 ms' /\ rg ms' rl = n.
Proof.
  intros Hne Ha Hb Hs Hc Hl Hr. apply in64_ok in Ha, Hb.
  assert (Hn : n = b2z (cmp_const op a b)) by (unfold cmp_values in Hc; cbn in Hc; congruence). clear Hc.
  assert (Hj : jop_sem (inv_jop op) (wrap a) (wrap b) = negb (cmp_const op a b)).
  { destruct op; cbn [inv_jop jop_sem cmp_const same_cmp] in *; rewrite ?wrap_eq_iff by assumption; rewrite ?negb_involutive; try reflexivity;
      apply eqb_prop in Hs; rewrite !wrap_val by assumption; rewrite <- Hs; destruct (a <? 0).
    - rewrite <- Z.leb_antisym. apply Bool.eq_true_iff_eq. rewrite !Z.leb_le. lia.
    - apply Z.leb_antisym.
    - rewrite <- Z.ltb_antisym. apply Bool.eq_true_iff_eq. rewrite !Z.ltb_lt. lia.
    - apply Z.ltb_antisym.
    - rewrite <- Z.leb_antisym. apply Bool.eq_true_iff_eq. rewrite !Z.leb_le. lia.
    - apply Z.leb_antisym.
    - rewrite <- Z.ltb_antisym. apply Bool.eq_true_iff_eq. rewrite !Z.ltb_lt. lia.
    - apply Z.ltb_antisym. }
  unfold cmp_values; cbn -[exec app inv_jop].
  destruct (cmp_const op a b); cbn [negb b2z] in *.
  - eexists _, _, (setr ms rl 1). split; [reflexivity|]. split; [reflexivity|]. split.
    + unfold reg2bool. cbn [exec step1]. rewrite Hl, Hr, Hj. reflexivity.
    + rewrite rg_setr_eq. congruence.
  - eexists _, _, (setr ms rl (alu_sem AXor (rg ms rl) (rg ms rl))). split; [reflexivity|]. split; [reflexivity|]. split.
    + unfold reg2bool. cbn [exec step1]. rewrite Hl, Hr, Hj. reflexivity.
    + rewrite rg_setr_eq. cbn [alu_sem]. rewrite Z.lxor_nilpotent. congruence.
Qed.

(** ** Panics: only a shift of constants by a negative constant. *)
Inductive subexpr : expr -> expr -> Prop :=
| sub_refl e : subexpr e e
| sub_arrow x e m : subexpr x e -> subexpr x (EArrow e m)
| sub_dot x e m : subexpr x e -> subexpr x (EDot e m)
| sub_index x e i : subexpr x e -> subexpr x (EIndex e i)
| sub_indir x e : subexpr x e -> subexpr x (EIndir e)
| sub_addr x e : subexpr x e -> subexpr x (EAddr e)
| sub_cast x t e : subexpr x e -> subexpr x (ECast t e)
| sub_paren x e : subexpr x e -> subexpr x (EParen e)
| sub_binl x op a b : subexpr x a -> subexpr x (EBin op a b)
| sub_binr x op a b : subexpr x b -> subexpr x (EBin op a b)
| sub_cmpl x op a b : subexpr x a -> subexpr x (ECmp op a b)
| sub_cmpr x op a b : subexpr x b -> subexpr x (ECmp op a b)
| sub_andl x a b : subexpr x a -> subexpr x (EAndAnd a b)
| sub_andr x a b : subexpr x b -> subexpr x (EAndAnd a b)
| sub_orl x a b : subexpr x a -> subexpr x (EOrOr a b)
| sub_orr x a b : subexpr x b -> subexpr x (EOrOr a b)
| sub_not x e : subexpr x e -> subexpr x (ENot e)
| sub_twid x e : subexpr x e -> subexpr x (ETwid e)
| sub_minus x e : subexpr x e -> subexpr x (EMinus e)
| sub_plus x e : subexpr x e -> subexpr x (EPlus e)
| sub_inc x e : subexpr x e -> subexpr x (EPreInc e)
| sub_dec x e : subexpr x e -> subexpr x (EPreDec e)
| sub_condc x c a b : subexpr x c -> subexpr x (ECond c a b)
| sub_condl x c a b : subexpr x a -> subexpr x (ECond c a b)
| sub_condr x c a b : subexpr x b -> subexpr x (ECond c a b).

Definition is_shift (op : binop) : bool := match op with BLsh | BRsh => true | _ => false end.

Lemma bind_panic {A B} (x : res A) (f : A -> cst -> res B) : bind x f = RPanic ->
  x = RPanic \/ exists a s, x = ROk a s /\ f a s = RPanic.
Proof. destruct x; cbn; intros H; [right; eauto|discriminate|left; reflexivity]. Qed.
Lemma of_opt_np {A} (o : option A) s : of_opt o s <> RPanic.
Proof. destruct o; discriminate. Qed.
Lemma calloc_np s : calloc s <> RPanic.
Proof. unfold calloc. destruct (alloc (c_regs s)) as [[? ?]|]; discriminate. Qed.

Lemma emit_chain_np K s l r : emit_chain K s l r <> RPanic.
Proof.
  unfold emit_chain. destruct (all_addr l); [discriminate|]. destruct (cf_mode K); [discriminate| |].
  - unfold emit_core_read. destruct (core_read K r l) as [[? ?]|]; discriminate.
  - destruct (direct_read r l); discriminate.
Qed.
Lemma materialize_np K s v : materialize K s v <> RPanic.
Proof.
  destruct v; cbn [materialize]; try discriminate.
  - intros H. apply bind_panic in H as [H|(x & s' & H1 & H2)]; [eapply calloc_np; eauto|discriminate].
  - unfold mat_pending. intros H. apply bind_panic in H as [H|(x & s' & H1 & H2)]; [eapply calloc_np; eauto|].
    apply bind_panic in H2 as [H|(y & s2 & H3 & H4)]; [|discriminate].
    destruct offs; [discriminate|]. eapply emit_chain_np; eauto.
Qed.
Ltac np := repeat match goal with
  | H : bind _ _ = RPanic |- _ => apply bind_panic in H as [H|(? & ? & ? & H)]
  | H : materialize _ _ _ = RPanic |- _ => exfalso; eapply materialize_np; exact H
  | H : of_opt _ _ = RPanic |- _ => exfalso; eapply of_opt_np; exact H
  | H : ROk _ _ = RPanic |- _ => discriminate H
  | H : RErr = RPanic |- _ => discriminate H
  | H : (if ?b then _ else _) = RPanic |- _ => destruct b
  end.
Lemma bin_runtime_np K s l r f : bin_runtime K s l r f <> RPanic.
Proof. unfold bin_runtime. intros H. np. Qed.
Lemma bin_panic K op s l r : bin_values K op s l r = RPanic ->
  is_shift op = true /\ exists a ta b tb, l = VConst a ta /\ r = VConst b tb /\ b < 0.
Proof.
  unfold bin_values. destruct (resolve_enums l r) as [[l' r']|] eqn:Hre; [|discriminate].
  intros H. destruct (match op, r' with (BDiv | BMod), VConst 0 _ => true | _, _ => false end); [discriminate|].
  assert (Hcc : forall a ta b tb, l' = VConst a ta -> r' = VConst b tb -> exists ta' tb', l = VConst a ta' /\ r = VConst b tb').
  { intros a ta b tb -> ->. unfold resolve_enums in Hre.
    destruct l as [? ?|? ? ? ?|? ? ?|? ?], r as [? ?|? ? ? ?|? ? ?|? ?]; cbn [runtime is_mat is_pend orb] in Hre;
      repeat match type of Hre with context [match ?x with _ => _ end] => destruct x end; inversion Hre; eauto. }
  destruct l' as [a ta|b offs t m|rl t m|nm t].
  - destruct r' as [b tb|b offs t m|rr t m|nm t].
    + destruct (Hcc _ _ _ _ eq_refl eq_refl) as (ta' & tb' & -> & ->).
      destruct op; cbn [fold_const] in H; try discriminate; (split; [reflexivity|]);
        exists a, ta', b, tb'; (split; [reflexivity|]); (split; [reflexivity|]);
        destruct (Z.ltb_spec b 0); try assumption; destruct (64 <=? b); discriminate.
    + destruct op; np; exfalso; eapply bin_runtime_np; eassumption.
    + destruct op; np; exfalso; eapply bin_runtime_np; eassumption.
    + destruct op; np; exfalso; eapply bin_runtime_np; eassumption.
  - destruct op, r'; np; exfalso; eapply bin_runtime_np; eassumption.
  - destruct op, r'; np; exfalso; eapply bin_runtime_np; eassumption.
  - destruct op, r'; np; exfalso; eapply bin_runtime_np; eassumption.
Qed.
Lemma cmp_np K op s l r : cmp_values K op s l r <> RPanic.
Proof.
  unfold cmp_values. destruct (resolve_enums l r) as [[l' r']|]; [|discriminate].
  destruct (adjust_nums (cf_env K) l' r') as [a b]. intros H.
  destruct a, b; np.
Qed.
Lemma to_bool_np K s v : to_bool K s v <> RPanic.
Proof. unfold to_bool. intros H. np. Qed.
Lemma andand_np K s l r : andand_values K s l r <> RPanic.
Proof.
  unfold andand_values. destruct (resolve_enums l r) as [[l' r']|]; [|discriminate]. intros H.
  destruct l', r'; np; try (eapply to_bool_np; eassumption); try (eapply bin_runtime_np; eassumption).
Qed.
Lemma oror_np K s l r : oror_values K s l r <> RPanic.
Proof.
  unfold oror_values. destruct (resolve_enums l r) as [[l' r']|]; [|discriminate]. intros H.
  destruct l', r'; np; try (eapply to_bool_np; eassumption); try (eapply bin_runtime_np; eassumption).
Qed.
Lemma unary_np K s v k chk f : unary K s v k chk f <> RPanic.
Proof. unfold unary. intros H. destruct v; np. Qed.
Lemma branch_np K s v r : cond_branch K s v r <> RPanic.
Proof. unfold cond_branch. intros H. destruct v; np. Qed.
Lemma cond_np K s c l r : cond_values K s c l r <> RPanic.
Proof.
  unfold cond_values. intros H. destruct (negb (operands_ok c c && operands_ok l r)); [discriminate|].
  destruct c; np; eapply branch_np; eassumption.
Qed.

(** Evaluating e panics only at a sub-expression `a << b` / `a >> b` of constants with b negative. *)
Definition bad_shift (K : cfg) (x : expr) : Prop :=
  exists op a b s sa sb na ta nb tb, x = EBin op a b /\ is_shift op = true /\
    evaluate K a s = ROk (VConst na ta) sa /\ evaluate K b sa = ROk (VConst nb tb) sb /\ nb < 0.
Lemma panic_shift K e : forall st, evaluate K e st = RPanic -> exists x, subexpr x e /\ bad_shift K x.
Proof.
  induction e; intros st H; cbn [evaluate] in H;
    try discriminate; try (destruct (parse_number text); discriminate);
    try (apply bind_panic in H as [H|(v1 & s1 & H1 & H)]; [destruct (IHe _ H) as (x & Hx & Hb); exists x; split; [constructor; exact Hx|exact Hb]|]).
  all: try (exfalso; eapply unary_np; exact H).
  all: try (exfalso; eapply of_opt_np; exact H).
  - destruct v1; try discriminate; exfalso; eapply of_opt_np; exact H.
  - destruct v1; try discriminate; exfalso; eapply of_opt_np; exact H.
  - apply bind_panic in H as [H|(v1 & s1 & H1 & H)]; [destruct (IHe1 _ H) as (x & Hx & Hb); exists x; split; [constructor; exact Hx|exact Hb]|].
    destruct (is_bf (v_mem v1)); [discriminate|]. destruct e2; try discriminate. destruct (parse_number text); [|discriminate].
    exfalso; eapply of_opt_np; exact H.
  - assert (Hg : bind (evaluate K e st) (fun v s1 => match cc2btf (cf_env K) t with Some ty => ROk (cast_value v ty) s1 | None => RErr end) = RPanic -> exists x, subexpr x (ECast t e) /\ bad_shift K x).
    { intros G. apply bind_panic in G as [G|(v1 & s1 & H1 & G)]; [destruct (IHe _ G) as (x & Hx & Hb); exists x; split; [constructor; exact Hx|exact Hb]|].
      destruct (cc2btf (cf_env K) t); discriminate. }
    destruct e; try (exact (Hg H)). destruct (parse_unsigned text); [|discriminate]. destruct (cc2btf (cf_env K) t); discriminate.
  - destruct (IHe _ H) as (x & Hx & Hb). exists x; split; [constructor; exact Hx|exact Hb].
  - apply bind_panic in H as [H|(v1 & s1 & H1 & H)]; [destruct (IHe1 _ H) as (x & Hx & Hb); exists x; split; [constructor; exact Hx|exact Hb]|].
    apply bind_panic in H as [H|(v2 & s2 & H2 & H)]; [destruct (IHe2 _ H) as (x & Hx & Hb); exists x; split; [apply sub_binr; exact Hx|exact Hb]|].
    apply bin_panic in H as (Hs & a & ta & b & tb & -> & -> & Hneg).
    exists (EBin op e1 e2). split; [constructor|]. exists op, e1, e2, st, s1, s2, a, ta, b, tb. auto.
  - apply bind_panic in H as [H|(v1 & s1 & H1 & H)]; [destruct (IHe1 _ H) as (x & Hx & Hb); exists x; split; [constructor; exact Hx|exact Hb]|].
    apply bind_panic in H as [H|(v2 & s2 & H2 & H)]; [destruct (IHe2 _ H) as (x & Hx & Hb); exists x; split; [apply sub_cmpr; exact Hx|exact Hb]|].
    exfalso; eapply cmp_np; exact H.
  - apply bind_panic in H as [H|(v1 & s1 & H1 & H)]; [destruct (IHe1 _ H) as (x & Hx & Hb); exists x; split; [constructor; exact Hx|exact Hb]|].
    apply bind_panic in H as [H|(v2 & s2 & H2 & H)]; [destruct (IHe2 _ H) as (x & Hx & Hb); exists x; split; [apply sub_andr; exact Hx|exact Hb]|].
    exfalso; eapply andand_np; exact H.
  - apply bind_panic in H as [H|(v1 & s1 & H1 & H)]; [destruct (IHe1 _ H) as (x & Hx & Hb); exists x; split; [constructor; exact Hx|exact Hb]|].
    apply bind_panic in H as [H|(v2 & s2 & H2 & H)]; [destruct (IHe2 _ H) as (x & Hx & Hb); exists x; split; [apply sub_orr; exact Hx|exact Hb]|].
    exfalso; eapply oror_np; exact H.
  - destruct (IHe _ H) as (x & Hx & Hb). exists x; split; [constructor; exact Hx|exact Hb].
  - apply bind_panic in H as [H|(v1 & s1 & H1 & H)]; [destruct (IHe1 _ H) as (x & Hx & Hb); exists x; split; [constructor; exact Hx|exact Hb]|].
    apply bind_panic in H as [H|(v2 & s2 & H2 & H)]; [destruct (IHe2 _ H) as (x & Hx & Hb); exists x; split; [apply sub_condl; exact Hx|exact Hb]|].
    apply bind_panic in H as [H|(v3 & s3 & H3 & H)]; [destruct (IHe3 _ H) as (x & Hx & Hb); exists x; split; [apply sub_condr; exact Hx|exact Hb]|].
    exfalso; eapply cond_np; exact H.
Qed.

(** A shift count written as a literal below 2^63 (possibly in parentheses). *)
Fixpoint plain_count (e : expr) : bool :=
  match e with
  | ENum t => match parse_number t with inl n => 0 <=? n | inr _ => true end
  | EParen a => plain_count a
  | EPlus a => plain_count a
  | _ => false
  end.
Lemma plain_count_ok K e : plain_count e = true -> forall st s' n t, evaluate K e st = ROk (VConst n t) s' -> 0 <= n.
Proof.
  induction e; cbn [plain_count]; intros H st s' n ty He; try discriminate.
  - cbn [evaluate] in He. destruct (parse_number text); [|discriminate]. apply Z.leb_le in H. congruence.
  - eapply IHe; eauto.
  - eapply IHe; eauto.
Qed.
Lemma no_panic K e : (forall op a b, subexpr (EBin op a b) e -> is_shift op = true -> plain_count b = true) ->
  compile_filter K e <> inr tt.
Proof.
  intros H Hc. unfold compile_filter in Hc. destruct (negb (top_op_ok e)); [discriminate|].
  destruct (evaluate K e filter_init) as [v s| |] eqn:He.
  - destruct v; discriminate.
  - discriminate.
  - destruct (panic_shift K e _ He) as (x & Hx & op & a & b & s & sa & sb & na & ta & nb & tb & -> & Hs & Ha & Hb & Hn).
    pose proof (plain_count_ok K b (H _ _ _ Hx Hs) _ _ _ _ Hb). lia.
Qed.
Lemma compile_panic K e : compile_filter K e = inr tt -> exists x, subexpr x e /\ bad_shift K x.
Proof.
  unfold compile_filter. destruct (negb (top_op_ok e)); [discriminate|].
  destruct (evaluate K e filter_init) as [v s| |] eqn:He; [destruct v; discriminate|discriminate|].
  intros _. eapply panic_shift; exact He.
Qed.

(** ** Folding is int64 arithmetic *)
Lemma s64_int64 z : s64 z = int64 z.
Proof.
  unfold s64, sgn, int64. change (64 - 1) with 63.
  pose proof (Z.mod_pos_bound z (2 ^ 64) ltac:(lia)) as H1. pose proof (Z.div_mod z (2 ^ 64) ltac:(lia)) as H2.
  destruct (Z.ltb_spec (z mod 2 ^ 64) (2 ^ 63)) as [E|E].
  - rewrite <- (Zmod_unique (z + 2 ^ 63) (2 ^ 64) (z / 2 ^ 64) (z mod 2 ^ 64 + 2 ^ 63)); lia.
  - rewrite <- (Zmod_unique (z + 2 ^ 63) (2 ^ 64) (z / 2 ^ 64 + 1) (z mod 2 ^ 64 - 2 ^ 63)); lia.
Qed.
Lemma int64_id z : - 2 ^ 63 <= z < 2 ^ 63 -> int64 z = z.
Proof. intros. rewrite <- s64_int64. apply s64_id. assumption. Qed.
Lemma fold_int64 K op s a b ta tb : in64 a = true -> in64 b = true ->
  match op, b with
  | (BDiv | BMod), 0 => bin_values K op s (VConst a ta) (VConst b tb) = RErr
  | _, _ => op <> BLsh /\ op <> BRsh \/ 0 <= b ->
      bin_values K op s (VConst a ta) (VConst b tb) = ROk (VConst (int64
      (match op with
       | BAdd => a + b | BSub => a - b | BMul => a * b | BDiv => Z.quot a b | BMod => Z.rem a b
       | BAnd => Z.land a b | BOr => Z.lor a b | BXor => Z.lxor a b
       | BLsh => a * 2 ^ b | BRsh => a / 2 ^ b
       end)) None) s
  end.
Proof.
  intros Ha Hb. apply in64_ok in Ha, Hb.
  assert (Hland : forall f g, (forall x y i, 0 <= i -> Z.testbit (f x y) i = g (Z.testbit x i) (Z.testbit y i)) -> - 2 ^ 63 <= f a b < 2 ^ 63 -> int64 (f a b) = f a b) by (intros; apply int64_id; assumption).
  assert (Hr : forall f g, (forall x y i, 0 <= i -> Z.testbit (f x y) i = g (Z.testbit x i) (Z.testbit y i)) -> int64 (f a b) = f a b).
  { intros f g Hf. rewrite <- s64_int64. apply s64_id.
    assert (Hs : forall x, - 2 ^ 63 <= x < 2 ^ 63 <-> forall i, 63 <= i -> Z.testbit x i = Z.testbit x 63).
    { clear. intros x. split.
      - intros Hx i Hi. destruct (Z.neg_nonneg_cases x) as [Hn|Hn].
        + assert (Hb : forall j, 63 <= j -> Z.testbit x j = true).
          { intros j Hj. rewrite <- (Z.opp_involutive x). rewrite Z.bits_opp by lia. rewrite Z.bits_above_log2; [reflexivity|lia|].
            destruct (Z.eq_dec (Z.pred (- x)) 0) as [->|Hz]; [cbn; lia|].
            apply Z.log2_lt_pow2; [lia|]. apply (Z.lt_le_trans _ (2 ^ 63)); [lia|]. apply Z.pow_le_mono_r; lia. }
          rewrite !Hb by lia. reflexivity.
        + assert (Hb : forall j, 63 <= j -> Z.testbit x j = false).
          { intros j Hj. destruct (Z.eq_dec x 0) as [->|Hz]; [apply Z.bits_0|]. apply Z.bits_above_log2; [lia|].
            apply Z.log2_lt_pow2; [lia|]. apply (Z.lt_le_trans _ (2 ^ 63)); [lia|]. apply Z.pow_le_mono_r; lia. }
          rewrite !Hb by lia. reflexivity.
      - intros Hb. assert (E : x = x mod 2 ^ 63 - (if Z.testbit x 63 then 2 ^ 63 else 0)).
        { assert (Hd : x / 2 ^ 63 = if Z.testbit x 63 then -1 else 0).
          { apply Z.bits_inj'. intros i Hi. rewrite <- Z.shiftr_div_pow2, Z.shiftr_spec by lia. rewrite Hb by lia.
            destruct (Z.testbit x 63); [rewrite Z.bits_m1|rewrite Z.bits_0]; auto. }
          pose proof (Z.div_mod x (2 ^ 63) ltac:(lia)). rewrite Hd in H. destruct (Z.testbit x 63); lia. }
        pose proof (Z.mod_pos_bound x (2 ^ 63) ltac:(lia)). destruct (Z.testbit x 63); lia. }
    apply Hs. intros i Hi. rewrite !Hf by lia. rewrite (proj1 (Hs a) Ha i Hi), (proj1 (Hs b) Hb i Hi). reflexivity. }
  assert (E : forall o, (match o, b with (BDiv | BMod), 0 => True | _, _ => False end) -> bin_values K o s (VConst a ta) (VConst b tb) = RErr).
  { intros o H. unfold bin_values. cbn [resolve_enums]. destruct o, b; try contradiction; reflexivity. }
  assert (F : forall o, (match o, b with (BDiv | BMod), 0 => False | _, _ => True end) -> bin_values K o s (VConst a ta) (VConst b tb) =
     match fold_const o a b with Some n => ROk (VConst n None) s | None => RPanic end).
  { intros o H. unfold bin_values. cbn [resolve_enums]. destruct o, b; try contradiction; reflexivity. }
  assert (G : (match op, b with (BDiv | BMod), 0 => False | _, _ => True end) -> op <> BLsh /\ op <> BRsh \/ 0 <= b ->
     fold_const op a b = Some (int64 (match op with
       | BAdd => a + b | BSub => a - b | BMul => a * b | BDiv => Z.quot a b | BMod => Z.rem a b
       | BAnd => Z.land a b | BOr => Z.lor a b | BXor => Z.lxor a b
       | BLsh => a * 2 ^ b | BRsh => a / 2 ^ b
       end))).
  { intros _ Hsh. destruct op; cbn [fold_const]; rewrite ?s64_int64; try reflexivity.
    - rewrite (Hr Z.land andb); [reflexivity|]. intros; apply Z.land_spec.
    - rewrite (Hr Z.lor orb); [reflexivity|]. intros; apply Z.lor_spec.
    - rewrite (Hr Z.lxor xorb); [reflexivity|]. intros; apply Z.lxor_spec.
    - destruct (Z.ltb_spec b 0); [destruct Hsh as [[X _]|X]; [congruence|lia]|].
      destruct (Z.leb_spec 64 b).
      + f_equal. unfold int64. replace b with (64 + (b - 64)) by lia. rewrite Z.pow_add_r by lia.
        replace (a * (2 ^ 64 * 2 ^ (b - 64)) + 2 ^ 63) with (2 ^ 63 + a * 2 ^ (b - 64) * 2 ^ 64) by ring.
        rewrite Z.mod_add by lia. reflexivity.
      + rewrite Z.shiftl_mul_pow2, ?s64_int64 by lia. reflexivity.
    - destruct (Z.ltb_spec b 0); [destruct Hsh as [[_ X]|X]; [congruence|lia]|].
      assert (Hp : 0 < 2 ^ b) by (apply Z.pow_pos_nonneg; lia).
      assert (Hrange : - 2 ^ 63 <= a / 2 ^ b < 2 ^ 63).
      { split; [apply Z.div_le_lower_bound; [lia|]; nia|apply Z.div_lt_upper_bound; [lia|]; nia]. }
      rewrite int64_id by exact Hrange.
      destruct (Z.leb_spec 64 b); [|rewrite Z.shiftr_div_pow2 by lia; reflexivity].
      assert (Hbig : 2 ^ 64 <= 2 ^ b) by (apply Z.pow_le_mono_r; lia).
      f_equal. destruct (Z.ltb_spec a 0).
      + apply (Z.div_unique a (2 ^ b) (-1) (a + 2 ^ b)); lia.
      + symmetry. apply Z.div_small. lia. }
  destruct op; try (intros Hsh; rewrite F by exact I; rewrite (G I Hsh); reflexivity).
  all: destruct b; [apply E; exact I| |]; intros Hsh; rewrite F by exact I; rewrite (G I Hsh); reflexivity.
Qed.
