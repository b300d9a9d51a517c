(** * Properties C06-C11: what a comparison `l op constant` decides, for parameters, members and bit-fields. *)
From Coq Require Import ZArith List Bool String Lia.
From Verif Require Import M_Ebpf M_CcNum M_Cc S_CSem S_CSup P_CcMach P_CcMat P_CcOps P_CcVals P_CcTop X_CcDemo.
Import ListNotations.
Open Scope string_scope.
Open Scope Z_scope.

(** The machine holds the memory of the C environment; R1 points to the 64-bit argument slots. *)
Definition matches (K : cfg) (C : cenv) (m : mach) (ms : mst) (args : Z) : Prop :=
  ce_bt C = cf_env K /\ ce_vars C = cf_vars K /\ (forall a, ce_map C a = true -> mapped m a = true) /\ (forall a, ce_map C a = true -> ker ms a = ce_mem C a) /\ rg ms R1 = args /\
  (forall i, (i < List.length (cf_vars K))%nat -> Z.of_nat i * 8 < 2 ^ 15 /\ rd C (args + Z.of_nat i * 8) 8 = Some (ce_slot C i)).
Definition returns (m : mach) (p : prog) (ms : mst) (b : bool) : Prop :=
  forall fuel, (List.length (code p) <= fuel)%nat -> exists ms', run fuel m p 0 ms = Done (if b then 1 else 0) ms'.
Lemma demo_matches md : matches (K md) demo_C demo_m demo_ms 4096.
Proof. unfold matches. split; [reflexivity|]. split; [reflexivity|]. split; [intros a H; exact H|]. split; [reflexivity|]. split; [reflexivity|]. exact demo_slots. Qed.

(** The literal k as the comparison instruction sees it: masked to the operand's width (1, 2 or 4 bytes), truncated to a
    32-bit immediate, sign-extended to 64 bits. *)
Definition immediate (w k : Z) : Z := (s32 (mask_w w (s64 k))) mod 2 ^ 64.

(** ** Exact result for a parameter x of a w-byte integer, enum or pointer type and a literal k (of any size, possibly
    negated): `x op k` always compiles, and returns the unsigned comparison of the low w bytes of the argument with
    [immediate w k]. *)
Lemma param_exact : forall K C m ms args op x i t w r k,
  matches K C m ms args -> plain_name x = true -> lookup_var (cf_vars K) x 0 = Some (i, t) ->
  can_calc (Some t) = true -> sizeof (cf_env K) t = Some w -> width w -> lit r = Some k ->
  exists p, compile_filter K (ECmp op (EName x) r) = inl (Some p) /\
    returns m p ms (c_rel op (ce_slot C i mod 2 ^ (8 * w)) (immediate w k)).
Proof.
  intros K C m ms args op x i t w r k (HE & HV & Hm & Hk & HA & Hs) Hx Hlk Hcc Hsz Hw Hl.
  destruct (name_compiles K op x i t r (s64 k) Hx Hlk Hcc (lit_eval K r k Hl)) as (p & Hp & Hlen & Hd).
  exists p. split; [exact Hp|]. intros fuel Hf.
  refine (pend_cmp K C m args Hm Hs op (EName x) r (s64 k) None _ _ p ms (lit_eval K r k Hl) _ Hp _ (fun _ => Hd) HA Hk fuel Hf); [|lia].
  exact (name_lspec K C m args x i t w (s64 k) Hx Hlk Hsz Hw).
Qed.

(** ** C06 *)
Theorem C06_signed_parameter_compares_unsigned_partial : forall K C m ms args op x i t w r k,
  matches K C m ms args -> plain_name x = true -> lookup_var (cf_vars K) x 0 = Some (i, t) ->
  under t = TInt w true -> width w -> lit r = Some k ->
  exists p, compile_filter K (ECmp op (EName x) r) = inl (Some p) /\
    let n := sgn (8 * w) (ce_slot C i) in       (* the C value of x *)
    (* non-negative operands: the C comparison *)
    (0 <= n -> 0 <= k < 2 ^ 31 -> k < 2 ^ (8 * w) -> returns m p ms (c_rel op n k)) /\
    (* == and !=, all values, unless x is a 4-byte int: the C comparison, for constants of the type within 32 bits *)
    (op = CEq \/ op = CNe -> w <> 4 -> - 2 ^ (8 * w - 1) <= k < 2 ^ (8 * w - 1) -> - 2 ^ 31 <= k < 2 ^ 31 -> returns m p ms (c_rel op n k)).
Proof.
  intros K C m ms args op x i t w r k HM Hx Hlk Hu Hw Hl.
  assert (Hcc : can_calc (Some t) = true) by (cbn [can_calc]; rewrite Hu; reflexivity).
  assert (Hsz : sizeof (cf_env K) t = Some w) by (rewrite P_CcVal.sizeof_under, Hu; reflexivity).
  destruct (param_exact K C m ms args op x i t w r k HM Hx Hlk Hcc Hsz Hw Hl) as (p & Hp & Hr).
  exists p. split; [exact Hp|]. cbv zeta. set (S := ce_slot C i) in *.
  assert (Hw0 : 0 < 8 * w <= 64) by (destruct Hw as [->|[->|[->| ->]]]; lia).
  split.
  - intros Hn Hk Hkw. rewrite (sgn_nonneg (8 * w) S) by (lia || assumption).
    assert (Hi : immediate w k = k).
    { unfold immediate. rewrite s64_id by lia. unfold mask_w.
      assert (Hmk : (if w =? 8 then k else k mod 2 ^ (8 * w)) = k) by (destruct (w =? 8); [reflexivity|apply Z.mod_small; lia]).
      rewrite Hmk, s32_id by lia. apply Z.mod_small. lia. }
    rewrite Hi in Hr. exact Hr.
  - intros Hop Hw4 Hk Hk32.
    assert (He : (S mod 2 ^ (8 * w) =? immediate w k) = (sgn (8 * w) S =? k)).
    { assert (Hpow : 0 < 2 ^ (8 * w - 1)) by (apply Z.pow_pos_nonneg; lia).
      assert (Hp2 : 2 ^ (8 * w) = 2 * 2 ^ (8 * w - 1)) by (rewrite <- Z.pow_succ_r by lia; f_equal; lia).
      assert (Hi : immediate w k = k mod 2 ^ (8 * w)).
      { unfold immediate. rewrite s64_id by lia. destruct Hw as [->|[->|[->| ->]]]; unfold mask_w; cbn [Z.eqb Pos.eqb].
        - pose proof (Z.mod_pos_bound k (2 ^ (8 * 1)) ltac:(lia)). change (2 ^ (8 * 1)) with 256 in *. rewrite s32_id by lia. apply Z.mod_small. lia.
        - pose proof (Z.mod_pos_bound k (2 ^ (8 * 2)) ltac:(lia)). change (2 ^ (8 * 2)) with 65536 in *. rewrite s32_id by lia. apply Z.mod_small. lia.
        - contradiction.
        - rewrite s32_id by lia. reflexivity. }
      rewrite Hi. assert (Hsg : sgn (8 * w) k = k) by (apply sgn_id; lia).
      destruct (Z.eqb_spec (S mod 2 ^ (8 * w)) (k mod 2 ^ (8 * w))) as [He|He].
      - symmetry. apply Z.eqb_eq. rewrite <- Hsg. unfold sgn. rewrite He. reflexivity.
      - symmetry. apply Z.eqb_neq. intros Hc. apply He. rewrite <- (sgn_mod (8 * w) S) by lia. rewrite Hc. reflexivity. }
    destruct Hop as [-> | ->]; cbn [c_rel] in *; rewrite He in Hr; exact Hr.
Qed.
Print Assumptions C06_signed_parameter_compares_unsigned_partial.
Example C06_hypotheses_met : forall md, matches (K md) demo_C demo_m demo_ms 4096 /\ lookup_var (cf_vars (K md)) "ret" 0 = Some (1%nat, i32) /\
  under i32 = TInt 4 true /\ width 4 /\ lit (EMinus (ENum "1")) = Some (-1).
Proof. intros md. split; [apply demo_matches|]. unfold width. repeat split; auto; vm_compute; reflexivity. Qed.

(** Refuted: for an int (4 bytes) parameter and a negative constant, `x == k` never matches and `x != k` always does, `x < k`
    always matches and `x > k` never does - whatever the value of x. *)
Theorem C06_int_against_negative_constant_refuted : forall K C m ms args op x i t r k,
  matches K C m ms args -> plain_name x = true -> lookup_var (cf_vars K) x 0 = Some (i, t) ->
  under t = TInt 4 true -> lit r = Some k -> - 2 ^ 31 <= k < 0 ->
  exists p, compile_filter K (ECmp op (EName x) r) = inl (Some p) /\
    returns m p ms (match op with CEq | CGt | CGe => false | CNe | CLt | CLe => true end).
Proof.
  intros K C m ms args op x i t r k HM Hx Hlk Hu Hl Hk.
  assert (Hcc : can_calc (Some t) = true) by (cbn [can_calc]; rewrite Hu; reflexivity).
  assert (Hsz : sizeof (cf_env K) t = Some 4) by (rewrite P_CcVal.sizeof_under, Hu; reflexivity).
  destruct (param_exact K C m ms args op x i t 4 r k HM Hx Hlk Hcc Hsz ltac:(unfold width; auto) Hl) as (p & Hp & Hr).
  exists p. split; [exact Hp|].
  assert (Hi : immediate 4 k = k + 2 ^ 64).
  { unfold immediate, mask_w. cbn [Z.eqb Pos.eqb]. rewrite s64_id by lia.
    assert (Hs : s32 (k mod 2 ^ (8 * 4)) = k).
    { unfold s32, sgn. change (2 ^ (8 * 4)) with (2 ^ 32). rewrite Z.mod_mod by lia. apply (sgn_id 32); lia. }
    rewrite Hs. rewrite <- (Z_mod_plus_full k 1). rewrite Z.mul_1_l. apply Z.mod_small. lia. }
  rewrite Hi in Hr. pose proof (Z.mod_pos_bound (ce_slot C i) (2 ^ (8 * 4)) ltac:(lia)) as Hb. change (2 ^ (8 * 4)) with (2 ^ 32) in *.
  set (S := ce_slot C i mod 2 ^ 32) in *.
  assert (Hb2 : c_rel op S (k + 2 ^ 64) = match op with CEq | CGt | CGe => false | CNe | CLt | CLe => true end).
  { destruct op; cbn [c_rel].
    - apply Z.eqb_neq. lia. - apply negb_true_iff, Z.eqb_neq. lia. - apply Z.ltb_lt. lia. - apply Z.leb_le. lia.
    - apply Z.ltb_ge. lia. - apply Z.leb_gt. lia. }
  rewrite Hb2 in Hr. exact Hr.
Qed.
Print Assumptions C06_int_against_negative_constant_refuted.
(** In particular `ret == -1` and `ret < 0` on a call returning -1, and `skb->mark < 5` with mark = -7. *)
Theorem C06_negative_values_are_misjudged_refuted : forall md,
  map sem_true [ECmp CEq (EName "ret") (EMinus (ENum "1")); ECmp CLt (EName "ret") (ENum "0"); ECmp CLt (EArrow skb "mark") (ENum "5")] = [Some true; Some true; Some true] /\
  map (verdict md) [ECmp CEq (EName "ret") (EMinus (ENum "1")); ECmp CLt (EName "ret") (ENum "0"); ECmp CLt (EArrow skb "mark") (ENum "5")] = [Some 0; Some 0; Some 0].
Proof. intros []; vm_compute; auto. Qed.
Print Assumptions C06_negative_values_are_misjudged_refuted.

(** ** C07: unsigned parameter of w bytes and a constant of that width.  The comparison is decided on the full value of the
    constant, for all values of the parameter and all operators, iff the constant is below 2^31 or at least 2^64 - 2^31. *)
Lemma immediate_exact w k : width w -> 0 <= k < 2 ^ (8 * w) -> (immediate w k = k <-> k < 2 ^ 31 \/ 2 ^ 64 - 2 ^ 31 <= k).
Proof.
  intros Hw Hk. assert (Hp : 2 ^ (8 * w) <= 2 ^ 64) by (apply Z.pow_le_mono_r; destruct Hw as [->|[->|[->| ->]]]; lia).
  assert (Hm : s32 (mask_w w (s64 k)) = s32 k).
  { unfold s32, sgn, mask_w. destruct (Z.eqb_spec w 8).
    - assert (He : s64 k mod 2 ^ 32 = k mod 2 ^ 32); [|rewrite He; reflexivity].
      rewrite <- (mod_pow_le (s64 k) 32 64) by lia. unfold s64. rewrite sgn_mod by lia. apply mod_pow_le. lia.
    - assert (He : (s64 k mod 2 ^ (8 * w)) = k).
      { rewrite <- (mod_pow_le (s64 k) (8 * w) 64) by (destruct Hw as [->|[->|[->| ->]]]; lia). unfold s64. rewrite sgn_mod by lia.
        rewrite (Z.mod_small k (2 ^ 64)) by lia. apply Z.mod_small. lia. }
      rewrite He. reflexivity. }
  unfold immediate. rewrite Hm. unfold s32, sgn. pose proof (Z.div_mod k (2 ^ 32) ltac:(lia)) as Hd. pose proof (Z.mod_pos_bound k (2 ^ 32) ltac:(lia)) as Hr.
  set (q := k / 2 ^ 32) in *. set (rr := k mod 2 ^ 32) in *. change (2 ^ (32 - 1)) with (2 ^ 31).
  assert (Hq : 0 <= q) by (apply Z.div_pos; lia).
  destruct (Z.ltb_spec rr (2 ^ 31)).
  - rewrite Z.mod_small by lia. split; intros He.
    + left. lia.
    + destruct He; [|lia]. assert (q = 0) by lia. lia.
  - assert (Hm2 : (rr - 2 ^ 32) mod 2 ^ 64 = rr - 2 ^ 32 + 2 ^ 64).
    { rewrite <- (Z_mod_plus_full (rr - 2 ^ 32) 1). rewrite Z.mul_1_l. apply Z.mod_small. lia. }
    rewrite Hm2. split; intros He.
    + right. lia.
    + destruct He; [assert (q = 0) by lia; lia|]. assert (q = 2 ^ 32 - 1) by lia. lia.
Qed.
Theorem C07_constant_is_compared_in_full_iff_it_fits : forall K C m ms args x i t w k r,
  matches K C m ms args -> plain_name x = true -> lookup_var (cf_vars K) x 0 = Some (i, t) ->
  under t = TInt w false -> width w -> lit r = Some k -> 0 <= k < 2 ^ (8 * w) ->
  (k < 2 ^ 31 \/ 2 ^ 64 - 2 ^ 31 <= k -> forall op, exists p, compile_filter K (ECmp op (EName x) r) = inl (Some p) /\
     returns m p ms (c_rel op (ce_slot C i mod 2 ^ (8 * w)) k)) /\
  (2 ^ 31 <= k < 2 ^ 64 - 2 ^ 31 -> ce_slot C i mod 2 ^ (8 * w) = k -> exists p, compile_filter K (ECmp CEq (EName x) r) = inl (Some p) /\
     returns m p ms false).
Proof.
  intros K C m ms args x i t w k r HM Hx Hlk Hu Hw Hl Hk.
  assert (Hcc : can_calc (Some t) = true) by (cbn [can_calc]; rewrite Hu; reflexivity).
  assert (Hsz : sizeof (cf_env K) t = Some w) by (rewrite P_CcVal.sizeof_under, Hu; reflexivity).
  pose proof (immediate_exact w k Hw Hk) as Hie. split.
  - intros Hr op. destruct (param_exact K C m ms args op x i t w r k HM Hx Hlk Hcc Hsz Hw Hl) as (p & Hp & Hrt).
    rewrite (proj2 Hie Hr) in Hrt. eauto.
  - intros Hr He. destruct (param_exact K C m ms args CEq x i t w r k HM Hx Hlk Hcc Hsz Hw Hl) as (p & Hp & Hrt).
    exists p. split; [exact Hp|]. cbn [c_rel] in Hrt. rewrite He in Hrt.
    assert (Hne : (k =? immediate w k) = false) by (apply Z.eqb_neq; intros Hc; symmetry in Hc; apply Hie in Hc; lia).
    rewrite Hne in Hrt. exact Hrt.
Qed.
Print Assumptions C07_constant_is_compared_in_full_iff_it_fits.
Example C07_demo : forall md, map (verdict md) [ECmp CEq (EName "m") (ENum "3"); ECmp CLt (EName "n") (ENum "0xffffffffffffffff"); ECmp CGt (EName "c") (ENum "199")] = [Some 1; Some 1; Some 1].
Proof. intros []; vm_compute; reflexivity. Qed.
(** Refuted: `n == 0x10000000000` is false although n = 2^40 (and a member `skb->tstamp == 0x8000000000000005`). *)
Theorem C07_wide_constants_are_truncated_refuted : forall md,
  map sem_true [ECmp CEq (EName "n") (ENum "0x10000000000"); ECmp CEq (EArrow skb "tstamp") (ENum "0x8000000000000005")] = [Some true; Some true] /\
  map (verdict md) [ECmp CEq (EName "n") (ENum "0x10000000000"); ECmp CEq (EArrow skb "tstamp") (ENum "0x8000000000000005")] = [Some 0; Some 0].
Proof. intros []; vm_compute; auto. Qed.
Print Assumptions C07_wide_constants_are_truncated_refuted.

(** ** C08, C09: members.  [l] is any supported lvalue expression (member of anything reachable) denoting the object of type
    t at address a, read through a pointer of type prev at offset off; [readable] gives the number of bytes the read instruction
    fetches. *)
Theorem C09_small_members_are_zero_extended : forall K C m ms args op l r k p a t w u prev off nb,
  matches K C m ms args -> compile_filter K (ECmp op l r) = inl (Some p) -> lit r = Some k ->
  Z.of_nat (List.length (code p)) < 2 ^ 15 -> (cf_mode K <> MDirect -> Forall (fun i => dest i <> Some 5%nat) (code p)) ->
  csem C (cc2btf (cf_env K)) l = Some (CLoc a t None) -> sup K C l = Some (KLoc prev off) ->
  readable K C a prev (Some t) off = Some nb -> sizeof (cf_env K) t = Some w -> width w ->
  (* u: the unsigned little-endian value of the w bytes at a *)
  rd C a (Z.to_nat w) = Some u ->
  returns m p ms (c_rel op u (immediate w k)).
Proof.
  intros K C m ms args op l r k p a t w u prev off nb (HE & HV & Hm & Hk & HA & Hs) Hp Hl Hlen Hd Hsem Hsup Hrd Hsz Hw Hu fuel Hf.
  exact (pend_cmp K C m args Hm Hs op l r (s64 k) None u _ p ms (lit_eval K r k Hl)
    (loc_lspec K C m args Hm HE HV Hs l a t prev off nb w u (s64 k) Hsem Hsup Hrd Hsz Hw Hu) Hp Hlen Hd HA Hk fuel Hf).
Qed.
Print Assumptions C09_small_members_are_zero_extended.
Example C09_demo : forall md, csem demo_C (cc2btf demo_env) (EArrow skb "queue_mapping") = Some (CLoc 65660 (TAlias u16) None) /\
  sup (K md) demo_C (EArrow skb "queue_mapping") = Some (KLoc (Some (TPtr (TStruct "sk_buff"))) 124) /\
  (exists nb, readable (K md) demo_C 65660 (Some (TPtr (TStruct "sk_buff"))) (Some (TAlias u16)) 124 = Some nb) /\
  rd demo_C 65660 2 = Some 3 /\ rd demo_C 65660 8 = Some 17180000259 /\ verdict md (ECmp CEq (EArrow skb "queue_mapping") (ENum "3")) = Some 1.
Proof. intros []; (split; [vm_compute; reflexivity|]; split; [vm_compute; reflexivity|]; split; [eexists; vm_compute; reflexivity|]; vm_compute; auto). Qed.

Theorem C08_bit_fields_read_their_bits_partial : forall K C m ms args op l r k p a t st b u prev off nb,
  matches K C m ms args -> compile_filter K (ECmp op l r) = inl (Some p) -> lit r = Some k ->
  Z.of_nat (List.length (code p)) < 2 ^ 15 -> (cf_mode K <> MDirect -> Forall (fun i => dest i <> Some 5%nat) (code p)) ->
  (* a bit-field of b < 32 bits starting st bits into the byte at a *)
  csem C (cc2btf (cf_env K)) l = Some (CLoc a t (Some (st, b))) -> sup K C l = Some (KLoc prev off) -> 0 < b < 32 ->
  readable K C a prev (Some t) off = Some nb -> st + b <= 8 * Z.of_nat nb ->
  (* u: the bytes the field touches *)
  rd C a (Z.to_nat ((st + b + 7) / 8)) = Some u ->
  0 <= k < 2 ^ b ->
  returns m p ms (c_rel op (Z.shiftr u st mod 2 ^ b) k).
Proof.
  intros K C m ms args op l r k p a t st b u prev off nb (HE & HV & Hm & Hk & HA & Hs) Hp Hl Hlen Hd Hsem Hsup Hb Hrd Hst Hu Hkb fuel Hf.
  assert (H2 : 2 ^ b <= 2 ^ 31) by (apply Z.pow_le_mono_r; lia).
  pose proof (pend_cmp K C m args Hm Hs op l r (s64 k) None _ _ p ms (lit_eval K r k Hl)
    (bf_lspec K C m args Hm HE HV Hs l a t st b prev off nb u (s64 k) Hsem Hsup Hrd Hb Hst Hu) Hp Hlen Hd HA Hk fuel Hf) as H.
  rewrite s64_id in H by lia. rewrite (Z.mod_small k) in H by lia. rewrite immv_small in H by lia. exact H.
Qed.
Print Assumptions C08_bit_fields_read_their_bits_partial.
Example C08_demo : forall md, csem demo_C (cc2btf demo_env) (EArrow skb "pkt_type") = Some (CLoc 65664 u8 (Some (0, 3))) /\
  csem demo_C (cc2btf demo_env) (EArrow skb "cloned") = Some (CLoc 65662 u8 (Some (1, 1))) /\
  map (verdict md) [ECmp CEq (EArrow skb "pkt_type") (ENum "4"); ECmp CEq (EArrow skb "cloned") (ENum "1")] = [Some 1; Some 1].
Proof. intros []; vm_compute; auto. Qed.
(** Refuted for 32 bits and more: the mask (1<<b)-1 is truncated to int32 = -1, so the neighbouring bits are not removed.
    flags33 (33 bits) = 2^32+3, bit 40 of the word is set: `flags33 >> 32 == 1` is true in C but not matched. *)
Definition flags33_hi := ECmp CEq (EBin BRsh (EArrow skb "flags33") (ENum "32")) (ENum "1").
Theorem C08_wide_bit_fields_refuted : forall md,
  csem demo_C (cc2btf demo_env) (EPlus (EArrow skb "flags33")) = Some (CInt (2 ^ 32 + 3) 8 false) /\
  sem_true flags33_hi = Some true /\ verdict md flags33_hi = Some 0.
Proof. intros []; vm_compute; auto. Qed.
Print Assumptions C08_wide_bit_fields_refuted.
