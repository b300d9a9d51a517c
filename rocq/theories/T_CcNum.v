(** * Properties C12 (constant folding), C13 (no panic), C14 (number literals). *)
From Coq Require Import ZArith List Bool String Ascii Lia.
From Verif Require Import M_Ebpf P_Ebpf M_CcNum M_Cc S_CSem S_Num S_Run P_Num P_CcFold X_CcDemo.
Import ListNotations.
Open Scope string_scope.
Open Scope Z_scope.

(** ** C14.  [numeral base s]: s is a non-empty string of digits of the base; [numval base (chars s)]: the
    number it denotes (both in S_Num). *)
Definition denotes (base : Z) (s : string) : Z + perr :=
  if numval base (chars s) <? 2 ^ 64 then inl (numval base (chars s)) else inr ERange.
Theorem C14_radix_notations : forall s,
  (numeral 16 s = true -> parse_unsigned ("0x" ++ s) = denotes 16 s) /\
  (numeral 8 s = true -> parse_unsigned ("0o" ++ s) = denotes 8 s) /\
  (numeral 2 s = true -> parse_unsigned ("0b" ++ s) = denotes 2 s) /\
  (numeral 8 s = true -> parse_unsigned ("0" ++ s) = denotes 8 s) /\
  (numeral 10 s = true -> dec_start s = true -> parse_unsigned s = denotes 10 s).
Proof.
  intros s. unfold denotes. change (2 ^ 64) with M64.
  split; [intros H; rewrite parse_hex; apply parse_uint_ok; [lia|exact H]|].
  split; [intros H; rewrite parse_oct; apply parse_uint_ok; [lia|exact H]|].
  split; [intros H; rewrite parse_bin; apply parse_uint_ok; [lia|exact H]|].
  split; [intros H; rewrite parse_oct0 by exact H; apply parse_uint_ok; [lia|exact H]|].
  intros H Hs. rewrite parse_dec by assumption. apply parse_uint_ok; [lia|exact H].
Qed.
Print Assumptions C14_radix_notations.
(** A bad digit, or no digit, is rejected. *)
Theorem C14_bad_digits_are_rejected : forall s,
  (numeral 16 s = false -> exists e, parse_unsigned ("0x" ++ s) = inr e) /\
  (numeral 8 s = false -> exists e, parse_unsigned ("0o" ++ s) = inr e) /\
  (numeral 2 s = false -> exists e, parse_unsigned ("0b" ++ s) = inr e) /\
  (forall c, numeral 10 (String c s) = false -> c <> "0"%char -> c <> "'"%char -> exists e, parse_unsigned (String c s) = inr e) /\
  (forall c, numeral 8 (String c s) = false -> c <> "x"%char -> c <> "o"%char -> c <> "b"%char ->
     exists e, parse_unsigned ("0" ++ String c s) = inr e).
Proof.
  intros s. rewrite parse_hex, parse_oct, parse_bin.
  split; [apply parse_uint_bad|]. split; [apply parse_uint_bad|]. split; [apply parse_uint_bad|].
  split; intros c; [apply parse_dec_bad|apply parse_oct0_bad].
Qed.
Print Assumptions C14_bad_digits_are_rejected.
(** Every unsigned 64-bit number, printed in any of the notations, is read back. *)
Theorem C14_every_number_is_read_back : forall n, 0 <= n < 2 ^ 64 ->
  parse_unsigned (print64 10 n) = inl n /\ parse_unsigned ("0x" ++ print64 16 n) = inl n /\
  parse_unsigned ("0o" ++ print64 8 n) = inl n /\ parse_unsigned ("0b" ++ print64 2 n) = inl n /\
  parse_unsigned ("0" ++ print64 8 n) = inl n.
Proof.
  intros n Hn.
  assert (Hd : forall b, 2 <= b <= 36 -> numeral b (print64 b n) = true /\ denotes b (print64 b n) = inl n).
  { intros b Hb. destruct (print64_ok b n Hb Hn) as [A B]. split; [exact A|]. unfold denotes. rewrite B.
    destruct (Z.ltb_spec n (2 ^ 64)); [reflexivity|lia]. }
  split; [destruct (Hd 10 ltac:(lia)) as [A B]; rewrite <- B; apply C14_radix_notations; [exact A|apply (print_dec_start 64); [exact Hn|lia|right; reflexivity]]|].
  split; [destruct (Hd 16 ltac:(lia)) as [A B]; rewrite <- B; apply C14_radix_notations; exact A|].
  destruct (Hd 8 ltac:(lia)) as [A B].
  split; [rewrite <- B; apply C14_radix_notations; exact A|].
  split; [destruct (Hd 2 ltac:(lia)) as [A' B']; rewrite <- B'; apply C14_radix_notations; exact A'|].
  rewrite <- B; apply C14_radix_notations; exact A.
Qed.
Print Assumptions C14_every_number_is_read_back.
(** The value used by the compiler is the 64-bit pattern; a minus sign negates it. *)
Theorem C14_minus_negates_modulo_2_64 : forall t n, parse_unsigned t = inl n ->
  (exists k, parse_number t = inl k /\ k mod 2 ^ 64 = n mod 2 ^ 64) /\
  (exists k, parse_number ("-" ++ t) = inl k /\ k mod 2 ^ 64 = (- n) mod 2 ^ 64) /\
  parse_number ("+" ++ t) = parse_number t.
Proof.
  intros t n H. split; [|split].
  - exists (s64 n). split; [apply P_CcSim.parse_number_unsigned; exact H|apply (P_CcMach.sgn_mod 64); lia].
  - exists (s64 (- n)). split; [apply parse_number_neg; exact H|apply (P_CcMach.sgn_mod 64); lia].
  - rewrite (P_CcSim.parse_number_unsigned t n H). unfold parse_number.
    replace (has_prefix "-" ("+" ++ t)) with false by (destruct t; reflexivity). replace (has_prefix "+" ("+" ++ t)) with true by (destruct t; reflexivity).
    change (drop 1 ("+" ++ t)) with t. rewrite H. reflexivity.
Qed.
Print Assumptions C14_minus_negates_modulo_2_64.
Example C14_demo : parse_unsigned "0xDEADbeef" = inl 3735928559 /\ parse_unsigned "0755" = inl 493 /\
  parse_number "-42" = inl (-42) /\ parse_unsigned "18446744073709551616" = inr ERange /\
  parse_unsigned "0x12g" = inr ESyntax /\ print64 16 3735928559 = "deadbeef" /\ parse_unsigned "08" = inr ESyntax.
Proof. vm_compute. auto 10. Qed.

(** ** C12.  Left: both operands constants, folded at compile time.  Right: the code emitted for the same operator
    with the operands in registers rl and rr (values modulo 2^64).  Holds for + - * & | ^ on all int64 operands, for
    / and % on non-negative operands, for << and >> with counts below 64 (>> of a non-negative value), and
    for comparisons of operands of equal sign (== and != always).  Missing: the refuted cases below. *)
Theorem C12_folded_arithmetic_partial : forall K s m ms op rl rr a b n ta tb,
  rl <> rr -> in64 a = true -> in64 b = true -> same_arith op a b = true ->
  bin_values K op s (VConst a ta) (VConst b tb) = ROk (VConst n None) s ->
  rg ms rl = wrap a -> rg ms rr = wrap b ->
  exists s' d ms', bin_values K op s (VMat rl None None) (VMat rr None None) = ROk (VMat rl None None) s' /\
    c_code s' = (c_code s ++ d)%list /\ exec m d 0 ms = FFall 0 ms' /\ rg ms' rl = wrap n.
Proof. exact fold_agrees. Qed.
Print Assumptions C12_folded_arithmetic_partial.
Theorem C12_folded_comparison_partial : forall K s m ms op rl rr a b n ta tb,
  rl <> rr -> in64 a = true -> in64 b = true -> same_cmp op a b = true ->
  cmp_values K op s (VConst a ta) (VConst b tb) = ROk (VConst n None) s ->
  rg ms rl = wrap a -> rg ms rr = wrap b ->
  exists s' d ms', cmp_values K op s (VMat rl None None) (VMat rr None None) = ROk (VMat rl None None) s' /\
    c_code s' = (c_code s ++ d)%list /\ exec m d 0 ms = FFall 0 ms' /\ rg ms' rl = n.
Proof. exact cmp_agrees. Qed.
Print Assumptions C12_folded_comparison_partial.

(** What is folded is int64 arithmetic, for every operator and every pair of operands: the exact result reduced into
    [-2^63, 2^63), division truncating; shifts by any non-negative count; division by zero is an error. *)
Theorem C12_folding_is_int64_arithmetic : forall K op s a b ta tb, in64 a = true -> in64 b = true ->
  match op, b with
  | (BDiv | BMod), 0 => bin_values K op s (VConst a ta) (VConst b tb) = RErr
  | _, _ => op <> BLsh /\ op <> BRsh \/ 0 <= b ->
      bin_values K op s (VConst a ta) (VConst b tb) = ROk (VConst (int64
      (match op with
       | BAdd => a + b | BSub => a - b | BMul => a * b | BDiv => Z.quot a b | BMod => Z.rem a b
       | BAnd => Z.land a b | BOr => Z.lor a b | BXor => Z.lxor a b
       | BLsh => a * 2 ^ b | BRsh => a / 2 ^ b
       end)) None) s
  end.
Proof. exact fold_int64. Qed.
Print Assumptions C12_folding_is_int64_arithmetic.
(** Both results on concrete operands, in registers R7 and R8 of an otherwise empty state. *)
Definition st0 : cst := {| c_regs := fun r => Nat.leb 7 r; c_code := []; c_lab := false |}.
Definition ms_of (a b : Z) : mst := {| rg := upd (upd (fun _ => 0) R7 (wrap a)) R8 (wrap b); stk := fun _ => 0; ker := fun _ => 0; ncall := 0 |}.
Definition folded (r : res value) : option Z := match r with ROk (VConst n _) _ => Some (wrap n) | _ => None end.
Definition executed (a b : Z) (r : res value) : option Z :=
  match r with ROk (VMat d _ _) s => match exec demo_m (c_code s) 0 (ms_of a b) with FFall O ms => Some (rg ms d) | _ => None end | _ => None end.
Definition both_bin op a b := (folded (bin_values (K MProbe) op st0 (VConst a None) (VConst b None)),
                               executed a b (bin_values (K MProbe) op st0 (VMat R7 None None) (VMat R8 None None))).
Definition both_cmp op a b := (folded (cmp_values (K MProbe) op st0 (VConst a None) (VConst b None)),
                               executed a b (cmp_values (K MProbe) op st0 (VMat R7 None None) (VMat R8 None None))).
Example C12_demo : both_bin BSub 3 5 = (Some (2 ^ 64 - 2), Some (2 ^ 64 - 2)) /\ both_bin BMul (-3) 7 = (Some (2 ^ 64 - 21), Some (2 ^ 64 - 21)) /\
  both_bin BDiv 17 5 = (Some 3, Some 3) /\ both_bin BRsh 256 4 = (Some 16, Some 16) /\ both_cmp CLe (-9) (-2) = (Some 1, Some 1).
Proof. vm_compute. auto 10. Qed.
(** Refuted: run-time division, remainder, right shift and ordering are unsigned, folding is signed; and a run-time
    shift count is taken modulo 64. *)
Theorem C12_folding_differs_refuted :
  both_bin BDiv (-6) 2 = (Some (2 ^ 64 - 3), Some (2 ^ 63 - 3)) /\
  both_bin BMod (-7) 10 = (Some (2 ^ 64 - 7), Some 9) /\
  both_bin BRsh (-2) 1 = (Some (2 ^ 64 - 1), Some (2 ^ 63 - 1)) /\
  both_bin BLsh 1 64 = (Some 0, Some 1) /\
  both_cmp CLt (-1) 0 = (Some 1, Some 0).
Proof. vm_compute. auto 10. Qed.
Print Assumptions C12_folding_differs_refuted.

(** ** C13.  Compilation panics ([inr tt]) only at a shift of two constants with a negative count. *)
Theorem C13_only_a_negative_constant_shift_panics : forall K e, compile_filter K e = inr tt ->
  exists op a b s sa sb na ta nb tb, subexpr (EBin op a b) e /\ (op = BLsh \/ op = BRsh) /\
    evaluate K a s = ROk (VConst na ta) sa /\ evaluate K b sa = ROk (VConst nb tb) sb /\ nb < 0.
Proof.
  intros K e H. destruct (compile_panic K e H) as (x & Hx & op & a & b & s & sa & sb & na & ta & nb & tb & -> & Hs & Ha & Hb & Hn).
  exists op, a, b, s, sa, sb, na, ta, nb, tb. split; [exact Hx|]. split; [destruct op; try discriminate; auto|]. auto.
Qed.
Print Assumptions C13_only_a_negative_constant_shift_panics.
(** Hence a program in which every shift count is a literal below 2^63 never panics. *)
Theorem C13_literal_shift_counts_never_panic_partial : forall K e,
  (forall op a b, subexpr (EBin op a b) e -> op = BLsh \/ op = BRsh -> plain_count b = true) ->
  compile_filter K e = inl None \/ exists p, compile_filter K e = inl (Some p).
Proof.
  intros K e H. assert (Hn : compile_filter K e <> inr tt).
  { apply no_panic. intros op a b Hx Hs. apply (H op a b Hx). destruct op; try discriminate; auto. }
  destruct (compile_filter K e) as [[p|]|[]]; [right; eauto|left; reflexivity|contradiction].
Qed.
Print Assumptions C13_literal_shift_counts_never_panic_partial.
Definition lshift_ok := ECmp CEq (EName "n") (EBin BLsh (ENum "1") (ENum "40")).
Example C13_hypothesis_met : forall op a b, subexpr (EBin op a b) lshift_ok -> op = BLsh \/ op = BRsh -> plain_count b = true.
Proof.
  unfold lshift_ok. intros op a b H _.
  repeat match goal with H : subexpr _ _ |- _ => inversion H; subst; clear H end; reflexivity.
Qed.
Example C13_demo : verdict MProbe lshift_ok = Some 1 \/ verdict MProbe lshift_ok = Some 0. Proof. vm_compute. auto. Qed.
(** Refuted: `n == 1 << -1` panics (Go: negative shift amount), in every mode. *)
Theorem C13_negative_constant_shift_panics_refuted : forall md,
  compile_filter (K md) (ECmp CEq (EName "n") (EBin BLsh (ENum "1") (EMinus (ENum "1")))) = inr tt /\
  compile_filter (K md) (ECmp CEq (EName "n") (EBin BRsh (ENum "1") (ENum "0x8000000000000000"))) = inr tt.
Proof. intros md; destruct md; vm_compute; auto. Qed.
Print Assumptions C13_negative_constant_shift_panics_refuted.
