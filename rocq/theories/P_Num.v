(** * Number literals and constant folding. *)
From Coq Require Import ZArith List Bool String Ascii Lia.
From Verif Require Import M_Ebpf P_Ebpf M_CcNum M_Cc S_Num P_CcMach P_CcNumr P_CcSim P_CcOps.
Import ListNotations.
Open Scope Z_scope.

Lemma digit_eq c : digit_val c = digit c.
Proof.
  unfold digit_val, digit, byte. set (n := Z.of_nat (nat_of_ascii c)).
  destruct ((48 <=? n) && (n <=? 57)); [reflexivity|].
  destruct ((97 <=? n) && (n <=? 122)); [f_equal; lia|].
  destruct ((65 <=? n) && (n <=? 90)); [f_equal; lia|reflexivity].
Qed.
Lemma digit_nonneg c d : digit c = Some d -> 0 <= d.
Proof.
  unfold digit. set (n := Z.of_nat (nat_of_ascii c)).
  destruct (Z.leb_spec 48 n), (Z.leb_spec n 57), (Z.leb_spec 97 n), (Z.leb_spec n 122), (Z.leb_spec 65 n), (Z.leb_spec n 90); cbn [andb]; intros H'; inversion H'; lia.
Qed.
Lemma numval_nonneg base l : 0 < base -> 0 <= numval base l.
Proof.
  intros Hb. induction l as [|c l IH]; cbn [numval]; [lia|]. assert (0 <= match digit c with Some d => d | None => 0 end).
  { destruct (digit c) eqn:H; [eapply digit_nonneg; eauto|lia]. }
  assert (0 < base ^ Z.of_nat (List.length l)) by (apply Z.pow_pos_nonneg; lia). nia.
Qed.
(** The digit loop computes the positional value, or reports the first problem. *)
Lemma parse_digits_ok base s : 1 < base -> forall acc, 0 <= acc < M64 ->
  forallb (is_digit base) (chars s) = true ->
  parse_digits base acc s = (let v := acc * base ^ Z.of_nat (List.length (chars s)) + numval base (chars s) in
                             if v <? M64 then inl v else inr ERange).
Proof.
  intros Hb. induction s as [|c s IH]; intros acc Ha Hd; cbn [parse_digits chars List.length numval].
  - cbv zeta. rewrite Z.mul_1_r, Z.add_0_r. destruct (Z.ltb_spec acc M64); [reflexivity|lia].
  - cbn [chars forallb] in Hd. apply andb_prop in Hd as [Hc Hd]. unfold is_digit in Hc. rewrite digit_eq.
    destruct (digit c) as [d|] eqn:Hdc; [|discriminate]. apply Z.ltb_lt in Hc. pose proof (digit_nonneg _ _ Hdc).
    destruct (Z.leb_spec base d); [lia|]. cbv zeta.
    rewrite Nat2Z.inj_succ, Z.pow_succ_r by lia. set (B := base ^ Z.of_nat (List.length (chars s))).
    assert (HB : 0 < B) by (apply Z.pow_pos_nonneg; lia). pose proof (numval_nonneg base (chars s) ltac:(lia)) as Hv.
    destruct (Z.leb_spec M64 (acc * base + d)).
    + destruct (Z.ltb_spec (acc * (base * B) + (d * B + numval base (chars s))) M64); [|reflexivity]. nia.
    + rewrite IH; [|nia|exact Hd]. cbv zeta. fold B.
      replace ((acc * base + d) * B + numval base (chars s)) with (acc * (base * B) + (d * B + numval base (chars s))) by ring. reflexivity.
Qed.
Lemma parse_digits_bad base s : forall acc, forallb (is_digit base) (chars s) = false -> exists e, parse_digits base acc s = inr e.
Proof.
  induction s as [|c s IH]; intros acc H; cbn [chars forallb] in H; [discriminate|]. cbn [parse_digits]. rewrite digit_eq.
  unfold is_digit in H. destruct (digit c) as [d|]; [|eauto]. destruct (Z.leb_spec base d); [eauto|].
  destruct (Z.ltb_spec d base); [|lia]. cbn [andb] in H. destruct (M64 <=? acc * base + d); eauto.
Qed.
Lemma parse_uint_ok base s : 1 < base -> numeral base s = true ->
  parse_uint base s = if numval base (chars s) <? M64 then inl (numval base (chars s)) else inr ERange.
Proof.
  intros Hb H. apply andb_prop in H as [H1 H2]. unfold parse_uint. destruct s as [|c s]; [discriminate|].
  rewrite parse_digits_ok; [|lia|unfold M64; lia|exact H2]. cbv zeta. rewrite Z.mul_0_l, Z.add_0_l. reflexivity.
Qed.
Lemma parse_uint_bad base s : numeral base s = false -> exists e, parse_uint base s = inr e.
Proof.
  unfold numeral, parse_uint. destruct s as [|c s]; [eauto|]. intros H. apply parse_digits_bad. exact H.
Qed.

(** Decimal notation as parse_unsigned sees it: no leading zero (except "0" itself). *)
Definition dec_start (s : string) : bool :=
  match s with String c EmptyString => true | String c _ => negb (Ascii.eqb c "0"%char) | EmptyString => false end.
Lemma not_digit_quote : digit quote = None. Proof. reflexivity. Qed.
Lemma parse_dec s : numeral 10 s = true -> dec_start s = true -> parse_unsigned s = parse_uint 10 s.
Proof.
  intros H Hs. unfold parse_unsigned. destruct s as [|c s]; [discriminate|].
  apply andb_prop in H as [_ H]. cbn [chars forallb] in H. apply andb_prop in H as [Hc H].
  assert (Hq : Ascii.eqb c quote = false). { apply Ascii.eqb_neq. intros ->. discriminate. }
  assert (Hp : forall x, has_prefix (String "0" (String x "")) (String c s) = false).
  { intros x. cbn [has_prefix]. destruct s as [|c2 s]; [apply andb_false_r|].
    cbn [dec_start] in Hs. destruct (Ascii.eqb_spec "0" c) as [<-|]; [discriminate|reflexivity]. }
  rewrite !Hp. assert (H0 : has_prefix "0" (String c s) && Nat.ltb 1 (String.length (String c s)) = false).
  { destruct s as [|c2 s]; [apply andb_false_r|]. cbn [has_prefix dec_start] in *.
    destruct (Ascii.eqb_spec "0" c) as [<-|]; [discriminate|reflexivity]. }
  rewrite H0. rewrite Hq. destruct s as [|a [|b [|? ?]]]; reflexivity.
Qed.
Lemma drop_2 a b s : drop 2 (String a (String b s)) = s. Proof. reflexivity. Qed.
Lemma parse_hex s : parse_unsigned ("0x" ++ s) = parse_uint 16 s. Proof. reflexivity. Qed.
Lemma parse_oct s : parse_unsigned ("0o" ++ s) = parse_uint 8 s. Proof. reflexivity. Qed.
Lemma parse_bin s : parse_unsigned ("0b" ++ s) = parse_uint 2 s. Proof. reflexivity. Qed.
Lemma parse_oct0 s : numeral 8 s = true -> parse_unsigned ("0" ++ s) = parse_uint 8 s.
Proof.
  intros H. apply andb_prop in H as [H1 H2]. destruct s as [|c s]; [discriminate|].
  cbn [chars forallb] in H2. apply andb_prop in H2 as [Hc _].
  assert (Hn : forall x, digit x = None \/ (exists d, digit x = Some d /\ 8 <= d) -> Ascii.eqb x c = false).
  { intros x Hx. apply Ascii.eqb_neq. intros ->. unfold is_digit in Hc. destruct Hx as [Hx|(d & Hx & Hd)]; rewrite Hx in Hc; [discriminate|].
    apply Z.ltb_lt in Hc. lia. }
  assert (Hx : has_prefix "0x" ("0" ++ String c s) = false).
  { change (Ascii.eqb "x" c && true = false). rewrite (Hn "x"%char) by (right; exists 33; split; [reflexivity|lia]). reflexivity. }
  assert (Ho : has_prefix "0o" ("0" ++ String c s) = false).
  { change (Ascii.eqb "o" c && true = false). rewrite (Hn "o"%char) by (right; exists 24; split; [reflexivity|lia]). reflexivity. }
  assert (Hbb : has_prefix "0b" ("0" ++ String c s) = false).
  { change (Ascii.eqb "b" c && true = false). rewrite (Hn "b"%char) by (right; exists 11; split; [reflexivity|lia]). reflexivity. }
  unfold parse_unsigned. rewrite Hx, Ho, Hbb. reflexivity.
Qed.

(** The printer prints a numeral of the number. *)
Lemma digit_char_ok (base d : Z) : 0 <= d < base -> base <= 36 -> digit (digit_char d) = Some d.
Proof.
  intros Hd Hb. unfold digit, digit_char.
  assert (Hlt : (Z.to_nat (if d <? 10 then 48 + d else 87 + d)%Z < 256)%nat) by (destruct (Z.ltb_spec d 10); lia).
  rewrite nat_ascii_embedding by exact Hlt. rewrite Z2Nat.id by (destruct (Z.ltb_spec d 10); lia).
  destruct (Z.ltb_spec d 10).
  - destruct (Z.leb_spec 48 (48 + d)), (Z.leb_spec (48 + d) 57); try lia. cbn [andb]. f_equal. lia.
  - destruct (Z.leb_spec 48 (87 + d)), (Z.leb_spec (87 + d) 57); try lia; cbn [andb].
    destruct (Z.leb_spec 97 (87 + d)), (Z.leb_spec (87 + d) 122); try lia. cbn [andb]. f_equal. lia.
Qed.
Lemma print_ok base : 2 <= base <= 36 -> forall fuel n acc, 0 <= n < 2 ^ Z.of_nat fuel -> forallb (is_digit base) (chars acc) = true ->
  (0 < fuel)%nat ->
  forallb (is_digit base) (chars (print fuel base n acc)) = true /\ print fuel base n acc <> ""%string /\
  numval base (chars (print fuel base n acc)) = n * base ^ Z.of_nat (List.length (chars acc)) + numval base (chars acc).
Proof.
  intros Hb. induction fuel as [|k IH]; intros n acc Hn Hacc Hf; [lia|]. cbn [print].
  pose proof (Z.mod_pos_bound n base ltac:(lia)) as Hm.
  assert (Hd := digit_char_ok base (n mod base) Hm ltac:(lia)).
  assert (Hd2 : is_digit base (digit_char (n mod base)) = true) by (unfold is_digit; rewrite Hd; apply Z.ltb_lt; lia).
  assert (Hacc' : forallb (is_digit base) (chars (String (digit_char (n mod base)) acc)) = true) by (cbn [chars forallb]; rewrite Hd2, Hacc; reflexivity).
  assert (Hval : numval base (chars (String (digit_char (n mod base)) acc)) = (n mod base) * base ^ Z.of_nat (List.length (chars acc)) + numval base (chars acc)).
  { cbn [chars numval]. rewrite Hd. reflexivity. }
  destruct (Z.ltb_spec n base).
  - split; [exact Hacc'|]. split; [discriminate|]. rewrite Hval, Z.mod_small by lia. reflexivity.
  - assert (Hk : (0 < k)%nat). { destruct k; [|lia]. change (2 ^ Z.of_nat 1) with 2 in Hn. lia. }
    assert (Hq : 0 <= n / base < 2 ^ Z.of_nat k).
    { split; [apply Z.div_pos; lia|]. apply Z.div_lt_upper_bound; [lia|]. rewrite Nat2Z.inj_succ, Z.pow_succ_r in Hn by lia.
      assert (0 < 2 ^ Z.of_nat k) by (apply Z.pow_pos_nonneg; lia). nia. }
    destruct (IH (n / base) (String (digit_char (n mod base)) acc) Hq Hacc' Hk) as (A & B & C).
    split; [exact A|]. split; [exact B|]. rewrite C, Hval. cbn [chars List.length]. rewrite Nat2Z.inj_succ, Z.pow_succ_r by lia.
    rewrite (Z.div_mod n base) at 3 by lia. ring.
Qed.
Lemma print64_ok base n : 2 <= base <= 36 -> 0 <= n < 2 ^ 64 -> numeral base (print64 base n) = true /\ numval base (chars (print64 base n)) = n.
Proof.
  intros Hb Hn. destruct (print_ok base Hb 64 n "" Hn eq_refl ltac:(lia)) as (A & B & C).
  split; [|unfold print64; rewrite C; cbn; lia]. unfold numeral. unfold print64. rewrite A, andb_true_r.
  destruct (String.eqb_spec (print 64 base n "") ""); [contradiction|reflexivity].
Qed.
Lemma print_dec_start fuel : forall n acc, 0 <= n < 2 ^ Z.of_nat fuel -> (0 < fuel)%nat -> (n <> 0 \/ acc = ""%string) -> dec_start (print fuel 10 n acc) = true.
Proof.
  induction fuel as [|k IH]; intros n acc Hn Hf Hz; [lia|]. cbn [print]. destruct (Z.ltb_spec n 10).
  - destruct Hz as [Hz|Hz]; [|rewrite Hz; reflexivity]. cbn [dec_start]. destruct acc; [reflexivity|].
    apply negb_true_iff, Ascii.eqb_neq. intros He. assert (digit (digit_char (n mod 10)) = Some 0) by (rewrite He; reflexivity).
    pose proof (Z.mod_pos_bound n 10 ltac:(lia)) as Hmb.
    rewrite (digit_char_ok 10) in H0 by lia. rewrite Z.mod_small in H0 by lia. destruct Hz. congruence.
  - assert (Hk : (0 < k)%nat). { destruct k; [|lia]. change (2 ^ Z.of_nat 1) with 2 in Hn. lia. }
    apply IH; [|exact Hk|left].
    + split; [apply Z.div_pos; lia|]. apply Z.div_lt_upper_bound; [lia|]. rewrite Nat2Z.inj_succ, Z.pow_succ_r in Hn by lia. lia.
    + assert (1 <= n / 10) by (apply Z.div_le_lower_bound; lia). lia.
Qed.

Lemma s64_neg n : s64 (- s64 n) = s64 (- n).
Proof.
  unfold s64 at 1 3, sgn. assert (H : (- s64 n) mod 2 ^ 64 = (- n) mod 2 ^ 64); [|rewrite H; reflexivity].
  rewrite <- (Z.sub_0_l (s64 n)), <- (Z.sub_0_l n).
  rewrite <- Zminus_mod_idemp_r. unfold s64. rewrite sgn_mod by lia. rewrite Zminus_mod_idemp_r. reflexivity.
Qed.
Lemma parse_number_neg t n : parse_unsigned t = inl n -> parse_number ("-" ++ t) = inl (s64 (- n)).
Proof.
  intros H.
  assert (Hp : has_prefix "+" t = false).
  { destruct t as [|c t]; [reflexivity|]. cbn [has_prefix]. destruct (Ascii.eqb_spec "+" c) as [<-|]; [|reflexivity].
    exfalso. eapply (parse_unsigned_sign "+" t n); [right; reflexivity|exact H]. }
  assert (Hm : has_prefix "-" ("-" ++ t) = true) by (destruct t; reflexivity).
  assert (Hd : drop 1 ("-" ++ t) = t) by reflexivity.
  unfold parse_number. rewrite Hm, Hd, Hp, H. f_equal. apply s64_neg.
Qed.
(** Decimal and leading-zero octal with a bad digit. *)
Lemma parse_dec_bad c s : numeral 10 (String c s) = false -> c <> "0"%char -> c <> quote -> exists e, parse_unsigned (String c s) = inr e.
Proof.
  intros H H0 Hq.
  assert (Hp : forall x, has_prefix (String "0" x) (String c s) = false).
  { intros x. cbn [has_prefix]. destruct (Ascii.eqb_spec "0" c) as [<-|]; [contradiction|reflexivity]. }
  unfold parse_unsigned. rewrite !Hp. cbn [andb]. apply Ascii.eqb_neq in Hq. rewrite Hq.
  destruct (parse_uint_bad 10 (String c s) H) as [e He]. exists e. destruct s as [|a [|b [|? ?]]]; exact He.
Qed.
Lemma parse_oct0_bad c s : numeral 8 (String c s) = false -> c <> "x"%char -> c <> "o"%char -> c <> "b"%char ->
  exists e, parse_unsigned (String "0" (String c s)) = inr e.
Proof.
  intros H Hx Ho Hb. apply not_eq_sym in Hx, Ho, Hb. apply Ascii.eqb_neq in Hx, Ho, Hb.
  assert (A : has_prefix "0x" (String "0" (String c s)) = false) by (change (Ascii.eqb "x" c && true = false); rewrite Hx; reflexivity).
  assert (B : has_prefix "0o" (String "0" (String c s)) = false) by (change (Ascii.eqb "o" c && true = false); rewrite Ho; reflexivity).
  assert (C : has_prefix "0b" (String "0" (String c s)) = false) by (change (Ascii.eqb "b" c && true = false); rewrite Hb; reflexivity).
  unfold parse_unsigned. rewrite A, B, C. change (exists e, parse_uint 8 (String c s) = inr e). apply parse_uint_bad. exact H.
Qed.
