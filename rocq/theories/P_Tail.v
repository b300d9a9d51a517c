(** * Proofs for C88. *)
From Coq Require Import List Bool ZArith Lia Arith.
From Verif Require Import M_Go P_Go M_Bytes M_Disasm S_Disasm P_Disasm M_Tail S_Tail.
Import ListNotations.
Open Scope list_scope.
Open Scope Z_scope.

Lemma saves_nil : ~ saves_rax [].
Proof. intros (l1 & a & l2 & E & _). destruct l1; discriminate. Qed.
Lemma saves_push a l : saves_rax ((a, [80]) :: l).
Proof. exists [], a, l. split; [reflexivity|intros []]. Qed.
Lemma saves_ret a l : ~ saves_rax ((a, [195]) :: l).
Proof. intros (l1 & a' & l2 & E & H). destruct l1 as [|i l1]; [discriminate|]. injection E as <- _. apply H. left. reflexivity. Qed.
Lemma saves_other a x l : x <> [80] -> x <> [195] -> saves_rax ((a, x) :: l) <-> saves_rax l.
Proof.
  intros H1 H2. split.
  - intros (l1 & a' & l2 & E & H). destruct l1 as [|i l1]; [injection E as _ E' _; contradiction|]. injection E as _ E'. exists l1, a', l2. split; [exact E'|].
    intros F. apply H. right. exact F.
  - intros (l1 & a' & l2 & E & H). exists ((a, x) :: l1), a', l2. split; [rewrite E; reflexivity|]. intros [F|F]; [contradiction|exact (H F)].
Qed.

Section Scan.
  Variable dec : list Z -> Z -> option nat.
  Hypothesis Hdec : sound_decoder dec.
  Lemma scan_ok n : forall b pc l, (List.length b < n)%nat -> 0 <= pc -> pc + Z.of_nat (List.length b) < 2 ^ 64 -> Decoded dec b pc l ->
    (scan dec n b pc = POk true <-> saves_rax l) /\ (scan dec n b pc = PErr <-> ~ saves_rax l /\ ~ returns l /\ (10 < undecoded b l)%nat) /\ scan dec n b pc <> PPanic.
  Proof.
    induction n as [|n IH]; intros b pc l Hl H0 H1 D; [lia|]. cbn [scan]. destruct D as [b pc E|b pc sz l Hb E D].
    - destruct b as [|b0 b]; [split; [|split; [|discriminate]]|].
      + split; [discriminate|intros F; destruct (saves_nil F)].
      + split; [discriminate|]. intros (_ & _ & F). cbn in F. lia.
      + destruct E as [E|E]; [discriminate|]. rewrite E. destruct (Nat.leb_spec (List.length (b0 :: b)) 10) as [L|L].
        * split; [|split; [|discriminate]]; (split; [discriminate|]); [intros F; destruct (saves_nil F)|]. intros (_ & _ & F). unfold undecoded in F. cbn [map fold_right] in F. lia.
        * split; [|split; [|discriminate]]; (split; [|]); try discriminate; [intros F; destruct (saves_nil F)|intros _|reflexivity].
          split; [exact saves_nil|split; [intros []|]]. unfold undecoded. cbn [map fold_right]. lia.
    - destruct b as [|b0 b]; [contradiction|]. rewrite E. destruct (Hdec _ _ _ E) as [S1 S2].
      assert (Hrest : (List.length (skipn sz (b0 :: b)) < n)%nat) by (rewrite skipn_length; lia).
      assert (Hlen : Z.of_nat (List.length (skipn sz (b0 :: b))) = Z.of_nat (List.length (b0 :: b)) - Z.of_nat sz) by (rewrite skipn_length; lia).
      assert (Hpc : u64 (pc + Z.of_nat sz) = pc + Z.of_nat sz) by (unfold u64; apply Z.mod_small; change W64 with (2 ^ 64); lia).
      specialize (IH (skipn sz (b0 :: b)) (pc + Z.of_nat sz) l Hrest ltac:(lia) ltac:(lia) D). rewrite <- Hpc in IH at 1. rewrite <- Hpc in IH at 2.
      assert (Hund : undecoded (b0 :: b) ((pc, firstn sz (b0 :: b)) :: l) = undecoded (skipn sz (b0 :: b)) l).
      { unfold undecoded. cbn [map fold_right snd]. rewrite skipn_length, firstn_length, Nat.min_l by lia. lia. }
      rewrite Hund. set (x := firstn sz (b0 :: b)) in *.
      assert (G : x <> [80] -> x <> [195] -> (scan dec n (skipn sz (b0 :: b)) (u64 (pc + Z.of_nat sz)) = POk true <-> saves_rax ((pc, x) :: l)) /\
        (scan dec n (skipn sz (b0 :: b)) (u64 (pc + Z.of_nat sz)) = PErr <-> ~ saves_rax ((pc, x) :: l) /\ ~ returns ((pc, x) :: l) /\ (10 < undecoded (skipn sz (b0 :: b)) l)%nat) /\
        scan dec n (skipn sz (b0 :: b)) (u64 (pc + Z.of_nat sz)) <> PPanic).
      { intros N1 N2. rewrite Hpc in *. destruct IH as (I1 & I2 & I3). rewrite (saves_other pc x l N1 N2). split; [exact I1|split; [|exact I3]].
        rewrite I2. unfold returns. cbn [map snd In]. intuition congruence. }
      clearbody x. destruct x as [|y [|z x]].
      + apply G; discriminate.
      + destruct (Z.eqb_spec y 80) as [->|N1].
        { split; [|split; [|discriminate]]; (split; [|]); try discriminate; try reflexivity; [intros _; apply saves_push|].
          intros (F & _). destruct F. apply saves_push. }
        destruct (Z.eqb_spec y 195) as [->|N2].
        { split; [|split; [|discriminate]]; (split; [|]); try discriminate; [intros F; destruct (saves_ret _ _ F)|]. intros (_ & F & _). destruct F. left. reflexivity. }
        apply G; congruence.
      + apply G; discriminate.
  Qed.

  Lemma bytes4_byte d : Forall is_byte (bytes4 d).
  Proof.
    pose proof (Z.mod_pos_bound d (2 ^ 32) ltac:(lia)) as B. unfold bytes4. set (u := d mod 2 ^ 32) in *.
    repeat constructor; try (apply Z.mod_pos_bound; lia); [apply Z.div_pos; lia|]. apply Z.div_lt_upper_bound; [lia|]. change (16777216 * 256) with (2 ^ 32). apply B.
  Qed.
  Lemma le_bytes4 d : le_bytes (bytes4 d) = d mod 2 ^ 32.
  Proof.
    pose proof (Z.mod_pos_bound d (2 ^ 32) ltac:(lia)) as B. unfold bytes4. set (u := d mod 2 ^ 32) in *. cbn [le_bytes].
    pose proof (Z.div_mod u 256 ltac:(lia)). pose proof (Z.div_mod (u / 256) 256 ltac:(lia)). pose proof (Z.div_mod (u / 65536) 256 ltac:(lia)).
    rewrite (Z.div_div u 256 256) in H0 by lia. change (256 * 256) with 65536 in H0. rewrite (Z.div_div u 65536 256) in H1 by lia. change (65536 * 256) with 16777216 in H1. lia.
  Qed.
  (** the first byte of an endbr *)
  Lemma not_endbr op x y z : op = 232 \/ op = 233 -> is_byte x -> is_byte y -> is_byte z -> is_endbr_insn (le_bytes [op; x; y; z]) = false.
  Proof.
    intros Ho Hx Hy Hz. unfold is_byte in *. unfold is_endbr_insn. cbn [le_bytes]. set (v := op + 256 * (x + 256 * (y + 256 * (z + 256 * 0)))).
    assert (Hm : v mod 256 = op) by (unfold v; rewrite Z.mul_comm, Z_mod_plus_full; apply Z.mod_small; lia).
    destruct (Z.eqb_spec v endbr_poison) as [E|_]; [rewrite E in Hm; vm_compute in Hm; lia|].
    apply Z.eqb_neq. intros F. assert (X : Z.land (Z.land v (4294967295 - 16777216)) 255 = Z.land endbr64 255) by (rewrite F; reflexivity).
    rewrite <- Z.land_assoc in X. change (Z.land (4294967295 - 16777216) 255) with (Z.ones 8) in X. rewrite Z.land_ones in X by lia. change (2 ^ 8) with 256 in X. rewrite Hm in X.
    vm_compute in X. lia.
  Qed.

  Lemma probe_pro old e op d rest ksym : op = 232 \/ op = 233 -> (5 <= List.length rest)%nat -> 0 <= ksym -> ksym + 16 < 2 ^ 64 ->
    past_endbr ksym (prologue e op d ++ rest) = Some (ksym + (if e then 4 else 0), prologue false op d ++ rest) /\
    is_tailcall_reachable (prologue false op d ++ rest) = Some true /\
    tramp_addr (ksym + (if e then 4 else 0)) (prologue false op d ++ rest) = Some (u64 (goes_to e ksym (d mod 2 ^ 32))) /\
    jmp_mode old (prologue false op d ++ rest) = Some (op =? 233).
  Proof.
    intros Ho Hr H0 H1. pose proof (bytes4_byte d) as HB. pose proof (le_bytes4 d) as HL. unfold prologue at 2 3 4 5. cbn [app].
    unfold prologue. destruct (bytes4 d) as [|w0 [|w1 [|w2 [|w3 [|]]]]] eqn:Eb; try discriminate Eb. clear Eb.
    inversion HB as [|? ? B0 HB1]; subst. inversion HB1 as [|? ? B1 HB2]; subst. inversion HB2 as [|? ? B2 HB3]; subst. inversion HB3 as [|? ? B3 _]; subst.
    pose proof (not_endbr op w0 w1 w2 Ho B0 B1 B2) as Ne.
    split; [|split; [|split]].
    - destruct e; unfold past_endbr, slice; cbn [app endbr_bytes List.length Nat.leb andb firstn skipn Nat.sub].
      + replace (is_endbr_insn (le_bytes [243; 15; 30; 250])) with true by reflexivity. unfold u64. rewrite Z.mod_small by (change W64 with (2 ^ 64); lia). reflexivity.
      + rewrite Ne. rewrite Z.add_0_r. reflexivity.
    - unfold is_tailcall_reachable. cbn [app List.length]. assert (E : (S (S (S (S (S (S (S (List.length rest))))))) <? 12)%nat = false) by (apply Nat.ltb_ge; lia).
      rewrite E. cbn [Nat.eqb orb]. unfold slice at 1. cbn [List.length Nat.leb andb firstn skipn Nat.sub]. rewrite Ne. unfold slice. cbn [List.length Nat.leb andb firstn skipn Nat.sub Nat.add eq_bytes].
      rewrite !Z.eqb_refl. reflexivity.
    - unfold tramp_addr, slice. cbn [app List.length Nat.leb andb firstn skipn Nat.sub]. rewrite HL. unfold goes_to. reflexivity.
    - unfold jmp_mode. cbn [app List.length]. assert (E : (S (S (S (S (S (S (S (List.length rest))))))) <? 9)%nat = false) by (apply Nat.ltb_ge; lia).
      rewrite E. unfold slice. cbn [List.length Nat.leb andb firstn skipn Nat.sub]. rewrite Ne. reflexivity.
  Qed.
  Lemma probe_at m buff e op d rest ksym : op = 232 \/ op = 233 -> (5 <= List.length rest)%nat -> 0 <= ksym -> ksym + 16 < 2 ^ 64 ->
    probe dec m buff ksym (prologue e op d ++ rest) =
    match fst (read_kernel m buff (u64 (goes_to e ksym (d mod 2 ^ 32))) 512) with
    | None | Some [] => PErr
    | Some data => scan dec (S (List.length data)) data (u64 (goes_to e ksym (d mod 2 ^ 32)))
    end.
  Proof.
    intros Ho Hr H0 H1. destruct (probe_pro true e op d rest ksym Ho Hr H0 H1) as (A & B & C & _). unfold probe.
    destruct (prologue e op d ++ rest) eqn:E; [destruct e; discriminate|]. rewrite A, B, C. reflexivity.
  Qed.
  Lemma probe_ok m buff e op d rest ksym data l : op = 232 \/ op = 233 -> (5 <= List.length rest)%nat -> 0 <= ksym -> 0 <= d < 2 ^ 31 -> goes_to e ksym d + 512 < 2 ^ 64 ->
    List.length data = 512%nat -> S_Disasm.holds m (goes_to e ksym d) data -> Decoded dec data (goes_to e ksym d) l ->
    (probe dec m buff ksym (prologue e op d ++ rest) = POk true <-> saves_rax l) /\
    (probe dec m buff ksym (prologue e op d ++ rest) = PErr <-> ~ saves_rax l /\ ~ returns l /\ (10 < undecoded data l)%nat) /\
    probe dec m buff ksym (prologue e op d ++ rest) <> PPanic.
  Proof.
    intros Ho Hr H0 Hd H1 HL HH D. assert (Hg : goes_to e ksym d = ksym + (if e then 4 else 0) + 5 + d) by reflexivity.
    rewrite probe_at by (try assumption; destruct e; lia). rewrite Z.mod_small by lia. assert (Hu : u64 (goes_to e ksym d) = goes_to e ksym d).
    { unfold u64. apply Z.mod_small. change W64 with (2 ^ 64). destruct e; lia. }
    rewrite Hu. assert (Hrd : readable m (goes_to e ksym d) (round8 512)).
    { intros i Hi. change (round8 512) with 512 in Hi. specialize (HH (Z.to_nat i) ltac:(lia)). rewrite Z2Nat.id in HH by lia. rewrite HH. discriminate. }
    destruct (read_ok m buff (goes_to e ksym d) 512 ltac:(lia) Hrd) as (data' & E & L' & Hh'). rewrite E.
    assert (data' = data) as ->.
    { apply nth_ext with 0 0; [rewrite HL; lia|]. intros i Hi. specialize (Hh' i Hi). specialize (HH i ltac:(lia)). congruence. }
    destruct data as [|x dt] eqn:Ed; [discriminate HL|]. rewrite <- Ed in *. apply scan_ok; [lia|destruct e; lia|lia|exact D].
  Qed.
  Lemma scan_zeros n : forall k pc, (forall j a, dec (repeat 0 (S (S j))) a = Some 2%nat) -> (k < n)%nat -> scan dec n (repeat 0 (2 * k)) pc = POk false.
  Proof.
    induction n as [|n IH]; intros k pc H L; [lia|]. destruct k as [|k]; [reflexivity|]. replace (2 * S k)%nat with (S (S (2 * k))) by lia.
    cbn [scan]. change (0 :: repeat 0 (S (2 * k))) with (repeat 0 (S (S (2 * k)))). rewrite H. cbn [repeat firstn skipn]. apply IH; [exact H|lia].
  Qed.
  Lemma probe_back m buff e op d rest ksym i : op = 232 \/ op = 233 -> (5 <= List.length rest)%nat -> 0 <= ksym -> ksym + 16 < 2 ^ 64 -> - 2 ^ 31 <= d < 0 ->
    (forall j a, dec (repeat 0 (S (S j))) a = Some 2%nat) -> 0 <= i < 512 -> m ((goes_to e ksym d + 2 ^ 32) mod 2 ^ 64 + i) = None ->
    probe dec m buff ksym (prologue e op d ++ rest) = POk false.
  Proof.
    intros Ho Hr H0 H1 Hd Hz Hi Hm. rewrite probe_at by assumption.
    assert (E : d mod 2 ^ 32 = d + 2 ^ 32) by (symmetry; apply (Z.mod_unique d (2 ^ 32) (-1)); lia). rewrite E.
    assert (Eg : u64 (goes_to e ksym (d + 2 ^ 32)) = (goes_to e ksym d + 2 ^ 32) mod 2 ^ 64) by (unfold u64, goes_to; change W64 with (2 ^ 64); f_equal; lia).
    rewrite Eg. rewrite (read_zeros m buff _ 512 i ltac:(lia) ltac:(change (round8 512) with 512; lia) Hm).
    change (Z.to_nat 512) with 512%nat. change (repeat 0 512) with (0 :: repeat 0 511). cbv iota.
    change (0 :: repeat 0 511) with (repeat 0 (2 * 256)). apply scan_zeros; [exact Hz|]. rewrite repeat_length. lia.
  Qed.
End Scan.
Lemma scan_has dec : forall n b pc, scan dec n b pc = POk true -> In 80 b.
Proof.
  induction n as [|n IH]; intros b pc H; [discriminate|]. cbn [scan] in H. destruct b as [|y b]; [discriminate|].
  destruct (dec (y :: b) pc) as [sz|]; [|destruct (List.length (y :: b) <=? 10)%nat; discriminate].
  assert (X : forall pc', scan dec n (skipn sz (y :: b)) pc' = POk true -> In 80 (y :: b)).
  { intros pc' E. apply IH in E. rewrite <- (firstn_skipn sz (y :: b)). apply in_or_app. right. exact E. }
  destruct (firstn sz (y :: b)) as [|x [|? ?]] eqn:E; [exact (X _ H)| |exact (X _ H)].
  destruct (Z.eqb_spec x 80) as [->|]; [|destruct (x =? 195); [discriminate|exact (X _ H)]].
  rewrite <- (firstn_skipn sz (y :: b)), E. left. reflexivity.
Qed.
Lemma probe_true dec m buff ksym code : probe dec m buff ksym code = POk true ->
  exists kaddr jinsns t data, past_endbr ksym code = Some (kaddr, jinsns) /\ is_tailcall_reachable jinsns = Some true /\ tramp_addr kaddr jinsns = Some t /\
    fst (read_kernel m buff t 512) = Some data /\ In 80 data.
Proof.
  intros H. unfold probe in H. destruct code as [|c code]; [discriminate|]. destruct (past_endbr ksym (c :: code)) as [[kaddr jinsns]|]; [|discriminate].
  destruct (is_tailcall_reachable jinsns) as [[|]|] eqn:E; try discriminate. destruct (tramp_addr kaddr jinsns) as [t|] eqn:T; [|discriminate].
  destruct (fst (read_kernel m buff t 512)) as [[|x d]|] eqn:R; try discriminate. apply scan_has in H.
  exists kaddr, jinsns, t, (x :: d). auto.
Qed.
