(** * Argument capture: the injected code and the decoder agree. *)
From Coq Require Import ZArith List Bool Lia.
From Verif Require Import M_Go M_Ebpf M_Bytes M_FnArgs S_FnArgs P_Go P_Ebpf P_Bytes P_CcMach P_CcReg.
Import ListNotations.
Open Scope Z_scope.

(** bytes from address a on *)
Fixpoint bl (f : Z -> Z) (a : Z) (n : nat) : list Z := match n with O => [] | S k => f a mod 256 :: bl f (a + 1) k end.
Lemma bl_length f a n : List.length (bl f a n) = n.
Proof. revert a; induction n; intros a; cbn; [reflexivity|f_equal; apply IHn]. Qed.
Lemma bl_app f a n k : bl f a (n + k) = bl f a n ++ bl f (a + Z.of_nat n) k.
Proof.
  revert a; induction n as [|n IH]; intros a; [cbn [Nat.add bl app]; f_equal; lia|].
  cbn [Nat.add bl app]. rewrite IH. do 3 f_equal. lia.
Qed.
Lemma bl_ext f g a n : (forall x, a <= x < a + Z.of_nat n -> f x mod 256 = g x mod 256) -> bl f a n = bl g a n.
Proof.
  revert a; induction n as [|n IH]; intros a H; cbn [bl]; [reflexivity|]. f_equal; [apply H; lia|]. apply IH. intros x Hx. apply H. lia.
Qed.
Lemma le_bl f a n : le f a n = M_Go.le_bytes (bl f a n).
Proof. revert a; induction n as [|n IH]; intros a; cbn [le bl M_Go.le_bytes]; [reflexivity|]. rewrite IH. reflexivity. Qed.
Lemma bl_map f a n : bl f a n = map (fun i => f (a + Z.of_nat i) mod 256) (seq 0 n).
Proof.
  assert (H : forall k, bl f (a + Z.of_nat k) n = map (fun i => f (a + Z.of_nat i) mod 256) (seq k n)).
  { induction n as [|n IH]; intros k; cbn [bl seq map]; [reflexivity|]. f_equal. rewrite <- IH. f_equal. lia. }
  rewrite <- H. f_equal. cbn. lia.
Qed.
Lemma record_bl s buf size : record s buf size = bl (ker s) buf (Z.to_nat size).
Proof. symmetry. apply bl_map. Qed.

Lemma bytes_spec m s a n : bytes (mem_of m s) a n = if all_mapped m a n then Some (bl (kb s) a n) else None.
Proof.
  revert a; induction n as [|n IH]; intros a; cbn [bytes all_mapped bl]; [reflexivity|].
  rewrite IH. unfold mem_of, kb, wrap. change M64 with (2 ^ 64). destruct (mapped m (a mod 2 ^ 64)); cbn [andb]; [|reflexivity].
  destruct (all_mapped m (a + 1) n); reflexivity.
Qed.
Lemma num_at_kread m s a : num_at (mem_of m s) a = kread m s a 8.
Proof. unfold num_at, kread. rewrite bytes_spec. destruct (all_mapped m a 8); [|reflexivity]. symmetry. apply le_bl. Qed.
Lemma num_at_range m s a : 0 <= num_at (mem_of m s) a < M64.
Proof.
  rewrite num_at_kread. unfold kread. destruct (all_mapped m a 8); [|unfold M64; lia].
  pose proof (le_range (kb s) a 8) as H. change (256 ^ Z.of_nat 8) with M64 in H. exact H.
Qed.
Lemma bytes_frame m s s0 buf size a n : apart buf size a n -> (forall x, ~ (buf <= x < buf + size) -> ker s x = ker s0 x) ->
  bytes (mem_of m s) a n = bytes (mem_of m s0) a n.
Proof.
  intros Ha Hk. revert a Ha. induction n as [|n IH]; intros a Ha; cbn [bytes]; [reflexivity|].
  assert (E : mem_of m s a = mem_of m s0 a).
  { unfold mem_of. destruct (mapped m (a mod 2 ^ 64)); [|reflexivity]. rewrite Hk; [reflexivity|].
    specialize (Ha 0). rewrite Z.add_0_r in Ha. apply Ha. lia. }
  rewrite E, IH; [reflexivity|]. intros i Hi. specialize (Ha (i + 1)). replace (a + 1 + i) with (a + (i + 1)) by lia. apply Ha. lia.
Qed.
Lemma cstr_frame m s s0 buf size a n : apart buf size a n -> (forall x, ~ (buf <= x < buf + size) -> ker s x = ker s0 x) ->
  cstr (mem_of m s) a n = cstr (mem_of m s0) a n.
Proof.
  intros Ha Hk. revert a Ha. induction n as [|n IH]; intros a Ha; cbn [cstr]; [reflexivity|].
  assert (E : mem_of m s a = mem_of m s0 a).
  { unfold mem_of. destruct (mapped m (a mod 2 ^ 64)); [|reflexivity]. rewrite Hk; [reflexivity|].
    specialize (Ha 0). rewrite Z.add_0_r in Ha. apply Ha. lia. }
  rewrite E, IH; [reflexivity|]. intros i Hi. specialize (Ha (i + 1)). replace (a + 1 + i) with (a + (i + 1)) by lia. apply Ha. lia.
Qed.
Lemma apart_le buf size a n k : (k <= n)%nat -> apart buf size a n -> apart buf size a k.
Proof. intros H Ha i Hi. apply Ha. lia. Qed.

Lemma cstr_strnlen m s a n :
  option_map (firstn n) (cstr (mem_of m s) a (S n)) =
  (let l := strnlen (kb s) a n in if all_mapped m a (S l) then Some (bl (kb s) a l) else None).
Proof.
  revert a; induction n as [|n IH]; intros a.
  - cbn. unfold mem_of, wrap. change M64 with (2 ^ 64). destruct (mapped m (a mod 2 ^ 64)); [|reflexivity]. cbn [andb].
    destruct (ker s (a mod 2 ^ 64) mod 256 =? 0); reflexivity.
  - cbn [strnlen]. remember (S n) as k. cbn [cstr]. subst k.
    assert (E : mem_of m s a = if mapped m (wrap a) then Some (kb s a mod 256) else None) by reflexivity.
    rewrite E. destruct (Z.eqb_spec (kb s a mod 256) 0) as [Hz|Hz].
    + cbn [all_mapped bl]. destruct (mapped m (wrap a)); cbn [andb]; [|reflexivity]. rewrite Hz. reflexivity.
    + specialize (IH (a + 1)). cbv zeta in IH |- *. set (l := strnlen (kb s) (a + 1) n) in *.
      change (all_mapped m a (S (S l))) with (mapped m (wrap a) && all_mapped m (a + 1) (S l)).
      destruct (mapped m (wrap a)); cbn [andb]; [|reflexivity].
      destruct (Z.eqb_spec (kb s a mod 256) 0); [contradiction|].
      destruct (cstr (mem_of m s) (a + 1) (S n)) as [r|] eqn:Er; cbn [option_map] in *;
        destruct (all_mapped m (a + 1) (S l)); try discriminate IH; [|reflexivity].
      injection IH as IH. cbn [firstn bl]. rewrite IH. reflexivity.
Qed.
Lemma strnlen_le f a n : (strnlen f a n <= n)%nat.
Proof. revert a; induction n as [|n IH]; intros a; cbn [strnlen]; [lia|]. destruct (f a mod 256 =? 0); [lia|]. specialize (IH (a + 1)). lia. Qed.
Lemma strnlen_nz f a n : ~ In 0 (bl f a (strnlen f a n)).
Proof.
  revert a; induction n as [|n IH]; intros a; cbn [strnlen bl]; [tauto|]. destruct (Z.eqb_spec (f a mod 256) 0) as [E|E]; cbn [bl]; [tauto|].
  intros [H|H]; [contradiction|]. exact (IH _ H).
Qed.
Lemma null_idx_app l r : ~ In 0 l -> null_idx (l ++ 0 :: r) = List.length l.
Proof.
  induction l as [|x l IH]; cbn [app null_idx List.length]; intros H; [reflexivity|].
  destruct (Z.eqb_spec x 0) as [->|_]; [cbn in H; tauto|]. f_equal. apply IH. cbn in H; tauto.
Qed.
Lemma null_terminated_app l r : ~ In 0 l -> null_terminated (l ++ 0 :: r) = l.
Proof.
  intros H. unfold null_terminated. rewrite null_idx_app by assumption. destruct l as [|x l]; [reflexivity|].
  cbn [List.length Nat.eqb]. change (S (List.length l)) with (List.length (x :: l)). rewrite firstn_app, firstn_all, Nat.sub_diag. cbn [firstn]. apply app_nil_r.
Qed.
Lemma str_at_eq m s a : str_at (mem_of m s) a = match option_map (firstn 63) (cstr (mem_of m s) a 64) with Some l => l | None => [] end.
Proof. unfold str_at. destruct (cstr (mem_of m s) a 64); reflexivity. Qed.

(** ** Steps of the injected code *)
Section Cap.
  Variables (m : mach) (buf size : Z).
  Hypothesis Hbuf : 0 <= buf /\ buf + size <= M64.

  Definition inframe (fp : Z) : Prop := forall i, 0 <= i < size -> (buf + i - fp) mod M64 < M64 - 512.

  Lemma exec_read_ptr s v : rg s R3 = v ->
    exists s', exec m read_ptr 0 s = FFall 0 s' /\ ker s' = ker s /\ (forall r, (6 <= r)%nat -> rg s' r = rg s r) /\
      le (stk s') (-8) 8 = kread m s v 8.
  Proof.
    intros H3. unfold read_ptr.
    set (s1 := setr (setr (setr s R2 (immv 8)) R1 (rg s RFP)) R1 (alu_sem AAdd (rg s RFP) (immv (-8)))).
    assert (E : exec m [IMovI R2 8; IMovR R1 RFP; IAluI AAdd R1 (-8); IProbeRead] 0 s = FFall 0 (do_probe_read m s1)) by reflexivity.
    assert (R1E : rg s1 R1 = wrap (rg s RFP - 8)).
    { change (rg s1 R1) with (wrap (rg s RFP + immv (-8))). change (immv (-8)) with (wrap (-8)). rewrite wrap_add_r. f_equal. }
    assert (R2E : rg s1 R2 = 8) by reflexivity.
    assert (R3E : rg s1 R3 = v) by exact H3.
    assert (RFE : rg s1 RFP = rg s RFP) by reflexivity.
    assert (Wr : forall g, write_at s1 (rg s1 R1) 8 g = set_stk s1 (wr (stk s1) (-8) 8 g)).
    { intros g. unfold write_at. rewrite R1E, RFE. rewrite wrap_sub_l.
      replace (rg s RFP - 8 - rg s RFP) with (-8) by lia. change (wrap (-8)) with (M64 - 8).
      destruct (Z.leb_spec (M64 - 512) (M64 - 8)); [|unfold M64 in *; lia]. replace (M64 - 8 - M64) with (-8) by lia. reflexivity. }
    exists (do_probe_read m s1). split; [exact E|]. unfold do_probe_read. rewrite R2E, R3E. change (Z.to_nat 8) with 8%nat.
    rewrite !Wr. unfold kread.
    assert (Hkb : forall a, kb s1 a = kb s a) by reflexivity.
    destruct (all_mapped m v 8) eqn:Em.
    - split; [reflexivity|]. split.
      { intros r Hr. cbn [clobber rg set_stk]. destruct (Nat.eqb_spec r 0); [lia|]. destruct (Nat.leb_spec r 5); [lia|].
        unfold s1. rewrite !rg_setr_neq by (unfold R1, R2; lia). reflexivity. }
      cbn [clobber stk set_stk]. rewrite !le_bl, !bl_map. f_equal. apply map_ext_in. intros i Hi. apply in_seq in Hi.
      unfold wr. replace ((-8 <=? -8 + Z.of_nat i) && (-8 + Z.of_nat i <? -8 + 8)) with true
        by (symmetry; apply andb_true_iff; split; [apply Z.leb_le|apply Z.ltb_lt]; lia).
      rewrite Z.mod_mod by lia. rewrite Hkb. do 2 f_equal. lia.
    - split; [reflexivity|]. split.
      { intros r Hr. cbn [clobber rg set_stk]. destruct (Nat.eqb_spec r 0); [lia|]. destruct (Nat.leb_spec r 5); [lia|].
        unfold s1. rewrite !rg_setr_neq by (unfold R1, R2; lia). reflexivity. }
      cbn [clobber stk set_stk].
      rewrite (le_ext _ (fun _ => 0)); [reflexivity|]. intros x Hx. unfold wr.
      replace ((-8 <=? x) && (x <? -8 + 8)) with true by (symmetry; apply andb_true_iff; split; [apply Z.leb_le|apply Z.ltb_lt]; lia). reflexivity.
  Qed.

  Lemma exec_read_str s off v : rg s R7 = buf -> rg s R3 = v -> inframe (rg s RFP) -> 0 <= off -> off + 64 <= size -> size < 2 ^ 31 ->
    exists s', exec m (read_str off) 0 s = FFall 0 s' /\ (forall r, (6 <= r)%nat -> rg s' r = rg s r) /\
      (forall x, ~ (buf + off <= x < buf + off + 64) -> ker s' x = ker s x) /\
      null_terminated (bl (ker s') (buf + off) 64) = str_at (mem_of m s) v.
  Proof.
    intros H7 H3 Hf Ho Hs Hsz.
    assert (exists s1, exec m (read_str off) 0 s = FFall 0 (do_probe_read_str m s1) /\ rg s1 R1 = buf + off /\ rg s1 R2 = 64 /\ rg s1 R3 = v /\
              (forall r, (6 <= r)%nat -> rg s1 r = rg s r) /\ ker s1 = ker s) as (s1 & E & R1E & R2E & R3E & R6E & KE).
    { unfold read_str. destruct (Z.eqb_spec off 0) as [->|Hn].
      - exists (setr (setr s R2 (immv max_str)) R1 (rg s R7)). split; [reflexivity|]. split; [cbn; lia|]. split; [reflexivity|]. split; [exact H3|].
        split; [|reflexivity]. intros r Hr. rewrite !rg_setr_neq by (unfold R1, R2; lia). reflexivity.
      - exists (setr (setr (setr s R2 (immv max_str)) R1 (rg s R7)) R1 (alu_sem AAdd (rg s R7) (immv (s32 off)))).
        split; [reflexivity|]. split.
        { change (wrap (rg s R7 + immv (s32 off)) = buf + off). rewrite s32_id by lia. rewrite immv_small by lia. rewrite H7. apply wrap_small. lia. }
        split; [reflexivity|]. split; [exact H3|]. split; [|reflexivity].
        intros r Hr. rewrite !rg_setr_neq by (unfold R1, R2; lia). reflexivity. }
    exists (do_probe_read_str m s1). split; [exact E|]. unfold do_probe_read_str. rewrite R2E, R3E. change (Z.to_nat 64 - 1)%nat with 63%nat.
    assert (Wr : forall n g, write_at s1 (rg s1 R1) n g = set_ker s1 (wr (ker s1) (buf + off) n g)).
    { intros n g. unfold write_at. rewrite R1E. rewrite (R6E RFP) by (unfold RFP; lia).
      destruct (Z.leb_spec (M64 - 512) (wrap (buf + off - rg s RFP))) as [H|H]; [|reflexivity].
      exfalso. pose proof (Hf off ltac:(lia)) as Hf'. unfold wrap in H. lia. }
    assert (Hkb : forall a, kb s1 a = kb s a) by (intros a; unfold kb; rewrite KE; reflexivity).
    assert (Hsl : strnlen (kb s1) v 63 = strnlen (kb s) v 63) by (f_equal; unfold kb; rewrite KE; reflexivity).
    rewrite Hsl. pose proof (cstr_strnlen m s v 63) as Hc. cbv zeta in Hc.
    pose proof (strnlen_le (kb s) v 63) as Hl. pose proof (strnlen_nz (kb s) v 63) as Hnz.
    rewrite str_at_eq. rewrite Hc. set (l := strnlen (kb s) v 63) in *. clearbody l. cbv zeta.
    destruct (all_mapped m v (S l)) eqn:Em; rewrite Wr.
    - split. { intros r Hr. cbn [clobber rg set_ker]. destruct (Nat.eqb_spec r 0); [lia|]. destruct (Nat.leb_spec r 5); [lia|]. apply R6E; lia. }
      split. { intros x Hx. cbn [clobber ker set_ker]. unfold wr.
               destruct (Z.leb_spec (buf + off) x); destruct (Z.ltb_spec x (buf + off + (Z.of_nat l + 1))); cbn [andb]; try (rewrite KE; reflexivity). lia. }
      cbn [clobber ker set_ker]. replace 64%nat with (l + (1 + (63 - l)))%nat by lia. rewrite bl_app. cbn [Nat.add bl].
      rewrite (bl_ext _ (fun x => kb s (v + (x - (buf + off))))).
      2: { intros x Hx. unfold wr. replace ((buf + off <=? x) && (x <? buf + off + (Z.of_nat l + 1))) with true
             by (symmetry; apply andb_true_iff; split; [apply Z.leb_le|apply Z.ltb_lt]; lia).
           replace (x - (buf + off) <? Z.of_nat l) with true by (symmetry; apply Z.ltb_lt; lia). rewrite Hkb. apply Z.mod_mod. lia. }
      replace (bl (fun x => kb s (v + (x - (buf + off)))) (buf + off) l) with (bl (kb s) v l).
      2: { rewrite !bl_map. apply map_ext. intros i. do 2 f_equal. lia. }
      assert (E0 : wr (ker s1) (buf + off) (Z.of_nat l + 1) (fun i => if i <? Z.of_nat l then kb s1 (v + i) mod 256 else 0) (buf + off + Z.of_nat l) = 0).
      { unfold wr. replace ((buf + off <=? buf + off + Z.of_nat l) && (buf + off + Z.of_nat l <? buf + off + (Z.of_nat l + 1))) with true
          by (symmetry; apply andb_true_iff; split; [apply Z.leb_le|apply Z.ltb_lt]; lia).
        replace (buf + off + Z.of_nat l - (buf + off)) with (Z.of_nat l) by lia. rewrite Z.ltb_irrefl. reflexivity. }
      rewrite E0. change (0 mod 256) with 0. apply null_terminated_app. exact Hnz.
    - split. { intros r Hr. cbn [clobber rg set_ker]. destruct (Nat.eqb_spec r 0); [lia|]. destruct (Nat.leb_spec r 5); [lia|]. apply R6E; lia. }
      split. { intros x Hx. cbn [clobber ker set_ker]. unfold wr.
               destruct (Z.leb_spec (buf + off) x); destruct (Z.ltb_spec x (buf + off + 64)); cbn [andb]; try (rewrite KE; reflexivity). lia. }
      cbn [clobber ker set_ker]. change 64%nat with (S 63). cbn [bl].
      assert (E0 : wr (ker s1) (buf + off) 64 (fun _ => 0) (buf + off) = 0).
      { unfold wr. replace ((buf + off <=? buf + off) && (buf + off <? buf + off + 64)) with true
          by (symmetry; apply andb_true_iff; split; [apply Z.leb_le|apply Z.ltb_lt]; lia). reflexivity. }
      rewrite E0. reflexivity.
  Qed.

  Variables (s0 : mst) (argsp retv fp : Z).
  Hypothesis Hsize : size < 2 ^ 15.
  Hypothesis Hframe : inframe fp.
  Record inv (s : mst) : Prop := {
    i6 : rg s R6 = argsp; i7 : rg s R7 = buf; i8 : rg s R8 = retv; ifp : rg s RFP = fp;
    ik : forall x, ~ (buf <= x < buf + size) -> ker s x = ker s0 x }.
  Lemma inv_regs s s' : inv s -> (forall r, (6 <= r)%nat -> rg s' r = rg s r) ->
    (forall x, ~ (buf <= x < buf + size) -> ker s' x = ker s x) -> inv s'.
  Proof.
    intros [I6 I7 I8 IF IK] Hr Hk. split; [rewrite Hr by (unfold R6; lia); exact I6|rewrite Hr by (unfold R7; lia); exact I7|
      rewrite Hr by (unfold R8; lia); exact I8|rewrite Hr by (unfold RFP; lia); exact IF|].
    intros x Hx. rewrite Hk by assumption. apply IK; assumption.
  Qed.
  Definition enc (p : prm) (v : Z) (s : mst) (a : Z) : Prop :=
    if p_str p then null_terminated (bl (ker s) a 64) = str_at (mem_of m s0) v
    else M_Go.le_bytes (bl (ker s) a 8) = v /\ (p_num p = true -> M_Go.le_bytes (bl (ker s) (a + 8) 8) = num_at (mem_of m s0) v).
  Lemma cap_size_pos p : 8 <= cap_size p.
  Proof. unfold cap_size, max_str. destruct (p_str p), (p_num p); lia. Qed.
  Lemma enc_ext p v s s' a : (forall x, a <= x < a + cap_size p -> ker s' x = ker s x) -> enc p v s a -> enc p v s' a.
  Proof.
    unfold enc, cap_size, max_str. intros H. destruct (p_str p).
    - intros E. rewrite <- E. f_equal. apply bl_ext. intros x Hx. rewrite H by lia. reflexivity.
    - intros [E1 E2]. split.
      + rewrite <- E1. f_equal. apply bl_ext. intros x Hx. rewrite H; [reflexivity|]. destruct (p_num p); lia.
      + intros Hn. rewrite Hn in *. rewrite <- E2 by reflexivity. f_equal. apply bl_ext. intros x Hx. rewrite H by lia. reflexivity.
  Qed.
  (** 8 bytes of a register into the buffer *)
  Lemma exec_st s off r v : inv s -> rg s r = v -> 0 <= v < M64 -> 0 <= off -> off + 8 <= size ->
    exists s', exec m [ISt R7 (s16 off) r 8] 0 s = FFall 0 s' /\ (forall r', rg s' r' = rg s r') /\ stk s' = stk s /\
      (forall x, ~ (buf + off <= x < buf + off + 8) -> ker s' x = ker s x) /\ M_Go.le_bytes (bl (ker s') (buf + off) 8) = v.
  Proof.
    intros I Hr Hv Ho Hs.
    exists (store s R7 (s16 off) 8 (rg s r)). split; [reflexivity|]. unfold store. change (Nat.eqb R7 RFP) with false. cbv iota.
    rewrite s16_id by lia. rewrite (i7 _ I). rewrite wrap_small by lia. change (Z.of_nat 8) with 8. split; [reflexivity|]. split; [reflexivity|].
    cbn [set_ker ker]. split.
    - intros x Hx. unfold wr. destruct (Z.leb_spec (buf + off) x); destruct (Z.ltb_spec x (buf + off + 8)); cbn [andb]; try reflexivity. lia.
    - rewrite <- le_bl. rewrite Hr. apply le_store. exact Hv.
  Qed.
  Lemma kread_inv s a n : inv s -> apart buf size a n -> n = 8%nat -> kread m s a n = num_at (mem_of m s0) a.
  Proof.
    intros I Ha ->. rewrite <- num_at_kread. unfold num_at. rewrite (bytes_frame m s s0 buf size) by (try exact Ha; apply (ik _ I)). reflexivity.
  Qed.
  Lemma str_inv s a : inv s -> apart buf size a 64 -> str_at (mem_of m s) a = str_at (mem_of m s0) a.
  Proof. intros I Ha. unfold str_at. rewrite (cstr_frame m s s0 buf size) by (try exact Ha; apply (ik _ I)). reflexivity. Qed.

  Definition arg_at (i : Z) (v : Z) : Prop :=
    num_at (mem_of m s0) (argsp + 8 * i) = v /\ apart buf size (argsp + 8 * i) 8 /\ apart buf size v 64.

  Lemma cap_param_ok s i off p v : inv s -> arg_at i v -> 0 <= i -> 8 * i < 2 ^ 15 -> 0 <= off -> off + cap_size p <= size ->
    exists s', exec m (cap_param i off p) 0 s = FFall 0 s' /\ inv s' /\
      (forall x, ~ (buf + off <= x < buf + off + cap_size p) -> ker s' x = ker s x) /\ enc p v s' (buf + off).
  Proof.
    intros I (Hv & Hap & Hav) Hi Hi' Ho Hs.
    assert (Hvr : 0 <= v < M64) by (rewrite <- Hv; apply num_at_range).
    set (s1 := setr s R3 (load m s R6 (s16 (i * 8)) 8)).
    assert (E3 : rg s1 R3 = v).
    { unfold s1. rewrite rg_setr_eq. unfold load. change (Nat.eqb R6 RFP) with false. cbv iota. rewrite s16_id by lia.
      rewrite (i6 _ I). replace (argsp + i * 8) with (argsp + 8 * i) by ring. rewrite kread_inv by (try assumption; reflexivity). exact Hv. }
    assert (I1 : inv s1).
    { apply (inv_regs s); [exact I| |reflexivity]. intros r Hr. unfold s1. rewrite rg_setr_neq by (unfold R3; lia). reflexivity. }
    unfold cap_param. change (ILd R3 R6 (s16 (i * 8)) 8 :: ?c) with ([ILd R3 R6 (s16 (i * 8)) 8] ++ c).
    rewrite exec_app. change (exec m [ILd R3 R6 (s16 (i * 8)) 8] 0 s) with (FFall 0 s1). cbv iota beta.
    unfold cap_size, max_str in *. unfold enc. destruct (p_str p) eqn:Ep; cbn [negb].
    - destruct (exec_read_str s1 off v) as (s2 & E & Hr & Hk & Hn); try assumption; try lia.
      { apply (i7 _ I1). } { rewrite (ifp _ I1). exact Hframe. }
      exists s2. split; [exact E|]. split; [apply (inv_regs s1); [exact I1|exact Hr|intros x Hx; apply Hk; lia]|].
      split; [intros x Hx; rewrite Hk by exact Hx; reflexivity|]. rewrite Hn. apply str_inv; assumption.
    - destruct (exec_st s1 off R3 v I1 E3 Hvr Ho) as (s2 & E & Hr & _ & Hk & Hn); [destruct (p_num p); lia|].
      assert (I2 : inv s2). { apply (inv_regs s1); [exact I1|intros; apply Hr|]. intros x Hx. apply Hk. destruct (p_num p); lia. }
      change (ISt R7 (s16 off) R3 8 :: ?c) with ([ISt R7 (s16 off) R3 8] ++ c). rewrite exec_app, E. cbv iota beta.
      destruct (p_num p) eqn:Epn.
      + rewrite exec_app. destruct (exec_read_ptr s2 v) as (s3 & E' & Hk3 & Hr3 & Hst).
        { rewrite Hr. exact E3. }
        rewrite E'. cbv iota beta. change [ILd R3 RFP (-8) 8; ISt R7 (s16 (off + 8)) R3 8] with ([ILd R3 RFP (-8) 8] ++ [ISt R7 (s16 (off + 8)) R3 8]).
        rewrite exec_app. set (s4 := setr s3 R3 (load m s3 RFP (-8) 8)). change (exec m [ILd R3 RFP (-8) 8] 0 s3) with (FFall 0 s4). cbv iota beta.
        assert (I4 : inv s4).
        { apply (inv_regs s2); [exact I2| |intros x _; unfold s4; cbn [setr ker]; rewrite Hk3; reflexivity].
          intros r Hr'. unfold s4. rewrite rg_setr_neq by (unfold R3; lia). apply Hr3; exact Hr'. }
        assert (E4 : rg s4 R3 = num_at (mem_of m s0) v).
        { unfold s4. rewrite rg_setr_eq. change (load m s3 RFP (-8) 8) with (le (stk s3) (-8) 8). rewrite Hst.
          rewrite kread_inv; [reflexivity|exact I2|apply (apart_le _ _ _ 64); [lia|assumption]|reflexivity]. }
        destruct (exec_st s4 (off + 8) R3 _ I4 E4) as (s5 & E5 & Hr5 & _ & Hk5 & Hn5); [apply num_at_range|lia|lia|].
        exists s5. split; [exact E5|]. split; [apply (inv_regs s4); [exact I4|intros; apply Hr5|intros x Hx; apply Hk5; lia]|].
        assert (Hk4 : ker s4 = ker s2) by (unfold s4; cbn [setr ker]; exact Hk3).
        split. { intros x Hx. rewrite Hk5 by lia. rewrite Hk4. apply Hk. lia. }
        split. { rewrite <- Hn. f_equal. apply bl_ext. intros x Hx. rewrite Hk5 by lia. rewrite Hk4. reflexivity. }
        intros _. rewrite <- Hn5. do 2 f_equal. lia.
      + exists s2. split; [reflexivity|]. split; [exact I2|]. split; [intros x Hx; apply Hk; exact Hx|]. split; [exact Hn|discriminate].
  Qed.

  Fixpoint encs (ps : list prm) (vs : list Z) (s : mst) (a : Z) : Prop :=
    match ps, vs with
    | p :: ps', v :: vs' => enc p v s a /\ encs ps' vs' s (a + cap_size p)
    | _, _ => True
    end.
  Lemma encs_ext ps : forall vs s s' a, (forall x, a <= x < a + fold_right (fun p z => cap_size p + z) 0 ps -> ker s' x = ker s x) ->
    encs ps vs s a -> encs ps vs s' a.
  Proof.
    induction ps as [|p ps IH]; intros vs s s' a H; [destruct vs; exact (fun h => h)|]. destruct vs as [|v vs]; [exact (fun h => h)|].
    cbn [encs fold_right] in *. intros [E1 E2]. pose proof (cap_size_pos p).
    assert (0 <= fold_right (fun p z => cap_size p + z) 0 ps). { clear. induction ps as [|q ps IH]; cbn; [lia|]. pose proof (cap_size_pos q). lia. }
    split; [apply (enc_ext p v s); [intros x Hx; apply H; lia|exact E1]|].
    apply (IH vs s); [intros x Hx; apply H; lia|exact E2].
  Qed.
  Lemma fold_sz_nonneg ps : 0 <= fold_right (fun p z => cap_size p + z) 0 ps.
  Proof. induction ps as [|q ps IH]; cbn [fold_right]; [lia|]. pose proof (cap_size_pos q). lia. Qed.
  Lemma cap_params_off ps : forall i off, snd (cap_params i off ps) = off + fold_right (fun p z => cap_size p + z) 0 ps.
  Proof.
    induction ps as [|p ps IH]; intros i off; cbn [cap_params fold_right]; [cbn; lia|].
    specialize (IH (i + 1) (off + cap_size p)). destruct (cap_params (i + 1) (off + cap_size p) ps) as [c o]. cbn [snd] in *. lia.
  Qed.
  Lemma cap_params_ok ps : forall vs i off s, inv s -> List.length vs = List.length ps ->
    (forall k v, nth_error vs k = Some v -> arg_at (i + Z.of_nat k) v) -> 0 <= i -> 8 * (i + Z.of_nat (List.length ps)) < 2 ^ 15 -> 0 <= off ->
    off + fold_right (fun p z => cap_size p + z) 0 ps <= size ->
    exists s', exec m (fst (cap_params i off ps)) 0 s = FFall 0 s' /\ inv s' /\
      (forall x, ~ (buf + off <= x < buf + off + fold_right (fun p z => cap_size p + z) 0 ps) -> ker s' x = ker s x) /\ encs ps vs s' (buf + off).
  Proof.
    induction ps as [|p ps IH]; intros vs i off s I Hl Ha Hi Hi' Ho Hs.
    - exists s. split; [reflexivity|]. split; [exact I|]. split; [reflexivity|]. destruct vs; exact Logic.I.
    - destruct vs as [|v vs]; [discriminate|]. cbn [cap_params fold_right List.length] in *.
      pose proof (cap_size_pos p) as Hp. pose proof (fold_sz_nonneg ps) as Hf.
      destruct (cap_param_ok s i off p v I) as (s1 & E1 & I1 & K1 & N1); try lia.
      { specialize (Ha 0%nat v eq_refl). rewrite Z.add_0_r in Ha. exact Ha. }
      destruct (IH vs (i + 1) (off + cap_size p) s1 I1) as (s2 & E2 & I2 & K2 & N2); try lia.
      { intros k w Hk. specialize (Ha (S k) w Hk). replace (i + 1 + Z.of_nat k) with (i + Z.of_nat (S k)) by lia. exact Ha. }
      destruct (cap_params (i + 1) (off + cap_size p) ps) as [c o] eqn:Ec. cbn [fst] in *.
      exists s2. rewrite exec_app, E1. cbv iota beta. split; [exact E2|]. split; [exact I2|]. split.
      { intros x Hx. rewrite K2 by lia. apply K1. lia. }
      cbn [encs]. split; [apply (enc_ext p v s1); [intros x Hx; apply K2; lia|exact N1]|].
      replace (buf + off + cap_size p) with (buf + (off + cap_size p)) by ring. exact N2.
  Qed.
  Lemma cap_ret_ok s off r : inv s -> 0 <= retv < M64 -> apart buf size retv 64 -> 0 <= off -> off + cap_size r <= size ->
    exists s', exec m (cap_ret off r) 0 s = FFall 0 s' /\
      (forall x, ~ (buf + off <= x < buf + off + cap_size r) -> ker s' x = ker s x) /\ enc r retv s' (buf + off).
  Proof.
    intros I Hvr Hav Ho Hs. unfold cap_ret, cap_size, max_str, enc in *. destruct (p_str r) eqn:Ep; cbn [negb].
    - change (IMovR R3 R8 :: ?c) with ([IMovR R3 R8] ++ c). rewrite exec_app. set (s1 := setr s R3 (rg s R8)).
      change (exec m [IMovR R3 R8] 0 s) with (FFall 0 s1). cbv iota beta.
      assert (I1 : inv s1). { apply (inv_regs s); [exact I| |reflexivity]. intros q Hq. unfold s1. rewrite rg_setr_neq by (unfold R3; lia). reflexivity. }
      destruct (exec_read_str s1 off retv) as (s2 & E & Hr & Hk & Hn); try lia.
      { apply (i7 _ I1). } { unfold s1. rewrite rg_setr_eq. apply (i8 _ I). } { rewrite (ifp _ I1). exact Hframe. }
      exists s2. split; [exact E|]. split; [intros x Hx; apply Hk; exact Hx|]. rewrite Hn. apply str_inv; assumption.
    - destruct (exec_st s off R8 retv I (i8 _ I) Hvr Ho) as (s2 & E & Hr & _ & Hk & Hn); [destruct (p_num r); lia|].
      assert (I2 : inv s2). { apply (inv_regs s); [exact I|intros; apply Hr|]. intros x Hx. apply Hk. destruct (p_num r); lia. }
      change (ISt R7 (s16 off) R8 8 :: ?c) with ([ISt R7 (s16 off) R8 8] ++ c). rewrite exec_app, E. cbv iota beta.
      destruct (p_num r) eqn:Epn.
      + change (IMovR R3 R8 :: ?c) with ([IMovR R3 R8] ++ c). rewrite exec_app. set (s2' := setr s2 R3 (rg s2 R8)).
        change (exec m [IMovR R3 R8] 0 s2) with (FFall 0 s2'). cbv iota beta. rewrite exec_app.
        assert (I2' : inv s2'). { apply (inv_regs s2); [exact I2| |reflexivity]. intros q Hq. unfold s2'. rewrite rg_setr_neq by (unfold R3; lia). reflexivity. }
        destruct (exec_read_ptr s2' retv) as (s3 & E' & Hk3 & Hr3 & Hst).
        { unfold s2'. rewrite rg_setr_eq. apply (i8 _ I2). }
        rewrite E'. cbv iota beta. change [ILd R8 RFP (-8) 8; ISt R7 (s16 (off + 8)) R8 8] with ([ILd R8 RFP (-8) 8] ++ [ISt R7 (s16 (off + 8)) R8 8]).
        rewrite exec_app. set (s4 := setr s3 R8 (load m s3 RFP (-8) 8)). change (exec m [ILd R8 RFP (-8) 8] 0 s3) with (FFall 0 s4). cbv iota beta.
        assert (E4 : rg s4 R8 = num_at (mem_of m s0) retv).
        { unfold s4. rewrite rg_setr_eq. change (load m s3 RFP (-8) 8) with (le (stk s3) (-8) 8). rewrite Hst.
          rewrite kread_inv; [reflexivity|exact I2'|apply (apart_le _ _ _ 64); [lia|assumption]|reflexivity]. }
        assert (E47 : rg s4 R7 = buf). { unfold s4. rewrite rg_setr_neq by (unfold R7, R8; lia). rewrite Hr3 by (unfold R7; lia). apply (i7 _ I2'). }
        exists (store s4 R7 (s16 (off + 8)) 8 (rg s4 R8)). split; [reflexivity|].
        unfold store. change (Nat.eqb R7 RFP) with false. cbv iota. rewrite s16_id by lia. rewrite E47. rewrite wrap_small by lia. change (Z.of_nat 8) with 8.
        cbn [set_ker ker]. assert (Hk4 : ker s4 = ker s2) by (unfold s4; cbn [setr ker]; exact Hk3). rewrite Hk4.
        split. { intros x Hx. rewrite <- (Hk x) by lia. unfold wr.
                 destruct (Z.leb_spec (buf + (off + 8)) x); destruct (Z.ltb_spec x (buf + (off + 8) + 8)); cbn [andb]; try reflexivity. lia. }
        split. { rewrite <- Hn. f_equal. apply bl_ext. intros x Hx. unfold wr. destruct (Z.leb_spec (buf + (off + 8)) x); cbn [andb]; [lia|reflexivity]. }
        intros _. replace (buf + off + 8) with (buf + (off + 8)) by ring. rewrite <- le_bl. rewrite E4. apply le_store. apply num_at_range.
      + exists s2. split; [reflexivity|]. split; [intros x Hx; apply Hk; exact Hx|]. split; [exact Hn|discriminate].
  Qed.
End Cap.
