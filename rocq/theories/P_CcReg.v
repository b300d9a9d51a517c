(** * The register allocator and the save/restore code around helper calls. *)
From Coq Require Import ZArith List Bool Lia.
From Verif Require Import M_Ebpf P_Ebpf M_CcNum M_Cc P_CcMach P_CcMat P_CcSafe.
Import ListNotations.
Open Scope Z_scope.

(** ** Allocator *)
Lemma alloc_ok u r u' : alloc u = Some (r, u') ->
  (r <= 8)%nat /\ u r = false /\ u' r = true /\ (forall x, x <> r -> u' x = u x) /\ (forall x, (r < x <= 8)%nat -> u x = true).
Proof.
  unfold alloc. destruct (alloc_from u 8) as [q|] eqn:H; [|discriminate]. intros H1; injection H1 as -> <-.
  destruct (alloc_from_spec u 8 r H) as (A & B & C). split; [assumption|]. split; [assumption|].
  split; [apply upd_eq|]. split; [intros x Hx; apply upd_neq; assumption|assumption].
Qed.
Lemma alloc_none u : alloc u = None <-> forall x, (x <= 8)%nat -> u x = true.
Proof.
  unfold alloc. rewrite <- alloc_from_none. destruct (alloc_from u 8); split; intros H; try discriminate; reflexivity.
Qed.
Lemma alloc_after_free u r : (r <= 8)%nat -> alloc (free u r) <> None.
Proof.
  intros Hr H. rewrite alloc_none in H. specialize (H r Hr). unfold free in H.
  destruct (Nat.leb_spec r 9); [|lia]. rewrite upd_eq in H. discriminate.
Qed.

(** A history of allocator calls; [None] when an allocation fails. *)
Inductive aop := AAlloc | AFree (r : reg).
Fixpoint ahist (u : reg -> bool) (l : list aop) : list (option reg) * (reg -> bool) :=
  match l with
  | [] => ([], u)
  | AAlloc :: l' => match alloc u with
                    | Some (r, u') => let '(o, v) := ahist u' l' in (Some r :: o, v)
                    | None => let '(o, v) := ahist u l' in (None :: o, v)
                    end
  | AFree r :: l' => let '(o, v) := ahist (free u r) l' in (None :: o, v)
  end.
Lemma free_other u r x : x <> r -> free u r x = u x.
Proof. intros H. unfold free. destruct (Nat.leb r 9); [|reflexivity]. apply upd_neq, H. Qed.
Lemma hist_held l : forall u r j, u r = true -> nth_error (fst (ahist u l)) j = Some (Some r) -> exists k, (k < j)%nat /\ nth_error l k = Some (AFree r).
Proof.
  induction l as [|o l IH]; intros u r j Hu H; cbn [ahist] in H; [destruct j; discriminate|].
  destruct o as [|q].
  - destruct (alloc u) as [[q u']|] eqn:Ha.
    + destruct (alloc_ok _ _ _ Ha) as (A & B & C & D & _). destruct (ahist u' l) as [os v] eqn:Hh. cbn [fst] in H.
      destruct j as [|j]; cbn [nth_error] in H.
      * injection H as ->. congruence.
      * destruct (IH u' r j) as (k & Hk & Hn); [|rewrite Hh; exact H|exists (S k); split; [lia|exact Hn]].
        destruct (Nat.eq_dec r q) as [->|Hne]; [congruence|]. rewrite D; assumption.
    + destruct (ahist u l) as [os v] eqn:Hh. cbn [fst] in H. destruct j as [|j]; cbn [nth_error] in H; [discriminate|].
      destruct (IH u r j) as (k & Hk & Hn); [exact Hu|rewrite Hh; exact H|exists (S k); split; [lia|exact Hn]].
  - destruct (ahist (free u q) l) as [os v] eqn:Hh. cbn [fst] in H. destruct j as [|j]; cbn [nth_error] in H; [discriminate|].
    destruct (Nat.eq_dec r q) as [->|Hne]; [exists 0%nat; split; [lia|reflexivity]|].
    destruct (IH (free u q) r j) as (k & Hk & Hn); [rewrite free_other; assumption|rewrite Hh; exact H|exists (S k); split; [lia|exact Hn]].
Qed.
Lemma hist_twice l : forall u r i j, (i < j)%nat -> nth_error (fst (ahist u l)) i = Some (Some r) ->
  nth_error (fst (ahist u l)) j = Some (Some r) -> exists k, (i < k < j)%nat /\ nth_error l k = Some (AFree r).
Proof.
  induction l as [|o l IH]; intros u r i j Hij Hi Hj; cbn [ahist] in Hi, Hj; [destruct i; discriminate|].
  assert (Hs : forall u', nth_error (fst (ahist u' l)) (pred i) = Some (Some r) -> nth_error (fst (ahist u' l)) (pred j) = Some (Some r) ->
            (0 < i)%nat -> exists k, (i < k < j)%nat /\ nth_error (o :: l) k = Some (AFree r)).
  { intros u' H1 H2 Hp. destruct (IH u' r (pred i) (pred j)) as (k & Hk & Hn); [lia|assumption..|].
    exists (S k). split; [lia|exact Hn]. }
  destruct o as [|q].
  - destruct (alloc u) as [[q u']|] eqn:Ha.
    + destruct (alloc_ok _ _ _ Ha) as (A & B & C & D & _). destruct (ahist u' l) as [os v] eqn:Hh. cbn [fst] in Hi, Hj.
      destruct j as [|j]; [lia|]. destruct i as [|i]; cbn [nth_error] in Hi, Hj.
      * injection Hi as ->. destruct (hist_held l u' r j C) as (k & Hk & Hn); [rewrite Hh; exact Hj|].
        exists (S k). split; [lia|exact Hn].
      * apply (Hs u'); [rewrite Hh; exact Hi|rewrite Hh; exact Hj|lia].
    + destruct (ahist u l) as [os v] eqn:Hh. cbn [fst] in Hi, Hj.
      destruct j as [|j]; [lia|]. destruct i as [|i]; cbn [nth_error] in Hi, Hj; [discriminate|].
      apply (Hs u); [rewrite Hh; exact Hi|rewrite Hh; exact Hj|lia].
  - destruct (ahist (free u q) l) as [os v] eqn:Hh. cbn [fst] in Hi, Hj.
    destruct j as [|j]; [lia|]. destruct i as [|i]; cbn [nth_error] in Hi, Hj; [discriminate|].
    apply (Hs (free u q)); [rewrite Hh; exact Hi|rewrite Hh; exact Hj|lia].
Qed.
Lemma hist_range l : forall u r j, nth_error (fst (ahist u l)) j = Some (Some r) -> (r <= 8)%nat.
Proof.
  induction l as [|o l IH]; intros u r j H; cbn [ahist] in H; [destruct j; discriminate|]. destruct o as [|q].
  - destruct (alloc u) as [[q u']|] eqn:Ha.
    + destruct (alloc_ok _ _ _ Ha) as (A & _). destruct (ahist u' l) as [os v] eqn:Hh. cbn [fst] in H.
      destruct j as [|j]; cbn [nth_error] in H; [injection H as ->; exact A|]. apply (IH u' r j). rewrite Hh. exact H.
    + destruct (ahist u l) as [os v] eqn:Hh. cbn [fst] in H. destruct j as [|j]; cbn [nth_error] in H; [discriminate|].
      apply (IH u r j). rewrite Hh. exact H.
  - destruct (ahist (free u q) l) as [os v] eqn:Hh. cbn [fst] in H. destruct j as [|j]; cbn [nth_error] in H; [discriminate|].
    apply (IH (free u q) r j). rewrite Hh. exact H.
Qed.

(** ** Save / restore *)
Lemma le_bytes f a n v : (forall i, 0 <= i < Z.of_nat n -> f (a + i) mod 256 = byte_of v i) -> le f a n = v mod 256 ^ Z.of_nat n.
Proof.
  revert a v; induction n as [|n IH]; intros a v H.
  - cbn [le]. rewrite Z.mod_1_r. reflexivity.
  - cbn [le]. rewrite (IH (a + 1) (Z.shiftr v 8)).
    + assert (H0 : f a mod 256 = v mod 256). { rewrite <- (Z.add_0_r a). rewrite H by lia. unfold byte_of. rewrite Z.shiftr_0_r. reflexivity. }
      rewrite H0. rewrite Nat2Z.inj_succ, Z.pow_succ_r by lia. rewrite Z.shiftr_div_pow2 by lia. change (2 ^ 8) with 256.
      rewrite Z.rem_mul_r; [reflexivity|lia|]. apply Z.pow_pos_nonneg; lia.
    + intros i Hi. replace (a + 1 + i) with (a + (i + 1)) by lia. rewrite H by lia. unfold byte_of.
      rewrite Z.shiftr_shiftr by lia. do 2 f_equal. lia.
Qed.
Lemma le_store v f a : 0 <= v < M64 -> le (wr f a 8 (byte_of v)) a 8 = v.
Proof.
  intros Hv. rewrite (le_bytes _ _ _ v).
  - change (256 ^ Z.of_nat 8) with M64. apply Z.mod_small, Hv.
  - intros i Hi. unfold wr. destruct (Z.leb_spec a (a + i)); [|lia]. destruct (Z.ltb_spec (a + i) (a + 8)); [|lia].
    cbn [andb]. replace (a + i - a) with i by lia. unfold byte_of. apply Z.mod_mod. lia.
Qed.
Lemma le_wr_other f a n b k g : (forall x, b <= x < b + Z.of_nat k -> x < a \/ a + n <= x) -> le (wr f a n g) b k = le f b k.
Proof.
  intros H. apply le_ext. intros x Hx. unfold wr. destruct (H x Hx).
  - destruct (Z.leb_spec a x); [lia|]. reflexivity.
  - destruct (Z.ltb_spec x (a + n)); [lia|]. rewrite andb_false_r. reflexivity.
Qed.

Definition stores (o : Z) (i k : nat) : list insn := map (fun j => ISt RFP (s16 (o + Z.of_nat j * 8)) (1 + j)%nat 8) (seq i k).
Definition loads (o : Z) (i k : nat) : list insn := map (fun j => ILd (1 + j)%nat RFP (s16 (o + Z.of_nat j * 8)) 8) (seq i k).

Section Save.
  Variables (m : mach) (o : Z).
  Hypothesis Ho : forall j, (j <= 5)%nat -> s16 (o + Z.of_nat j * 8) = o + Z.of_nat j * 8.

  Lemma stores_exec k : forall i ms, (i + k <= 5)%nat -> (forall x, 0 <= rg ms x < M64) ->
    exists f, exec m (stores o i k) 0 ms = FFall 0 (set_stk ms f) /\
      (forall j, (i <= j < i + k)%nat -> le f (o + Z.of_nat j * 8) 8 = rg ms (1 + j)%nat) /\
      (forall x, x < o + Z.of_nat i * 8 \/ o + Z.of_nat (i + k) * 8 <= x -> f x = stk ms x).
  Proof.
    induction k as [|k IH]; intros i ms Hk Hr.
    - exists (stk ms). split; [destruct ms; reflexivity|]. split; [intros j Hj; lia|auto].
    - unfold stores. cbn [seq map exec step1]. rewrite Ho by lia. unfold store. cbn [Nat.eqb RFP].
      set (f1 := wr (stk ms) (o + Z.of_nat i * 8) (Z.of_nat 8) (byte_of (rg ms (1 + i)%nat))).
      destruct (IH (S i) (set_stk ms f1)) as (f & E & H1 & H2); [lia|exact Hr|].
      exists f. split; [exact E|]. cbn [set_stk stk rg] in H1, H2. split.
      + intros j Hj. destruct (Nat.eq_dec j i) as [->|Hn]; [|apply H1; lia].
        rewrite (le_ext f f1).
        * apply le_store, Hr.
        * intros x Hx. rewrite H2 by lia. reflexivity.
      + intros x Hx. rewrite H2 by lia. unfold f1, wr.
        destruct (Z.leb_spec (o + Z.of_nat i * 8) x); [|reflexivity].
        destruct (Z.ltb_spec x (o + Z.of_nat i * 8 + Z.of_nat 8)); [lia|]. reflexivity.
  Qed.
  Lemma loads_exec k : forall i ms, (i + k <= 5)%nat ->
    exists ms', exec m (loads o i k) 0 ms = FFall 0 ms' /\ stk ms' = stk ms /\ ker ms' = ker ms /\
      (forall j, (i <= j < i + k)%nat -> rg ms' (1 + j)%nat = le (stk ms) (o + Z.of_nat j * 8) 8) /\
      (forall x, ((x < 1 + i) \/ (1 + i + k <= x))%nat -> rg ms' x = rg ms x).
  Proof.
    induction k as [|k IH]; intros i ms Hk.
    - exists ms. cbn. split; [reflexivity|]. do 2 (split; [reflexivity|]). split; [intros j Hj; lia|auto].
    - unfold loads. cbn [seq map exec step1]. rewrite Ho by lia. unfold load. cbn [Nat.eqb RFP].
      set (ms1 := setr ms (1 + i)%nat (le (stk ms) (o + Z.of_nat i * 8) 8)).
      destruct (IH (S i) ms1) as (ms' & E & H1 & H2 & H3 & H4); [lia|].
      exists ms'. split; [exact E|]. split; [exact H1|]. split; [exact H2|]. split.
      + intros j Hj. destruct (Nat.eq_dec j i) as [->|Hn].
        * rewrite H4 by lia. unfold ms1. apply rg_setr_eq.
        * rewrite H3 by lia. reflexivity.
      + intros x Hx. rewrite H4 by lia. unfold ms1. apply rg_setr_neq. lia.
  Qed.
End Save.

(** Whatever [c] does to R0..R5 (it leaves the frame below -8 alone): after push; c; pop, R0 (when in
    use) and R1..Rk hold what they held before, k being the NUMBER of registers of R1..Rn in use. *)
Lemma save_restore z u n m c ms : (n <= 5)%nat -> 8 <= z <= 464 -> (forall x, 0 <= rg ms x < M64) ->
  (forall s, exists s', exec m c 0 s = FFall 0 s' /\ forall x, x < -8 -> stk s' x = stk s x) ->
  exists ms', exec m (push_regs z u n ++ c ++ pop_regs z u n) 0 ms = FFall 0 ms' /\
    (u R0 = true -> rg ms' R0 = rg ms R0) /\
    (forall i, (1 <= i <= count_used u 1 n)%nat -> rg ms' i = rg ms i).
Proof.
  intros Hn Hz Hr Hc. set (k := count_used u 1 n). pose proof (count_used_le u 1 n) as Hk. fold k in Hk.
  set (o := - (z + Z.of_nat k * 8)).
  assert (Ho : forall j, (j <= 5)%nat -> s16 (o + Z.of_nat j * 8) = o + Z.of_nat j * 8) by (intros j Hj; apply s16_id; unfold o; lia).
  assert (Ho8 : s16 (o - 8) = o - 8) by (apply s16_id; unfold o; lia).
  unfold push_regs, pop_regs. fold k.
  change (map _ (seq 0 k)) with (stores o 0 k) at 1.
  change (map (fun i => ILd _ _ _ _) (seq 0 k)) with (loads o 0 k).
  fold o. rewrite Ho8.
  set (p0 := if u R0 then [ISt RFP (o - 8) R0 8] else []).
  assert (H0 : exists f0, exec m p0 0 ms = FFall 0 (set_stk ms f0) /\ (u R0 = true -> le f0 (o - 8) 8 = rg ms R0)).
  { unfold p0. destruct (u R0).
    - eexists. split; [cbn [exec step1]; unfold store; cbn [Nat.eqb RFP]; reflexivity|]. intros _. apply le_store, Hr.
    - exists (stk ms). split; [destruct ms; reflexivity|discriminate]. }
  destruct H0 as (f0 & E0 & G0).
  destruct (stores_exec m o Ho k 0 (set_stk ms f0)) as (f1 & E1 & G1 & G2); [lia|exact Hr|].
  destruct (Hc (set_stk (set_stk ms f0) f1)) as (ms2 & E2 & G3). cbn [set_stk stk] in G3.
  destruct (loads_exec m o Ho k 0 ms2) as (ms3 & E3 & G4 & G5 & G6 & G7); [lia|].
  set (q0 := if u R0 then [ILd R0 RFP (o - 8) 8] else []).
  assert (Hq : exists ms4, exec m q0 0 ms3 = FFall 0 ms4 /\ (u R0 = true -> rg ms4 R0 = le (stk ms3) (o - 8) 8) /\ forall x, x <> R0 -> rg ms4 x = rg ms3 x).
  { unfold q0. destruct (u R0).
    - eexists. split; [cbn [exec step1]; unfold load; cbn [Nat.eqb RFP]; reflexivity|]. split; [intros _; apply rg_setr_eq|].
      intros x Hx. apply rg_setr_neq, Hx.
    - exists ms3. split; [reflexivity|]. split; [discriminate|auto]. }
  destruct Hq as (ms4 & E4 & G8 & G9).
  exists ms4. split.
  { rewrite <- !app_assoc. rewrite exec_app, E0. rewrite exec_app, E1. rewrite exec_app, E2. rewrite exec_app, E3. exact E4. }
  split.
  - intros Hu. rewrite G8 by exact Hu. rewrite G4. rewrite <- (G0 Hu). apply le_ext. intros x Hx.
    rewrite G3 by (unfold o in *; lia). rewrite G2 by lia. reflexivity.
  - intros i Hi. assert (Hi0 : (i <> 0)%nat) by lia. rewrite G9 by exact Hi0.
    replace i with (1 + (i - 1))%nat by lia. rewrite G6 by lia.
    rewrite (le_ext (stk ms2) f1) by (intros x Hx; rewrite G3 by (unfold o in *; lia); reflexivity).
    rewrite G1 by lia. reflexivity.
Qed.

Lemma count_prefix u : forall n a i, (i <= n)%nat -> (forall j, (a <= j < a + i)%nat -> u j = true) -> (i <= count_used u a n)%nat.
Proof.
  induction n as [|n IH]; intros a i Hi H; [lia|]. cbn [count_used]. destruct i as [|i]; [lia|].
  rewrite (H a) by lia. specialize (IH (S a) i). assert (i <= count_used u (S a) n)%nat by (apply IH; [lia|]; intros j Hj; apply H; lia). lia.
Qed.
Lemma save_restore_nogap z u n m c ms : (n <= 5)%nat -> 8 <= z <= 464 -> (forall x, 0 <= rg ms x < M64) ->
  (forall s, exists s', exec m c 0 s = FFall 0 s' /\ forall x, x < -8 -> stk s' x = stk s x) ->
  (forall i j, (1 <= j < i)%nat -> (i <= n)%nat -> u i = true -> u j = true) ->
  exists ms', exec m (push_regs z u n ++ c ++ pop_regs z u n) 0 ms = FFall 0 ms' /\
    forall i, (i <= n)%nat -> u i = true -> rg ms' i = rg ms i.
Proof.
  intros Hn Hz Hr Hc Hg. destruct (save_restore z u n m c ms Hn Hz Hr Hc) as (ms' & E & H0 & H1).
  exists ms'. split; [exact E|]. intros i Hi Hu. destruct i as [|i]; [apply H0, Hu|]. apply H1.
  split; [lia|]. apply count_prefix; [exact Hi|]. intros j Hj. destruct (Nat.eq_dec j (S i)) as [->|Hne]; [exact Hu|].
  apply (Hg (S i) j); [lia|exact Hi|exact Hu].
Qed.
Lemma probe_call_frame m s : exists s', exec m probe_call 0 s = FFall 0 s' /\ forall x, x < -8 -> stk s' x = stk s x.
Proof.
  destruct (safe_call 1000) as [_ H]. destruct (H m s) as (s' & [E|E] & [_ Hs] & _); [|revert E; unfold probe_call; cbn [exec step1]; discriminate].
  destruct (safe_call 100) as [_ H']. destruct (H' m s) as (s2 & [E2|E2] & [_ Hs2] & _); rewrite E in E2; [|discriminate].
  injection E2 as <-. exists s'. split; [exact E|]. intros x Hx. destruct (Z.lt_ge_cases (-500) x) as [Hl|Hl].
  - apply Hs. intros [Ha|(off & (j & Hj & ->) & Ho)]; [lia|]. rewrite s16_id in Ho by lia. lia.
  - apply Hs2. intros [Ha|(off & (j & Hj & ->) & Ho)]; [lia|]. rewrite s16_id in Ho by lia. lia.
Qed.
