From Coq Require Import ZArith List Bool String Lia.
From Verif Require Import M_Go P_Go M_Sess S_Sess P_Sess P_Sess2 S_Conc P_Conc P_Conc2 P_Ctx M_Sid S_Sid.
Import ListNotations.
Open Scope Z_scope.

Lemma gen_value rnd fp : 0 <= rnd < 2 ^ 32 -> gen_session_id rnd fp = rnd * 2 ^ 32 + low fp.
Proof.
  intros Hr. unfold gen_session_id, low. change 4294967295 with (Z.ones 32). rewrite Z.land_ones by lia.
  rewrite <- Z.shiftl_mul_pow2 by lia.
  assert (Hd : Z.land (Z.shiftl rnd 32) (fp mod 2 ^ 32) = 0).
  { apply Z.bits_inj'. intros n Hn. rewrite Z.land_spec, Z.bits_0, Z.shiftl_spec by lia. destruct (Z.lt_ge_cases n 32) as [Hl|Hl].
    - rewrite (Z.testbit_neg_r rnd) by lia. reflexivity.
    - rewrite (Z.mod_pow2_bits_high fp 32) by lia. apply andb_false_r. }
  rewrite <- Z.lxor_lor by exact Hd. symmetry. apply Z.add_nocarry_lxor. exact Hd.
Qed.
Lemma low_range x : 0 <= low x < 2 ^ 32.
Proof. apply Z.mod_pos_bound. lia. Qed.
Lemma gen_range rnd fp : 0 <= rnd < 2 ^ 32 -> (rnd <> 0 \/ low fp <> 0) -> 0 < gen_session_id rnd fp < 2 ^ 64.
Proof. intros Hr Hn. rewrite gen_value by exact Hr. pose proof (low_range fp). change (2 ^ 64) with (2 ^ 32 * 2 ^ 32). nia. Qed.
Lemma gen_inj r f r' f' : 0 <= r < 2 ^ 32 -> 0 <= r' < 2 ^ 32 -> gen_session_id r f = gen_session_id r' f' <-> r = r' /\ low f = low f'.
Proof.
  intros H H'. rewrite !gen_value by assumption. pose proof (low_range f). pose proof (low_range f'). split; [|intros [-> ->]; reflexivity].
  intros E. assert (r = r') by nia. subst. split; [reflexivity|lia].
Qed.
Lemma near_low x y : x <> y -> Z.abs (x - y) < 2 ^ 32 -> low x <> low y.
Proof.
  unfold low. intros Hn Ha He. pose proof (Z.div_mod x (2 ^ 32) ltac:(lia)) as Hx. pose proof (Z.div_mod y (2 ^ 32) ltac:(lia)) as Hy.
  rewrite He in Hx. assert (x - y = 2 ^ 32 * (x / 2 ^ 32 - y / 2 ^ 32)) by lia. nia.
Qed.

Section W.
Variables rnd fp : Z -> Z.
Let mk (i : Z) : Z := gen_session_id (rnd i) (fp i).
Definition refr (fr : frame) : frame := {| f_func := f_func fr; f_sid := mk (f_sid fr); f_ns := f_ns fr; f_pass := f_pass fr; f_text := f_text fr |}.
Definition restack (st : stacks) : stacks := fun t => map refr (st t).
Lemma re_call st t fr : same (restack (upds st t (fr :: st t))) (upds (restack st) t (refr fr :: restack st t)).
Proof. intros x. unfold restack, upds. destruct (x =? t); reflexivity. Qed.
Lemma re_upd st t l : same (restack (upds st t l)) (upds (restack st) t (map refr l)).
Proof. intros x. unfold restack, upds. destruct (x =? t); reflexivity. Qed.
Lemma fresh_draws h : forall st, (forall t fr, In fr (st t) -> 0 <= rnd (f_sid fr) < 2 ^ 32) -> good_draws rnd fp st h -> fresh_ids (restack st) (with_ids mk h).
Proof.
  induction h as [|[t f i ns pass txt|t f ns txt] h IH]; intros st Hr Hg; [exact I|..]; cbn [good_draws with_ids map fresh_ids] in *; fold (with_ids mk h).
  - destruct Hg as (Hi & Hf & Hz & Hd & Hg). split; [exact (gen_range _ _ Hi Hz)|]. split.
    + intros Hp (t' & fr' & Hin & Hpf & Hsid). unfold restack in Hin. apply in_map_iff in Hin as (fr & <- & Hin). cbn [refr f_pass f_sid] in *.
      unfold mk in Hsid. apply gen_inj in Hsid; [|exact (Hr t' fr Hin)|exact Hi]. destruct Hsid as [E1 E2].
      specialize (Hd Hp t' fr Hin Hpf). unfold differs in Hd. destruct (t' =? t); [|destruct Hd as [Hd|Hd]; congruence].
      destruct Hd as [Hd1 Hd2]. apply (near_low _ _ Hd1 Hd2). congruence.
    + apply IH in Hg.
      * revert Hg. apply fresh_same. apply re_call.
      * intros t' fr. unfold upds. destruct (t' =? t); [|apply Hr]. intros [<-|Hin]; [exact Hi|exact (Hr t fr Hin)].
  - apply IH in Hg.
    + revert Hg. apply fresh_same. intros x. rewrite re_upd. unfold restack at 3. destruct (st t); reflexivity.
    + intros t' fr. unfold upds. destruct (t' =? t); [|apply Hr]. intros Hin. apply (Hr t fr). destruct (st t); [destruct Hin|right; exact Hin].
Qed.
Lemma nested_ids h : forall st, nested st h -> nested (restack st) (with_ids mk h).
Proof.
  induction h as [|[t f i ns pass txt|t f ns txt] h IH]; intros st Hn; [exact I|..]; cbn [nested with_ids map] in *; fold (with_ids mk h).
  - apply IH in Hn. revert Hn. apply nested_same. apply re_call.
  - change (restack st t) with (map refr (st t)). destruct (st t) as [|fr l] eqn:E; cbn [map].
    + apply IH. exact Hn.
    + destruct Hn as [Hf Hn]. split; [exact Hf|]. apply IH in Hn. revert Hn. apply nested_same. apply re_upd.
Qed.
Lemma open_ids st t f : open_calls (restack st) t f = map refr (open_calls st t f).
Proof.
  unfold open_calls, restack. induction (st t) as [|fr l IH]; [reflexivity|]. cbn [map filter refr f_func f_pass].
  destruct ((f_func fr =? f) && f_pass fr); cbn [map]; rewrite IH; reflexivity.
Qed.
Lemma within_ids h : forall st, within_limits st h -> within_limits (restack st) (with_ids mk h).
Proof.
  induction h as [|[t f i ns pass txt|t f ns txt] h IH]; intros st Hw; [exact I|..]; cbn [within_limits with_ids map] in *; fold (with_ids mk h).
  - destruct Hw as (H1 & H2 & Hw). rewrite open_ids, map_length. split; [|split].
    + intros Hp. destruct (H1 Hp) as (Hl & ks & Hk & Hc). split; [exact Hl|]. exists ks. split; [exact Hk|]. intros t' f'. rewrite open_ids. intros Hx. apply Hc.
      intros E. apply Hx. rewrite E. reflexivity.
    + intros Hp. rewrite (H2 Hp). reflexivity.
    + apply IH in Hw. revert Hw. apply within_same. apply re_call.
  - apply IH in Hw. revert Hw. apply within_same. intros x. rewrite re_upd. unfold restack at 3. destruct (st t); reflexivity.
Qed.
Lemma expected_ids dur delta h : forall st, expected dur delta (restack st) (with_ids mk h) = expected dur delta st h.
Proof.
  induction h as [|[t f i ns pass txt|t f ns txt] h IH]; intros st; [reflexivity|..]; cbn [expected with_ids map]; fold (with_ids mk h).
  - rewrite <- IH. apply expected_same. intros x. symmetry. apply re_call.
  - change (restack st t) with (map refr (st t)). destruct (st t) as [|fr l] eqn:E; cbn [map]; [apply IH|]. cbn [refr f_ns f_pass f_text]. f_equal.
    rewrite <- IH. apply expected_same. intros x. symmetry. apply re_upd.
Qed.
Lemma ids_pair delta h : nested no_calls h -> within_limits no_calls h -> good_draws rnd fp no_calls h ->
  printed delta (ring_map [] (with_ids mk h)) = expected dur32 delta no_calls h.
Proof.
  intros Hn Hw Hg. rewrite map_mode_pairs; [exact (expected_ids dur32 delta h no_calls)|exact (nested_ids h no_calls Hn)| |exact (within_ids h no_calls Hw)].
  apply (fresh_draws h no_calls); [intros t fr []|exact Hg].
Qed.
End W.

Lemma x86_frame mem f func_ip : 0 <= fr_args f < 16 -> mem (fp_x86 f) = Some (fr_caller f) ->
  caller_fp_x86 mem false func_ip (fr_ctx f) (fr_args f) (fr_ret f) = fr_caller f.
Proof.
  intros Ha Hm. unfold caller_fp_x86, tramp_fp_x86, get_ptr, probe_read. change 15 with (Z.ones 4). rewrite Z.land_ones by lia. rewrite Z.mod_small by (change (2 ^ 4) with 16; lia).
  unfold fp_x86, args_end in Hm. rewrite (Z.mul_comm 8) in Hm. rewrite Hm. reflexivity.
Qed.
Lemma detect_none mem ptr ip n : ip <> 0 -> ip <> efault -> forall i, detect_loop mem ptr ip i n = (None, ptr).
Proof.
  intros H0 H1. induction n as [|n IH]; intros i; [reflexivity|]. cbn [detect_loop]. unfold probe_read.
  destruct (mem (ptr + i * 8)); cbn [fst]; [destruct (Z.eqb_spec 0 ip)|destruct (Z.eqb_spec efault ip)]; try congruence; apply IH.
Qed.
Lemma arm_frame mem f func_ip ip : 0 <= fr_args f < 16 -> 0 < ip < 2 ^ 64 - 4096 -> 0 <= fr_pad f ->
  tramp_fp_arm mem 0 (fr_ctx f) (fr_args f) ip (fr_ret f) = (0, fp_arm f - 8 * fr_pad f) /\
  fst (caller_fp_arm mem false func_ip 0 (fr_ctx f) (fr_args f) ip (fr_ret f)) = 0.
Proof.
  intros Ha Hip Hp. assert (E : tramp_fp_arm mem 0 (fr_ctx f) (fr_args f) ip (fr_ret f) = (0, fp_arm f - 8 * fr_pad f)).
  { unfold tramp_fp_arm. cbn [negb Z.eqb]. unfold detect_tramp_fp. rewrite detect_none; [|lia|unfold efault; lia].
    f_equal. unfold get_ptr, fp_arm, args_end. change 15 with (Z.ones 4). rewrite Z.land_ones by lia. rewrite Z.mod_small by (change (2 ^ 4) with 16; lia). lia. }
  split; [exact E|]. unfold caller_fp_arm. rewrite E. reflexivity.
Qed.
Lemma arm_nopad mem f func_ip ip : 0 <= fr_args f < 16 -> 0 < ip < 2 ^ 64 - 4096 -> fr_pad f = 0 -> mem (fp_arm f) = Some (fr_caller f) ->
  caller_fp_arm mem false func_ip 0 (fr_ctx f) (fr_args f) ip (fr_ret f) = (0, fr_caller f).
Proof.
  intros Ha Hip Hp Hm. unfold caller_fp_arm, tramp_fp_arm. cbn [negb Z.eqb]. unfold detect_tramp_fp. rewrite detect_none; [|lia|unfold efault; lia].
  unfold probe_read. replace (get_ptr (fr_ctx f) (fr_args f) (fr_ret f) + 16) with (fp_arm f); [rewrite Hm; reflexivity|].
  unfold get_ptr, fp_arm, args_end. rewrite Hp. change 15 with (Z.ones 4). rewrite Z.land_ones by lia. rewrite Z.mod_small by (change (2 ^ 4) with 16; lia). lia.
Qed.
Lemma x86_unreadable mem f func_ip : 0 <= fr_args f < 16 -> mem (fp_x86 f) = None ->
  caller_fp_x86 mem false func_ip (fr_ctx f) (fr_args f) (fr_ret f) = 0 /\
  exists err, probe_read mem (fp_x86 f) = (err, 0) /\ 0 <= err < 2 ^ 64 /\ err - 2 ^ 64 = -14.
Proof.
  intros Ha Hm. split.
  - unfold caller_fp_x86, tramp_fp_x86, get_ptr, probe_read. change 15 with (Z.ones 4). rewrite Z.land_ones by lia. rewrite Z.mod_small by (change (2 ^ 4) with 16; lia).
    unfold fp_x86, args_end in Hm. rewrite (Z.mul_comm 8) in Hm. rewrite Hm. reflexivity.
  - exists efault. unfold probe_read. rewrite Hm. unfold efault. split; [reflexivity|]. split; [split; [discriminate|reflexivity]|reflexivity].
Qed.
