(** * Proofs about tracepoints. *)
From Coq Require Import List Bool String Ascii ZArith Arith Lia Permutation.
From Verif Require Import M_Go P_Go M_Flags M_Kfuncs S_Kfuncs P_Kfuncs M_Tp S_Tp.
Open Scope string_scope.
Import ListNotations.
Open Scope list_scope.
Open Scope Z_scope.

Lemma fold_put {A K V} eqb (H : eqb_ok eqb) (key : A -> K) (val : A -> V) (skip : A -> bool) l : forall m : list (K * V),
  (forall a b, In a l -> In b l -> skip a = false -> skip b = false -> key a = key b -> val a = val b) -> forall n v,
  aget eqb n (fold_left (fun m a => if skip a then m else aput eqb (key a) (val a) m) l m) = Some v <->
  (exists a, In a l /\ skip a = false /\ key a = n /\ val a = v) \/
  ((forall a, In a l -> skip a = false -> key a <> n) /\ aget eqb n m = Some v).
Proof.
  induction l as [|a l IH]; intros m Hc n v; cbn [fold_left].
  - split; [intros X; right; split; [intros a []|exact X]|]. intros [(a & [] & _)|[_ X]]; exact X.
  - rewrite IH by (intros x y Hx Hy; apply Hc; right; assumption).
    split.
    + intros [(x & Hx & R)|[Hno Hm]]; [left; exists x; split; [right; exact Hx|exact R]|].
      destruct (skip a) eqn:Es.
      * right. split; [|exact Hm]. intros x [<-|Hx] Hs; [congruence|apply Hno; assumption].
      * rewrite (aget_aput _ H) in Hm. destruct (H n (key a)) as [->|Hn].
        -- injection Hm as <-. left. exists a. cbn. auto.
        -- right. split; [|exact Hm]. intros x [<-|Hx] Hs; [congruence|apply Hno; assumption].
    + intros [(x & [<-|Hx] & Hs & Hk & Hv)|[Hno Hm]].
      * destruct (existsb (fun b => negb (skip b) && eqb (key b) n) l) eqn:E.
        -- apply existsb_exists in E. destruct E as (b & Hb & E). apply andb_prop in E. destruct E as [E1 E2]. apply negb_true_iff in E1.
           destruct (H (key b) n) as [E3|]; [|discriminate]. left. exists b. split; [exact Hb|]. split; [exact E1|]. split; [exact E3|].
           rewrite <- Hv. apply Hc; cbn; auto. congruence.
        -- right. split.
           ++ intros b Hb Hsb Hkb. assert (X : existsb (fun b => negb (skip b) && eqb (key b) n) l = true); [|congruence].
              apply existsb_exists. exists b. split; [exact Hb|]. rewrite Hsb. cbn [negb andb]. destruct (H (key b) n); [reflexivity|contradiction].
           ++ rewrite Hs, (aget_aput _ H), Hk. destruct (H n n); [|contradiction]. rewrite Hv. reflexivity.
      * left. exists x. auto.
      * right. split; [intros x Hx; apply Hno; right; exact Hx|]. destruct (skip a) eqn:Es; [exact Hm|].
        rewrite (aget_aput _ H). destruct (H n (key a)) as [E|]; [|exact Hm]. exfalso. apply (Hno a (or_introl eq_refl) Es). auto.
Qed.
Lemma fold_put_nodup {A K V} eqb (H : eqb_ok eqb) (key : A -> K) (val : A -> V) (skip : A -> bool) l : forall m : list (K * V),
  NoDup (keys m) -> NoDup (keys (fold_left (fun m a => if skip a then m else aput eqb (key a) (val a) m) l m)).
Proof. induction l as [|a l IH]; intros m Hm; cbn [fold_left]; [exact Hm|]. apply IH. destruct (skip a); [exact Hm|apply NoDup_aput; assumption]. Qed.
Lemma take_short s : forall n, (String.length s <= n)%nat -> take n s = s.
Proof. induction s as [|c s IH]; intros [|n] Hn; cbn in *; [reflexivity|reflexivity|lia|]. f_equal. apply IH. lia. Qed.
Lemma take_length n : forall s, (String.length (take n s) <= n)%nat.
Proof. induction n as [|n IH]; intros [|c s]; cbn; [lia|lia|lia|]. specialize (IH s). lia. Qed.

(** ** the probe *)
Section Probe.
  Variable table : Z -> raw_tp.
  Variable size : Z.
  Hypothesis Hsize : 0 < size.
  Definition rec_of (r : raw_tp) : string * Z * Z := (take 63 (r_name r), r_sym r, r_nargs r).
  Lemma bpf_probe_in n : forall i cnt btp, 0 <= btp -> btp + size * Z.of_nat n < 2 ^ 64 -> forall x,
    In x (bpf_probe table size i n cnt btp) <->
    (exists j, 0 <= j < Z.of_nat n /\ Z.of_nat i + j < cnt /\ x = rec_of (table (btp + size * j))) \/
    (cnt < Z.of_nat i + Z.of_nat n /\ (0 < n)%nat /\ x = (EmptyString, 0, 0)).
  Proof.
    induction n as [|n IH]; intros i cnt btp Hb Hw x.
    - cbn [bpf_probe]. split; [intros []|]. intros [(j & Hj & _)|(_ & Hn & _)]; lia.
    - cbn [bpf_probe]. destruct (Z.ltb_spec (Z.of_nat i) cnt) as [Hi|Hi].
      + cbn [In]. assert (Eu : u64 (btp + size) = btp + size) by (unfold u64; change W64 with (2 ^ 64); apply Z.mod_small; nia).
        rewrite Eu, IH by nia. split.
        * intros [<-|[(j & Hj & Hc & ->)|(Hc & Hn & ->)]].
          -- left. exists 0. replace (btp + size * 0) with btp by lia. repeat split; lia.
          -- left. exists (j + 1). replace (btp + size * (j + 1)) with (btp + size + size * j) by lia. repeat split; lia.
          -- right. repeat split; lia.
        * intros [(j & Hj & Hc & ->)|(Hc & Hn & ->)].
          -- destruct (Z.eq_dec j 0) as [->|Hn]; [left; replace (btp + size * 0) with btp by lia; reflexivity|].
             right. left. exists (j - 1). replace (btp + size + size * (j - 1)) with (btp + size * j) by lia. repeat split; lia.
          -- right. right. repeat split; lia.
      + change (repeat (EmptyString, 0, 0) (S n)) with (repeat (EmptyString, 0, 0) (S n)). split.
        * intros Hx. apply repeat_spec in Hx. right. repeat split; [lia|lia|exact Hx].
        * intros [(j & Hj & Hc & _)|(_ & _ & ->)]; [lia|left; reflexivity].
  Qed.
  (** only records with a symbol count: [cnt <= 256] of them, from [start] *)
  Lemma probe_infos_ok start cnt : 0 <= start -> start + size * 256 < 2 ^ 64 \/ True -> 0 <= cnt <= 256 -> start + size * 256 < 2 ^ 64 ->
    (forall i j, 0 <= i < cnt -> 0 <= j < cnt -> live (entry table start size i) -> live (entry table start size j) ->
       take 63 (r_name (entry table start size i)) = take 63 (r_name (entry table start size j)) -> i = j) ->
    NoDup (keys (probe_infos table size start cnt)) /\
    forall n v, aget String.eqb n (probe_infos table size start cnt) = Some v <->
      exists i, 0 <= i < cnt /\ live (entry table start size i) /\ n = take 63 (r_name (entry table start size i)) /\
        v = (r_sym (entry table start size i), r_nargs (entry table start size i)).
  Proof.
    intros Hs _ Hc Hw Hd. unfold probe_infos.
    assert (E : forall l m, fold_left (fun m r => let '(nm, sym, na) := r in if sym =? 0 then m else aput String.eqb nm (sym, na) m) l m =
      fold_left (fun m (r : string * Z * Z) => if snd (fst r) =? 0 then m else aput String.eqb (fst (fst r)) (snd (fst r), snd r) m) l m).
    { induction l as [|[[nm sym] na] l IH]; intros m; cbn [fold_left]; [reflexivity|]. cbn [fst snd]. apply IH. }
    rewrite E. split; [apply (fold_put_nodup _ Seqb_ok); constructor|]. intros n v.
    assert (Hin : forall x, In x (bpf_probe table size 0 256 cnt start) -> (snd (fst x) =? 0) = false ->
      exists i, 0 <= i < cnt /\ live (entry table start size i) /\ x = rec_of (entry table start size i)).
    { intros x Hx Hn. apply (bpf_probe_in 256 0 cnt start Hs Hw) in Hx. destruct Hx as [(j & Hj & Hjc & ->)|(_ & _ & ->)]; [|cbn in Hn; discriminate].
      exists j. split; [lia|]. split; [|reflexivity]. unfold live. cbn in Hn. apply Z.eqb_neq. exact Hn. }
    rewrite (fold_put _ Seqb_ok).
    - split.
      + intros [(x & Hx & Hn & <- & <-)|[_ X]]; [|discriminate]. destruct (Hin x Hx Hn) as (i & Hi & Hl & ->). exists i. cbn. auto.
      + intros (i & Hi & Hl & -> & ->). left. exists (rec_of (entry table start size i)). split; [|split; [|split; reflexivity]].
        * apply (bpf_probe_in 256 0 cnt start Hs Hw). left. exists i. repeat split; lia.
        * cbn. apply Z.eqb_neq. exact Hl.
    - intros a b Ha Hb Na Nb Hk. destruct (Hin a Ha Na) as (i & Hi & Hli & ->). destruct (Hin b Hb Nb) as (j & Hj & Hlj & ->). cbn in Hk |- *.
      rewrite (Hd i j Hi Hj Hli Hlj Hk). reflexivity.
  Qed.

  Variable a2s : Z -> option string.
  Variable btf_fn : string -> option func.
  Definition info_of (n : string) (v : Z * Z) (t : tp_info) : Prop :=
    exists s fn, a2s (fst v) = Some s /\ btf_fn s = Some fn /\ t = {| t_name := n; t_kmod := EmptyString; t_sym := fst v; t_nargs := snd v; t_fn := fn |}.
  Lemma resolve_none l : fold_left (resolve a2s btf_fn) l None = None.
  Proof. induction l as [|x l IH]; [reflexivity|]. cbn [fold_left]. exact IH. Qed.
  Lemma resolve_ok l : forall m, NoDup (keys l) -> (forall n v, In (n, v) l -> exists t, info_of n v t) ->
    exists m', fold_left (resolve a2s btf_fn) l (Some m) = Some m' /\ forall n t,
      aget String.eqb n m' = Some t <-> (exists v, In (n, v) l /\ info_of n v t) \/ (~ In n (keys l) /\ aget String.eqb n m = Some t).
  Proof.
    induction l as [|[n0 v0] l IH]; intros m Hnd Hall.
    - exists m. split; [reflexivity|]. intros n t. split; [intros X; right; split; [intros []|exact X]|]. intros [(v & [] & _)|[_ X]]; exact X.
    - inversion Hnd as [|? ? Hni Hnd']; subst. destruct (Hall n0 v0 (or_introl eq_refl)) as (t0 & s & fn & E1 & E2 & E3).
      destruct (IH (aput String.eqb n0 t0 m) Hnd' ltac:(intros n v Hv; apply Hall; right; exact Hv)) as (m' & Em & Hm').
      exists m'. split; [cbn [fold_left resolve fst snd]; rewrite E1, E2, <- E3; exact Em|].
      intros n t. rewrite Hm'. cbn [keys map fst In]. rewrite (aget_aput _ Seqb_ok).
      split.
      + intros [(v & Hv & Hi)|[Hn Hg]]; [left; exists v; auto|]. destruct (String.eqb_spec n n0) as [->|Hne].
        * injection Hg as <-. left. exists v0. split; [left; reflexivity|]. exists s, fn. auto.
        * right. split; [intros [X|X]; [congruence|contradiction]|exact Hg].
      + intros [(v & [E|Hv] & Hi)|[Hn Hg]].
        * injection E as -> ->. right. split; [exact Hni|]. rewrite String.eqb_refl. f_equal.
          destruct Hi as (s' & fn' & F1 & F2 & ->). rewrite E1 in F1. injection F1 as <-. rewrite E2 in F2. injection F2 as <-. exact E3.
        * left. exists v. auto.
        * right. split; [intros X; apply Hn; right; exact X|]. destruct (String.eqb_spec n n0) as [->|]; [exfalso; apply Hn; left; reflexivity|exact Hg].
  Qed.
  Lemma resolve_bad l : forall m x, In x l -> (forall t, ~ info_of (fst x) (snd x) t) -> fold_left (resolve a2s btf_fn) l (Some m) = None.
  Proof.
    induction l as [|x0 l IH]; intros m x Hin Hb; [destruct Hin|destruct Hin as [<-|Hx]].
    - cbn [fold_left resolve]. destruct (a2s (fst (snd x0))) as [s|] eqn:E1; [|apply resolve_none].
      destruct (btf_fn s) as [fn|] eqn:E2; [|apply resolve_none]. exfalso. eapply Hb. exists s, fn. eauto.
    - cbn [fold_left resolve]. destruct (a2s (fst (snd x0))) as [s|]; [|apply resolve_none]. destruct (btf_fn s); [|apply resolve_none].
      eapply IH; eauto.
  Qed.

  Variable order : list (string * (Z * Z)) -> list (string * (Z * Z)).
  Hypothesis Horder : forall l, Permutation (order l) l.
  Variables (start total : Z).
  Hypothesis Hs : 0 <= start.
  Hypothesis Hw : start + size * (total + 256) < 2 ^ 64.
  Hypothesis Hd : forall i j, 0 <= i < total -> 0 <= j < total -> live (entry table start size i) -> live (entry table start size j) ->
       take 63 (r_name (entry table start size i)) = take 63 (r_name (entry table start size j)) -> i = j.
  Definition tp_of (i : Z) (n : string) (t : tp_info) : Prop :=
    live (entry table start size i) /\ n = take 63 (r_name (entry table start size i)) /\
    info_of n (r_sym (entry table start size i), r_nargs (entry table start size i)) t.
  Lemma entry_shift k i : entry table (start + size * k) size i = entry table start size (k + i).
  Proof. unfold entry. f_equal. lia. Qed.
  Lemma keys_perm (l : list (string * (Z * Z))) : NoDup (keys l) -> NoDup (keys (order l)).
  Proof. intros Hn. unfold keys in *. eapply Permutation_NoDup; [apply Permutation_map, Permutation_sym, Horder|exact Hn]. Qed.
  Lemma batch k cnt : 0 <= k -> cnt = Z.min (total - k) 256 -> k < total ->
    NoDup (keys (order (probe_infos table size (start + size * k) cnt))) /\
    forall n v, In (n, v) (order (probe_infos table size (start + size * k) cnt)) <->
      exists i, k <= i < k + cnt /\ live (entry table start size i) /\ n = take 63 (r_name (entry table start size i)) /\
        v = (r_sym (entry table start size i), r_nargs (entry table start size i)).
  Proof.
    intros Hk -> Hkt.
    destruct (probe_infos_ok (start + size * k) (Z.min (total - k) 256)) as [H1 H2]; [nia|right; exact I|lia|nia| |].
    { intros i j Hi Hj. rewrite !entry_shift. intros Hli Hlj E. assert (k + i = k + j); [|lia]. apply Hd; auto; lia. }
    split; [apply keys_perm; exact H1|]. intros n v.
    assert (X : In (n, v) (order (probe_infos table size (start + size * k) (Z.min (total - k) 256))) <-> aget String.eqb n (probe_infos table size (start + size * k) (Z.min (total - k) 256)) = Some v).
    { split.
      - intros Hi. apply (Permutation_in _ (Horder _)) in Hi. revert Hi H1. generalize (probe_infos table size (start + size * k) (Z.min (total - k) 256)) as l. clear.
        induction l as [|[a b] l IH]; cbn; [tauto|]. intros [E|Hi] Hnd; inversion Hnd; subst.
        + injection E as -> ->. rewrite String.eqb_refl. reflexivity.
        + destruct (String.eqb_spec n a) as [->|]; [|auto]. exfalso. apply H1. change a with (fst (a, v)). apply in_map. exact Hi.
      - intros Hg. apply (Permutation_in _ (Permutation_sym (Horder _))). apply (aget_In _ Seqb_ok). exact Hg. }
    rewrite X, H2. split.
    - intros (i & Hi & Hl & Hn & Hv). rewrite entry_shift in *. exists (k + i). repeat split; auto; lia.
    - intros (i & Hi & Hl & Hn & Hv). exists (i - k). rewrite entry_shift. replace (k + (i - k)) with i by lia. repeat split; auto; lia.
  Qed.
  Lemma loop_ok n : forall k tps, 0 <= k -> k <= total -> total - k <= Z.of_nat n ->
    (forall i, 0 <= i < total -> live (entry table start size i) -> exists fn, resolved a2s btf_fn (entry table start size i) fn) ->
    (forall nm t, aget String.eqb nm tps = Some t <-> exists i, 0 <= i < k /\ tp_of i nm t) ->
    exists m, probe_loop table size a2s btf_fn order n size (start + size * k) (total - k) tps = Some m /\
      forall nm t, aget String.eqb nm m = Some t <-> exists i, 0 <= i < total /\ tp_of i nm t.
  Proof.
    induction n as [|n IH]; intros k tps Hk Hkt Hn Hres Htps.
    - assert (k = total) by lia. subst k. exists tps. split; [|exact Htps]. cbn [probe_loop]. rewrite Z.sub_diag. reflexivity.
    - cbn [probe_loop]. destruct (Z.leb_spec (total - k) 0).
      + assert (k = total) by lia. subst k. exists tps. split; [reflexivity|exact Htps].
      + cbv zeta. set (cnt := Z.min (total - k) 256). destruct (batch k cnt Hk eq_refl ltac:(lia)) as [B1 B2].
        destruct (resolve_ok (order (probe_infos table size (start + size * k) cnt)) tps B1) as (m' & Em & Hm').
        { intros nm v Hv. apply B2 in Hv. destruct Hv as (i & Hi & Hl & Hnm & Hvv). subst cnt.
          destruct (Hres i ltac:(lia) Hl) as (fn & s & E1 & E2). eexists. exists s, fn. rewrite Hvv. cbn [fst]. eauto. }
        rewrite Em.
        assert (Eu : u64 (start + size * k + size * cnt) = start + size * (k + cnt)).
        { unfold u64. change W64 with (2 ^ 64). rewrite Z.mod_small; subst cnt; nia. }
        rewrite Eu. replace (total - k - cnt) with (total - (k + cnt)) by lia.
        apply IH; [subst cnt; lia|subst cnt; lia|subst cnt; lia|exact Hres|].
        intros nm t. rewrite Hm'. split.
        * intros [(v & Hv & Hi)|[_ Hg]].
          -- apply B2 in Hv. destruct Hv as (i & Hi' & Hl & Hnm & ->). exists i. split; [lia|]. split; [exact Hl|]. split; [exact Hnm|exact Hi].
          -- apply Htps in Hg. destruct Hg as (i & Hi & Ht). exists i. split; [subst cnt; lia|exact Ht].
        * intros (i & Hi & Hl & Hnm & Hinf). destruct (Z_lt_le_dec i k).
          -- right. split.
             ++ intros Hin. unfold keys in Hin. apply in_map_iff in Hin. destruct Hin as ([n1 v1] & E & Hin). cbn [fst] in E. subst n1.
                apply B2 in Hin. destruct Hin as (j & Hj & Hlj & Hnj & _). assert (i = j); [|lia].
                apply Hd; [subst cnt; lia|subst cnt; lia|exact Hl|exact Hlj|congruence].
             ++ apply Htps. exists i. split; [lia|]. split; [exact Hl|]. split; [exact Hnm|exact Hinf].
          -- left. exists (r_sym (entry table start size i), r_nargs (entry table start size i)). split; [|exact Hinf].
             apply B2. exists i. repeat split; auto; lia.
  Qed.
  Lemma loop_bad n : forall k tps i, 0 <= k <= i -> i < total -> live (entry table start size i) ->
    (forall fn, ~ resolved a2s btf_fn (entry table start size i) fn) ->
    probe_loop table size a2s btf_fn order n size (start + size * k) (total - k) tps = None.
  Proof.
    induction n as [|n IH]; intros k tps i Hk Hi Hl Hbad; cbn [probe_loop]; (destruct (Z.leb_spec (total - k) 0); [lia|]); [reflexivity|].
    cbv zeta. set (cnt := Z.min (total - k) 256). destruct (batch k cnt ltac:(lia) eq_refl ltac:(lia)) as [B1 B2].
    destruct (Z_lt_le_dec i (k + cnt)) as [Hlt|Hge].
    - rewrite (resolve_bad _ tps (take 63 (r_name (entry table start size i)), (r_sym (entry table start size i), r_nargs (entry table start size i)))); [reflexivity| |].
      + apply B2. exists i. repeat split; auto; lia.
      + intros t (s & fn & E1 & E2 & _). apply (Hbad fn). exists s. cbn in E1. auto.
    - destruct (fold_left _ _ (Some tps)) as [tps'|]; [|reflexivity].
      assert (Eu : u64 (start + size * k + size * cnt) = start + size * (k + cnt)).
      { unfold u64. change W64 with (2 ^ 64). rewrite Z.mod_small; subst cnt; nia. }
      rewrite Eu. replace (total - k - cnt) with (total - (k + cnt)) by lia. apply (IH (k + cnt) tps' i); auto. subst cnt. lia.
  Qed.
End Probe.

Lemma good_take table start size total : good_names table start size total -> forall i j, 0 <= i < total -> 0 <= j < total ->
  live (entry table start size i) -> live (entry table start size j) ->
  take 63 (r_name (entry table start size i)) = take 63 (r_name (entry table start size j)) -> i = j.
Proof.
  intros [H1 H2] i j Hi Hj Hli Hlj E. pose proof (H1 i Hi Hli). pose proof (H1 j Hj Hlj). rewrite !take_short in E by lia. apply H2; auto.
Qed.
Lemma probe_ok table size a2s btf_fn order start total : 0 < size -> (forall l, Permutation (order l) l) -> 0 <= start -> 0 <= total ->
  start + size * (total + 256) < 2 ^ 64 -> good_names table start size total ->
  (forall i, 0 <= i < total -> live (entry table start size i) -> exists fn, resolved a2s btf_fn (entry table start size i) fn) ->
  exists m, probe_tracepoints table size a2s btf_fn order size start total = Some m /\
    forall n t, aget String.eqb n m = Some t <->
      exists i fn, 0 <= i < total /\ live (entry table start size i) /\ r_name (entry table start size i) = n /\
        resolved a2s btf_fn (entry table start size i) fn /\
        t = {| t_name := n; t_kmod := EmptyString; t_sym := r_sym (entry table start size i); t_nargs := r_nargs (entry table start size i); t_fn := fn |}.
Proof.
  intros Hsz Ho Hs Ht Hw Hg Hres. unfold probe_tracepoints. destruct (Z.eqb_spec size 0); [lia|].
  destruct (loop_ok table size Hsz a2s btf_fn order Ho start total Hs Hw (good_take _ _ _ _ Hg) (Z.to_nat total) 0 []) as (m & Em & Hm); [lia|lia|lia|exact Hres| |].
  { intros nm t. split; [discriminate|]. intros (i & Hi & _). lia. }
  rewrite Z.mul_0_r, Z.add_0_r, Z.sub_0_r in Em. exists m. split; [exact Em|]. intros n0 t. rewrite Hm. split.
  - intros (i & Hi & Hl & Hn & s & fn & E1 & E2 & ->). exists i, fn. rewrite take_short in Hn by (pose proof (proj1 Hg i Hi Hl); lia).
    split; [exact Hi|]. split; [exact Hl|]. split; [auto|]. split; [exists s; auto|reflexivity].
  - intros (i & fn & Hi & Hl & <- & (s & E1 & E2) & ->). exists i. split; [exact Hi|]. split; [exact Hl|].
    split; [symmetry; apply take_short; pose proof (proj1 Hg i Hi Hl); lia|]. exists s, fn. auto.
Qed.
Lemma probe_bad table size a2s btf_fn order start total i : 0 < size -> (forall l, Permutation (order l) l) -> 0 <= start ->
  start + size * (total + 256) < 2 ^ 64 -> good_names table start size total ->
  0 <= i < total -> live (entry table start size i) -> (forall fn, ~ resolved a2s btf_fn (entry table start size i) fn) ->
  probe_tracepoints table size a2s btf_fn order size start total = None.
Proof.
  intros Hsz Ho Hs Hw Hg Hi Hl Hb. unfold probe_tracepoints. destruct (Z.eqb_spec size 0); [lia|].
  pose proof (loop_bad table size Hsz a2s btf_fn order Ho start total Hs Hw (good_take _ _ _ _ Hg) (Z.to_nat total) 0 [] i ltac:(lia) ltac:(lia) Hl Hb) as H.
  rewrite Z.mul_0_r, Z.add_0_r, Z.sub_0_r in H. exact H.
Qed.
(** names of 64 characters or more are never there *)
Lemma probe_short table csize a2s btf_fn order size n : (forall l, Permutation (order l) l) -> forall start total tps m,
  (forall nm t, aget String.eqb nm tps = Some t -> (String.length nm < 64)%nat) ->
  probe_loop table csize a2s btf_fn order n size start total tps = Some m -> forall nm t, aget String.eqb nm m = Some t -> (String.length nm < 64)%nat.
Proof.
  intros Ho. induction n as [|n IH]; intros start total tps m Htps E; cbn [probe_loop] in E; (destruct (total <=? 0); [injection E as <-; exact Htps|]); [discriminate|].
  cbv zeta in E. destruct (fold_left _ _ (Some tps)) as [tps'|] eqn:Ef; [|discriminate]. eapply IH; [|exact E].
  assert (Hk : forall x, In x (order (probe_infos table csize start (Z.min total 256))) -> (String.length (fst x) < 64)%nat).
  { intros x Hx. apply (Permutation_in _ (Ho _)) in Hx. revert x Hx. unfold probe_infos.
    assert (Hb : forall k i cnt btp x, In x (bpf_probe table csize i k cnt btp) -> (String.length (fst (fst x)) < 64)%nat).
    { induction k as [|k IHk]; intros i cnt btp x Hx; cbn [bpf_probe] in Hx; [contradiction|]. destruct (_ <? cnt).
      - destruct Hx as [<-|Hx]; [cbn [fst]; pose proof (take_length 63 (r_name (table btp))); lia|eapply IHk; exact Hx].
      - apply repeat_spec in Hx. subst x. cbn. lia. }
    assert (Hf : forall (l : list (string * Z * Z)) (m : list (string * (Z * Z))), (forall x, In x l -> (String.length (fst (fst x)) < 64)%nat) -> (forall x, In x m -> (String.length (fst x) < 64)%nat) -> forall x,
      In x (fold_left (fun (m : list (string * (Z * Z))) (r : string * Z * Z) => let '(nm, sym, na) := r in if sym =? 0 then m else aput String.eqb nm (sym, na) m) l m) -> (String.length (fst x) < 64)%nat).
    { induction l as [|[[nm sym] na] l IHl]; intros m0 Hl Hm x; cbn [fold_left]; [apply Hm|]. apply IHl; [intros y Hy; apply Hl; right; exact Hy|].
      destruct (sym =? 0); [exact Hm|]. intros y Hy. assert (Hky : In (fst y) (keys (aput String.eqb nm (sym, na) m0))) by (apply in_map; exact Hy).
      apply (keys_aput _ Seqb_ok) in Hky. destruct Hky as [->|Hky]; [apply (Hl (nm, sym, na)); left; reflexivity|].
      unfold keys in Hky. apply in_map_iff in Hky. destruct Hky as (z & Ez & Hz). rewrite <- Ez. apply Hm. exact Hz. }
    apply Hf; [apply Hb|intros x []]. }
  revert Ef Hk Htps. generalize (order (probe_infos table csize start (Z.min total 256))) as l. intros l. revert tps.
  induction l as [|x l IHl]; intros tps Ef Hk Htps; cbn [fold_left] in Ef; [injection Ef as <-; exact Htps|].
  destruct (resolve a2s btf_fn (Some tps) x) as [tps1|] eqn:Er; [|rewrite resolve_none in Ef; discriminate].
  apply (IHl tps1 Ef); [intros y Hy; apply Hk; right; exact Hy|].
  unfold resolve in Er. destruct (a2s _); [|discriminate]. destruct (btf_fn _); [|discriminate]. injection Er as <-.
  intros nm t. rewrite (aget_aput _ Seqb_ok). destruct (String.eqb_spec nm (fst x)) as [->|]; [intros _; apply Hk; left; reflexivity|apply Htps].
Qed.
Lemma probe_long table csize a2s btf_fn order size start total m nm : (forall l, Permutation (order l) l) -> (64 <= String.length nm)%nat ->
  probe_tracepoints table csize a2s btf_fn order size start total = Some m -> aget String.eqb nm m = None.
Proof.
  intros Ho Hn E. unfold probe_tracepoints in E. destruct (size =? 0); [discriminate|].
  destruct (aget String.eqb nm m) as [t|] eqn:Eg; [|reflexivity]. exfalso.
  assert (X : (String.length nm < 64)%nat); [|lia]. refine (probe_short _ _ _ _ _ _ _ Ho _ _ _ _ _ E _ _ Eg). intros ? ? Y. discriminate.
Qed.

(** ** modules *)
Lemma walk_all next info head nodes : forall n cur, chain next head cur nodes -> (List.length nodes <= n)%nat ->
  walk next info n head cur = (map (fun a => cut (info a)) nodes, head).
Proof.
  induction nodes as [|a nodes IH]; intros n cur Hc Hn; cbn [chain] in Hc.
  - subst cur. destruct n; cbn [walk map]; [reflexivity|]. rewrite Z.eqb_refl. reflexivity.
  - destruct Hc as (-> & Hne & Hc). destruct n as [|n]; [cbn in Hn; lia|]. cbn [walk map]. destruct (Z.eqb_spec a head); [contradiction|].
    rewrite (IH n (next a) Hc) by (cbn in Hn; lia). reflexivity.
Qed.
Lemma walk_more next info head nodes : forall n cur, chain next head cur nodes -> (n < List.length nodes)%nat -> snd (walk next info n head cur) <> head.
Proof.
  induction nodes as [|a nodes IH]; intros n cur Hc Hn; cbn [chain List.length] in *; [lia|].
  destruct Hc as (-> & Hne & Hc). destruct n as [|n]; cbn [walk]; [exact Hne|]. destruct (Z.eqb_spec a head); [contradiction|].
  destruct (walk next info n head (next a)) as [l e] eqn:E. cbn [snd]. specialize (IH n (next a) Hc ltac:(lia)). rewrite E in IH. exact IH.
Qed.
Lemma mod_list_ok next info head nodes : chain next head (next head) nodes -> (List.length nodes <= 256)%nat ->
  mod_list next info head = Some (map (fun a => cut (info a)) nodes).
Proof. intros Hc Hn. unfold mod_list. rewrite (walk_all next info head nodes 256 (next head) Hc Hn), Z.eqb_refl. reflexivity. Qed.
Lemma mod_list_many next info head nodes : chain next head (next head) nodes -> (256 < List.length nodes)%nat -> mod_list next info head = None.
Proof.
  intros Hc Hn. unfold mod_list. pose proof (walk_more next info head nodes 256 (next head) Hc Hn) as H.
  destruct (walk next info 256 head (next head)) as [l e]. cbn [snd] in H. destruct (Z.eqb_spec e head); [contradiction|reflexivity].
Qed.
Lemma mod_tps_ok probe has_btf ms : forall acc, NoDup (map m_name ms) ->
  (forall m, In m ms -> usable has_btf m = true -> has_btf (m_name m) = 1 /\ exists tps, probe m = Some tps) ->
  exists r, mod_tps probe has_btf ms acc = Some r /\ forall n tps, aget String.eqb n r = Some tps <->
    (exists m, In m ms /\ usable has_btf m = true /\ m_name m = n /\ probe m = Some tps) \/
    ((forall m, In m ms -> usable has_btf m = true -> m_name m <> n) /\ aget String.eqb n acc = Some tps).
Proof.
  induction ms as [|m ms IH]; intros acc Hnd Hall.
  - exists acc. split; [reflexivity|]. intros n tps. split; [intros X; right; split; [intros m []|exact X]|]. intros [(m & [] & _)|[_ X]]; exact X.
  - inversion Hnd as [|? ? Hni Hnd']; subst. assert (Hall' : forall m, In m ms -> usable has_btf m = true -> has_btf (m_name m) = 1 /\ exists tps, probe m = Some tps) by (intros x Hx; exact (Hall x (or_intror Hx))).
    cbn [mod_tps].
    assert (Hskip : usable has_btf m = false -> exists r, mod_tps probe has_btf ms acc = Some r /\ forall n tps, aget String.eqb n r = Some tps <->
      (exists m0, In m0 (m :: ms) /\ usable has_btf m0 = true /\ m_name m0 = n /\ probe m0 = Some tps) \/
      ((forall m0, In m0 (m :: ms) -> usable has_btf m0 = true -> m_name m0 <> n) /\ aget String.eqb n acc = Some tps)).
    { intros Hu. destruct (IH acc Hnd' Hall') as (r & Er & Hr). exists r. split; [exact Er|]. intros n tps. rewrite Hr. split.
      - intros [(x & Hx & R)|[Hno Hg]]; [left; exists x; split; [right; exact Hx|exact R]|].
        right. split; [|exact Hg]. intros x [<-|Hx] Hux; [congruence|apply Hno; assumption].
      - intros [(x & [<-|Hx] & Hux & R)|[Hno Hg]]; [congruence|left; exists x; auto|]. right. split; [intros x Hx; apply Hno; right; exact Hx|exact Hg]. }
    destruct ((m_nr m =? 0) || (65536 <? m_nr m)) eqn:E1; [apply Hskip; unfold usable; rewrite E1; reflexivity|].
    destruct (has_btf (m_name m) =? 0) eqn:E2; [apply Hskip; unfold usable; rewrite E1, E2; reflexivity|].
    assert (Hu : usable has_btf m = true) by (unfold usable; rewrite E1, E2; reflexivity).
    destruct (Hall m (or_introl eq_refl) Hu) as (Hb & tps0 & Hp). rewrite Hb, Z.eqb_refl, Hp. cbn [negb].
    destruct (IH (aput String.eqb (m_name m) tps0 acc) Hnd' Hall') as (r & Er & Hr). exists r. split; [exact Er|]. intros n tps. rewrite Hr.
    rewrite (aget_aput _ Seqb_ok). split.
    + intros [(x & Hx & R)|[Hno Hg]]; [left; exists x; split; [right; exact Hx|exact R]|].
      destruct (String.eqb_spec n (m_name m)) as [->|Hne].
      * injection Hg as <-. left. exists m. cbn. auto.
      * right. split; [|exact Hg]. intros x [<-|Hx] Hux; [auto|apply Hno; assumption].
    + intros [(x & [<-|Hx] & Hux & Hn & Hpx)|[Hno Hg]].
      * right. split; [intros y Hy _ E; apply Hni; rewrite <- E in Hn; rewrite Hn; apply in_map; exact Hy|]. rewrite Hn, String.eqb_refl. congruence.
      * left. exists x. auto.
      * right. split; [intros x Hx; apply Hno; right; exact Hx|]. destruct (String.eqb_spec n (m_name m)) as [->|]; [|exact Hg].
        exfalso. exact (Hno m (or_introl eq_refl) Hu eq_refl).
Qed.

(** ** merging *)
Lemma add_mod_get tps x md n : aget String.eqb n (add_mod tps x md) =
  match aget String.eqb n tps with Some t => Some t | None => if String.eqb n (t_name (snd x)) then Some (with_kmod md (snd x)) else None end.
Proof.
  unfold add_mod. destruct (aget String.eqb (t_name (snd x)) tps) as [t0|] eqn:E.
  - destruct (aget String.eqb n tps) eqn:En; [reflexivity|]. destruct (String.eqb_spec n (t_name (snd x))) as [->|]; [congruence|reflexivity].
  - rewrite (aget_aput _ Seqb_ok). destruct (String.eqb_spec n (t_name (snd x))) as [->|]; [rewrite E; reflexivity|]. destruct (aget String.eqb n tps); reflexivity.
Qed.
Lemma add_mods_get md l : forall tps n, (forall k t, In (k, t) l -> t_name t = k) -> NoDup (keys l) ->
  aget String.eqb n (fold_left (fun m x => add_mod m x md) l tps) =
  match aget String.eqb n tps with Some t => Some t | None => option_map (with_kmod md) (aget String.eqb n l) end.
Proof.
  induction l as [|[k t] l IH]; intros tps n Hk Hnd; cbn [fold_left]; [cbn; destruct (aget String.eqb n tps); reflexivity|].
  inversion Hnd; subst. rewrite IH; [|intros k' t' Hi; apply Hk; right; exact Hi|assumption].
  rewrite add_mod_get. cbn [snd]. rewrite (Hk k t (or_introl eq_refl)). destruct (aget String.eqb n tps); [reflexivity|].
  cbn [aget]. destruct (String.eqb n k); reflexivity.
Qed.
Lemma merge_get mods : forall tps n, (forall md l, In (md, l) mods -> NoDup (keys l) /\ forall k t, In (k, t) l -> t_name t = k) ->
  aget String.eqb n (merge_mods tps mods) =
  match aget String.eqb n tps with
  | Some t => Some t
  | None => fold_right (fun md r => match aget String.eqb n (snd md) with Some t => Some (with_kmod (fst md) t) | None => r end) None mods
  end.
Proof.
  unfold merge_mods. induction mods as [|[md l] mods IH]; intros tps n Hw; cbn [fold_left fold_right fst snd]; [destruct (aget String.eqb n tps); reflexivity|].
  destruct (Hw md l (or_introl eq_refl)) as [Hnd Hk]. rewrite IH by (intros md' l' Hi; exact (Hw md' l' (or_intror Hi))).
  rewrite add_mods_get by assumption. destruct (aget String.eqb n tps); [reflexivity|]. destruct (aget String.eqb n l); reflexivity.
Qed.
Lemma merge_vmlinux mods tps n t : wf_mods mods -> aget String.eqb n tps = Some t -> aget String.eqb n (merge_mods tps mods) = Some t.
Proof. intros Hw H. rewrite merge_get by exact Hw. rewrite H. reflexivity. Qed.
Lemma In_get {V} k (v : V) l : NoDup (keys l) -> In (k, v) l -> aget String.eqb k l = Some v.
Proof.
  induction l as [|[a b] l IH]; cbn; [tauto|]. intros Hnd [E|Hi]; inversion Hnd; subst.
  - injection E as -> ->. rewrite String.eqb_refl. reflexivity.
  - destruct (String.eqb_spec k a) as [->|]; [|auto]. exfalso. apply H1. change a with (fst (a, v)). apply in_map. exact Hi.
Qed.
Lemma merge_one mods tps n md t : wf_mods mods -> aget String.eqb n tps = None -> offers mods md n t ->
  (forall md' t', offers mods md' n t' -> md' = md /\ t' = t) -> aget String.eqb n (merge_mods tps mods) = Some (with_kmod md t).
Proof.
  intros Hw H Ho Hu. rewrite merge_get by exact Hw. rewrite H. clear H.
  assert (G : forall ms, (forall x, In x ms -> In x mods) -> (exists l, In (md, l) ms /\ In (n, t) l) ->
    fold_right (fun md r => match aget String.eqb n (snd md) with Some t => Some (with_kmod (fst md) t) | None => r end) None ms = Some (with_kmod md t)).
  { induction ms as [|[md0 l0] ms IH]; intros Hin (l & Hl & Hnl); [destruct Hl|]. cbn [fold_right fst snd].
    destruct (aget String.eqb n l0) as [t0|] eqn:E.
    - destruct (Hu md0 t0) as [-> ->]; [|reflexivity]. exists l0. split; [apply Hin; left; reflexivity|apply (aget_In _ Seqb_ok); exact E].
    - apply IH; [intros x Hx; apply Hin; right; exact Hx|]. destruct Hl as [Eq|Hl]; [|exists l; auto].
      injection Eq as -> ->. exfalso. destruct (Hw md l (Hin _ (or_introl eq_refl))) as [Hnd _]. rewrite (In_get n t l Hnd Hnl) in E. discriminate. }
  apply G; [auto|]. exact Ho.
Qed.
Lemma merge_none mods tps n : wf_mods mods -> aget String.eqb n tps = None -> (forall md t, ~ offers mods md n t) -> aget String.eqb n (merge_mods tps mods) = None.
Proof.
  intros Hw H Hno. rewrite merge_get by exact Hw. rewrite H. clear H.
  assert (G : forall ms, (forall x, In x ms -> In x mods) -> fold_right (fun md r => match aget String.eqb n (snd md) with Some t => Some (with_kmod (fst md) t) | None => r end) None ms = None).
  { induction ms as [|[md0 l0] ms IH]; intros Hin; [reflexivity|]. cbn [fold_right fst snd]. destruct (aget String.eqb n l0) as [t0|] eqn:E.
    - exfalso. apply (Hno md0 t0). exists l0. split; [apply Hin; left; reflexivity|apply (aget_In _ Seqb_ok); exact E].
    - apply IH. intros x Hx. apply Hin. right. exact Hx. }
  apply G. auto.
Qed.
Lemma merge_ambiguous n m1 m2 t1 t2 : t_name t1 = n -> t_name t2 = n -> 
  aget String.eqb n (merge_mods [] [(m1, [(n, t1)]); (m2, [(n, t2)])]) = Some (with_kmod m1 t1) /\
  aget String.eqb n (merge_mods [] [(m2, [(n, t2)]); (m1, [(n, t1)])]) = Some (with_kmod m2 t2).
Proof.
  intros E1 E2. split; (rewrite merge_get; [cbn; rewrite String.eqb_refl; reflexivity|]).
  - intros md l [E|[E|[]]]; injection E as <- <-; (split; [repeat constructor; auto|intros k t [X|[]]; injection X as <- <-; assumption]).
  - intros md l [E|[E|[]]]; injection E as <- <-; (split; [repeat constructor; auto|intros k t [X|[]]; injection X as <- <-; assumption]).
Qed.

(** ** selection *)
Section Select.
  Variable glob : string -> string -> bool.
  Variable mod_btf : string -> bool.
  Variable flags : list kflag.
  Notation chosen := (chosen glob flags).
  Lemma mk_iff n ps f : match_kfunc glob {| fn_name := n; fn_params := ps; fn_ret_struct := false; fn_params_ok := true |} (map no_insn_graph flags) = Some f <->
    exists g, first_fit glob flags g (tp_func n ps) /\ f = tp_flag g.
  Proof.
    change {| fn_name := n; fn_params := ps; fn_ret_struct := false; fn_params_ok := true |} with (tp_func n ps). rewrite match_kfunc_iff.
    unfold first_fit. split.
    - intros (l1 & l2 & E & Hf & Hn). apply map_eq_app in E. destruct E as (k1 & k2 & -> & <- & E). apply map_eq_cons in E.
      destruct E as (g & k3 & -> & <- & <-). exists g. split; [|reflexivity]. exists k1, k3. split; [reflexivity|]. split; [exact Hf|].
      intros q Hq Hfq. apply (Hn (no_insn_graph q)); [apply in_map; exact Hq|exact Hfq].
    - intros (g & (l1 & l2 & -> & Hf & Hn) & ->). exists (map no_insn_graph l1), (map no_insn_graph l2). split; [rewrite map_app; reflexivity|]. split; [exact Hf|].
      intros q Hq Hfq. apply in_map_iff in Hq. destruct Hq as (q' & <- & Hq). exact (Hn q' Hq Hfq).
  Qed.
  Lemma sel_fold l : forall m, NoDup (keys l) -> (forall n t, In (n, t) l -> fn_params (t_fn t) <> [] /\ (t_kmod t = EmptyString \/ mod_btf (t_kmod t) = true)) ->
    exists r, fold_left (sel1 glob mod_btf (map no_insn_graph flags)) l (MOk m) = MOk r /\ forall n k,
      aget String.eqb n r = Some k <-> (exists t, In (n, t) l /\ chosen n t k) \/ ((forall t k', In (n, t) l -> ~ chosen n t k') /\ aget String.eqb n m = Some k).
  Proof.
    induction l as [|[n0 t0] l IH]; intros m Hnd Hall.
    - exists m. split; [reflexivity|]. intros n k. split; [intros X; right; split; [intros t k' []|exact X]|]. intros [(t & [] & _)|[_ X]]; exact X.
    - inversion Hnd as [|? ? Hni Hnd']; subst. destruct (Hall n0 t0 (or_introl eq_refl)) as [Hp Hmb].
      assert (Hall' : forall n t, In (n, t) l -> fn_params (t_fn t) <> [] /\ (t_kmod t = EmptyString \/ mod_btf (t_kmod t) = true)) by (intros n t Hi; exact (Hall n t (or_intror Hi))).
      assert (Hno : forall t, ~ In (n0, t) l) by (intros t Ht; apply Hni; change n0 with (fst (n0, t)); apply in_map; exact Ht).
      cbn [fold_left]. destruct (fn_params (t_fn t0)) as [|p0 ps] eqn:Eps; [contradiction|].
      assert (Hskip : (forall k, ~ chosen n0 t0 k) -> sel1 glob mod_btf (map no_insn_graph flags) (MOk m) (n0, t0) = MOk m ->
        exists r, fold_left (sel1 glob mod_btf (map no_insn_graph flags)) l (sel1 glob mod_btf (map no_insn_graph flags) (MOk m) (n0, t0)) = MOk r /\ forall n k,
        aget String.eqb n r = Some k <-> (exists t, In (n, t) ((n0, t0) :: l) /\ chosen n t k) \/
          ((forall t k', In (n, t) ((n0, t0) :: l) -> ~ chosen n t k') /\ aget String.eqb n m = Some k)).
      { intros Hnc ->. destruct (IH m Hnd' Hall') as (r & Er & Hr). exists r. split; [exact Er|]. intros n k. rewrite Hr. split.
        - intros [(t & Ht & Hc)|[Hn Hg]]; [left; exists t; split; [right; exact Ht|exact Hc]|].
          right. split; [|exact Hg]. intros t k' [E|Ht]; [injection E as <- <-; apply Hnc|apply Hn; exact Ht].
        - intros [(t & [E|Ht] & Hc)|[Hn Hg]]; [injection E as <- <-; destruct (Hnc _ Hc)|left; exists t; auto|].
          right. split; [intros t k' Ht; apply Hn; right; exact Ht|exact Hg]. }
      unfold sel1 in Hskip |- *. cbn [fst snd] in Hskip |- *. rewrite Eps in Hskip |- *.
      destruct (Z.ltb_spec (Z.of_nat (List.length ps)) (t_nargs t0)).
      { apply Hskip; [|reflexivity]. intros k (p0' & ps' & f & E & Hr & _). rewrite Eps in E. injection E as <- <-. lia. }
      destruct (Z.ltb_spec 12 (Z.of_nat (List.length ps))).
      { apply Hskip; [|reflexivity]. intros k (p0' & ps' & f & E & Hr & _). rewrite Eps in E. injection E as <- <-. lia. }
      destruct (match_kfunc glob _ (map no_insn_graph flags)) as [f|] eqn:Em.
      2:{ apply Hskip; [|reflexivity]. intros k (p0' & ps' & f & E & Hr & Hok & Hm & _). rewrite Eps in E. injection E as <- <-.
          assert (X : match_kfunc glob {| fn_name := n0; fn_params := ps; fn_ret_struct := false; fn_params_ok := true |} (map no_insn_graph flags) = Some (tp_flag f)) by (apply mk_iff; exists f; auto).
          congruence. }
      destruct (fn_params_ok (t_fn t0)) eqn:Eok; cbn [negb].
      2:{ apply Hskip; [|reflexivity]. intros k (p0' & ps' & f' & E & Hr & Hok & _). congruence. }
      assert (Eb : negb (String.eqb (t_kmod t0) EmptyString) && negb (mod_btf (t_kmod t0)) = false).
      { destruct Hmb as [->| ->]; [rewrite String.eqb_refl; reflexivity|apply andb_false_r]. }
      rewrite Eb in Hskip |- *. clear Hskip.
      set (k0 := {| kt_name := n0; kt_params := ps; kt_kmod := t_kmod t0; kt_flag := f |}).
      destruct (proj1 (mk_iff n0 ps f) Em) as (g & Hg0 & Ef).
      assert (Hc0 : chosen n0 t0 k0) by (exists p0, ps, g; repeat split; auto; unfold k0; rewrite Ef; reflexivity).
      assert (Hcu : forall k, chosen n0 t0 k -> k = k0).
      { intros k (p0' & ps' & f' & E & Hr & Hok & Hm & ->). rewrite Eps in E. injection E as <- <-.
        assert (X : match_kfunc glob {| fn_name := n0; fn_params := ps; fn_ret_struct := false; fn_params_ok := true |} (map no_insn_graph flags) = Some (tp_flag f')) by (apply mk_iff; exists f'; auto).
        rewrite Em in X. injection X as X. unfold k0. rewrite X. reflexivity. }
      destruct (IH (aput String.eqb n0 k0 m) Hnd' Hall') as (r & Er & Hr). exists r. split; [exact Er|]. intros n k. rewrite Hr, (aget_aput _ Seqb_ok). split.
      + intros [(t & Ht & Hc)|[Hn Hg]]; [left; exists t; split; [right; exact Ht|exact Hc]|].
        destruct (String.eqb_spec n n0) as [->|Hne].
        * injection Hg as <-. left. exists t0. split; [left; reflexivity|exact Hc0].
        * right. split; [|exact Hg]. intros t k' [E|Ht]; [injection E as <- <-; congruence|apply Hn; exact Ht].
      + intros [(t & [E|Ht] & Hc)|[Hn Hg]].
        * injection E as <- <-. right. split; [intros t' k' Ht'; destruct (Hno t' Ht')|]. rewrite String.eqb_refl. f_equal. symmetry. apply Hcu. exact Hc.
        * left. exists t. auto.
        * right. split; [intros t k' Ht; apply Hn; right; exact Ht|]. destruct (String.eqb_spec n n0) as [->|]; [|exact Hg].
          exfalso. apply (Hn t0 k0); [left; reflexivity|exact Hc0].
  Qed.
End Select.
Lemma select_ok glob mod_btf flags tps : NoDup (keys tps) ->
  (forall n t, In (n, t) tps -> fn_params (t_fn t) <> [] /\ (t_kmod t = EmptyString \/ mod_btf (t_kmod t) = true)) ->
  exists r, select_tps glob mod_btf flags tps = MOk r /\ forall n k,
    aget String.eqb n r = Some k <-> exists t, aget String.eqb n tps = Some t /\ chosen glob flags n t k.
Proof.
  intros Hnd Hall. destruct (sel_fold glob mod_btf flags tps [] Hnd Hall) as (r & Er & Hr). exists r. split; [exact Er|]. intros n k. rewrite Hr. split.
  - intros [(t & Ht & Hc)|[_ X]]; [|discriminate]. exists t. split; [apply In_get; assumption|exact Hc].
  - intros (t & Ht & Hc). left. exists t. split; [apply (aget_In _ Seqb_ok); exact Ht|exact Hc].
Qed.

(** ** ids *)
Lemma draw_free {V} (kfs : list (Z * V)) rnd id rnd' : draw kfs rnd = Some (id, rnd') -> aget Z.eqb id kfs = None /\ In id rnd.
Proof.
  induction rnd as [|r rnd IH]; cbn [draw]; [discriminate|]. destruct (aget Z.eqb r kfs) eqn:E.
  - intros H. destruct (IH H). split; [assumption|right; assumption].
  - injection 1 as <- <-. split; [exact E|left; reflexivity].
Qed.
Lemma merge_tps_ok {V} (tps : list V) : forall kfs rnd r, NoDup (keys kfs) -> merge_tps tps kfs rnd = Some r ->
  exists ids, List.length ids = List.length tps /\ NoDup ids /\ (forall id, In id ids -> ~ In id (keys kfs)) /\ NoDup (keys r) /\
    forall a v, aget Z.eqb a r = Some v <-> aget Z.eqb a kfs = Some v \/ In (a, v) (combine ids tps).
Proof.
  induction tps as [|tp tps IH]; intros kfs rnd r Hnd E; cbn [merge_tps] in E.
  - injection E as <-. exists []. cbn. split; [reflexivity|]. split; [constructor|]. split; [intros id []|]. split; [exact Hnd|]. intros a v. tauto.
  - destruct (draw kfs rnd) as [[id rnd']|] eqn:Ed; [|discriminate]. destruct (draw_free kfs rnd id rnd' Ed) as [Hf _].
    destruct (IH _ _ _ (NoDup_aput _ Zeqb_ok id tp kfs Hnd) E) as (ids & Hl & Hni & Hdis & Hnr & Hr).
    assert (Hidn : ~ In id ids) by (intros X; apply (Hdis id X), (keys_aput _ Zeqb_ok); left; reflexivity).
    exists (id :: ids). split; [cbn; lia|]. split; [constructor; assumption|]. split.
    { intros x [<-|Hx]; [apply (aget_None _ Zeqb_ok); exact Hf|]. intros X. apply (Hdis x Hx), (keys_aput _ Zeqb_ok). right. exact X. }
    split; [exact Hnr|]. intros a v. rewrite Hr, (aget_aput _ Zeqb_ok). cbn [combine In]. destruct (Z.eqb_spec a id) as [->|Hne].
    + rewrite Hf. split.
      * intros [X|X]; [injection X as ->; right; left; reflexivity|]. right. right. exact X.
      * intros [X|[X|X]]; [discriminate|injection X as ->; left; reflexivity|]. right. exact X.
    + split; [intros [X|X]; [left; exact X|right; right; exact X]|]. intros [X|[X|X]]; [left; exact X|injection X as -> ->; contradiction|right; exact X].
Qed.
(** [k + 1] different numbers always hold one that [k] functions have not taken *)
Lemma draw_some {V} (kfs : list (Z * V)) rnd : NoDup rnd -> (List.length kfs < List.length rnd)%nat -> draw kfs rnd <> None.
Proof.
  intros Hnd Hl E. assert (Hi : incl rnd (keys kfs)).
  { clear Hnd Hl. induction rnd as [|r rnd IH]; [intros x []|]. cbn [draw] in E. destruct (aget Z.eqb r kfs) eqn:Eg; [|discriminate].
    intros x [<-|Hx]; [|apply IH; assumption]. apply (aget_In _ Zeqb_ok) in Eg. change r with (fst (r, v)). apply in_map. exact Eg. }
  pose proof (NoDup_incl_length Hnd Hi) as H. unfold keys in H. rewrite map_length in H. lia.
Qed.
