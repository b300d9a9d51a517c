From Coq Require Import ZArith List Bool String Lia.
From Verif Require Import M_Go P_Go M_Sess S_Sess P_Sess P_Sess2 S_Conc P_Conc P_Conc2 S_Ctx.
Import ListNotations.
Open Scope Z_scope.

Section C.
Variable pid : Z -> Z.
Definition pinv (m : smap) (st : stacks) : Prop :=
  NoDup (keys m) /\
  forall p f, match aget skey_eqb (p, f) m with
              | None => forall c, pid c = p -> open_calls st c f = []
              | Some s => exists c, pid c = p /\ holds s (open_calls st c f) /\ others_out pid st c f
              end.
Lemma pinv_len m st ks : pinv m st -> (forall t f, open_calls st t f <> [] -> In (t, f) ks) -> (List.length m <= List.length ks)%nat.
Proof.
  intros [Hnd Hm] Hk. rewrite <- (map_length fst m), <- (map_length (fun x => (pid (fst x), snd x)) ks). apply NoDup_incl_length; [exact Hnd|].
  intros [p f] Hin. specialize (Hm p f). destruct (aget skey_eqb (p, f) m) as [s|] eqn:Ha.
  - destruct Hm as (c & <- & [Hn _] & _). apply in_map_iff. exists (c, f). split; [reflexivity|]. apply Hk. exact Hn.
  - exfalso. apply (aget_None _ skey_ok) in Ha. exact (Ha Hin).
Qed.
Lemma pinv_same m st st' : (forall c f, open_calls st' c f = open_calls st c f) -> pinv m st -> pinv m st'.
Proof.
  intros H [Hn Hm]. split; [exact Hn|]. intros p f. specialize (Hm p f). destruct (aget skey_eqb (p, f) m) as [s|].
  - destruct Hm as (c & Hp & Hh & Ho). exists c. rewrite H. split; [exact Hp|]. split; [exact Hh|]. intros c' Hne He. rewrite H. apply Ho; assumption.
  - intros c Hp. rewrite H. apply Hm. exact Hp.
Qed.
Lemma open_push_ne st t fr t' f' : (t', f') <> (t, f_func fr) -> open_calls (upds st t (fr :: st t)) t' f' = open_calls st t' f'.
Proof.
  intros H. rewrite open_push. destruct (Z.eqb_spec t' t) as [->|]; cbn [andb]; [|reflexivity].
  destruct (Z.eqb_spec (f_func fr) f') as [<-|]; cbn [andb]; [contradiction|reflexivity].
Qed.
(** the entry for (pid c, f) is that of context c *)
Lemma entry_of m st c f : pinv m st -> others_out pid st c f ->
  match aget skey_eqb (pid c, f) m with None => open_calls st c f = [] | Some s => holds s (open_calls st c f) end.
Proof.
  intros [_ Hm] Ho. specialize (Hm (pid c) f). destruct (aget skey_eqb (pid c, f) m) as [s|]; [|apply Hm; reflexivity].
  destruct Hm as (c0 & Hp & Hh & _). destruct (Z.eq_dec c0 c) as [->|Hne]; [exact Hh|].
  destruct Hh as [Hn _]. contradiction Hn. apply Ho; assumption.
Qed.
Lemma push_inv m st c fr s : pinv m st -> others_out pid st c (f_func fr) -> f_pass fr = true -> holds s (fr :: open_calls st c (f_func fr)) ->
  pinv (aput skey_eqb (pid c, f_func fr) s m) (upds st c (fr :: st c)).
Proof.
  intros [Hnd Hm] Ho Hp Hh. split; [apply (NoDup_aput _ skey_ok); exact Hnd|]. intros p f. rewrite (aget_aput _ skey_ok).
  destruct (skey_eqb (p, f) (pid c, f_func fr)) eqn:E.
  - apply skey_eq in E. injection E as -> ->. exists c. split; [reflexivity|]. rewrite open_push, !Z.eqb_refl, Hp. cbn [andb]. split; [exact Hh|].
    intros c' Hne He. rewrite open_push_ne by congruence. apply Ho; assumption.
  - assert (Hne : (p, f) <> (pid c, f_func fr)) by (rewrite <- skey_eq; congruence).
    assert (Heq : forall c', pid c' = p -> open_calls (upds st c (fr :: st c)) c' f = open_calls st c' f).
    { intros c' Hc'. apply open_push_ne. intros [= -> ->]. apply Hne. rewrite Hc'. reflexivity. }
    specialize (Hm p f). destruct (aget skey_eqb (p, f) m) as [s0|].
    + destruct Hm as (c0 & Hp0 & Hh0 & Ho0). exists c0. split; [exact Hp0|]. rewrite (Heq c0 Hp0). split; [exact Hh0|].
      intros c' Hc1 Hc2. rewrite (Heq c') by congruence. apply Ho0; assumption.
    + intros c' Hc'. rewrite (Heq c' Hc'). apply Hm. exact Hc'.
Qed.
Lemma pop_else st c fr l c' f : st c = fr :: l -> (c', f) <> (c, f_func fr) -> open_calls (upds st c l) c' f = open_calls st c' f.
Proof.
  intros Hst H. rewrite (open_pop _ _ _ _ c' f Hst). destruct (Z.eqb_spec c' c) as [->|]; cbn [andb]; [|reflexivity].
  destruct (Z.eqb_spec (f_func fr) f) as [<-|]; cbn [andb]; [contradiction|reflexivity].
Qed.
Lemma pop_inv m st c fr l : pinv m st -> others_out pid st c (f_func fr) -> st c = fr :: l -> f_pass fr = true -> 0 < f_sid fr < 2 ^ 64 ->
  exists m', exit_map m (pid c, f_func fr) = (m', Some (u64 (f_sid fr - 1))) /\ pinv m' (upds st c l).
Proof.
  intros Hinv Ho Hst Hp Hs. pose proof (entry_of m st c (f_func fr) Hinv Ho) as He. destruct Hinv as [Hnd Hm].
  rewrite (open_pop _ _ _ _ c (f_func fr) Hst), !Z.eqb_refl, Hp in He. cbn [andb] in He.
  unfold exit_map, get_and_del_session. destruct (aget skey_eqb (pid c, f_func fr) m) as [s|] eqn:Ha; [|discriminate].
  rewrite (holds_top _ _ _ He). destruct (Z.eqb_spec (f_sid fr) 0); [lia|]. eexists. split; [reflexivity|].
  assert (Hrest : forall p f, (p, f) <> (pid c, f_func fr) -> match aget skey_eqb (p, f) m with
              | None => forall c', pid c' = p -> open_calls (upds st c l) c' f = []
              | Some s => exists c', pid c' = p /\ holds s (open_calls (upds st c l) c' f) /\ others_out pid (upds st c l) c' f end).
  { intros p f Hne. assert (Heq : forall c', pid c' = p -> open_calls (upds st c l) c' f = open_calls st c' f).
    { intros c' Hc'. apply (pop_else _ _ fr); [exact Hst|]. intros [= -> ->]. apply Hne. rewrite Hc'. reflexivity. }
    specialize (Hm p f). destruct (aget skey_eqb (p, f) m) as [s0|].
    - destruct Hm as (c0 & Hp0 & Hh0 & Ho0). exists c0. split; [exact Hp0|]. rewrite (Heq c0 Hp0). split; [exact Hh0|].
      intros c' Hc1 Hc2. rewrite (Heq c') by congruence. apply Ho0; assumption.
    - intros c' Hc'. rewrite (Heq c' Hc'). apply Hm. exact Hc'. }
  assert (Hoth : others_out pid (upds st c l) c (f_func fr)).
  { intros c' Hne Hc'. rewrite (pop_else st c fr l c' (f_func fr) Hst) by congruence. apply Ho; assumption. }
  destruct (open_calls (upds st c l) c (f_func fr)) as [|fr2 l2] eqn:Hl.
  - rewrite (holds_last _ _ He). split; [apply NoDup_adel; exact Hnd|]. intros p f. rewrite (aget_adel _ skey_ok _ _ _ Hnd).
    destruct (skey_eqb (p, f) (pid c, f_func fr)) eqn:E.
    + apply skey_eq in E. injection E as -> ->. intros c' Hc'. destruct (Z.eq_dec c' c) as [->|Hne]; [exact Hl|]. apply Hoth; assumption.
    + apply Hrest. rewrite <- skey_eq. congruence.
  - destruct (holds_pop _ _ _ He ltac:(discriminate)) as [Hd Hh]. rewrite Hd. split; [apply (NoDup_aput _ skey_ok); exact Hnd|]. intros p f. rewrite (aget_aput _ skey_ok).
    destruct (skey_eqb (p, f) (pid c, f_func fr)) eqn:E.
    + apply skey_eq in E. injection E as -> ->. exists c. rewrite Hl. auto.
    + apply Hrest. rewrite <- skey_eq. congruence.
Qed.
Lemma none_out m st c f : pinv m st -> others_out pid st c f -> open_calls st c f = [] -> exit_map m (pid c, f) = (m, None).
Proof.
  intros Hm Ho Hn. pose proof (entry_of m st c f Hm Ho) as He. unfold exit_map, get_and_del_session. destruct (aget skey_eqb (pid c, f) m) as [s|]; [|reflexivity].
  destruct He as [Hx _]. contradiction.
Qed.
Lemma fresh_same h : forall st st', same st st' -> fresh_ids st h -> fresh_ids st' h.
Proof.
  induction h as [|[t f sid ns pass txt|t f ns txt] h IH]; intros st1 st2 H; [auto|..]; cbn [fresh_ids].
  - intros (H1 & H2 & H3). split; [exact H1|]. split; [intros Hp Ho; apply (H2 Hp); destruct Ho as (x & fr & Hi & Hr); exists x, fr; rewrite H; auto|].
    revert H3. apply IH. exact (after_same _ _ (Call t f sid ns pass txt) H).
  - apply IH. exact (after_same _ _ (Ret t f ns txt) H).
Qed.
Lemma within_same h : forall st st', same st st' -> within_limits st h -> within_limits st' h.
Proof.
  induction h as [|[t f sid ns pass txt|t f ns txt] h IH]; intros st1 st2 H; [auto|..]; cbn [within_limits].
  - intros (H1 & H2 & H3). unfold open_calls in *. rewrite <- (H t).
    split; [intros Hp; destruct (H1 Hp) as (Ha & ks & Hb & Hk); split; [exact Ha|]; exists ks; split; [exact Hb|]; intros t' f'; rewrite <- (H t'); apply Hk|].
    split; [exact H2|]. revert H3. apply IH. intros x. unfold upds. destruct (x =? t); auto.
  - apply IH. exact (after_same _ _ (Ret t f ns txt) H).
Qed.
Lemma apart_same h : forall st st', same st st' -> apart pid st h -> apart pid st' h.
Proof.
  induction h as [|[t f sid ns pass txt|t f ns txt] h IH]; intros st1 st2 H; [auto|..]; cbn [apart]; unfold others_out, open_calls.
  - intros [H1 H2]. split; [intros Hp c' Hn He; rewrite <- (H c'); apply H1; assumption|]. revert H2. apply IH. exact (after_same _ _ (Call t f sid ns pass txt) H).
  - intros [H1 H2]. split; [intros c' Hn He; rewrite <- (H c'); apply H1; assumption|]. revert H2. apply IH. exact (after_same _ _ (Ret t f ns txt) H).
Qed.
Lemma ring_pid_spec h : forall m st, pinv m st -> (forall t, clean (st t)) -> (forall t fr, In fr (st t) -> 0 < f_sid fr < 2 ^ 64) ->
  nested st h -> fresh_ids st h -> within_limits st h -> apart pid st h -> ring_map m (as_seen pid h) = ring_spec st h.
Proof.
  induction h as [|[t f sid ns pass txt|t f ns txt] h IH]; intros m st Hm Hc Hid Hn Hf Hw Hap; [reflexivity|..].
  - cbn [nested fresh_ids within_limits apart as_seen map ring_map ring_spec] in *. fold (as_seen pid h). destruct Hf as (Hs & _ & Hf). destruct Hw as (Hp & Hnp & Hw). destruct Hap as [Ho Hap].
    set (fr := {| f_func := f; f_sid := sid; f_ns := ns; f_pass := pass; f_text := txt |}) in *.
    assert (Hm' : exists m', enter_map m (pid t, f) sid pass = (m', if pass then Some sid else None) /\ pinv m' (upds st t (fr :: st t))).
    { unfold enter_map. destruct pass; cbn [negb].
      - specialize (Ho eq_refl). destruct (Hp eq_refl) as (Hlen & ks & Hks & Hcov). exists (add_session m (pid t, f) sid). split; [reflexivity|].
        pose proof (pinv_len _ _ _ Hm Hcov) as Hml. pose proof (entry_of m st t f Hm Ho) as He. unfold add_session.
        destruct (aget skey_eqb (pid t, f) m) as [s|] eqn:Ha.
        + apply (push_inv m st t fr); [exact Hm|exact Ho|reflexivity|]. exact (holds_cons s _ fr He Hlen).
        + assert (Hcap : (Z.of_nat (List.length m) <? max_entries) = true) by (apply Z.ltb_lt; unfold max_entries; lia). rewrite Hcap.
          apply (push_inv m st t fr); [exact Hm|exact Ho|reflexivity|]. cbn [fr f_func]. rewrite He. exact (holds_one fr).
      - exists m. split; [reflexivity|]. apply (pinv_same m st); [|exact Hm]. intros c f'. rewrite open_push. cbn [fr f_pass]. rewrite andb_false_r. reflexivity. }
    destruct Hm' as (m' & -> & Hm').
    rewrite (IH m' _ Hm'); [destruct pass; reflexivity| | |assumption|assumption|assumption|assumption].
    + intros t'. destruct (Z.eq_dec t' t) as [->|Hne]; [|rewrite upds_ne by assumption; apply Hc].
      rewrite upds_eq. split; [|apply Hc]. cbn [fr f_pass f_func]. intros ->. exact (Hnp eq_refl).
    + intros t' x. destruct (Z.eq_dec t' t) as [->|Hne]; [|rewrite upds_ne by assumption; apply Hid].
      rewrite upds_eq. intros [<-|Hin]; [exact Hs|exact (Hid t x Hin)].
  - cbn [nested fresh_ids within_limits apart as_seen map ring_map ring_spec] in *. fold (as_seen pid h). destruct Hap as [Ho Hap]. destruct (st t) as [|fr l] eqn:Hst.
    + assert (He : open_calls st t f = []) by (unfold open_calls; rewrite Hst; reflexivity).
      rewrite (none_out _ _ _ _ Hm Ho He). cbn [app]. cbn [tl] in *.
      assert (Hsame : same (upds st t []) st) by (intros x; unfold upds; destruct (Z.eqb_spec x t) as [->|]; [symmetry; exact Hst|reflexivity]).
      apply IH; try assumption; [revert Hf; apply fresh_same|revert Hw; apply within_same|revert Hap; apply apart_same]; exact Hsame.
    + destruct Hn as [Hfn Hn]. cbn [tl] in *.
      assert (Hc' : forall t', clean (upds st t l t')).
      { intros t'. destruct (Z.eq_dec t' t) as [->|Hne]; [rewrite upds_eq|rewrite upds_ne by assumption; apply Hc].
        specialize (Hc t). rewrite Hst in Hc. apply Hc. }
      assert (Hid' : forall t' x, In x (upds st t l t') -> 0 < f_sid x < 2 ^ 64).
      { intros t' x. destruct (Z.eq_dec t' t) as [->|Hne]; [rewrite upds_eq|rewrite upds_ne by assumption; apply Hid].
        intros Hin. apply (Hid t). rewrite Hst. right. exact Hin. }
      destruct (f_pass fr) eqn:Hp.
      * rewrite <- Hfn in Ho. destruct (pop_inv m st t fr l Hm Ho Hst Hp) as (m' & He & Hm'); [apply (Hid t); rewrite Hst; left; reflexivity|].
        rewrite <- Hfn, He. cbn [app]. f_equal. apply IH; assumption.
      * assert (He : open_calls st t f = []).
        { unfold open_calls. rewrite Hst. cbn [filter]. rewrite Hp, andb_false_r, <- Hfn. specialize (Hc t). rewrite Hst in Hc. apply Hc. exact Hp. }
        rewrite (none_out _ _ _ _ Hm Ho He). cbn [app]. apply IH; try assumption.
        apply (pinv_same m st); [|exact Hm]. intros c' f'. rewrite (open_pop _ _ _ _ c' f' Hst), Hp, andb_false_r. reflexivity.
Qed.
Lemma pinv_init : pinv [] no_calls.
Proof. split; [constructor|]. intros p f c _. reflexivity. Qed.
Lemma pid_pairs delta h : nested no_calls h -> fresh_ids no_calls h -> within_limits no_calls h -> apart pid no_calls h ->
  printed delta (ring_map [] (as_seen pid h)) = expected dur32 delta no_calls h.
Proof.
  intros Hn Hf Hw Ha. rewrite <- (map_mode_pairs delta h Hn Hf Hw). f_equal.
  rewrite (ring_pid_spec h [] no_calls pinv_init); [|intros t; exact I|intros t fr []|assumption..].
  symmetry. apply ring_map_spec; [exact minv_init|intros t; exact I|intros t fr []|assumption..].
Qed.
Lemma inj_apart h : forall st, (forall c c', c <> c' -> st c <> [] -> pid c' = pid c -> st c' = [] /\ (forall a, In a h -> context a <> c')) ->
  (forall a b, In a h -> In b h -> pid (context a) = pid (context b) -> context a = context b) ->
  apart pid st h.
Proof.
  induction h as [|a h IH]; intros st Hs Hi; [exact I|].
  assert (Hoth : forall f, others_out pid st (context a) f).
  { intros f c' Hne He. destruct (st c') as [|fr l] eqn:E; [unfold open_calls; rewrite E; reflexivity|]. exfalso.
    assert (Hc : st c' <> []) by congruence. destruct (Hs c' (context a) Hne Hc (eq_sym He)) as [_ Hx]. apply (Hx a); [left; reflexivity|reflexivity]. }
  assert (Hnext : apart pid (after st a) h).
  { apply IH; [|intros x y Hx Hy; apply Hi; right; assumption]. intros c c' Hne Hc He.
    destruct (Z.eq_dec c (context a)) as [->|Hca].
    - assert (Hc' : after st a c' = st c') by (destruct a; cbn [after context] in *; apply upds_ne; congruence). rewrite Hc'.
      destruct (st c') as [|fr l] eqn:E.
      + split; [reflexivity|]. intros x Hx Hxc. apply Hne. rewrite <- Hxc in *. apply Hi; [left; reflexivity|right; exact Hx|]. symmetry. exact He.
      + exfalso. assert (Hn0 : st c' <> []) by congruence. destruct (Hs c' (context a) (fun e => Hne (eq_sym e)) Hn0 (eq_sym He)) as [_ Hx].
        apply (Hx a); [left; reflexivity|reflexivity].
    - assert (Hcc : after st a c = st c) by (destruct a; cbn [after context] in *; apply upds_ne; congruence). rewrite Hcc in Hc.
      destruct (Hs c c' Hne Hc He) as [H1 H2].
      assert (Hc' : after st a c' = st c') by (destruct a; cbn [after context] in *; apply upds_ne; intros ->; apply (H2 _ (or_introl eq_refl)); reflexivity).
      rewrite Hc'. split; [exact H1|]. intros x Hx. apply H2. right. exact Hx. }
  destruct a as [t f sid ns pass txt|t f ns txt]; cbn [apart after context] in *; (split; [|exact Hnext]); auto.
Qed.
End C.
Lemma own_ids pid delta h : nested no_calls h -> fresh_ids no_calls h -> within_limits no_calls h ->
  (forall a b, In a h -> In b h -> pid (context a) = pid (context b) -> context a = context b) ->
  printed delta (ring_map [] (as_seen pid h)) = expected dur32 delta no_calls h.
Proof. intros Hn Hf Hw Hi. apply pid_pairs; try assumption. apply inj_apart; [|exact Hi]. intros c c' _ Hc. contradiction Hc. reflexivity. Qed.
