(** * Proofs for C89. *)
From Coq Require Import ZArith List Bool Lia String.
From Verif Require Import M_Go P_Go M_Sess S_Sess P_Sess P_Sess2 M_Emit S_Emit.
Import ListNotations.
Open Scope Z_scope.

Lemma wantedb_ok c t : wantedb c t = true <-> wanted c t.
Proof.
  unfold wantedb, wanted. rewrite andb_true_iff, negb_true_iff, orb_true_iff, Z.eqb_neq, !Z.eqb_eq. split; intros [A B]; (split; [exact A|]).
  - intros H. destruct B; [contradiction|assumption].
  - destruct (Z.eq_dec (want_pid c) 0); [left; assumption|right; apply B; assumption].
Qed.
Lemma pid_pass_ok c t : pid_pass c t = wantedb c t.
Proof.
  unfold pid_pass, wantedb, process. rewrite Z.shiftr_div_pow2 by lia. destruct (_ =? own_pid c); [reflexivity|]. destruct (want_pid c =? 0); [reflexivity|].
  cbn [negb andb orb]. destruct (_ =? want_pid c); reflexivity.
Qed.
(** only the states that agree everywhere *)
Lemma fresh_ext h : forall st1 st2, (forall x, st1 x = st2 x) -> fresh_ids st1 h -> fresh_ids st2 h.
Proof.
  induction h as [|[t f sid ns pass txt|t f ns txt] h IH]; intros st1 st2 H; [auto|..]; cbn [fresh_ids].
  - intros (H1 & H2 & H3). split; [exact H1|]. split; [intros Hp Ho; apply (H2 Hp); destruct Ho as (x & fr & Hi & Hr); exists x, fr; rewrite H; auto|].
    rewrite <- (H t). revert H3. apply IH. intros x. unfold upds. destruct (x =? t); auto.
  - rewrite <- (H t). apply IH. intros x. unfold upds. destruct (x =? t); auto.
Qed.
Lemma within_ext h : forall st1 st2, (forall x, st1 x = st2 x) -> within_limits st1 h -> within_limits st2 h.
Proof.
  induction h as [|[t f sid ns pass txt|t f ns txt] h IH]; intros st1 st2 H; [auto|..]; cbn [within_limits].
  - intros (H1 & H2 & H3). unfold open_calls in *. rewrite <- (H t).
    split; [intros Hp; destruct (H1 Hp) as (Ha & ks & Hb & Hk); split; [exact Ha|]; exists ks; split; [exact Hb|]; intros t' f'; rewrite <- (H t'); apply Hk|].
    split; [exact H2|]. revert H3. apply IH. intros x. unfold upds. destruct (x =? t); auto.
  - rewrite <- (H t). apply IH. intros x. unfold upds. destruct (x =? t); auto.
Qed.
Lemma insns_ext c h : forall b st1 st2, (forall x, st1 x = st2 x) -> insns_of c b st1 h = insns_of c b st2 h.
Proof.
  induction h as [|[|t f sid ns fa fp txt|t f ns fa fp txt|t f ns txt] h IH]; intros b st1 st2 H; [reflexivity|..]; cbn [insns_of].
  - apply IH; exact H.
  - apply IH. intros x. unfold upds. rewrite (H t). destruct (x =? t); [reflexivity|apply H].
  - apply IH. intros x. unfold upds. rewrite (H t). destruct (x =? t); [reflexivity|apply H].
  - unfold open_calls. rewrite (H t). f_equal. apply IH; exact H.
Qed.
Lemma upds_self st t : forall x, upds st t (st t) x = st x.
Proof. intros x. unfold upds. destruct (Z.eqb_spec x t); [subst; reflexivity|reflexivity]. Qed.

Definition rest_part (evs : list event) : list event := filter (fun e => negb (ev_type e =? 3)) evs.
Lemma rest_app a b : rest_part (a ++ b) = rest_part a ++ rest_part b.
Proof. apply filter_app. Qed.
Lemma insn_app a b : insn_part (a ++ b) = insn_part a ++ insn_part b.
Proof. unfold insn_part. rewrite filter_app, map_app. reflexivity. Qed.
Lemma get_open m st t f : minv m st -> (forall fr, In fr (st t) -> 0 < f_sid fr < 2 ^ 64) ->
  match open_calls st t f with [] => get_session m (t, f) = 0 | fr :: _ => get_session m (t, f) = f_sid fr /\ f_sid fr <> 0 end.
Proof.
  intros [_ Hm] Hid. specialize (Hm t f). unfold get_session. destruct (aget skey_eqb (t, f) m) as [s|].
  - destruct (open_calls st t f) as [|fr l] eqn:E; [destruct Hm as [Hn _]; contradiction|]. split; [apply (holds_top _ _ _ Hm)|].
    assert (In fr (open_calls st t f)) as Hin by (rewrite E; left; reflexivity). unfold open_calls in Hin. apply filter_In in Hin as [Hin _]. specialize (Hid _ Hin). lia.
  - rewrite Hm. reflexivity.
Qed.

Lemma sent_map_ok c h : forall r m st, minv m st -> (forall t, clean (st t)) -> (forall t fr, In fr (st t) -> 0 < f_sid fr < 2 ^ 64) ->
  (forall t fr, In fr (st t) -> f_pass fr = true -> r = true /\ wantedb c t = true) ->
  let a := calls_of c r h in nested st a -> fresh_ids st a -> within_limits st a ->
  rest_part (sent_map c r m h) = ring_spec st a /\ insn_part (sent_map c r m h) = insns_of c r st h.
Proof.
  induction h as [|[|t f sid ns fa fp txt|t f ns fa fp txt|t f ns txt] h IH]; intros r m st Hm Hc Hid Hr a Hn Hf Hw; unfold a in *; clear a; [split; reflexivity|..];
    cbn [calls_of sent_map insns_of] in *.
  - apply IH; try assumption. intros t fr Hi Hp. split; [reflexivity|]. apply (Hr t fr Hi Hp).
  - (* call *)
    set (pass := r && wantedb c t && fa && fp) in *. cbn [nested fresh_ids within_limits ring_spec] in *. destruct Hf as (Hs & _ & Hf). destruct Hw as (Hp & Hnp & Hw).
    set (fr := {| f_func := f; f_sid := sid; f_ns := ns; f_pass := pass; f_text := txt |}) in *.
    destruct (enter_ok m st t f sid ns pass txt Hm Hp) as (m' & Em & Hm'). fold fr in Hm'.
    assert (Hc' : forall t', clean (upds st t (fr :: st t) t')).
    { intros t'. destruct (Z.eq_dec t' t) as [->|Hne]; [|rewrite upds_ne by assumption; apply Hc]. rewrite upds_eq. split; [|apply Hc]. cbn [fr f_pass f_func]. exact Hnp. }
    assert (Hid' : forall t' x, In x (upds st t (fr :: st t) t') -> 0 < f_sid x < 2 ^ 64).
    { intros t' x. destruct (Z.eq_dec t' t) as [->|Hne]; [|rewrite upds_ne by assumption; apply Hid]. rewrite upds_eq. intros [<-|Hin]; [exact Hs|exact (Hid t x Hin)]. }
    assert (Hr' : forall t' x, In x (upds st t (fr :: st t) t') -> f_pass x = true -> r = true /\ wantedb c t' = true).
    { intros t' x. destruct (Z.eq_dec t' t) as [->|Hne]; [|rewrite upds_ne by assumption; apply Hr]. rewrite upds_eq. intros [<-|Hin]; [|exact (Hr t x Hin)].
      cbn [fr f_pass]. unfold pass. intros E. destruct r, (wantedb c t); try discriminate E. split; reflexivity. }
    rewrite pid_pass_ok. destruct (r && wantedb c t) eqn:E.
    + replace (fa && fp) with pass by (unfold pass; rewrite <- andb_assoc; reflexivity). rewrite Em.
      destruct (IH r m' _ Hm' Hc' Hid' Hr' Hn Hf Hw) as [I1 I2]. rewrite rest_app, insn_app, I1, I2. destruct pass; split; reflexivity.
    + assert (Ep : pass = false) by (unfold pass; reflexivity). assert (m' = m) as -> by (rewrite Ep in Em; cbn in Em; congruence).
      destruct (IH r m _ Hm' Hc' Hid' Hr' Hn Hf Hw) as [I1 I2]. rewrite I1, I2, Ep. split; reflexivity.
  - (* ret *)
    cbn [nested fresh_ids within_limits ring_spec] in *. rewrite pid_pass_ok. destruct (st t) as [|fr l] eqn:Hst.
    + assert (Ho : open_calls st t f = []) by (unfold open_calls; rewrite Hst; reflexivity). rewrite (exit_none _ _ _ _ Hm Ho). cbn [opt_event app tl] in *.
      assert (Hx : forall x, upds st t [] x = st x) by (rewrite <- Hst; apply upds_self).
      rewrite (insns_ext c h r _ st Hx). replace (if r && wantedb c t then sent_map c r m h else sent_map c r m h) with (sent_map c r m h) by (destruct (r && wantedb c t); reflexivity).
      apply IH; try assumption; [exact (fresh_ext _ _ _ Hx Hf)|exact (within_ext _ _ _ Hx Hw)].
    + destruct Hn as [Hfn Hn]. cbn [tl] in *.
      assert (Hc' : forall t', clean (upds st t l t')).
      { intros t'. destruct (Z.eq_dec t' t) as [->|Hne]; [rewrite upds_eq|rewrite upds_ne by assumption; apply Hc]. specialize (Hc t). rewrite Hst in Hc. apply Hc. }
      assert (Hid' : forall t' x, In x (upds st t l t') -> 0 < f_sid x < 2 ^ 64).
      { intros t' x. destruct (Z.eq_dec t' t) as [->|Hne]; [rewrite upds_eq|rewrite upds_ne by assumption; apply Hid]. intros Hin. apply (Hid t). rewrite Hst. right. exact Hin. }
      assert (Hr' : forall t' x, In x (upds st t l t') -> f_pass x = true -> r = true /\ wantedb c t' = true).
      { intros t' x. destruct (Z.eq_dec t' t) as [->|Hne]; [rewrite upds_eq|rewrite upds_ne by assumption; apply Hr]. intros Hin. apply (Hr t). rewrite Hst. right. exact Hin. }
      destruct (f_pass fr) eqn:Hp.
      * destruct (exit_pass m st t fr l Hm Hst Hp) as (m' & He & Hm'); [apply (Hid t); rewrite Hst; left; reflexivity|].
        destruct (Hr t fr ltac:(rewrite Hst; left; reflexivity) Hp) as [-> ->]. cbn [andb]. rewrite <- Hfn, He.
        destruct (IH true m' _ Hm' Hc' Hid' Hr' Hn Hf Hw) as [I1 I2]. rewrite rest_app, insn_app, I1, I2. split; reflexivity.
      * assert (Ho : open_calls st t f = []).
        { unfold open_calls. rewrite Hst. cbn [filter]. rewrite Hp, andb_false_r, <- Hfn. specialize (Hc t). rewrite Hst in Hc. apply Hc. exact Hp. }
        rewrite (exit_none _ _ _ _ Hm Ho). cbn [opt_event app].
        assert (Hm' : minv m (upds st t l)).
        { destruct Hm as [Hnd Hm]. split; [exact Hnd|]. intros t' f'. specialize (Hm t' f'). rewrite (open_pop _ _ _ _ t' f' Hst), Hp, andb_false_r in Hm. exact Hm. }
        destruct (IH r m _ Hm' Hc' Hid' Hr' Hn Hf Hw) as [I1 I2]. destruct (r && wantedb c t); rewrite I1, I2; split; reflexivity.
  - (* instruction *)
    destruct (IH r m st Hm Hc Hid Hr Hn Hf Hw) as [I1 I2]. rewrite rest_app, insn_app, I1, I2. pose proof (get_open m st t f Hm (Hid t)) as G.
    destruct (open_calls st t f) as [|fr l] eqn:E.
    + rewrite G. destruct r; split; reflexivity.
    + destruct G as [G1 G2]. assert (Hin : In fr (open_calls st t f)) by (rewrite E; left; reflexivity). unfold open_calls in Hin. apply filter_In in Hin as [Hin Hp].
      apply andb_true_iff in Hp as [_ Hp]. destruct (Hr t fr Hin Hp) as [-> _]. rewrite G1. destruct (Z.eqb_spec (f_sid fr) 0); [contradiction|]. split; reflexivity.
Qed.

Lemma sent_cookie_ok c h : forall r ck st, (forall t, ck t = map (fun fr => if f_pass fr then f_sid fr else 0) (st t)) ->
  (forall t fr, In fr (st t) -> 0 < f_sid fr < 2 ^ 64) -> (forall t fr, In fr (st t) -> f_pass fr = true -> r = true /\ wantedb c t = true) ->
  fresh_ids st (calls_of c r h) -> sent_cookie c r ck h = ring_spec st (calls_of c r h).
Proof.
  induction h as [|[|t f sid ns fa fp txt|t f ns fa fp txt|t f ns txt] h IH]; intros r ck st Hck Hid Hr Hf; [reflexivity|..]; cbn [calls_of sent_cookie] in *.
  - apply IH; try assumption. intros t fr Hi Hp. split; [reflexivity|]. apply (Hr t fr Hi Hp).
  - cbn [fresh_ids ring_spec] in *. destruct Hf as (Hs & _ & Hf). set (pass := r && wantedb c t && fa && fp) in *.
    set (fr := {| f_func := f; f_sid := sid; f_ns := ns; f_pass := pass; f_text := txt |}) in *.
    assert (H : forall v, v = (if pass then sid else 0) -> sent_cookie c r (fun x => if x =? t then v :: ck t else ck x) h = ring_spec (upds st t (fr :: st t)) (calls_of c r h)).
    { intros v Hv. apply IH; [| | |exact Hf].
      - intros x. unfold upds. destruct (x =? t) eqn:He; [|apply Hck]. cbn [map]. rewrite Hck, Hv. reflexivity.
      - intros x y. unfold upds. destruct (x =? t); [|apply Hid]. intros [<-|Hin]; [exact Hs|exact (Hid t y Hin)].
      - intros x y. unfold upds. destruct (Z.eqb_spec x t) as [->|]; [|apply Hr]. intros [<-|Hin]; [|exact (Hr t y Hin)].
        cbn [fr f_pass]. unfold pass. intros E. destruct r, (wantedb c t); try discriminate E. split; reflexivity. }
    rewrite pid_pass_ok. unfold enter_cookie. destruct (r && wantedb c t) eqn:E.
    + assert (Ep : pass = fa && fp) by (unfold pass; rewrite <- andb_assoc; reflexivity). rewrite <- Ep. destruct pass; cbn [negb]; rewrite (H _ eq_refl); reflexivity.
    + assert (Ep : pass = false) by (unfold pass; reflexivity). rewrite (H 0); rewrite Ep; reflexivity.
  - cbn [fresh_ids ring_spec] in *. rewrite Hck, pid_pass_ok. destruct (st t) as [|fr l] eqn:Hst.
    + cbn [map tl] in *. apply IH; try assumption. refine (fresh_ext _ _ _ _ Hf). rewrite <- Hst. apply upds_self.
    + cbn [map tl] in *. assert (Hs : 0 < f_sid fr < 2 ^ 64) by (apply (Hid t); rewrite Hst; left; reflexivity).
      rewrite (IH r _ (upds st t l)); [| | | |exact Hf].
      * f_equal. unfold exit_cookie. destruct (f_pass fr) eqn:Hp; [|cbn; destruct (r && wantedb c t); reflexivity].
        destruct (Hr t fr ltac:(rewrite Hst; left; reflexivity) Hp) as [-> ->]. destruct (Z.eqb_spec (f_sid fr) 0); [lia|reflexivity].
      * intros x. unfold upds. destruct (x =? t); [reflexivity|apply Hck].
      * intros x y. unfold upds. destruct (Z.eqb_spec x t) as [->|]; [|apply Hid]. intros Hin. apply (Hid t). rewrite Hst. right. exact Hin.
      * intros x y. unfold upds. destruct (Z.eqb_spec x t) as [->|]; [|apply Hr]. intros Hin. apply (Hr t). rewrite Hst. right. exact Hin.
  - destruct r; apply IH; assumption.
Qed.
Lemma sent_single_ok c ex h : forall r, map (fun e => (ev_ns e, ev_text e)) (sent_single c ex r h) = singles c ex r h /\
  Forall (fun e => ev_type e = if ex then 2 else 1) (sent_single c ex r h).
Proof.
  induction h as [|[|t f sid ns fa fp txt|t f ns fa fp txt|t f ns txt] h IH]; intros r; [split; [reflexivity|constructor]|..]; cbn [sent_single singles];
    try apply IH; destruct (IH r) as [I1 I2]; rewrite map_app, I1, pid_pass_ok;
    destruct ex, r, (wantedb c t), fa, fp; cbn [negb andb app map]; (split; [reflexivity|]); try exact I2; (constructor; [reflexivity|exact I2]).
Qed.
Lemma rest_all c h : no_insns h -> forall r m, rest_part (sent_map c r m h) = sent_map c r m h.
Proof.
  induction h as [|[|t f sid ns fa fp txt|t f ns fa fp txt|t f ns txt] h IH]; intros Hn r m; [reflexivity|..]; cbn [sent_map].
  1-3: assert (Hn' : no_insns h) by (intros a b d e Hi; apply (Hn a b d e); right; exact Hi); specialize (IH Hn').
  - apply IH.
  - destruct (r && pid_pass c t); [|apply IH]. destruct (enter_map m (t, f) sid (fa && fp)) as [m' o]. rewrite rest_app, IH. destruct o; reflexivity.
  - destruct (r && pid_pass c t); [|apply IH]. destruct (exit_map m (t, f)) as [m' o]. rewrite rest_app, IH. destruct o; reflexivity.
  - exfalso. apply (Hn t f ns txt). left. reflexivity.
Qed.
Lemma both_printed c delta h : no_insns h -> let a := calls_of c false h in nested no_calls a -> fresh_ids no_calls a -> within_limits no_calls a ->
  printed delta (sent_map c false [] h) = expected dur32 delta no_calls a.
Proof.
  intros Hn a H1 H2 H3. destruct (sent_map_ok c h false [] no_calls minv_init) as [E _]; try assumption; try (intros; exact I); try (intros ? ? []).
  rewrite rest_all in E by assumption. rewrite E. apply printed_spec; [apply ginv_init|exact H1|exact H2].
Qed.
Lemma cookie_printed c delta h : let a := calls_of c false h in nested no_calls a -> fresh_ids no_calls a ->
  printed delta (sent_cookie c false (fun _ => []) h) = expected dur32 delta no_calls a.
Proof.
  intros a H1 H2. rewrite (sent_cookie_ok c h false (fun _ => []) no_calls); [|reflexivity|intros ? ? []|intros ? ? []|exact H2].
  apply printed_spec; [apply ginv_init|exact H1|exact H2].
Qed.
