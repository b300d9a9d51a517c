(** * Proofs about sessions. *)
From Coq Require Import ZArith List Bool Lia String.
From Verif Require Import M_Go P_Go M_Sess S_Sess.
Import ListNotations.
Open Scope Z_scope.

Lemma skey_ok : eqb_ok skey_eqb.
Proof.
  intros [a b] [c d]. unfold skey_eqb. cbn [fst snd]. destruct (Z.eqb_spec a c), (Z.eqb_spec b d); constructor; congruence.
Qed.
Lemma skey_eq a b : skey_eqb a b = true <-> a = b.
Proof. destruct (skey_ok a b); split; congruence. Qed.

(** Events of the true call stacks. *)
Fixpoint ring_spec (st : stacks) (h : list action) : list event :=
  match h with
  | [] => []
  | Call t f sid ns pass txt :: h' =>
      (if pass then [entry_event sid ns txt] else []) ++
      ring_spec (upds st t ({| f_func := f; f_sid := sid; f_ns := ns; f_pass := pass; f_text := txt |} :: st t)) h'
  | Ret t f ns txt :: h' =>
      match st t with
      | [] => ring_spec st h'
      | fr :: l => (if f_pass fr then [exit_event (u64 (f_sid fr - 1)) ns txt] else []) ++ ring_spec (upds st t l) h'
      end
  end.

Lemma upds_eq st t l : upds st t l t = l.
Proof. unfold upds. rewrite Z.eqb_refl. reflexivity. Qed.
Lemma upds_ne st t l x : x <> t -> upds st t l x = st x.
Proof. intros H. unfold upds. destruct (Z.eqb_spec x t); [contradiction|reflexivity]. Qed.
Lemma open_push st t fr t' f' : open_calls (upds st t (fr :: st t)) t' f' =
  if (t' =? t) && (f_func fr =? f') && f_pass fr then fr :: open_calls st t' f' else open_calls st t' f'.
Proof.
  unfold open_calls. destruct (Z.eqb_spec t' t) as [->|Hn].
  - rewrite upds_eq. cbn [filter andb]. reflexivity.
  - rewrite upds_ne by assumption. reflexivity.
Qed.
Lemma open_pop st t fr l t' f' : st t = fr :: l -> open_calls st t' f' =
  if (t' =? t) && (f_func fr =? f') && f_pass fr then fr :: open_calls (upds st t l) t' f' else open_calls (upds st t l) t' f'.
Proof.
  intros H. unfold open_calls. destruct (Z.eqb_spec t' t) as [->|Hn].
  - rewrite upds_eq, H. cbn [filter andb]. reflexivity.
  - rewrite upds_ne by assumption. reflexivity.
Qed.

(** The map entry s holds the ids of the open calls l (innermost first). *)
Definition holds (s : bsess) (l : list frame) : Prop :=
  l <> [] /\ Z.of_nat (List.length l) <= 64 /\ bs_depth s = Z.of_nat (List.length l) - 1 /\
  forall i, (i < List.length l)%nat -> bs_ids s (Z.of_nat (List.length l - 1 - i)) = f_sid (nth i l {| f_func := 0; f_sid := 0; f_ns := 0; f_pass := false; f_text := EmptyString |}).
Definition minv (m : smap) (st : stacks) : Prop :=
  NoDup (keys m) /\
  forall t f, match aget skey_eqb (t, f) m with None => open_calls st t f = [] | Some s => holds s (open_calls st t f) end.
Fixpoint clean (l : list frame) : Prop :=
  match l with
  | [] => True
  | fr :: b => (f_pass fr = false -> filter (fun x => (f_func x =? f_func fr) && f_pass x) b = []) /\ clean b
  end.

Lemma slot_id d : 0 <= d < 64 -> slot_of d = d.
Proof. intros H. unfold slot_of. change 63 with (Z.ones 6). rewrite Z.land_ones by lia. apply Z.mod_small. lia. Qed.

Lemma holds_cons s l fr : holds s l -> Z.of_nat (List.length l) < 64 ->
  let d := u32 (bs_depth s + 1) in
  holds {| bs_depth := d; bs_ids := fun i => if i =? slot_of d then f_sid fr else bs_ids s i |} (fr :: l).
Proof.
  intros (Hn & Hl & Hd & Hi) Hlt d. assert (Hdv : d = Z.of_nat (List.length l)).
  { unfold d, u32, W32. rewrite Hd. rewrite Z.mod_small by lia. lia. }
  split; [discriminate|]. cbn [List.length bs_depth bs_ids]. split; [lia|]. split; [lia|].
  intros i Hi'. rewrite Hdv, slot_id by lia. destruct i as [|i]; cbn [nth].
  - replace (Z.of_nat (S (List.length l) - 1 - 0)) with (Z.of_nat (List.length l)) by lia. rewrite Z.eqb_refl. reflexivity.
  - destruct (Z.eqb_spec (Z.of_nat (S (List.length l) - 1 - S i)) (Z.of_nat (List.length l))); [lia|].
    rewrite <- Hi by lia. f_equal. lia.
Qed.
Lemma holds_one fr : holds {| bs_depth := 0; bs_ids := fun i => if i =? 0 then f_sid fr else 0 |} [fr].
Proof.
  split; [discriminate|]. cbn [List.length bs_depth bs_ids]. split; [lia|]. split; [reflexivity|].
  intros i Hi. assert (i = 0)%nat by lia. subst i. reflexivity.
Qed.
Lemma holds_top s fr l : holds s (fr :: l) -> bs_ids s (slot_of (bs_depth s)) = f_sid fr.
Proof.
  intros (_ & Hl & Hd & Hi). cbn [List.length] in *. rewrite Hd, slot_id by lia.
  specialize (Hi 0%nat ltac:(lia)). cbn [nth] in Hi. rewrite <- Hi. f_equal. lia.
Qed.
Lemma holds_pop s fr l : holds s (fr :: l) -> l <> [] -> bs_depth s =? 0 = false /\ holds {| bs_depth := bs_depth s - 1; bs_ids := bs_ids s |} l.
Proof.
  intros (_ & Hl & Hd & Hi) Hn. cbn [List.length] in *. assert (0 < List.length l)%nat by (destruct l; [contradiction|cbn; lia]).
  split; [apply Z.eqb_neq; lia|]. split; [assumption|]. cbn [bs_depth bs_ids]. split; [lia|]. split; [lia|].
  intros i Hi'. specialize (Hi (S i) ltac:(lia)). cbn [nth] in Hi. rewrite <- Hi. f_equal. lia.
Qed.
Lemma holds_last s fr : holds s [fr] -> bs_depth s =? 0 = true.
Proof. intros (_ & _ & Hd & _). cbn in Hd. rewrite Hd. reflexivity. Qed.

Lemma minv_len m st ks : minv m st -> (forall t f, open_calls st t f <> [] -> In (t, f) ks) -> (List.length m <= List.length ks)%nat.
Proof.
  intros [Hnd Hm] Hk. rewrite <- (map_length fst m). apply NoDup_incl_length; [exact Hnd|].
  intros [t f] Hin. apply Hk. specialize (Hm t f). destruct (aget skey_eqb (t, f) m) as [s|] eqn:Ha.
  - destruct Hm as [Hn _]. exact Hn.
  - exfalso. apply (aget_None _ skey_ok) in Ha. exact (Ha Hin).
Qed.

Lemma enter_ok m st t f sid ns pass txt : minv m st ->
  (pass = true -> Z.of_nat (List.length (open_calls st t f)) < 64 /\
     exists ks, Z.of_nat (List.length ks) < 65536 /\ forall t' f', open_calls st t' f' <> [] -> In (t', f') ks) ->
  let fr := {| f_func := f; f_sid := sid; f_ns := ns; f_pass := pass; f_text := txt |} in
  exists m', enter_map m (t, f) sid pass = (m', if pass then Some sid else None) /\ minv m' (upds st t (fr :: st t)).
Proof.
  intros Hm Hp fr. unfold enter_map. destruct pass; cbn [negb].
  2:{ exists m. split; [reflexivity|]. destruct Hm as [Hnd Hm]. split; [exact Hnd|]. intros t' f'.
      rewrite open_push. cbn [f_pass fr]. rewrite andb_false_r. apply Hm. }
  destruct (Hp eq_refl) as (Hlen & ks & Hks & Hcov). exists (add_session m (t, f) sid). split; [reflexivity|].
  pose proof (minv_len _ _ _ Hm Hcov) as Hml. destruct Hm as [Hnd Hm]. unfold add_session.
  pose proof (Hm t f) as Htf. destruct (aget skey_eqb (t, f) m) as [s|] eqn:Ha.
  - split; [apply (NoDup_aput _ skey_ok); exact Hnd|]. intros t' f'. rewrite (aget_aput _ skey_ok), open_push. cbn [f_func f_pass fr].
    destruct (skey_eqb (t', f') (t, f)) eqn:He.
    + apply skey_eq in He. injection He as -> ->. rewrite !Z.eqb_refl. cbn [andb]. exact (holds_cons s _ fr Htf Hlen).
    + assert (Hb : (t' =? t) && (f =? f') && true = false).
      { unfold skey_eqb in He. cbn [fst snd] in He. rewrite andb_true_r, (Z.eqb_sym f f'). exact He. }
      rewrite Hb. apply Hm.
  - assert (Hcap : (Z.of_nat (List.length m) <? max_entries) = true) by (apply Z.ltb_lt; unfold max_entries; lia). rewrite Hcap.
    split; [apply (NoDup_aput _ skey_ok); exact Hnd|]. intros t' f'. rewrite (aget_aput _ skey_ok), open_push. cbn [f_func f_pass fr].
    destruct (skey_eqb (t', f') (t, f)) eqn:He.
    + apply skey_eq in He. injection He as -> ->. rewrite !Z.eqb_refl. cbn [andb]. rewrite Htf. exact (holds_one fr).
    + assert (Hb : (t' =? t) && (f =? f') && true = false).
      { unfold skey_eqb in He. cbn [fst snd] in He. rewrite andb_true_r, (Z.eqb_sym f f'). exact He. }
      rewrite Hb. apply Hm.
Qed.

Lemma exit_pass m st t fr l : minv m st -> st t = fr :: l -> f_pass fr = true -> 0 < f_sid fr < 2 ^ 64 ->
  exists m', exit_map m (t, f_func fr) = (m', Some (u64 (f_sid fr - 1))) /\ minv m' (upds st t l).
Proof.
  intros [Hnd Hm] Hst Hp Hs. unfold exit_map, get_and_del_session.
  pose proof (Hm t (f_func fr)) as Htf. rewrite (open_pop _ _ _ _ t (f_func fr) Hst), !Z.eqb_refl, Hp in Htf. cbn [andb] in Htf.
  destruct (aget skey_eqb (t, f_func fr) m) as [s|] eqn:Ha; [|discriminate].
  rewrite (holds_top _ _ _ Htf). destruct (Z.eqb_spec (f_sid fr) 0); [lia|].
  eexists. split; [reflexivity|].
  assert (Hother : forall t' f', (t', f') <> (t, f_func fr) -> open_calls st t' f' = open_calls (upds st t l) t' f').
  { intros t' f' Hne. rewrite (open_pop _ _ _ _ t' f' Hst). destruct (Z.eqb_spec t' t) as [->|]; cbn [andb]; [|reflexivity].
    destruct (Z.eqb_spec (f_func fr) f') as [<-|]; cbn [andb]; [contradiction|reflexivity]. }
  destruct (open_calls (upds st t l) t (f_func fr)) as [|fr2 l2] eqn:Ho.
  - rewrite (holds_last _ _ Htf). split; [apply NoDup_adel; exact Hnd|]. intros t' f'. rewrite (aget_adel _ skey_ok _ _ _ Hnd).
    destruct (skey_eqb (t', f') (t, f_func fr)) eqn:He.
    + apply skey_eq in He. injection He as -> ->. exact Ho.
    + rewrite <- Hother; [apply Hm|]. intros Hc. rewrite <- skey_eq in Hc. congruence.
  - destruct (holds_pop _ _ _ Htf ltac:(discriminate)) as [Hd Hh]. rewrite Hd. split; [apply (NoDup_aput _ skey_ok); exact Hnd|].
    intros t' f'. rewrite (aget_aput _ skey_ok). destruct (skey_eqb (t', f') (t, f_func fr)) eqn:He.
    + apply skey_eq in He. injection He as -> ->. rewrite Ho. exact Hh.
    + rewrite <- Hother; [apply Hm|]. intros Hc. rewrite <- skey_eq in Hc. congruence.
Qed.
Lemma exit_none m st t f : minv m st -> open_calls st t f = [] -> exit_map m (t, f) = (m, None).
Proof.
  intros [_ Hm] Ho. unfold exit_map, get_and_del_session. specialize (Hm t f). destruct (aget skey_eqb (t, f) m) as [s|]; [|reflexivity].
  destruct Hm as [Hn _]. contradiction.
Qed.

Lemma ring_map_spec h : forall m st, minv m st -> (forall t, clean (st t)) -> (forall t fr, In fr (st t) -> 0 < f_sid fr < 2 ^ 64) ->
  nested st h -> fresh_ids st h -> within_limits st h -> ring_map m h = ring_spec st h.
Proof.
  induction h as [|[t f sid ns pass txt|t f ns txt] h IH]; intros m st Hm Hc Hid Hn Hf Hw; [reflexivity|..].
  - cbn [nested fresh_ids within_limits ring_map ring_spec] in *. destruct Hf as (Hs & _ & Hf). destruct Hw as (Hp & Hnp & Hw).
    destruct (enter_ok m st t f sid ns pass txt Hm Hp) as (m' & -> & Hm').
    rewrite (IH m' _ Hm'); [destruct pass; reflexivity| | |assumption|assumption|assumption].
    + intros t'. destruct (Z.eq_dec t' t) as [->|Hne]; [|rewrite upds_ne by assumption; apply Hc].
      rewrite upds_eq. split; [|apply Hc]. cbn [f_pass f_func]. intros ->. exact (Hnp eq_refl).
    + intros t' fr. destruct (Z.eq_dec t' t) as [->|Hne]; [|rewrite upds_ne by assumption; apply Hid].
      rewrite upds_eq. intros [<-|Hin]; [exact Hs|exact (Hid t fr Hin)].
  - cbn [nested fresh_ids within_limits ring_map ring_spec] in *. destruct (st t) as [|fr l] eqn:Hst.
    + assert (Ho : open_calls st t f = []) by (unfold open_calls; rewrite Hst; reflexivity).
      rewrite (exit_none _ _ _ _ Hm Ho). cbn [app]. apply IH; try assumption.
      * cbn [tl] in Hf. assert (Heq : forall h st1 st2, (forall x, st1 x = st2 x) -> fresh_ids st1 h -> fresh_ids st2 h).
        { clear. induction h as [|[t f sid ns pass txt|t f ns txt] h IH]; intros st1 st2 H; [auto|..]; cbn [fresh_ids].
          - intros (H1 & H2 & H3). split; [exact H1|]. split; [intros Hp Ho; apply (H2 Hp); destruct Ho as (x & fr & Hi & Hr); exists x, fr; rewrite H; auto|].
            rewrite <- (H t). revert H3. apply IH. intros x. unfold upds. destruct (x =? t); auto.
          - rewrite <- (H t). apply IH. intros x. unfold upds. destruct (x =? t); auto. }
        revert Hf. apply Heq. intros x. unfold upds. destruct (Z.eqb_spec x t); [subst; symmetry; assumption|reflexivity].
      * cbn [tl] in Hw. assert (Heq : forall h st1 st2, (forall x, st1 x = st2 x) -> within_limits st1 h -> within_limits st2 h).
        { clear. induction h as [|[t f sid ns pass txt|t f ns txt] h IH]; intros st1 st2 H; [auto|..]; cbn [within_limits].
          - intros (H1 & H2 & H3). unfold open_calls in *. rewrite <- (H t).
            split; [intros Hp; destruct (H1 Hp) as (Ha & ks & Hb & Hk); split; [exact Ha|]; exists ks; split; [exact Hb|]; intros t' f'; rewrite <- (H t'); apply Hk|].
            split; [exact H2|]. revert H3. apply IH. intros x. unfold upds. destruct (x =? t); auto.
          - rewrite <- (H t). apply IH. intros x. unfold upds. destruct (x =? t); auto. }
        revert Hw. apply Heq. intros x. unfold upds. destruct (Z.eqb_spec x t); [subst; symmetry; assumption|reflexivity].
    + destruct Hn as [Hfn Hn]. cbn [tl] in *. 
      assert (Hc' : forall t', clean (upds st t l t')).
      { intros t'. destruct (Z.eq_dec t' t) as [->|Hne]; [rewrite upds_eq|rewrite upds_ne by assumption; apply Hc].
        specialize (Hc t). rewrite Hst in Hc. apply Hc. }
      assert (Hid' : forall t' x, In x (upds st t l t') -> 0 < f_sid x < 2 ^ 64).
      { intros t' x. destruct (Z.eq_dec t' t) as [->|Hne]; [rewrite upds_eq|rewrite upds_ne by assumption; apply Hid].
        intros Hin. apply (Hid t). rewrite Hst. right. exact Hin. }
      destruct (f_pass fr) eqn:Hp.
      * destruct (exit_pass m st t fr l Hm Hst Hp) as (m' & He & Hm'); [apply (Hid t); rewrite Hst; left; reflexivity|].
        rewrite <- Hfn, He. cbn [app]. f_equal. apply IH; assumption.
      * assert (Ho : open_calls st t f = []).
        { unfold open_calls. rewrite Hst. cbn [filter]. rewrite Hp, andb_false_r, <- Hfn. specialize (Hc t). rewrite Hst in Hc. apply Hc. exact Hp. }
        rewrite (exit_none _ _ _ _ Hm Ho). cbn [app]. apply IH; try assumption.
        destruct Hm as [Hnd Hm]. split; [exact Hnd|]. intros t' f'. specialize (Hm t' f').
        rewrite (open_pop _ _ _ _ t' f' Hst), Hp, andb_false_r in Hm. exact Hm.
Qed.
Lemma minv_init : minv [] no_calls.
Proof. split; [constructor|]. intros t f. reflexivity. Qed.

(** Cookie mode. *)
Lemma ring_cookie_spec h : forall ck st, (forall t, ck t = map (fun fr => if f_pass fr then f_sid fr else 0) (st t)) ->
  (forall t fr, In fr (st t) -> 0 < f_sid fr < 2 ^ 64) -> fresh_ids st h -> ring_cookie ck h = ring_spec st h.
Proof.
  induction h as [|[t f sid ns pass txt|t f ns txt] h IH]; intros ck st Hck Hid Hf; [reflexivity|..].
  - cbn [fresh_ids ring_cookie ring_spec] in *. destruct Hf as (Hs & _ & Hf). unfold enter_cookie.
    set (fr := {| f_func := f; f_sid := sid; f_ns := ns; f_pass := pass; f_text := txt |}) in *.
    assert (H : forall c, c = (if pass then sid else 0) -> ring_cookie (fun x => if x =? t then c :: ck t else ck x) h = ring_spec (upds st t (fr :: st t)) h).
    { intros c Hcv. apply IH; [| |exact Hf].
      - intros x. unfold upds. destruct (x =? t) eqn:He; [|apply Hck]. cbn [map]. rewrite Hck, Hcv. reflexivity.
      - intros x y. unfold upds. destruct (x =? t); [|apply Hid]. intros [<-|Hin]; [exact Hs|exact (Hid t y Hin)]. }
    destruct pass; cbn [negb]; rewrite (H _ eq_refl); reflexivity.
  - cbn [fresh_ids ring_cookie ring_spec] in *. rewrite Hck. destruct (st t) as [|fr l] eqn:Hst.
    + cbn [map]. apply IH; [exact Hck|exact Hid|].
      cbn [tl] in Hf. assert (Heq : forall h st1 st2, (forall x, st1 x = st2 x) -> fresh_ids st1 h -> fresh_ids st2 h).
      { clear. induction h as [|[t f sid ns pass txt|t f ns txt] h IH]; intros st1 st2 H; [auto|..]; cbn [fresh_ids].
        - intros (H1 & H2 & H3). split; [exact H1|]. split; [intros Hp Ho; apply (H2 Hp); destruct Ho as (x & fr & Hi & Hr); exists x, fr; rewrite H; auto|].
          rewrite <- (H t). revert H3. apply IH. intros x. unfold upds. destruct (x =? t); auto.
        - rewrite <- (H t). apply IH. intros x. unfold upds. destruct (x =? t); auto. }
      revert Hf. apply Heq. intros x. unfold upds. destruct (Z.eqb_spec x t); [subst; symmetry; assumption|reflexivity].
    + cbn [map tl] in *. assert (Hrest : ring_cookie (fun x => if x =? t then map (fun fr => if f_pass fr then f_sid fr else 0) l else ck x) h = ring_spec (upds st t l) h).
      { apply IH; [| |exact Hf].
        - intros x. unfold upds. destruct (x =? t); [reflexivity|apply Hck].
        - intros x y. unfold upds. destruct (Z.eqb_spec x t) as [->|]; [|apply Hid]. intros Hin. apply (Hid t). rewrite Hst. right. exact Hin. }
      rewrite Hrest. f_equal. unfold exit_cookie. assert (Hs : 0 < f_sid fr < 2 ^ 64) by (apply (Hid t); rewrite Hst; left; reflexivity).
      destruct (f_pass fr); [|reflexivity]. destruct (Z.eqb_spec (f_sid fr) 0); [lia|reflexivity].
Qed.

(** Go side: the table holds the open accepted calls. *)
Definition ginv (m : sessions) (st : stacks) : Prop :=
  NoDup (keys m) /\
  (forall t fr, In fr (st t) -> f_pass fr = true -> 0 < f_sid fr < 2 ^ 64 /\
     aget Z.eqb (f_sid fr) m = Some {| s_started := u32 (f_ns fr); s_outs := [line (f_text fr) None]; s_ts := []; s_last := 0 |}) /\
  (* distinct open accepted calls have distinct ids *)
  (forall t, NoDup (map f_sid (filter f_pass (st t)))) /\
  (forall t1 t2 x y, In x (st t1) -> In y (st t2) -> f_pass x = true -> f_pass y = true -> f_sid x = f_sid y -> t1 = t2).

Lemma ginv_init : ginv [] no_calls.
Proof. split; [constructor|]. split; [intros t fr []|]. split; [intros t; constructor|intros t1 t2 x y []]. Qed.

Lemma run_loop_unlimited_cons delta i m e evs m' w c : handle delta m e = HOk m' w c ->
  fst (fst (run_loop delta true i m (e :: evs))) = w ++ fst (fst (run_loop delta true (if c then i - 1 else i) m' evs)).
Proof.
  intros H. cbn [run_loop orb negb]. rewrite H. destruct (run_loop delta true (if c then i - 1 else i) m' evs) as [[ws o] rest]. reflexivity.
Qed.

Lemma printed_spec delta h : forall i m st, ginv m st -> nested st h -> fresh_ids st h ->
  fst (fst (run_loop delta true i m (ring_spec st h))) = expected dur32 delta st h.
Proof.
  induction h as [|[t f sid ns pass txt|t f ns txt] h IH]; intros i m st Hg Hn Hf; [reflexivity|..].
  - cbn [nested fresh_ids ring_spec expected] in *. destruct Hf as (Hs & Hfr & Hf).
    set (fr := {| f_func := f; f_sid := sid; f_ns := ns; f_pass := pass; f_text := txt |}) in *.
    destruct Hg as (Hnd & Hin & Hds & Hdt). destruct pass.
    + cbn [app].
      assert (Hh : handle delta m (entry_event sid ns txt) = HOk (aput Z.eqb sid (add_out (new_sess (u32 ns) false) (line txt None)) (sess_add m sid (u32 ns) false)) [] false).
      { unfold handle, entry_event. cbn [ev_type ev_short ev_flags ev_sid ev_ns ev_err ev_text Z.eqb Pos.eqb orb].
        change (required_session flag_both) with true. cbn iota. change (have_flag flag_both flag_graph) with false.
        unfold sess_get, sess_add at 1. rewrite (aget_aput _ Zeqb_ok), Z.eqb_refl. reflexivity. }
      rewrite (run_loop_unlimited_cons _ _ _ _ _ _ _ _ Hh). cbn [app]. apply IH; [|exact Hn|exact Hf].
      assert (Hfresh : forall t' x, In x (st t') -> f_pass x = true -> f_sid x <> sid).
      { intros t' x Hx Hp He. apply (Hfr eq_refl). exists t', x. auto. }
      split; [apply (NoDup_aput _ Zeqb_ok), (NoDup_aput _ Zeqb_ok); exact Hnd|]. split; [|split].
      * intros t' x Hx Hp. unfold upds in Hx. destruct (Z.eqb_spec t' t) as [->|].
        -- destruct Hx as [<-|Hx].
           ++ split; [exact Hs|]. rewrite (aget_aput _ Zeqb_ok). cbn [f_sid fr]. rewrite Z.eqb_refl. reflexivity.
           ++ destruct (Hin t x Hx Hp) as [Hr Ha]. split; [exact Hr|]. rewrite (aget_aput _ Zeqb_ok). unfold sess_add. rewrite (aget_aput _ Zeqb_ok).
              destruct (Z.eqb_spec (f_sid x) sid) as [He|]; [exfalso; exact (Hfresh t x Hx Hp He)|exact Ha].
        -- destruct (Hin t' x Hx Hp) as [Hr Ha]. split; [exact Hr|]. rewrite (aget_aput _ Zeqb_ok). unfold sess_add. rewrite (aget_aput _ Zeqb_ok).
           destruct (Z.eqb_spec (f_sid x) sid) as [He|]; [exfalso; exact (Hfresh t' x Hx Hp He)|exact Ha].
      * intros t'. unfold upds. destruct (Z.eqb_spec t' t) as [->|]; [|apply Hds]. cbn [filter f_pass fr map f_sid]. constructor; [|apply Hds].
        rewrite in_map_iff. intros (x & He & Hx). apply filter_In in Hx as [Hx Hp]. exact (Hfresh t x Hx Hp He).
      * intros t1 t2 x y. unfold upds. destruct (Z.eqb_spec t1 t) as [->|], (Z.eqb_spec t2 t) as [->|]; try reflexivity.
        -- intros [<-|Hx] Hy Hp1 Hp2 He; [exfalso; exact (Hfresh t2 y Hy Hp2 (eq_sym He))|]. exact (Hdt t t2 x y Hx Hy Hp1 Hp2 He).
        -- intros Hx [<-|Hy] Hp1 Hp2 He; [exfalso; exact (Hfresh t1 x Hx Hp1 He)|]. exact (Hdt t1 t x y Hx Hy Hp1 Hp2 He).
        -- intros Hx Hy. exact (Hdt t1 t2 x y Hx Hy).
    + cbn [app]. apply IH; [|exact Hn|exact Hf]. split; [exact Hnd|]. split; [|split].
      * intros t' x. unfold upds. destruct (Z.eqb_spec t' t) as [->|]; [|exact (Hin t' x)]. intros [<-|Hx]; [discriminate|exact (Hin t x Hx)].
      * intros t'. unfold upds. destruct (Z.eqb_spec t' t) as [->|]; apply Hds.
      * intros t1 t2 x y. unfold upds. destruct (Z.eqb_spec t1 t) as [->|], (Z.eqb_spec t2 t) as [->|]; try reflexivity.
        -- intros [<-|Hx] Hy Hp1 Hp2; [discriminate|]. exact (Hdt t t2 x y Hx Hy Hp1 Hp2).
        -- intros Hx [<-|Hy] Hp1 Hp2; [discriminate|]. exact (Hdt t1 t x y Hx Hy Hp1 Hp2).
        -- intros Hx Hy. exact (Hdt t1 t2 x y Hx Hy).
  - cbn [nested fresh_ids ring_spec expected] in *. destruct (st t) as [|fr l] eqn:Hst.
    + apply IH; [exact Hg|exact Hn|].
      cbn [tl] in Hf. assert (Heq : forall h st1 st2, (forall x, st1 x = st2 x) -> fresh_ids st1 h -> fresh_ids st2 h).
      { clear. induction h as [|[t f sid ns pass txt|t f ns txt] h IH]; intros st1 st2 H; [auto|..]; cbn [fresh_ids].
        - intros (H1 & H2 & H3). split; [exact H1|]. split; [intros Hp Ho; apply (H2 Hp); destruct Ho as (x & fr & Hi & Hr); exists x, fr; rewrite H; auto|].
          rewrite <- (H t). revert H3. apply IH. intros x. unfold upds. destruct (x =? t); auto.
        - rewrite <- (H t). apply IH. intros x. unfold upds. destruct (x =? t); auto. }
      revert Hf. apply Heq. intros x. unfold upds. destruct (Z.eqb_spec x t); [subst; symmetry; assumption|reflexivity].
    + destruct Hn as [Hfn Hn]. cbn [tl] in Hf. destruct Hg as (Hnd & Hin & Hds & Hdt).
      assert (Hsub : forall t' x, In x (upds st t l t') -> In x (st t')).
      { intros t' x. unfold upds. destruct (Z.eqb_spec t' t) as [->|]; [|auto]. rewrite Hst. right. assumption. }
      assert (Hdt' : forall t1 t2 x y, In x (upds st t l t1) -> In y (upds st t l t2) -> f_pass x = true -> f_pass y = true -> f_sid x = f_sid y -> t1 = t2).
      { intros t1 t2 x y Hx Hy. apply Hdt; apply Hsub; assumption. }
      assert (Hds' : forall t', NoDup (map f_sid (filter f_pass (upds st t l t')))).
      { intros t'. unfold upds. destruct (Z.eqb_spec t' t) as [->|]; [|apply Hds]. specialize (Hds t). rewrite Hst in Hds. cbn [filter] in Hds.
        destruct (f_pass fr); [|exact Hds]. cbn [map] in Hds. inversion Hds. assumption. }
      destruct (f_pass fr) eqn:Hp; cbn [andb app].
      * destruct (Hin t fr) as [Hr Ha]; [rewrite Hst; left; reflexivity|exact Hp|].
        assert (Hid : u64 (u64 (f_sid fr - 1) + 1) = f_sid fr).
        { unfold u64. rewrite (Z.mod_small (f_sid fr - 1)) by (unfold W64; lia). rewrite Z.mod_small by (unfold W64; lia). lia. }
        assert (Hg' : ginv (adel Z.eqb (f_sid fr) m) (upds st t l)).
        { split; [apply NoDup_adel; exact Hnd|]. split; [|split; [exact Hds'|exact Hdt']].
          intros t' x Hx Hpx. destruct (Hin t' x (Hsub _ _ Hx) Hpx) as [Hrx Hax]. split; [exact Hrx|].
          rewrite (aget_adel _ Zeqb_ok _ _ _ Hnd). destruct (Z.eqb_spec (f_sid x) (f_sid fr)) as [He|]; [|exact Hax].
          exfalso. assert (t' = t). { apply (Hdt t' t x fr); [apply Hsub; exact Hx|rewrite Hst; left; reflexivity|exact Hpx|exact Hp|exact He]. }
          subst t'. rewrite upds_eq in Hx. specialize (Hds t). rewrite Hst in Hds. cbn [filter] in Hds. rewrite Hp in Hds. cbn [map] in Hds.
          inversion Hds as [|? ? Hni _]. apply Hni. apply in_map_iff. exists x. split; [exact He|]. apply filter_In. auto. }
        set (d := dur32 (f_ns fr) ns).
        assert (Hd : u32 (u32 ns - u32 (f_ns fr)) = d).
        { unfold d, dur32, u32. change W32 with (2 ^ 32). rewrite <- Zminus_mod. reflexivity. }
        assert (Hh : handle delta m (exit_event (u64 (f_sid fr - 1)) ns txt) =
          if d <? delta then HOk (adel Z.eqb (f_sid fr) m) [] false
          else HOk (adel Z.eqb (f_sid fr) m) [[line (f_text fr) None; line txt (Some d)]] true).
        { unfold handle, exit_event. cbn [ev_type ev_short ev_flags ev_sid ev_ns ev_err ev_text Z.eqb Pos.eqb orb].
          change (required_session flag_both) with true. cbn iota. unfold sess_get_and_del. rewrite Hid, Ha. cbn [s_started s_outs app]. rewrite Hd. reflexivity. }
        destruct (d <? delta); cbn [negb]; rewrite (run_loop_unlimited_cons _ _ _ _ _ _ _ _ Hh); cbn [app]; [|f_equal]; apply IH; assumption.
      * apply IH; [|exact Hn|exact Hf]. split; [exact Hnd|]. split; [|split; [exact Hds'|exact Hdt']].
        intros t' x Hx. exact (Hin t' x (Hsub t' x Hx)).
Qed.
