(** * Proofs about sessions, part 2: durations, table, limit, graph sessions. *)
From Coq Require Import ZArith List Bool Lia String.
From Verif Require Import M_Go P_Go M_Sess S_Sess P_Sess.
Import ListNotations.
Open Scope Z_scope.

Lemma expected_brief delta h : forall st, brief st h -> expected dur32 delta st h = expected true_dur delta st h.
Proof.
  induction h as [|[t f sid ns pass txt|t f ns txt] h IH]; intros st Hb; [reflexivity|..]; cbn [brief expected] in *.
  - apply IH. exact Hb.
  - destruct (st t) as [|fr l]; [apply IH; exact Hb|]. destruct Hb as [Hr Hb]. rewrite (IH _ Hb).
    replace (dur32 (f_ns fr) ns) with (true_dur (f_ns fr) ns); [reflexivity|]. unfold dur32, true_dur. rewrite Z.mod_small; lia.
Qed.

Lemma map_mode_pairs delta h : nested no_calls h -> fresh_ids no_calls h -> within_limits no_calls h ->
  printed delta (ring_map [] h) = expected dur32 delta no_calls h.
Proof.
  intros Hn Hf Hw. unfold printed, run. rewrite (ring_map_spec h [] no_calls minv_init); [|intros t; exact I|intros t fr []|assumption..].
  apply printed_spec; [exact ginv_init|assumption|assumption].
Qed.
Lemma cookie_mode_pairs delta h : nested no_calls h -> fresh_ids no_calls h ->
  printed delta (ring_cookie (fun _ => []) h) = expected dur32 delta no_calls h.
Proof.
  intros Hn Hf. unfold printed, run. rewrite (ring_cookie_spec h (fun _ => []) no_calls); [|intros t; reflexivity|intros t fr []|assumption].
  apply printed_spec; [exact ginv_init|assumption|assumption].
Qed.

(** ** Table *)
Lemma sop_nodup ops : NoDup (keys (fold_left sop_run ops [])).
Proof.
  rewrite <- fold_left_rev_right. induction (rev ops) as [|o l IH]; [constructor|]. cbn [fold_right]. set (m := fold_right _ _ l) in *.
  destruct o as [id st g|id|id]; cbn [sop_run]; [apply (NoDup_aput _ Zeqb_ok); exact IH|exact IH|].
  unfold sess_get_and_del. destruct (aget Z.eqb id m); cbn [snd]; [apply NoDup_adel|]; exact IH.
Qed.
Lemma table_get ops id : match sess_get (fold_left sop_run ops []) id with
  | Some s => exists st g, s = new_sess st g /\ last_added ops id st g
  | None => forall st g, ~ last_added ops id st g
  end.
Proof.
  induction ops as [|o ops IH] using rev_ind.
  - intros st g (pre & post & H & _). destruct pre; discriminate.
  - rewrite fold_left_app. cbn [fold_left]. pose proof (sop_nodup ops) as Hnd. set (m := fold_left sop_run ops []) in *.
    assert (Hsame : match o with OAdd i _ _ => i <> id | OGet _ => True | OGetDel i => i <> id end ->
              forall st g, last_added (ops ++ [o]) id st g <-> last_added ops id st g).
    { intros Ho st g. split.
      - intros (pre & post & He & Hp). destruct (exists_last (l := OAdd id st g :: post) ltac:(discriminate)) as (l & x & Hl).
        rewrite Hl, app_assoc in He. apply app_inj_tail in He as [He <-].
        destruct l as [|y l]; [cbn in Hl; injection Hl as <- _; contradiction|]. cbn [app] in Hl. injection Hl as <- ->.
        exists pre, l. split; [exact He|]. intros z Hz. apply Hp. apply in_or_app. left. exact Hz.
      - intros (pre & post & -> & Hp). exists pre, (post ++ [o]). split; [rewrite <- app_assoc; reflexivity|].
        intros z Hz. apply in_app_or in Hz as [Hz|[<-|[]]]; [exact (Hp z Hz)|exact Ho]. }
    destruct o as [i st g|i|i]; cbn [sop_run].
    + unfold sess_add, sess_get. rewrite (aget_aput _ Zeqb_ok). destruct (Z.eqb_spec id i) as [->|Hne].
      * exists st, g. split; [reflexivity|]. exists ops, []. split; [reflexivity|]. intros z [].
      * specialize (Hsame ltac:(congruence)). fold (sess_get m id). destruct (sess_get m id).
        -- destruct IH as (st' & g' & -> & H). exists st', g'. split; [reflexivity|apply Hsame; exact H].
        -- intros st' g' H. apply (IH st' g'), Hsame, H.
    + specialize (Hsame I). destruct (sess_get m id).
      * destruct IH as (st' & g' & -> & H). exists st', g'. split; [reflexivity|apply Hsame; exact H].
      * intros st' g' H. apply (IH st' g'), Hsame, H.
    + destruct (Z.eq_dec i id) as [->|Hne].
      * assert (H0 : sess_get (snd (sess_get_and_del m id)) id = None).
        { unfold sess_get_and_del. destruct (aget Z.eqb id m) eqn:Ha; cbn [snd]; unfold sess_get; [rewrite (aget_adel _ Zeqb_ok _ _ _ Hnd), Z.eqb_refl; reflexivity|exact Ha]. }
        rewrite H0. intros st g (pre & post & He & Hp).
        destruct (exists_last (l := OAdd id st g :: post) ltac:(discriminate)) as (l & x & Hl).
        rewrite Hl, app_assoc in He. apply app_inj_tail in He as [_ <-].
        destruct l as [|y l]; [discriminate|]. cbn [app] in Hl. injection Hl as _ ->.
        apply (Hp (OGetDel id)); [apply in_or_app; right; left; reflexivity|reflexivity].
      * specialize (Hsame Hne).
        assert (H0 : sess_get (snd (sess_get_and_del m i)) id = sess_get m id).
        { unfold sess_get_and_del. destruct (aget Z.eqb i m) eqn:Ha; cbn [snd]; unfold sess_get; [rewrite (aget_adel _ Zeqb_ok _ _ _ Hnd)|reflexivity].
          destruct (Z.eqb_spec id i); [congruence|reflexivity]. }
        rewrite H0. destruct (sess_get m id).
        -- destruct IH as (st' & g' & -> & H). exists st', g'. split; [reflexivity|apply Hsame; exact H].
        -- intros st' g' H. apply (IH st' g'), Hsame, H.
Qed.
Lemma table_result ops id o : (o = OGet id \/ o = OGetDel id) ->
  match sop_result (fold_left sop_run ops []) o with
  | Some s => exists st g, s = new_sess st g /\ last_added ops id st g
  | None => forall st g, ~ last_added ops id st g
  end.
Proof.
  intros Ho. pose proof (table_get ops id) as H.
  assert (He : sop_result (fold_left sop_run ops []) o = sess_get (fold_left sop_run ops []) id).
  { destruct Ho as [-> | ->]; [reflexivity|]. cbn [sop_result]. unfold sess_get_and_del, sess_get. destruct (aget Z.eqb id _); reflexivity. }
  rewrite He. exact H.
Qed.

(** ** Limit *)
Lemma handle_count delta m e m' w c : handle delta m e = HOk m' w c -> (c = true /\ exists g, w = [g]) \/ (c = false /\ w = []).
Proof.
  unfold handle. intros H.
  repeat match type of H with
  | (if ?b then _ else _) = _ => destruct b
  | match ?x with _ => _ end = _ => destruct x
  | (let (_, _) := ?x in _) = _ => destruct x
  end; try discriminate; injection H as <- <- <-; eauto.
Qed.
Lemma run_loop_step delta u i m e evs m' w c : (u || (0 <? i)) = true -> handle delta m e = HOk m' w c ->
  run_loop delta u i m (e :: evs) =
  (w ++ out_of (run_loop delta u (if c then i - 1 else i) m' evs), res_of (run_loop delta u (if c then i - 1 else i) m' evs), rest_of (run_loop delta u (if c then i - 1 else i) m' evs)).
Proof.
  intros Hu Hh. cbn [run_loop]. rewrite Hu. cbn [negb]. rewrite Hh. destruct (run_loop delta u (if c then i - 1 else i) m' evs) as [[ws o] rest]. reflexivity.
Qed.
Lemma limit_loop delta evs : forall n j m,
  let r := run_loop delta false (Z.of_nat n) m evs in
  let r0 := run_loop delta true j m evs in
  out_of r = firstn n (out_of r0) /\
  (if (List.length (out_of r0) <? n)%nat then res_of r = res_of r0 /\ rest_of r = rest_of r0 else res_of r = Finished).
Proof.
  induction evs as [|e evs IH]; intros n j m.
  - destruct n as [|n]; [cbn; auto|]. cbn [run_loop orb negb]. replace (0 <? Z.of_nat (S n)) with true by (symmetry; apply Z.ltb_lt; lia).
    cbn. auto.
  - destruct n as [|n]; [cbn [Z.of_nat run_loop orb negb Z.ltb Z.compare out_of fst snd firstn]; split; [reflexivity|destruct (List.length _); reflexivity]|].
    assert (Hp : (0 <? Z.of_nat (S n)) = true) by (apply Z.ltb_lt; lia).
    destruct (handle delta m e) as [| |m' w c] eqn:Hh.
    + cbn [run_loop orb negb]. rewrite Hp, Hh. cbn. auto.
    + cbn [run_loop orb negb]. rewrite Hp, Hh. cbn. auto.
    + cbn zeta. rewrite (run_loop_step _ _ _ _ _ _ _ _ _ (Hp : (false || _) = true) Hh).
      rewrite (run_loop_step delta true j m e evs m' w c eq_refl Hh).
      unfold out_of at 1 3 4, res_of at 1 3 4, rest_of at 1 3. cbn [fst snd].
      destruct (handle_count _ _ _ _ _ _ Hh) as [(-> & g & ->)|(-> & ->)].
      * replace (Z.of_nat (S n) - 1) with (Z.of_nat n) by lia. destruct (IH n (j - 1) m') as [H1 H2]. cbn [app]. split.
        -- rewrite H1. reflexivity.
        -- cbn [List.length]. change (S ?a <? S ?b)%nat with (a <? b)%nat. exact H2.
      * exact (IH (S n) j m').
Qed.
Lemma run_loop_app_used delta u evs : forall i m, exists used, evs = used ++ rest_of (run_loop delta u i m evs).
Proof.
  induction evs as [|e evs IH]; intros i m.
  - exists []. cbn. destruct (negb (u || (0 <? i))); reflexivity.
  - cbn [run_loop]. destruct (negb (u || (0 <? i))); [exists []; reflexivity|].
    destruct (handle delta m e) as [| |m' w c]; [exists [e]; reflexivity..|].
    destruct (IH (if c then i - 1 else i) m') as [used Hu]. exists (e :: used). cbn [app]. f_equal.
    destruct (run_loop delta u (if c then i - 1 else i) m' evs) as [[ws o] rest]. exact Hu.
Qed.

(** ** No crash *)
Definition wf_sess (s : sess) : Prop := List.length (s_ts s) = S (s_last s).
Definition tinv (past : list event) (m : sessions) : Prop :=
  NoDup (keys m) /\ forall id s, sess_get m id = Some s -> only_graph id past -> wf_sess s.
Lemma only_graph_app id a b : only_graph id (a ++ b) -> only_graph id a.
Proof. intros H x Hx. apply H. apply in_or_app. left. exact Hx. Qed.
Lemma wf_last s : wf_sess s -> exists t, last_tstamp s = Some t.
Proof.
  intros H. unfold last_tstamp. destruct (nth_error (s_ts s) (s_last s)) as [t|] eqn:He; [eauto|].
  apply nth_error_None in He. unfold wf_sess in H. lia.
Qed.
Lemma tinv_put past m id s e : tinv past m -> (only_graph id (past ++ [e]) -> wf_sess s) -> tinv (past ++ [e]) (aput Z.eqb id s m).
Proof.
  intros [Hnd H] Hs. split; [apply (NoDup_aput _ Zeqb_ok); exact Hnd|]. intros i s'. unfold sess_get. rewrite (aget_aput _ Zeqb_ok).
  destruct (Z.eqb_spec i id) as [->|]; [intros [= <-]; exact Hs|]. intros Hg Ho. apply (H i s' Hg). exact (only_graph_app _ _ _ Ho).
Qed.
Lemma tinv_more past m e : tinv past m -> tinv (past ++ [e]) m.
Proof. intros [Hnd H]. split; [exact Hnd|]. intros i s Hg Ho. apply (H i s Hg). exact (only_graph_app _ _ _ Ho). Qed.
Lemma tinv_del past m id : tinv past m -> tinv past (adel Z.eqb id m).
Proof.
  intros [Hnd H]. split; [apply NoDup_adel; exact Hnd|]. intros i s. unfold sess_get. rewrite (aget_adel _ Zeqb_ok _ _ _ Hnd).
  destruct (i =? id); [discriminate|]. apply H.
Qed.
Lemma firstn_len {A} k (l : list A) : List.length l = S (S k) -> List.length (firstn (S k) l) = S k.
Proof. intros H. rewrite firstn_length. lia. Qed.

Lemma handle_safe delta past m e : tinv past m -> (ev_type e = 4 \/ ev_type e = 5 -> only_graph (ev_sid e) past) ->
  match handle delta m e with HPanic => False | HErr => True | HOk m' _ _ => tinv (past ++ [e]) m' end.
Proof.
  intros Ht Hg. unfold handle.
  destruct (Z.eqb_spec (ev_type e) 3) as [H3|H3].
  { unfold insn_event. destruct (negb (ev_known e)); [apply tinv_more; exact Ht|].
    destruct (sess_get m (ev_sid e)) as [s|] eqn:Hs; [|apply tinv_more; exact Ht].
    apply tinv_put; [exact Ht|]. intros Ho. apply only_graph_app in Ho. destruct Ht as [_ Ht]. exact (Ht _ _ Hs Ho). }
  destruct (Z.eqb_spec (ev_type e) 4) as [H4|H4]; [|destruct (Z.eqb_spec (ev_type e) 5) as [H5|H5]]; cbn [orb].
  1,2: destruct (negb (ev_known e)); [apply tinv_more; exact Ht|]; unfold graph_event;
       destruct (sess_get m (ev_sid e)) as [s|] eqn:Hs; [|apply tinv_more; exact Ht];
       assert (Hwf : wf_sess s) by (apply (proj2 Ht (ev_sid e) s Hs), Hg; auto);
       destruct (wf_last s Hwf) as [t ->]; apply tinv_put; [exact Ht|]; intros _; unfold wf_sess, add_out; cbn [s_ts s_last].
  { rewrite H4. cbn [Z.eqb Pos.eqb]. cbn [push_tstamp s_ts s_last]. rewrite app_length. unfold wf_sess in Hwf. cbn [List.length]. lia. }
  { rewrite H5. cbn [Z.eqb Pos.eqb]. unfold pop_tstamp, wf_sess in *. destruct (s_last s) as [|k] eqn:Hl; [rewrite Hl; exact Hwf|].
    cbn [s_ts s_last]. apply firstn_len. exact Hwf. }
  destruct (ev_short e); [apply tinv_more; exact Ht|].
  destruct (required_session (ev_flags e)).
  - destruct (Z.eqb_spec (ev_type e) 1) as [H1|H1].
    + destruct (ev_err e); [exact I|]. unfold sess_get, sess_add at 1. rewrite (aget_aput _ Zeqb_ok), Z.eqb_refl.
      assert (Hnew : only_graph (ev_sid e) (past ++ [e]) -> wf_sess (new_sess (ev_ns e) (have_flag (ev_flags e) flag_graph))).
      { intros Ho. change flag_graph with bit_graph. rewrite (Ho e); [reflexivity|apply in_or_app; right; left; reflexivity|exact H1|reflexivity]. }
      assert (Ht' : tinv (past ++ [e]) (sess_add m (ev_sid e) (ev_ns e) (have_flag (ev_flags e) flag_graph))) by (apply tinv_put; assumption).
      destruct Ht' as [Hnd' Ht']. split; [apply (NoDup_aput _ Zeqb_ok); exact Hnd'|].
      intros i s'. unfold sess_get. rewrite (aget_aput _ Zeqb_ok). destruct (Z.eqb_spec i (ev_sid e)) as [->|]; [|apply Ht'].
      intros [= <-] Ho. exact (Hnew Ho).
    + unfold sess_get_and_del. destruct (aget Z.eqb (u64 (ev_sid e + 1)) m) as [s|].
      * destruct (_ <? delta); [apply tinv_del, tinv_more; exact Ht|]. destruct (ev_err e); [exact I|].
        destruct (ev_type e =? 2); apply tinv_del, tinv_more; exact Ht.
      * apply tinv_more; exact Ht.
  - destruct (ev_err e); [exact I|apply tinv_more; exact Ht].
Qed.
Lemma run_no_panic delta u evs : forall past i m, tinv past m -> graph_ids_ok (past ++ evs) -> res_of (run_loop delta u i m evs) <> Panicked.
Proof.
  induction evs as [|e evs IH]; intros past i m Ht Hg; cbn [run_loop].
  - destruct (negb _); discriminate.
  - destruct (negb _); [discriminate|]. pose proof (handle_safe delta past m e Ht (Hg past e evs eq_refl)) as Hs.
    destruct (handle delta m e) as [| |m' w c]; [contradiction|discriminate|].
    specialize (IH (past ++ [e]) (if c then i - 1 else i) m' Hs). rewrite <- app_assoc in IH. specialize (IH Hg).
    destruct (run_loop delta u (if c then i - 1 else i) m' evs) as [[ws o] rest]. exact IH.
Qed.
Lemma never_panics delta limit evs : graph_ids_ok evs -> res_of (run delta limit evs) <> Panicked.
Proof. intros H. apply (run_no_panic delta _ evs []); [split; [constructor|discriminate]|exact H]. Qed.

(** ** Graph sessions: an event touches only its own session *)
Lemma handle_frame delta m e m' w c id : NoDup (keys m) -> handle delta m e = HOk m' w c ->
  NoDup (keys m') /\ (belongs id e = false -> sess_get m' id = sess_get m id).
Proof.
  intros Hnd H. unfold handle in H.
  assert (Hput : forall i (s : sess) m0, NoDup (keys m0) -> NoDup (keys (aput Z.eqb i s m0)) /\ ((i =? id) = false -> sess_get (aput Z.eqb i s m0) id = sess_get m0 id)).
  { intros i s m0 H0. split; [apply (NoDup_aput _ Zeqb_ok); exact H0|]. intros Hi. unfold sess_get. rewrite (aget_aput _ Zeqb_ok), Z.eqb_sym, Hi. reflexivity. }
  destruct (Z.eqb_spec (ev_type e) 3) as [H3|H3].
  { injection H as <- <- <-. unfold belongs. rewrite H3. cbn [Z.eqb Pos.eqb orb]. unfold insn_event. destruct (negb (ev_known e)); [auto|].
    destruct (sess_get m (ev_sid e)); [apply Hput; exact Hnd|auto]. }
  destruct (Z.eqb_spec (ev_type e) 4) as [H4|H4]; [|destruct (Z.eqb_spec (ev_type e) 5) as [H5|H5]]; cbn [orb] in H.
  1,2: destruct (negb (ev_known e)); [injection H as <- <- <-; auto|]; unfold graph_event in H;
       destruct (sess_get m (ev_sid e)) as [s|]; [|injection H as <- <- <-; auto];
       destruct (last_tstamp s); [|discriminate]; injection H as <- <- <-; unfold belongs; rewrite ?H4, ?H5; cbn [Z.eqb Pos.eqb orb]; apply Hput; exact Hnd.
  destruct (ev_short e); [injection H as <- <- <-; auto|].
  destruct (required_session (ev_flags e)).
  - destruct (Z.eqb_spec (ev_type e) 1) as [H1|H1].
    + destruct (ev_err e); [discriminate|]. unfold sess_get at 1, sess_add at 1 in H. rewrite (aget_aput _ Zeqb_ok), Z.eqb_refl in H.
      injection H as <- <- <-. unfold belongs. rewrite H1. cbn [Z.eqb Pos.eqb orb]. unfold sess_add.
      destruct (Hput (ev_sid e) (new_sess (ev_ns e) (have_flag (ev_flags e) flag_graph)) m Hnd) as [Ha Hb].
      destruct (Hput (ev_sid e) (add_out (new_sess (ev_ns e) (have_flag (ev_flags e) flag_graph)) {| it_text := ev_text e; it_cost := None; it_dur := None |}) _ Ha) as [Hc Hd].
      split; [exact Hc|]. intros Hi. rewrite (Hd Hi). exact (Hb Hi).
    + assert (Hbel : belongs id e = (u64 (ev_sid e + 1) =? id)).
      { unfold belongs. apply Z.eqb_neq in H1, H3, H4, H5. rewrite H1, H3, H4, H5. reflexivity. }
      rewrite Hbel. unfold sess_get_and_del in H.
      assert (Hdel : NoDup (keys (adel Z.eqb (u64 (ev_sid e + 1)) m)) /\ ((u64 (ev_sid e + 1) =? id) = false -> sess_get (adel Z.eqb (u64 (ev_sid e + 1)) m) id = sess_get m id)).
      { split; [apply NoDup_adel; exact Hnd|]. intros Hi. unfold sess_get. rewrite (aget_adel _ Zeqb_ok _ _ _ Hnd), Z.eqb_sym, Hi. reflexivity. }
      destruct (aget Z.eqb (u64 (ev_sid e + 1)) m) as [s|]; [|injection H as <- <- <-; auto].
      destruct (_ <? delta); [injection H as <- <- <-; exact Hdel|]. destruct (ev_err e); [discriminate|].
      destruct (ev_type e =? 2); injection H as <- <- <-; exact Hdel.
  - destruct (ev_err e); [discriminate|injection H as <- <- <-; auto].
Qed.

Definition gsess (s : sess) (root : Z) (times : list Z) (outs : list item) : Prop :=
  s_started s = root /\ s_outs s = outs /\ times <> [] /\ s_ts s = rev times /\ s_last s = (List.length times - 1)%nat.
Lemma gsess_last s root t ts outs : gsess s root (t :: ts) outs -> last_tstamp s = Some t.
Proof.
  intros (_ & _ & _ & Ht & Hl). unfold last_tstamp. rewrite Ht, Hl. cbn [rev List.length]. rewrite nth_error_app2; rewrite rev_length; [|lia].
  replace (S (List.length ts) - 1 - List.length ts)%nat with 0%nat by lia. reflexivity.
Qed.
Lemma u32_dur a b : u32 (b - a) = dur32 a b.
Proof. reflexivity. Qed.

Lemma graph_tail delta id ex root (Hex : ev_type ex = 2) (Hreq : required_session (ev_flags ex) = true) (Hsh : ev_short ex = false)
  (Hd : delta <= dur32 root (ev_ns ex)) : forall evs gs ls times outs m s i, NoDup (keys m) -> sess_get m id = Some s -> gsess s root times outs ->
  filter (belongs id) evs = gs ++ [ex] -> (forall g, In g gs -> (ev_type g = 4 \/ ev_type g = 5) /\ ev_known g = true) ->
  graph_lines root times gs = Some ls -> res_of (run_loop delta true i m evs) = Closed ->
  In (outs ++ ls ++ [line (ev_text ex) (Some (dur32 root (ev_ns ex)))]) (out_of (run_loop delta true i m evs)).
Proof.
  induction evs as [|e evs IH]; intros gs ls times outs m s i Hnd Hs Hg Hf Hgs Hl Hres; [destruct gs; discriminate|].
  destruct (handle delta m e) as [| |m' w c] eqn:Hh.
  { cbn [run_loop orb negb] in Hres. rewrite Hh in Hres. discriminate. }
  { cbn [run_loop orb negb] in Hres. rewrite Hh in Hres. discriminate. }
  rewrite (run_loop_step delta true i m e evs m' w c eq_refl Hh) in *.
  change (out_of (w ++ ?x, ?y, ?z)) with (w ++ x). change (res_of (?x, ?y, ?z)) with y in Hres.
  destruct (handle_frame delta m e m' w c id Hnd Hh) as [Hnd' Hfr].
  cbn [filter] in Hf. destruct (belongs id e) eqn:Hb.
  2:{ apply in_or_app. right. apply (IH gs ls times outs m' s); try assumption. rewrite Hfr by reflexivity. exact Hs. }
  destruct gs as [|g gs].
  - (* e is the exit *)
    cbn [app] in Hf. injection Hf as -> _. cbn [graph_lines] in Hl. injection Hl as <-. cbn [app].
    unfold handle in Hh. rewrite Hex in Hh. cbn [Z.eqb Pos.eqb orb] in Hh. rewrite Hsh, Hreq in Hh.
    unfold belongs in Hb. rewrite Hex in Hb. cbn [Z.eqb Pos.eqb orb] in Hb. apply Z.eqb_eq in Hb.
    unfold sess_get_and_del in Hh. rewrite Hb in Hh. unfold sess_get in Hs. rewrite Hs in Hh.
    destruct Hg as (Hst & Hout & _). rewrite Hst, u32_dur in Hh.
    destruct (Z.ltb_spec (dur32 root (ev_ns ex)) delta); [lia|]. destruct (ev_err ex); [discriminate|].
    injection Hh as <- <- <-. rewrite Hout. left. reflexivity.
  - cbn [app] in Hf. injection Hf as -> Hf. destruct (Hgs g (or_introl eq_refl)) as [Hty Hk].
    cbn [graph_lines] in Hl. destruct times as [|t ts]; [discriminate|].
    assert (Hid : ev_sid g = id).
    { unfold belongs in Hb. destruct Hty as [Hty|Hty]; rewrite Hty in Hb; cbn [Z.eqb Pos.eqb orb] in Hb; apply Z.eqb_eq; exact Hb. }
    unfold handle in Hh. destruct (ev_type g =? 3) eqn:H3; [apply Z.eqb_eq in H3; lia|].
    assert (Hor : (ev_type g =? 4) || (ev_type g =? 5) = true) by (destruct Hty as [-> | ->]; reflexivity).
    rewrite Hor, Hk in Hh. cbn [negb] in Hh. unfold graph_event in Hh. rewrite Hid, Hs, (gsess_last _ _ _ _ _ Hg) in Hh.
    injection Hh as <- <- <-. cbn [app].
    destruct Hg as (Hst & Hout & Hne & Hts & Hla). rewrite Hst, !u32_dur in *.
    set (it := {| it_text := ev_text g; it_cost := Some (dur32 t (ev_ns g)); it_dur := Some (dur32 root (ev_ns g)) |}) in *.
    assert (Hout' : forall s' times' ls', gsess s' root times' (outs ++ [it]) -> graph_lines root times' gs = Some ls' -> ls = it :: ls' ->
       res_of (run_loop delta true i (aput Z.eqb id s' m) evs) = Closed ->
       In (outs ++ ls ++ [line (ev_text ex) (Some (dur32 root (ev_ns ex)))]) (out_of (run_loop delta true i (aput Z.eqb id s' m) evs))).
    { intros s' times' ls' Hg' Hl' -> Hres'.
      specialize (IH gs ls' times' (outs ++ [it]) (aput Z.eqb id s' m) s' i).
      rewrite <- app_assoc in IH. cbn [app] in IH. apply IH; try assumption.
      - apply (NoDup_aput _ Zeqb_ok). exact Hnd.
      - unfold sess_get. rewrite (aget_aput _ Zeqb_ok), Z.eqb_refl. reflexivity.
      - intros x Hx. apply Hgs. right. exact Hx. }
    destruct (ev_type g =? 4) eqn:H4.
    + destruct (graph_lines root (ev_ns g :: t :: ts) gs) as [ls'|] eqn:Hl'; [|discriminate]. cbn [option_map] in Hl. injection Hl as <-.
      refine (Hout' _ (ev_ns g :: t :: ts) ls' _ Hl' eq_refl Hres).
      unfold gsess, add_out, push_tstamp. cbn [s_started s_outs s_ts s_last]. rewrite Hst, Hout, Hts, Hla.
      split; [reflexivity|]. split; [reflexivity|]. split; [discriminate|]. split; [reflexivity|]. cbn [List.length]. lia.
    + destruct ts as [|t2 ts]; [discriminate|].
      destruct (graph_lines root (t2 :: ts) gs) as [ls'|] eqn:Hl'; [|discriminate]. cbn [option_map] in Hl. injection Hl as <-.
      refine (Hout' _ (t2 :: ts) ls' _ Hl' eq_refl Hres).
      unfold gsess, add_out, pop_tstamp. rewrite Hla. cbn [List.length Nat.sub]. cbn [s_started s_outs s_ts s_last]. rewrite Hst, Hout, Hts.
      split; [reflexivity|]. split; [reflexivity|]. split; [discriminate|]. split; [|lia].
      cbn [rev]. rewrite firstn_app. rewrite app_length, rev_length. cbn [List.length].
      replace (S (List.length ts) - (List.length ts + 1))%nat with 0%nat by lia. change (firstn 0 [t]) with (@nil Z). rewrite app_nil_r.
      rewrite firstn_all2; [reflexivity|]. rewrite app_length, rev_length. cbn [List.length]. lia.
Qed.
Lemma graph_session delta id e0 gs ex ls : forall evs,
  filter (belongs id) evs = e0 :: gs ++ [ex] ->
  ev_type e0 = 1 -> have_flag (ev_flags e0) flag_graph = true -> have_flag (ev_flags e0) flag_tp = false -> ev_short e0 = false ->
  (forall g, In g gs -> (ev_type g = 4 \/ ev_type g = 5) /\ ev_known g = true) ->
  graph_lines (ev_ns e0) [ev_ns e0] gs = Some ls ->
  ev_type ex = 2 -> required_session (ev_flags ex) = true -> ev_short ex = false -> delta <= dur32 (ev_ns e0) (ev_ns ex) ->
  res_of (run delta 0 evs) = Closed ->
  In (line (ev_text e0) None :: ls ++ [line (ev_text ex) (Some (dur32 (ev_ns e0) (ev_ns ex)))]) (printed delta evs).
Proof.
  intros evs. unfold printed, run. change (0 =? 0) with true. change (i64 0) with 0. fold (out_of (run_loop delta true 0 [] evs)).
  intros Hf H1 Hg Htp Hsh Hgs Hl H2 Hreq Hsx Hd.
  assert (Hnd : NoDup (keys ([] : sessions))) by constructor. revert Hf Hnd. generalize ([] : sessions) as m. generalize 0 as i.
  induction evs as [|e evs IH]; intros i m Hf Hnd Hres; [discriminate|].
  destruct (handle delta m e) as [| |m' w c] eqn:Hh.
  { cbn [run_loop orb negb] in Hres. rewrite Hh in Hres. discriminate. }
  { cbn [run_loop orb negb] in Hres. rewrite Hh in Hres. discriminate. }
  rewrite (run_loop_step delta true i m e evs m' w c eq_refl Hh) in *.
  change (out_of (w ++ ?x, ?y, ?z)) with (w ++ x). change (res_of (?x, ?y, ?z)) with y in Hres.
  destruct (handle_frame delta m e m' w c id Hnd Hh) as [Hnd' Hfr].
  cbn [filter] in Hf. destruct (belongs id e) eqn:Hb.
  2:{ apply in_or_app. right. apply IH; assumption. }
  injection Hf as -> Hf. apply in_or_app. right.
  unfold handle in Hh. rewrite H1 in Hh. cbn [Z.eqb Pos.eqb orb] in Hh. rewrite Hsh in Hh.
  assert (Hr : required_session (ev_flags e0) = true) by (unfold required_session; rewrite Hg, Htp; cbn [negb andb]; rewrite orb_true_r; reflexivity).
  rewrite Hr in Hh. destruct (ev_err e0); [discriminate|]. rewrite Hg in Hh.
  unfold sess_get at 1, sess_add at 1 in Hh. rewrite (aget_aput _ Zeqb_ok), Z.eqb_refl in Hh.
  unfold belongs in Hb. rewrite H1 in Hb. cbn [Z.eqb Pos.eqb orb] in Hb. apply Z.eqb_eq in Hb. rewrite Hb in Hh.
  injection Hh as <- <- <-.
  change (line (ev_text e0) None :: ls ++ ?x) with ([line (ev_text e0) None] ++ ls ++ x).
  refine (graph_tail delta id ex (ev_ns e0) H2 Hreq Hsx Hd evs gs ls [ev_ns e0] _ _ _ _ Hnd' _ _ Hf Hgs Hl Hres).
  - unfold sess_get. rewrite (aget_aput _ Zeqb_ok), Z.eqb_refl. reflexivity.
  - split; [reflexivity|]. split; [reflexivity|]. split; [discriminate|]. split; reflexivity.
Qed.

Lemma i64_id N : 0 <= N < 2 ^ 63 -> i64 N = N.
Proof. intros H. unfold i64. rewrite Z.mod_small by (unfold W64; lia). destruct (Z.ltb_spec N (2 ^ 63)); lia. Qed.
Lemma limit_run delta N evs : 0 < N < 2 ^ 63 ->
  let r := run delta N evs in let r0 := run delta 0 evs in
  out_of r = firstn (Z.to_nat N) (out_of r0) /\
  (if (List.length (out_of r0) <? Z.to_nat N)%nat then res_of r = res_of r0 /\ rest_of r = rest_of r0 else res_of r = Finished).
Proof.
  intros H. unfold run. rewrite i64_id by lia. replace (N =? 0) with false by (symmetry; apply Z.eqb_neq; lia).
  change (0 =? 0) with true. pose proof (limit_loop delta evs (Z.to_nat N) (i64 0) []) as L. rewrite Z2Nat.id in L by lia. exact L.
Qed.
Lemma limit_huge delta N evs : 2 ^ 63 <= N < 2 ^ 64 -> run delta N evs = ([], Finished, evs).
Proof.
  intros H. unfold run. replace (N =? 0) with false by (symmetry; apply Z.eqb_neq; lia).
  assert (Hi : i64 N <= 0). { unfold i64. rewrite Z.mod_small by (unfold W64; lia). destruct (Z.ltb_spec N (2 ^ 63)); unfold W64; lia. }
  destruct evs; cbn [run_loop orb]; destruct (Z.ltb_spec 0 (i64 N)); try lia; reflexivity.
Qed.
Lemma unlimited_res delta evs : forall i m, res_of (run_loop delta true i m evs) <> Finished /\
  (res_of (run_loop delta true i m evs) = Closed -> rest_of (run_loop delta true i m evs) = []).
Proof.
  induction evs as [|e evs IH]; intros i m; cbn [run_loop orb negb]; [split; [discriminate|reflexivity]|].
  destruct (handle delta m e) as [| |m' w c]; [split; discriminate..|].
  specialize (IH (if c then i - 1 else i) m'). destruct (run_loop delta true _ m' evs) as [[ws o] rest]. exact IH.
Qed.
Lemma nolimit_all delta evs : res_of (run delta 0 evs) <> Finished /\ (res_of (run delta 0 evs) = Closed -> rest_of (run delta 0 evs) = []).
Proof. apply unlimited_res. Qed.

Lemma stops_loop delta evs : forall n j m, (0 < n)%nat -> res_of (run_loop delta false (Z.of_nat n) m evs) = Finished ->
  exists used e, evs = used ++ e :: rest_of (run_loop delta false (Z.of_nat n) m evs) /\
    List.length (out_of (run_loop delta true j m used)) = (n - 1)%nat /\
    List.length (out_of (run_loop delta true j m (used ++ [e]))) = n.
Proof.
  induction evs as [|e evs IH]; intros n j m Hn Hr.
  - cbn [run_loop orb negb] in Hr. destruct (Z.ltb_spec 0 (Z.of_nat n)); [discriminate|lia].
  - assert (Hp : (false || (0 <? Z.of_nat n)) = true) by (apply Z.ltb_lt; lia).
    destruct (handle delta m e) as [| |m' w c] eqn:Hh.
    { cbn [run_loop] in Hr. rewrite Hp, Hh in Hr. discriminate. }
    { cbn [run_loop] in Hr. rewrite Hp, Hh in Hr. discriminate. }
    rewrite (run_loop_step _ _ _ _ _ evs _ _ _ Hp Hh) in *. change (res_of (?x, ?y, ?z)) with y in Hr. change (rest_of (?x, ?y, ?z)) with z.
    destruct (handle_count _ _ _ _ _ _ Hh) as [(-> & g & ->)|(-> & ->)].
    + replace (Z.of_nat n - 1) with (Z.of_nat (n - 1)) in * by lia. destruct (Nat.eq_dec n 1) as [->|Hne].
      * exists [], e. change (Z.of_nat (1 - 1)) with 0 in *. cbn [app]. split; [|split].
        -- destruct evs; reflexivity.
        -- reflexivity.
        -- rewrite (run_loop_step delta true j m e [] m' [g] true eq_refl Hh). reflexivity.
      * destruct (IH (n - 1)%nat (j - 1) m' ltac:(lia) Hr) as (used & x & He & H1 & H2). exists (e :: used), x. cbn [app].
        split; [rewrite <- He; reflexivity|].
        rewrite !(run_loop_step delta true j m e _ m' [g] true eq_refl Hh). change (out_of (?x, ?y, ?z)) with x. cbn [app List.length].
        rewrite H1, H2. split; lia.
    + destruct (IH n j m' Hn Hr) as (used & x & He & H1 & H2). exists (e :: used), x. cbn [app].
      split; [rewrite <- He; reflexivity|].
      rewrite !(run_loop_step delta true j m e _ m' [] false eq_refl Hh). change (out_of (?x, ?y, ?z)) with x. cbn [app]. split; assumption.
Qed.
Lemma limit_stops delta N evs : 0 < N < 2 ^ 63 -> res_of (run delta N evs) = Finished ->
  exists used e, evs = used ++ e :: rest_of (run delta N evs) /\
    List.length (out_of (run delta 0 used)) = (Z.to_nat N - 1)%nat /\
    List.length (out_of (run delta 0 (used ++ [e]))) = Z.to_nat N.
Proof.
  intros H. unfold run. rewrite i64_id by lia. replace (N =? 0) with false by (symmetry; apply Z.eqb_neq; lia). change (0 =? 0) with true.
  intros Hr. pose proof (stops_loop delta evs (Z.to_nat N) (i64 0) [] ltac:(lia)) as L. rewrite Z2Nat.id in L by lia. exact (L Hr).
Qed.
Lemma brief_map delta h : nested no_calls h -> fresh_ids no_calls h -> within_limits no_calls h -> brief no_calls h ->
  printed delta (ring_map [] h) = expected true_dur delta no_calls h.
Proof. intros Hn Hf Hw Hb. rewrite (map_mode_pairs delta h Hn Hf Hw). apply expected_brief. exact Hb. Qed.
Lemma brief_cookie delta h : nested no_calls h -> fresh_ids no_calls h -> brief no_calls h ->
  printed delta (ring_cookie (fun _ => []) h) = expected true_dur delta no_calls h.
Proof. intros Hn Hf Hb. rewrite (cookie_mode_pairs delta h Hn Hf). apply expected_brief. exact Hb. Qed.
