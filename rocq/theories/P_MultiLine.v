From Coq Require Import ZArith NArith List Bool String Ascii Lia.
From Verif Require M_Sess.
From Verif Require Import M_Go M_Ebpf M_Bytes M_FnArgs M_Repr M_Label M_Proto M_Cfg M_Color M_CallLine S_FnArgs S_Cfg S_CallLine P_FnArgs P_FnArgs2 P_Cfg P_Color P_CallLine M_MultiLine S_MultiLine.
Import ListNotations.
Open Scope string_scope.
Open Scope Z_scope.

Lemma multi_slots find junk bit_text ds : forall regs, Forall (fun d => is_scalar (pd_ty d)) ds -> forall nxt,
  exists ps, multi_params find junk bit_text ds (map (fun i => (nth i regs 0, nxt i)) (seq 0 (Nat.min (List.length ds) (List.length regs)))) = Some ps /\
    slots_text find bit_text ds regs = (ps ++ if (List.length regs <? List.length ds)%nat then ["..."] else [])%list /\ (ps = [] -> regs = [] \/ ds = []).
Proof.
  induction ds as [|d ds IH]; intros regs H nxt; [exists []; cbn; auto|]. destruct regs as [|v regs]; [exists []; cbn; auto|].
  cbn [List.length Nat.min seq map multi_params nth]. destruct (IH regs ltac:(inversion H; assumption) (fun i => nxt (S i))) as (ps & E1 & E2 & _).
  rewrite <- seq_shift, map_map. cbn [nth]. unfold param_text, value_text, plain_prm. cbn [p_str p_num]. unfold repr_value. cbn [sa_val].
  rewrite repr_scalar by (inversion H; assumption). cbn [option_map]. rewrite E1. eexists. split; [reflexivity|]. cbn [slots_text]. rewrite E2. unfold number_text.
  split; [|discriminate]. replace (S (List.length regs) <? S (List.length ds))%nat with (List.length regs <? List.length ds)%nat; [reflexivity|].
  destruct (Nat.ltb_spec (List.length regs) (List.length ds)), (Nat.ltb_spec (S (List.length regs)) (S (List.length ds))); lia || reflexivity.
Qed.
Lemma concat_more l : l <> [] -> String.concat ", " (l ++ ["..."])%list = (String.concat ", " l ++ ", " ++ "...").
Proof.
  induction l as [|a l IH]; intros H; [congruence|]. destruct l as [|b l]; [reflexivity|].
  change (String.concat ", " ((a :: b :: l) ++ ["..."])%list) with (a ++ ", " ++ String.concat ", " ((b :: l) ++ ["..."])%list).
  rewrite IH by discriminate. change (String.concat ", " (a :: b :: l)) with (a ++ ", " ++ String.concat ", " (b :: l)). rewrite !sapp_assoc. reflexivity.
Qed.
Lemma more_line nc v : e_empty v = false -> (e_params v = [] -> e_more v = false) ->
  out_func nc false v ++ out_tail nc false v =
  e_arrow v ++ e_name v ++ " args=(" ++ String.concat ", " (e_params v ++ if e_more v then ["..."] else [])%list ++ ")" ++ match e_ret v with Some r => " retval=" ++ r | None => "" end ++
  " cpu=" ++ fmt_d (M_Color.e_cpu v) ++ " process=(" ++ fmt_d (M_Color.e_pid v) ++ ":" ++ M_Color.e_comm v ++ ")" ++
  match e_dur v with Some d => " duration=" ++ d | None => "" end ++ " timestamp=" ++ e_time v ++ eol.
Proof.
  intros E1 E2. destruct (e_more v) eqn:Em; [|rewrite app_nil_r; apply event_line; assumption].
  assert (E3 : e_params v <> []) by (intros X; discriminate (E2 X)). rewrite concat_more by exact E3.
  unfold out_func, out_tail, out_ret. rewrite E1, Em, params_join. rewrite !sapp_assoc. do 2 f_equal. cbn [append]. do 7 f_equal.
  destruct (e_params v) as [|a l]; [congruence|]. rewrite ?sapp_assoc. destruct (e_ret v); rewrite ?sapp_assoc; reflexivity.
Qed.

Lemma multi_session maxargs hs me f c w : In c (trace_kmulti maxargs hs me f) -> (forall j, 4 <= j < 12 -> have_flag w j = Z.testbit (go_flags c) j) ->
  in_session w = (f_both f || f_graph f) /\ have_flag w 9 = false /\ have_flag w 11 = true.
Proof.
  intros Hin H. unfold in_session. rewrite !H, !go_flags_bit by lia.
  change (Z.to_nat 4) with 4%nat. change (Z.to_nat 6) with 6%nat. change (Z.to_nat 7) with 7%nat. change (Z.to_nat 8) with 8%nat. change (Z.to_nat 9) with 9%nat. change (Z.to_nat 11) with 11%nat. cbn [nth].
  revert Hin. unfold trace_kmulti. destruct (f_both f) eqn:Eb, hs; cbn [andb In]; intros X; repeat destruct X as [<-|X]; try destruct X;
    unfold trace_kmulti_one; cbn; rewrite ?Eb; destruct (f_graph f); auto.
Qed.

Theorem multi_line_ok find bit_text junk nc maxargs hs me f c pid is_return m s proto fi vals retval buf :
  In c (trace_kmulti (Z.of_nat maxargs) hs me f) -> fits pid -> cfg_ok c -> (1 <= maxargs <= 1000)%nat -> List.length vals = maxargs ->
  Forall (fun d => is_scalar (pd_ty d)) (fi_params fi) -> is_scalar (pd_ty (fi_ret fi)) ->
  call_state m s vals retval buf (tc_buf c) ->
  exists s', (forall p fuel, code p = fst (gen_output_kmulti maxargs (tc_ret c)) -> (List.length (code p) <= fuel)%nat -> run fuel m p 0 s = Done (rg s' R0) s') /\
    forall p dur time, probe_ok c p -> pr_args p = S_FnArgs.record s' buf (tc_buf c) ->
    exists e sec v, go_handle (emit true (c_config (go_cfg_bytes pid c)) is_return p) = Some (Some (e, sec)) /\
      any_event find junk bit_text maxargs proto fi e sec dur time = Some v /\
      out_func nc false v ++ out_tail nc false v =
        multi_line find bit_text proto fi f vals retval (exits c is_return) (pr_cpu p) (pr_pid p) (pr_comm p) dur time.
Proof.
  intros Hin Hpid Hcfg Hmax Hvals Hsc Hrsc Hcall.
  destruct (trace_kmulti_sizes (Z.of_nat maxargs) hs me f c is_return Hin) as (Hsz & Hret & Hb).
  assert (Hpos : tc_buf c <> 0) by (rewrite Hb; destruct (tc_ret c); lia).
  destruct (gen_output_kmulti maxargs (tc_ret c)) as [code0 size] eqn:Hgen.
  assert (Hsize : tc_buf c = size) by (unfold gen_output_kmulti in Hgen; rewrite Hb; congruence).
  rewrite Hsize in *. set (params := if proto then fi_params fi else []).
  destruct (kmulti_round_trip m s maxargs (List.length params) (tc_ret c) vals retval buf code0 size Hvals ltac:(lia) Hgen Hcall) as (s' & Hrun & _ & Hdec).
  exists s'. split. { intros p fuel Hc Hf. cbn [fst] in Hc. apply Hrun; [exact Hc|]. rewrite <- Hc. exact Hf. }
  intros p dur time Hp Hargs.
  destruct (emit_handled true pid c is_return p Hpid Hcfg Hp) as (e & sec & E & Ht & _ & _ & _ & Hcpu & Hpd & Hcm & _ & _ & _ & _ & Ha & _).
  { rewrite Hsize. exact Hsz. }
  destruct (multi_session _ hs me f c (e_flags e) Hin (emit_flags true pid c is_return p e sec Hpid Hcfg Hp E)) as (Hses & Htp & Hkm).
  exists e, sec. unfold any_event. rewrite Hkm. unfold multi_event. rewrite Ha, Hses, Htp, Hcpu, Hpd, Hcm, until_nul_ok, Hsize.
  assert (Hex : (M_Cfg.e_type e =? 2) = exits c is_return) by (rewrite Ht; destruct (exits c is_return); reflexivity). rewrite Hex.
  destruct (Z.eqb_spec size 0) as [E0|_]; [contradiction|]. rewrite Hargs.
  assert (Hdec' : output_kmulti maxargs (List.length params) (S_FnArgs.record s' buf size) (exits c is_return) =
    (map (fun i => (nth i vals 0, nth (i + 1) vals 0)) (seq 0 (Nat.min (List.length params) maxargs)), (maxargs <? List.length params)%nat, if exits c is_return then Some retval else None)).
  { destruct (exits c is_return) eqn:Ee; [rewrite Hret in Hdec by reflexivity; exact Hdec|].
    pose proof (f_equal fst Hdec) as R4. cbn [fst] in R4. change (fst (output_kmulti maxargs (List.length params) (S_FnArgs.record s' buf size) (tc_ret c)))
      with (fst (output_kmulti maxargs (List.length params) (S_FnArgs.record s' buf size) false)) in R4. rewrite <- R4. reflexivity. }
  fold params. rewrite Hdec'.
  destruct (multi_slots find junk bit_text params vals) with (nxt := fun i => nth (i + 1) vals 0) as (ps & E1 & E2 & E3).
  { unfold params. destruct proto; [exact Hsc|constructor]. }
  rewrite Hvals in E1, E2. rewrite E1.
  assert (Hmore : ps = [] -> (maxargs <? List.length params)%nat = false).
  { intros Hn. destruct (E3 Hn) as [X|X]; [rewrite X in Hvals; cbn in Hvals; lia|rewrite X; cbn; destruct maxargs; reflexivity]. }
  assert (Hr : multi_ret find junk bit_text proto fi retval = Some (multi_result find bit_text proto fi retval)).
  { unfold multi_ret, multi_result. destruct proto; [|reflexivity]. unfold ret_text, value_text, plain_prm. cbn [p_str p_num]. destruct (fi_void fi); [reflexivity|]. cbn [negb].
    unfold repr_value. cbn [sa_val]. rewrite repr_scalar by exact Hrsc. reflexivity. }
  destruct (exits c is_return) eqn:Ee.
  - rewrite Hr. eexists. split; [exact E|]. split; [reflexivity|]. rewrite more_line; [|reflexivity|exact Hmore].
    cbn [e_arrow e_name e_params e_more e_ret M_Color.e_cpu M_Color.e_pid M_Color.e_comm e_dur e_time]. unfold multi_line. fold params. rewrite E2.
    rewrite andb_true_r. cbn [andb]. rewrite ?sapp_assoc. destruct (f_both f || f_graph f); reflexivity.
  - eexists. split; [exact E|]. split; [reflexivity|]. rewrite more_line; [|reflexivity|exact Hmore].
    cbn [e_arrow e_name e_params e_more e_ret M_Color.e_cpu M_Color.e_pid M_Color.e_comm e_dur e_time]. unfold multi_line. fold params. rewrite E2.
    rewrite andb_false_r. cbn [andb]. reflexivity.
Qed.
(** Which events are kept back *)
Lemma multi_both maxargs hs me f c : In c (trace_kmulti maxargs hs me f) ->
  (f_both f = true <-> (exists c' r, In c' (trace_kmulti maxargs hs me f) /\ exits c' r = true) /\ (exists c' r, In c' (trace_kmulti maxargs hs me f) /\ exits c' r = false)).
Proof.
  intros _. unfold trace_kmulti. destruct (f_both f) eqn:Eb.
  - split; [intros _|reflexivity]. destruct hs; cbn [andb].
    + split; eexists; [exists true|exists false]; (split; [left; reflexivity|]); unfold exits, trace_kmulti_one; cbn; rewrite Eb; reflexivity.
    + split; [eexists; exists false; split; [right; left; reflexivity|]|eexists; exists false; split; [left; reflexivity|]]; unfold exits, trace_kmulti_one; cbn; rewrite Eb; reflexivity.
  - cbn [andb]. split; [discriminate|]. intros [(c1 & r1 & [<-|[]] & H1) (c2 & r2 & [<-|[]] & H2)].
    revert H1 H2. unfold exits, trace_kmulti_one. cbn. rewrite Eb. cbn. congruence.
Qed.
Theorem multi_held maxargs hs me f c pid is_return p e sec : In c (trace_kmulti maxargs hs me f) -> fits pid -> cfg_ok c -> probe_ok c p ->
  go_handle (emit true (c_config (go_cfg_bytes pid c)) is_return p) = Some (Some (e, sec)) ->
  M_Sess.required_session (e_flags e) = (f_both f || f_graph f).
Proof.
  intros Hin Hpid Hcfg Hp E. exact (proj1 (multi_session _ hs me f c (e_flags e) Hin (emit_flags true pid c is_return p e sec Hpid Hcfg Hp E))).
Qed.
(** Entries alone, or exits alone, of functions that need a session print nothing. *)
Lemma entries_print_nothing delta unl evs : (forall ev, In ev evs -> M_Sess.ev_type ev = 1 /\ M_Sess.required_session (M_Sess.ev_flags ev) = true) ->
  forall i m, fst (fst (M_Sess.run_loop delta unl i m evs)) = [].
Proof.
  induction evs as [|ev evs IH]; intros H i m; cbn [M_Sess.run_loop]; [destruct (negb _); reflexivity|].
  destruct (negb _); [reflexivity|]. destruct (H ev (or_introl eq_refl)) as [Ht Hr]. unfold M_Sess.handle. rewrite Ht, Hr. cbn [Z.eqb Pos.eqb orb].
  assert (X : forall m' j, fst (fst (let '(ws, o, rest) := M_Sess.run_loop delta unl j m' evs in (([] ++ ws)%list, o, rest))) = []).
  { intros m' j. specialize (IH (fun e He => H e (or_intror He)) j m'). destruct (M_Sess.run_loop delta unl j m' evs) as [[ws o] rest]. exact IH. }
  destruct (M_Sess.ev_short ev); [apply X|]. destruct (M_Sess.ev_err ev); [reflexivity|]. destruct (M_Sess.sess_get _ _); [apply X|reflexivity].
Qed.
Lemma exits_print_nothing delta unl evs : (forall ev, In ev evs -> M_Sess.ev_type ev = 2 /\ M_Sess.required_session (M_Sess.ev_flags ev) = true) ->
  forall i, fst (fst (M_Sess.run_loop delta unl i [] evs)) = [].
Proof.
  induction evs as [|ev evs IH]; intros H i; cbn [M_Sess.run_loop]; [destruct (negb _); reflexivity|].
  destruct (negb _); [reflexivity|]. destruct (H ev (or_introl eq_refl)) as [Ht Hr]. unfold M_Sess.handle. rewrite Ht, Hr. cbn [Z.eqb Pos.eqb orb].
  assert (X : forall j, fst (fst (let '(ws, o, rest) := M_Sess.run_loop delta unl j [] evs in (([] ++ ws)%list, o, rest))) = []).
  { intros j. specialize (IH (fun e He => H e (or_intror He)) j). destruct (M_Sess.run_loop delta unl j [] evs) as [[ws o] rest]. exact IH. }
  destruct (M_Sess.ev_short ev); [apply X|]. cbn [M_Sess.sess_get_and_del aget]. apply X.
Qed.
Theorem graph_prints_nothing maxargs hs me f c pid delta limit evs : f_graph f = true -> f_both f = false ->
  In c (trace_kmulti maxargs hs me f) -> fits pid -> cfg_ok c ->
  (forall ev, In ev evs -> exists is_return p e sec, probe_ok c p /\ go_handle (emit true (c_config (go_cfg_bytes pid c)) is_return p) = Some (Some (e, sec)) /\
     M_Sess.ev_type ev = M_Cfg.e_type e /\ M_Sess.ev_flags ev = e_flags e) ->
  fst (fst (M_Sess.run delta limit evs)) = [].
Proof.
  intros Hg Hb Hin Hpid Hcfg H.
  assert (X : forall ev, In ev evs -> M_Sess.ev_type ev = (if tc_ret c then 2 else 1) /\ M_Sess.required_session (M_Sess.ev_flags ev) = true).
  { intros ev Hev. destruct (H ev Hev) as (r & p & e & sec & Hp & E & Et & Ef).
    destruct (trace_kmulti_sizes maxargs hs me f c r Hin) as (Hsz & _).
    destruct (emit_handled true pid c r p Hpid Hcfg Hp Hsz) as (e' & sec' & E' & Ht & _). rewrite E in E'. injection E' as <- <-.
    rewrite Ef, (multi_held _ _ _ _ _ _ _ _ _ _ Hin Hpid Hcfg Hp E), Hg, orb_true_r. split; [|reflexivity]. rewrite Et, Ht. unfold exits.
    assert (Hbc : tc_both c = false). { revert Hin. unfold trace_kmulti. rewrite Hb. cbn [andb]. intros [<-|[]]. exact Hb. }
    rewrite Hbc. reflexivity. }
  unfold M_Sess.run. destruct (tc_ret c); [apply exits_print_nothing|apply entries_print_nothing]; exact X.
Qed.
