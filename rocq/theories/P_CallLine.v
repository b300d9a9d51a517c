From Coq Require Import ZArith NArith List Bool String Ascii Lia.
From Verif Require M_Sess.
From Verif Require Import M_Go M_Ebpf M_Bytes M_FnArgs M_Repr M_Label M_Proto M_Cfg M_Color M_CallLine S_FnArgs S_Cfg S_CallLine P_FnArgs P_FnArgs2 P_Cfg P_Color.
Import ListNotations.
Open Scope string_scope.
Open Scope Z_scope.

Lemma until_nul_ok l : null_terminated l = until_nul l.
Proof.
  unfold null_terminated. assert (H : firstn (null_idx l) l = until_nul l).
  { induction l as [|b l IH]; [reflexivity|]. cbn [null_idx until_nul]. destruct (b =? 0); [reflexivity|]. cbn [firstn]. f_equal. exact IH. }
  destruct (Nat.eqb_spec (null_idx l) 0) as [E|E]; [|exact H]. rewrite E in H. exact H.
Qed.
Section Texts.
  Variables (find bit_text : Z -> string) (junk : list Z).
  Lemma repr_scalar t v n : is_scalar t -> M_Repr.repr find junk t v n = Some (M_Repr.repr_num find t v).
  Proof. destruct t; cbn [is_scalar M_Repr.repr]; [reflexivity..|contradiction|reflexivity]. Qed.
  Lemma value_view d p a : desc_scalar d -> value_text find junk bit_text d (p_str p) (p_num p) a = Some (view_text find bit_text d (seen p a)).
  Proof.
    intros (H1 & H2 & _). unfold value_text, seen. destruct (p_str p); [reflexivity|]. unfold repr_value, view_text. destruct (p_num p).
    - destruct (Z.eqb_spec (sa_val a) 0) as [E|E]; [rewrite E; reflexivity|]. rewrite repr_scalar by exact H2. reflexivity.
    - rewrite repr_scalar by exact H1. reflexivity.
  Qed.
  Lemma param_texts_view ds : forall ps l, Forall desc_scalar ds -> List.length ps = List.length ds -> List.length l = List.length ds ->
    param_texts find junk bit_text ds ps l = Some (args_text find bit_text ds (map (fun pr => seen (fst pr) (snd pr)) (combine ps l))).
  Proof.
    induction ds as [|d ds IH]; intros ps l H Hp Hl; [reflexivity|]. destruct ps as [|p ps]; [discriminate|]. destruct l as [|a l]; [discriminate|].
    cbn [param_texts combine map fst snd args_text]. unfold param_text. rewrite value_view by (inversion H; assumption). cbn [option_map].
    rewrite IH; [reflexivity|inversion H; assumption|cbn in Hp; lia|cbn in Hl; lia].
  Qed.
  Lemma ret_view fi a : desc_scalar (fi_ret fi) ->
    ret_text find junk bit_text (fi_void fi) (fi_ret fi) (ret_flags (pd_pt (fi_ret fi))) a = Some (result_text find bit_text fi (seen (ret_flags (pd_pt (fi_ret fi))) a)).
  Proof.
    intros H. unfold ret_text, result_text. destruct (fi_void fi); [reflexivity|]. set (p := ret_flags _).
    destruct (p_str p) eqn:Es; [unfold seen; rewrite Es; reflexivity|].
    assert (X := value_view (fi_ret fi) p {| sa_reg := sa_reg a; sa_str := []; sa_val := sa_val a; sa_ptr := sa_ptr a; sa_next := 0 |} H). rewrite Es in X. rewrite X.
    cbn [option_map]. unfold seen. rewrite Es. destruct (p_num p); reflexivity.
  Qed.
End Texts.

(** Bits of the event's flags that the BPF side leaves alone *)
Lemma emit_flags kmulti pid c is_return p e sec : fits pid -> cfg_ok c -> probe_ok c p ->
  go_handle (emit kmulti (c_config (go_cfg_bytes pid c)) is_return p) = Some (Some (e, sec)) ->
  forall j, 4 <= j < 12 -> have_flag (e_flags e) j = Z.testbit (go_flags c) j.
Proof.
  intros Hpid [Knr Kbuf Kdata Ken Kex] [Ps Pip Pcpu Ppid Pcomm Pst Plbr Pargs Ppkt Pdata].
  rewrite c_config_go by assumption. unfold emit. cbn [cc_flags]. unfold output_event. cbn [cc_flags cc_buf cc_dsz cc_en cc_ex cc_data].
  set (ex := is_exit_mode _). set (cl := can_lbr_of _ _). set (cp := cflag "output_pkt" (go_flags c) && negb _). set (ca := cflag "output_arg" (go_flags c) && negb _).
  set (fl := mask "output_arg" ca (mask "output_pkt" cp (mask "output_lbr" cl (go_flags c)))).
  match goal with |- context [event_bytes ?x] => set (ev := x) end.
  assert (Hfl : 0 <= fl < 2 ^ 12) by (unfold fl; repeat apply mask_range; try lia; apply go_flags_range).
  unfold fits in *.
  assert (He : hdr_ok ev).
  { split; cbn [ev M_Cfg.e_type e_len e_ts e_sess e_ip M_Cfg.e_cpu M_Cfg.e_pid M_Cfg.e_comm M_Cfg.e_stack e_flags e_en e_ex e_data M_Cfg.e_lbr]; try assumption; try lia.
    - destruct ex; lia.
    - apply Z.mod_pos_bound. lia.
    - destruct (cflag "output_stack" _); lia.
    - destruct ca; lia.
    - destruct cl; lia. }
  set (junk := repeat (pr_junk p) _). unfold go_handle. rewrite <- !app_assoc. rewrite app_length, event_bytes_length by apply He.
  match goal with |- context [(?a <? 80)%nat] => destruct (Nat.ltb_spec a 80) as [Hlt|_]; [lia|] end.
  rewrite go_event_bytes by exact He. intros H j Hj.
  assert (E : e = ev).
  { repeat match type of H with match ?x with _ => _ end = _ => destruct x as [[? ?]|]; [|discriminate] end. congruence. }
  subst e. rewrite have_flag_bit by lia. cbn [ev e_flags]. unfold fl.
  assert (Hi : index "output_arg" c_bits = 3 /\ index "output_pkt" c_bits = 2 /\ index "output_lbr" c_bits = 0) by (vm_compute; auto). destruct Hi as (Hi1 & Hi2 & Hi3).
  rewrite (mask_other "output_arg") by lia. rewrite (mask_other "output_pkt") by lia. rewrite (mask_other "output_lbr") by lia. reflexivity.
Qed.
Lemma in_session_ok hasfs modeexit f c w : In c (trace_fn hasfs modeexit f) -> (forall j, 4 <= j < 12 -> have_flag w j = Z.testbit (go_flags c) j) ->
  in_session w = paired f c /\ have_flag w 9 = f_tp f.
Proof.
  intros Hin H. unfold in_session, paired. rewrite !H, !go_flags_bit by lia. change (Z.to_nat 4) with 4%nat. change (Z.to_nat 6) with 6%nat. change (Z.to_nat 7) with 7%nat. change (Z.to_nat 8) with 8%nat. change (Z.to_nat 9) with 9%nat. cbn [nth].
  assert (Hc : tc_insn c = f_insn f /\ tc_graph c = f_graph f /\ tc_tp c = f_tp f).
  { revert Hin. unfold trace_fn. destruct (f_tp f) eqn:Et, (f_insn f || f_graph f || f_both f), hasfs; cbn [In]; intros X; repeat destruct X as [<-|X]; try destruct X; repeat split; auto. }
  destruct Hc as (Hc1 & Hc2 & Hc3). rewrite Hc1, Hc2, Hc3. split; [|reflexivity]. destruct (tc_sess c), (f_insn f), (f_graph f), (tc_both c), (f_tp f); reflexivity.
Qed.
Lemma gen_size_ret prms ret : 8 <= snd (gen_output_fn_args prms ret true).
Proof.
  unfold gen_output_fn_args. destruct (cap_params 0 0 prms) as [cs off] eqn:E. cbn [negb snd].
  assert (H : forall l i o, 0 <= o -> 0 <= snd (cap_params i o l)).
  { induction l as [|p l IH]; intros i o Ho; cbn [cap_params]; [exact Ho|]. pose proof (cap_size_pos p) as Hp.
    destruct (cap_params (i + 1) (o + cap_size p) l) as [cs' o'] eqn:E'. specialize (IH (i + 1) (o + cap_size p) ltac:(lia)). rewrite E' in IH. exact IH. }
  specialize (H prms 0 0 ltac:(lia)). rewrite E in H. cbn [snd] in H. unfold cap_size, max_str. destruct (p_str ret), (p_num ret); lia.
Qed.
Lemma size_zero prms ret w : snd (gen_output_fn_args prms ret w) = 0 -> w = false /\ prms = [].
Proof.
  intros H. destruct w; [pose proof (gen_size_ret prms ret); lia|]. split; [reflexivity|].
  unfold gen_output_fn_args in H. destruct (cap_params 0 0 prms) as [cs off] eqn:E. cbn [negb snd] in H. destruct prms as [|p prms]; [reflexivity|]. exfalso.
  assert (X : forall l i o, o <= snd (cap_params i o l)).
  { induction l as [|q l IH]; intros i o; cbn [cap_params]; [cbn [snd]; lia|]. pose proof (cap_size_pos q) as Hp.
    destruct (cap_params (i + 1) (o + cap_size q) l) as [cs' o'] eqn:E'. specialize (IH (i + 1) (o + cap_size q)). rewrite E' in IH. cbn [snd] in *. lia. }
  cbn [cap_params] in E. destruct (cap_params (0 + 1) (0 + cap_size p) prms) as [c1 o1] eqn:E1. specialize (X prms (0 + 1) (0 + cap_size p)). rewrite E1 in X. cbn [snd] in X.
  injection E as _ <-. unfold cap_size, max_str in *. destruct (p_str p), (p_num p); lia.
Qed.
Lemma output_noret n prms ret w d l r : output_fn_args n prms ret w d = Some (l, r) -> output_fn_args n prms ret false d = Some (l, None).
Proof. unfold output_fn_args. destruct (dec_params (n - 1) 0 prms d) as [[l' d']|]; [|discriminate]. intros H. congruence. Qed.

Theorem line_ok find bit_text junk nc hasfs modeexit f c pid is_return m s fi vals retval buf :
  In c (trace_fn hasfs modeexit f) -> fits pid -> cfg_ok c ->
  func_params false (map pd_pt (fi_params fi)) = Some (fi_prms fi) -> (List.length (fi_params fi) <= 200)%nat -> List.length vals = List.length (fi_params fi) ->
  Forall desc_scalar (fi_params fi) -> desc_scalar (fi_ret fi) ->
  (forall r, f_buf f r = snd (gen_output_fn_args (fi_prms fi) (ret_flags (pd_pt (fi_ret fi))) r)) ->
  call_state m s vals retval buf (tc_buf c) ->
  exists s', (forall p fuel, code p = fst (gen_output_fn_args (fi_prms fi) (ret_flags (pd_pt (fi_ret fi))) (tc_ret c)) -> (List.length (code p) <= fuel)%nat -> run fuel m p 0 s = Done (rg s' R0) s') /\
    forall p dur time, probe_ok c p -> pr_args p = S_FnArgs.record s' buf (tc_buf c) ->
    exists e sec v, go_handle (emit false (c_config (go_cfg_bytes pid c)) is_return p) = Some (Some (e, sec)) /\
      call_event find junk bit_text fi e sec dur time = Some v /\
      out_func nc false v ++ out_tail nc false v =
        call_line find bit_text fi f c (S_FnArgs.mem_of m s) vals retval (exits c is_return) (pr_cpu p) (pr_pid p) (pr_comm p) dur time.
Proof.
  intros Hin Hpid Hcfg Hfp Hlen Hvals Hsc Hrsc Hbuf Hcall.
  destruct (trace_fn_sizes hasfs modeexit f c is_return Hin) as (Hsz & Hret & Hb & _).
  destruct (gen_output_fn_args (fi_prms fi) (ret_flags (pd_pt (fi_ret fi))) (tc_ret c)) as [code0 size] eqn:Hgen.
  assert (Hsize : tc_buf c = size) by (rewrite Hb, Hbuf, Hgen; reflexivity).
  assert (Hsmall : Forall small (map pd_pt (fi_params fi))).
  { apply Forall_map. eapply Forall_impl; [|exact Hsc]. intros d (_ & _ & H). exact H. }
  destruct (func_params_app (map pd_pt (fi_params fi)) [] false (fi_prms fi)) as (p1 & p2 & Ep & Hl1 & Hnp & Hp2 & _).
  { rewrite app_nil_r. exact Hfp. } { exact Hsmall. }
  cbn [func_params] in Hp2. assert (E2 : p2 = []) by congruence. subst p2. rewrite app_nil_r in Ep. subst p1. rewrite map_length in Hl1.
  rewrite Hsize in *.
  destruct (round_trip m s (map pd_pt (fi_params fi)) (fi_prms fi) (pd_pt (fi_ret fi)) (tc_ret c) vals retval buf code0 size Hfp) as
    (s' & shown & ret & Hrun & _ & Hdec & Hls & Hview & _ & Hrv); [rewrite map_length; exact Hlen|lia|exact Hgen|exact Hcall|].
  rewrite map_length in Hls, Hdec. specialize (Hrv Hsmall).
  assert (Hv : map (fun pr => seen (fst pr) (snd pr)) (combine (fi_prms fi) shown) = expected_args (S_FnArgs.mem_of m s) false (map pd_pt (fi_params fi)) vals).
  { specialize (Hview (map pd_pt (fi_params fi)) [] ltac:(rewrite app_nil_r; reflexivity) Hsmall). rewrite map_length in Hview.
    rewrite !firstn_all2 in Hview; [exact Hview| |]; [|rewrite combine_length]; lia. }
  assert (Hfil : filter (fun p => negb (p_part p)) (fi_prms fi) = fi_prms fi).
  { clear - Hnp. induction (fi_prms fi) as [|p l IH]; [reflexivity|]. cbn [filter]. rewrite (Hnp p) by (left; reflexivity). cbn [negb]. f_equal. apply IH. intros q Hq. apply Hnp. right. exact Hq. }
  exists s'. split. { intros p fuel Hc Hf. cbn [fst] in Hc. apply Hrun; [exact Hc|]. rewrite <- Hc. exact Hf. }
  intros p dur time Hp Hargs.
  destruct (emit_handled false pid c is_return p Hpid Hcfg Hp) as (e & sec & E & Ht & _ & _ & _ & Hcpu & Hpd & Hcm & _ & _ & _ & _ & Ha & _).
  { rewrite Hsize. exact Hsz. }
  destruct (in_session_ok hasfs modeexit f c (e_flags e) Hin (emit_flags false pid c is_return p e sec Hpid Hcfg Hp E)) as [Hses Htp].
  exists e, sec. unfold call_event. rewrite Ha, Hses, Htp, Hcpu, Hpd, Hcm, until_nul_ok, Hsize.
  assert (Hex : (M_Cfg.e_type e =? 2) = exits c is_return) by (rewrite Ht; destruct (exits c is_return); reflexivity). rewrite Hex.
  assert (Hdec' : output_fn_args (Z.of_nat (List.length (fi_params fi))) (fi_prms fi) (ret_flags (pd_pt (fi_ret fi))) (exits c is_return) (S_FnArgs.record s' buf size) =
    Some (shown, if exits c is_return then ret else None)).
  { destruct (exits c is_return) eqn:Ee; [rewrite Hret in Hdec by reflexivity; exact Hdec|]. exact (output_noret _ _ _ _ _ _ _ Hdec). }
  assert (Hpt : param_texts find junk bit_text (fi_params fi) (fi_prms fi) shown =
     Some (args_text find bit_text (fi_params fi) (expected_args (S_FnArgs.mem_of m s) false (map pd_pt (fi_params fi)) vals))).
  { rewrite param_texts_view by (assumption || lia). rewrite Hv. reflexivity. }
  destruct (Z.eqb_spec size 0) as [E0|E0].
  - assert (X := size_zero (fi_prms fi) (ret_flags (pd_pt (fi_ret fi))) (tc_ret c)). rewrite Hgen in X. destruct (X E0) as [Hr Hn].
    assert (Hxf : exits c is_return = false) by (destruct (exits c is_return); [rewrite Hret in Hr by reflexivity; discriminate|reflexivity]).
    assert (Hpn : fi_params fi = []) by (destruct (fi_params fi); [reflexivity|rewrite Hn in Hl1; discriminate]).
    eexists. split; [exact E|]. split; [reflexivity|]. unfold out_func, out_tail, call_line. cbn [e_empty e_arrow e_name e_exit e_kmulti M_Color.e_cpu M_Color.e_pid M_Color.e_comm e_dur e_time e_ret].
    rewrite Hxf, Hpn. cbn [args_text map String.concat andb negb]. rewrite andb_false_r. cbn iota. rewrite !sapp_assoc. reflexivity.
  - rewrite Hargs, Hdec', Hfil, Hpt.
    destruct (exits c is_return) eqn:Ee.
    + rewrite Hret in Hrv by reflexivity. destruct Hrv as (a & -> & Hav). rewrite ret_view by exact Hrsc. rewrite Hav.
      eexists. split; [exact E|]. split; [reflexivity|]. rewrite event_line by reflexivity.
      unfold call_line. cbn [e_arrow e_name e_params e_ret M_Color.e_cpu M_Color.e_pid M_Color.e_comm e_dur e_time].
      rewrite andb_true_r. cbn [andb]. rewrite ?sapp_assoc. destruct (paired f c); reflexivity.
    + eexists. split; [exact E|]. split; [reflexivity|]. rewrite event_line by reflexivity.
      unfold call_line. cbn [e_arrow e_name e_params e_ret M_Color.e_cpu M_Color.e_pid M_Color.e_comm e_dur e_time].
      rewrite andb_false_r. cbn [andb]. reflexivity.
Qed.

(** Handle keeps a session exactly for the functions whose calls have both an entry and an exit event. *)
Lemma paired_both hasfs modeexit f c : (f_tp f = true -> f_insn f = false) -> In c (trace_fn hasfs modeexit f) ->
  (paired f c = true <-> (exists c' r, In c' (trace_fn hasfs modeexit f) /\ exits c' r = true) /\ (exists c' r, In c' (trace_fn hasfs modeexit f) /\ exits c' r = false)).
Proof.
  intros Ht Hin. unfold paired. revert Hin. unfold trace_fn. destruct (f_tp f) eqn:Etp.
  - intros [<-|[]]. rewrite Ht by reflexivity. cbn. split; [discriminate|]. intros [(c' & r & [<-|[]] & H) _]. revert H. unfold exits, trace_one. cbn. rewrite Etp. cbn. discriminate.
  - destruct (f_insn f || f_graph f || f_both f) eqn:Eb.
    + intros Hin. split.
      * intros _. destruct hasfs.
        -- split; eexists; [exists true|exists false]; (split; [left; reflexivity|reflexivity]).
        -- split; [eexists; exists false; split; [right; left; reflexivity|]|eexists; exists false; split; [left; reflexivity|]]; unfold exits, trace_one; cbn; rewrite Etp; reflexivity.
      * intros _. destruct hasfs; cbn [In] in Hin; repeat destruct Hin as [<-|Hin]; try destruct Hin; unfold trace_one; cbn; destruct (f_insn f), (f_graph f); reflexivity.
    + apply orb_false_iff in Eb as [Eb E3]. apply orb_false_iff in Eb as [E1 E2]. intros [<-|[]]. rewrite E1, E2. cbn. split; [discriminate|].
      intros [(c1 & r1 & [<-|[]] & H1) (c2 & r2 & [<-|[]] & H2)]. revert H1 H2. unfold exits, trace_one. cbn. rewrite Etp. cbn. congruence.
Qed.
Theorem session_both hasfs modeexit f c pid is_return p e sec : (f_tp f = true -> f_insn f = false) ->
  In c (trace_fn hasfs modeexit f) -> fits pid -> cfg_ok c -> probe_ok c p ->
  go_handle (emit false (c_config (go_cfg_bytes pid c)) is_return p) = Some (Some (e, sec)) ->
  (M_Sess.required_session (e_flags e) = true <-> (exists c' r, In c' (trace_fn hasfs modeexit f) /\ exits c' r = true) /\ (exists c' r, In c' (trace_fn hasfs modeexit f) /\ exits c' r = false)).
Proof.
  intros Ht Hin Hpid Hcfg Hp E. rewrite <- (paired_both hasfs modeexit f c Ht Hin).
  destruct (in_session_ok hasfs modeexit f c (e_flags e) Hin (emit_flags false pid c is_return p e sec Hpid Hcfg Hp E)) as [<- _].
  change (M_Sess.required_session (e_flags e)) with (in_session (e_flags e)). reflexivity.
Qed.
