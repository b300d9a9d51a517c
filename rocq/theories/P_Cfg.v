(** * Proofs about configuration words and event records. *)
From Coq Require Import ZArith List Bool String Lia.
From Verif Require Import M_Go M_Cfg S_Cfg P_Go.
Import ListNotations.
Open Scope Z_scope.

Lemma le_put_length n : forall v, List.length (le_put n v) = n.
Proof. induction n as [|n IH]; intros v; cbn [le_put List.length]; [reflexivity|]. f_equal. apply IH. Qed.
Lemma le_bytes_put n : forall v, 0 <= v < 256 ^ Z.of_nat n -> le_bytes (le_put n v) = v.
Proof.
  induction n as [|n IH]; intros v Hv; [cbn in *; lia|]. cbn [le_put le_bytes]. rewrite IH.
  - pose proof (Z.div_mod v 256). lia.
  - rewrite Nat2Z.inj_succ, Z.pow_succ_r in Hv by lia. split; [apply Z.div_pos; lia|]. apply Z.div_lt_upper_bound; lia.
Qed.
Lemma get_head n v d : 0 <= v < 256 ^ Z.of_nat n -> get n 0 (le_put n v ++ d) = v.
Proof.
  intros Hv. unfold get. cbn [skipn]. rewrite firstn_app, le_put_length, Nat.sub_diag, firstn_O, app_nil_r.
  rewrite <- (le_put_length n v) at 1. rewrite firstn_all. apply le_bytes_put. exact Hv.
Qed.
Lemma get_skip n k off a d : List.length a = k -> get n (k + off) (a ++ d) = get n off d.
Proof. intros H. unfold get. rewrite skipn_app. rewrite skipn_all2 by lia. cbn [app]. do 3 f_equal. lia. Qed.

Lemma get_skip_put n off w v d : (w <= off)%nat -> get n off (le_put w v ++ d) = get n (off - w) d.
Proof. intros H. replace off with (w + (off - w))%nat at 1 by lia. apply get_skip. apply le_put_length. Qed.
Lemma get_skip_list n off a d : (List.length a <= off)%nat -> get n off (a ++ d) = get n (off - List.length a) d.
Proof. intros H. replace off with (List.length a + (off - List.length a))%nat at 1 by lia. apply get_skip. reflexivity. Qed.
Lemma get_last n v : 0 <= v < 256 ^ Z.of_nat n -> get n 0 (le_put n v) = v.
Proof. intros H. rewrite <- (app_nil_r (le_put n v)). apply get_head. exact H. Qed.
Ltac gets := repeat (rewrite get_skip_put by (cbn; lia); cbn [Nat.sub]);
  try (rewrite get_skip_list by (cbn; lia); cbn [Nat.sub List.length]; repeat (rewrite get_skip_put by (cbn; lia); cbn [Nat.sub]));
  first [apply get_head; cbn; lia | apply get_last; cbn; lia].
(** ** Flags *)
Lemma setf_bit v i f j : 0 <= i -> 0 <= j -> Z.testbit (setf v i f) j = (v && (j =? i)) || Z.testbit f j.
Proof.
  intros Hi Hj. unfold setf. destruct v; cbn [andb orb]; [|reflexivity]. rewrite Z.lor_spec, Z.shiftl_1_l. rewrite orb_comm. f_equal.
  destruct (Z.eqb_spec j i) as [->|Hne]; [apply Z.pow2_bits_true; lia|apply Z.pow2_bits_false; lia].
Qed.
Lemma setf_range v i f n : 0 <= f < 2 ^ n -> 0 <= i < n -> 0 <= setf v i f < 2 ^ n.
Proof.
  intros Hf Hi. unfold setf. destruct v; [|exact Hf].
  assert (0 <= Z.lor f (Z.shiftl 1 i)). { apply Z.lor_nonneg. rewrite Z.shiftl_1_l. split; [lia|]. apply Z.pow_nonneg. lia. }
  split; [assumption|]. destruct (Z.eq_dec (Z.lor f (Z.shiftl 1 i)) 0) as [->|Hne]; [lia|].
  apply Z.log2_lt_pow2; [lia|]. rewrite Z.log2_lor; [|lia|rewrite Z.shiftl_1_l; apply Z.pow_nonneg; lia].
  apply Z.max_lub_lt.
  - destruct (Z.eq_dec f 0) as [->|]; [cbn; lia|]. apply Z.log2_lt_pow2; lia.
  - rewrite Z.shiftl_1_l, Z.log2_pow2; lia.
Qed.
Lemma go_flags_range c : 0 <= go_flags c < 2 ^ 12.
Proof. unfold go_flags. repeat (apply setf_range; [|lia]). lia. Qed.
Lemma go_flags_bit c j : 0 <= j < 12 -> Z.testbit (go_flags c) j =
  nth (Z.to_nat j) [tc_lbr c; tc_stack c; tc_pkt c; negb (tc_data c =? 0); tc_both c; negb (tc_ret c); tc_sess c; tc_insn c; tc_graph c; tc_tp c; tc_prog c; tc_kmulti c] false.
Proof.
  intros Hj. unfold go_flags. repeat rewrite setf_bit by lia. rewrite Z.bits_0.
  assert (Hc : j = 0 \/ j = 1 \/ j = 2 \/ j = 3 \/ j = 4 \/ j = 5 \/ j = 6 \/ j = 7 \/ j = 8 \/ j = 9 \/ j = 10 \/ j = 11) by lia.
  repeat match goal with H : _ \/ _ |- _ => destruct H as [->|H] end; subst; cbn [Z.eqb Pos.eqb]; rewrite ?andb_false_r, ?andb_true_r, ?orb_false_r, ?orb_false_l; try reflexivity.
Qed.
Lemma c_config_go pid c : fits pid -> fits (tc_nr c) -> fits (tc_buf c) -> fits (tc_data c) -> fits (tc_en c) -> fits (tc_ex c) ->
  c_config (go_cfg_bytes pid c) = {| cc_flags := go_flags c; cc_pid := pid; cc_nr := tc_nr c; cc_ret := tc_ret c; cc_buf := tc_buf c;
    cc_dsz := tc_data c; cc_en := tc_en c; cc_ex := tc_ex c; cc_data := tc_data c |}.
Proof.
  intros Hp Hn Hb Hd He Hx. unfold c_config, go_cfg_bytes, u32. unfold fits in *.
  rewrite !Z.mod_small by lia. pose proof (go_flags_range c) as Hf.
  assert (E1 : get 1 12 (le_put 4 (go_flags c) ++ le_put 4 pid ++ le_put 4 (tc_nr c) ++ (Z.b2z (tc_ret c) :: [0; 0; 0]) ++ le_put 4 (tc_buf c) ++
     le_put 4 (tc_data c) ++ le_put 4 (tc_en c) ++ le_put 4 (tc_ex c) ++ le_put 4 (tc_data c)) = Z.b2z (tc_ret c)).
  { change 12%nat with (4 + (4 + (4 + 0)))%nat. rewrite !get_skip by apply le_put_length. unfold get. cbn [skipn app firstn le_bytes].
    destruct (tc_ret c); reflexivity. }
  rewrite E1. replace (negb (Z.b2z (tc_ret c) =? 0)) with (tc_ret c) by (destruct (tc_ret c); reflexivity).
  assert (Hz : forall off l, get 4 off (Z.b2z (tc_ret c) :: [0; 0; 0] ++ l) = get 4 off ((Z.b2z (tc_ret c) :: [0; 0; 0]) ++ l)) by reflexivity.
  f_equal; gets.
Qed.

Lemma flags_ok c n v : In (n, v) (flags_table c) -> cflag n (go_flags c) = v.
Proof.
  unfold flags_table. cbn [In]. intros H.
  repeat match goal with H : _ \/ _ |- _ => destruct H as [H|H] | H : False |- _ => destruct H end;
    injection H as <- <-; unfold cflag; match goal with |- Z.testbit _ ?i = _ => let j := eval vm_compute in i in change i with j end;
    rewrite go_flags_bit by lia; reflexivity.
Qed.

(** ** Event header *)
Record hdr_ok (e : event) : Prop := {
  h_type : 0 <= e_type e < 2 ^ 16; h_len : 0 <= e_len e < 2 ^ 16; h_ts : 0 <= e_ts e < 2 ^ 32; h_sess : 0 <= e_sess e < 2 ^ 64; h_ip : 0 <= e_ip e < 2 ^ 64;
  h_cpu : 0 <= e_cpu e < 2 ^ 32; h_pid : 0 <= e_pid e < 2 ^ 32; h_comm : List.length (e_comm e) = 16%nat; h_stack : 0 <= e_stack e < 2 ^ 64;
  h_flags : 0 <= e_flags e < 2 ^ 32; h_en : 0 <= e_en e < 2 ^ 32; h_ex : 0 <= e_ex e < 2 ^ 32; h_data : 0 <= e_data e < 2 ^ 32; h_lbr : 0 <= e_lbr e < 2 ^ 64 }.
Fixpoint aligned (l : list (nat * Z)) (off : nat) : bool :=
  match l with [] => true | (n, _) :: l' => (padto n off =? 0)%nat && aligned l' (off + n) end.
Definition flat (l : list (nat * Z)) : list Z := flat_map (fun p => le_put (fst p) (snd p)) l.
Lemma layout_flat l : forall acc, aligned l (List.length acc) = true -> layout l acc = acc ++ flat l.
Proof.
  induction l as [|[n v] l IH]; intros acc H; cbn [layout flat flat_map fst snd]; [symmetry; apply app_nil_r|].
  cbn [aligned] in H. apply andb_prop in H. destruct H as [H0 H1]. apply Nat.eqb_eq in H0. rewrite H0. cbn [repeat app].
  rewrite IH by (rewrite app_length, le_put_length; exact H1). rewrite <- app_assoc. reflexivity.
Qed.
Lemma flat_length l : List.length (flat l) = fold_right (fun p k => (fst p + k)%nat) 0%nat l.
Proof. induction l as [|[n v] l IH]; [reflexivity|]. unfold flat in *. cbn [flat_map fold_right fst snd]. rewrite app_length, le_put_length, IH. reflexivity. Qed.
Lemma event_bytes_flat e : List.length (e_comm e) = 16%nat ->
  event_bytes e = le_put 2 (e_type e) ++ le_put 2 (e_len e) ++ le_put 4 (e_ts e) ++ le_put 8 (e_sess e) ++ le_put 8 (e_ip e) ++ le_put 4 (e_cpu e) ++ le_put 4 (e_pid e) ++
    e_comm e ++ le_put 8 (e_stack e) ++ le_put 4 (e_flags e) ++ le_put 4 (e_en e) ++ le_put 4 (e_ex e) ++ le_put 4 (e_data e) ++ le_put 8 (e_lbr e).
Proof.
  intros Hc. unfold event_bytes.
  rewrite (layout_flat [(2%nat, e_type e); (2%nat, e_len e); (4%nat, e_ts e); (8%nat, e_sess e); (8%nat, e_ip e); (4%nat, e_cpu e); (4%nat, e_pid e)] []) by reflexivity.
  rewrite layout_flat by (rewrite !app_length, flat_length, Hc; reflexivity).
  unfold flat. cbn [flat_map fst snd app]. rewrite <- !app_assoc. cbn [app]. rewrite app_nil_r. reflexivity.
Qed.
Lemma event_bytes_length e : List.length (e_comm e) = 16%nat -> List.length (event_bytes e) = 80%nat.
Proof. intros Hc. rewrite event_bytes_flat by exact Hc. rewrite !app_length, !le_put_length, Hc. reflexivity. Qed.
Lemma go_event_bytes e rest : hdr_ok e -> go_event (event_bytes e ++ rest) = e.
Proof.
  intros [Ht Hl Hts Hs Hip Hcpu Hpid Hc Hst Hf Hen Hex Hd Hlb]. rewrite event_bytes_flat by exact Hc. rewrite <- !app_assoc.
  unfold go_event.
  assert (Hcomm : forall x, firstn 16 (skipn 32 (le_put 2 (e_type e) ++ le_put 2 (e_len e) ++ le_put 4 (e_ts e) ++ le_put 8 (e_sess e) ++ le_put 8 (e_ip e) ++ le_put 4 (e_cpu e) ++ le_put 4 (e_pid e) ++ e_comm e ++ x)) = e_comm e).
  { intros x. rewrite !app_assoc. rewrite <- (app_assoc _ (e_comm e)). rewrite skipn_app.
    assert (Hln : List.length (((((((le_put 2 (e_type e) ++ le_put 2 (e_len e)) ++ le_put 4 (e_ts e)) ++ le_put 8 (e_sess e)) ++ le_put 8 (e_ip e)) ++ le_put 4 (e_cpu e)) ++ le_put 4 (e_pid e))) = 32%nat)
      by (rewrite !app_length, !le_put_length; reflexivity).
    rewrite skipn_all2 by lia. rewrite Hln, Nat.sub_diag. cbn [app skipn]. rewrite firstn_app, Hc, Nat.sub_diag, firstn_O, app_nil_r. rewrite <- Hc. apply firstn_all. }
  rewrite Hcomm.
  clear Hcomm. rewrite <- Hc in *. destruct e as [ty ln ts ss ip cpu pid comm st fl en ex da lb]. cbn [e_type e_len e_ts e_sess e_ip e_cpu e_pid e_comm e_stack e_flags e_en e_ex e_data e_lbr] in *.
  f_equal; rewrite ?Hc; try gets.
  all: repeat (rewrite get_skip_put by (cbn; lia); cbn [Nat.sub]); rewrite get_skip_list by lia; rewrite Hc; cbn [Nat.sub]; gets.
Qed.

Lemma mask_range n can f w : 0 <= f < 2 ^ w -> 0 <= w -> 0 <= mask n can f < 2 ^ w.
Proof.
  intros Hf Hw. unfold mask. destruct can; [exact Hf|].
  assert (H0 : 0 <= Z.ldiff f (Z.shiftl 1 (index n c_bits))) by (apply Z.ldiff_nonneg; left; lia).
  split; [exact H0|]. apply Z.le_lt_trans with f; [|lia].
  apply Z.ldiff_le; [lia|]. apply Z.bits_inj'. intros k Hk. rewrite !Z.ldiff_spec, Z.bits_0. destruct (Z.testbit f k); cbn [negb andb]; rewrite ?andb_false_r; reflexivity.
Qed.

Lemma mask_same n can f : 0 <= index n c_bits -> Z.testbit (mask n can f) (index n c_bits) = can && Z.testbit f (index n c_bits).
Proof.
  intros Hi. unfold mask. destruct can; [reflexivity|]. rewrite Z.ldiff_spec, Z.shiftl_1_l, Z.pow2_bits_true by lia. rewrite andb_false_r. reflexivity.
Qed.
Lemma mask_other n can f j : 0 <= index n c_bits -> j <> index n c_bits -> Z.testbit (mask n can f) j = Z.testbit f j.
Proof.
  intros Hi Hj. unfold mask. destruct can; [reflexivity|]. rewrite Z.ldiff_spec, Z.shiftl_1_l, Z.pow2_bits_false by lia. apply andb_true_r.
Qed.
Lemma have_flag_bit f i : 0 <= i -> have_flag f i = Z.testbit f i.
Proof.
  intros Hi. unfold have_flag. rewrite Z.shiftl_1_l. destruct (Z.eqb_spec (Z.land f (2 ^ i)) 0) as [E|E]; cbn [negb].
  - pose proof (f_equal (fun x => Z.testbit x i) E) as B. cbn beta in B. rewrite Z.land_spec, Z.pow2_bits_true, Z.bits_0, andb_true_r in B by lia. symmetry. exact B.
  - symmetry. destruct (Z.testbit f i) eqn:B; [reflexivity|]. exfalso. apply E. apply Z.bits_inj'. intros k Hk. rewrite Z.land_spec, Z.bits_0.
    destruct (Z.eq_dec k i) as [->|Hne]; [rewrite B; reflexivity|]. rewrite Z.pow2_bits_false by lia. apply andb_false_r.
Qed.


Lemma cut_app a b n : n = List.length a -> cut n (a ++ b) = Some (a, b).
Proof.
  intros ->. unfold cut. rewrite app_length. destruct (Nat.ltb_spec (List.length a + List.length b) (List.length a)); [lia|].
  rewrite firstn_app, Nat.sub_diag, firstn_O, app_nil_r, firstn_all. rewrite skipn_app, Nat.sub_diag, skipn_all. reflexivity.
Qed.


Lemma mode_ok c is_return : get_mode (go_flags c) is_return =
  if tc_both c then (if exits c is_return then MSessExit else MSessEntry) else (if exits c is_return then MExit else MEntry).
Proof.
  unfold get_mode, exits.
  rewrite (flags_ok c "is_entry" (negb (tc_ret c))) by (cbn; tauto).
  rewrite (flags_ok c "both_entry_exit" (tc_both c)) by (cbn; tauto).
  rewrite (flags_ok c "is_session" (tc_sess c)) by (cbn; tauto).
  destruct (tc_both c), (tc_sess c), is_return, (tc_ret c); reflexivity.
Qed.

Lemma emit_handled kmulti pid c is_return p :
  fits pid -> cfg_ok c -> probe_ok c p -> (if exits c is_return then tc_ex c else tc_en c) = tc_buf c ->
  let cutoff := kmulti && (tc_both c && exits c is_return) in
  exists e sec, go_handle (emit kmulti (c_config (go_cfg_bytes pid c)) is_return p) = Some (Some (e, sec)) /\
    e_type e = (if exits c is_return then 2 else 1) /\ e_ts e = pr_ts p mod 2 ^ 32 /\ e_sess e = pr_sess p /\ e_ip e = pr_ip p /\
    e_cpu e = pr_cpu p /\ e_pid e = pr_pid p /\ e_comm e = pr_comm p /\
    e_stack e = (if tc_stack c then pr_stackid p else 2 ^ 64 - 1) /\
    e_lbr e = (if tc_lbr c && negb (tc_both c && exits c is_return) then pr_lbr p else 0) /\
    have_flag (e_flags e) 0 = tc_lbr c && negb (tc_both c && exits c is_return) /\
    have_flag (e_flags e) 1 = tc_stack c /\
    s_args sec = (if tc_buf c =? 0 then None else Some (pr_args p)) /\
    s_pkt sec = (if tc_pkt c && negb cutoff then Some (pr_pkt p) else None) /\
    s_data sec = (if (tc_data c =? 0) || cutoff then None else Some (pr_data p)).
Proof.
  intros Hpid [Knr Kbuf Kdata Ken Kex] [Ps Pip Pcpu Ppid Pcomm Pst Plbr Pargs Ppkt Pdata] Hsz cutoff.
  rewrite c_config_go by assumption. unfold emit. cbn [cc_flags]. rewrite mode_ok.
  set (ex := exits c is_return) in *.
  assert (Ecut : kmulti && match (if tc_both c then (if ex then MSessExit else MSessEntry) else (if ex then MExit else MEntry)) with MSessExit => true | _ => false end = cutoff).
  { unfold cutoff. destruct kmulti, (tc_both c), ex; reflexivity. }
  rewrite Ecut.
  assert (Eexit : is_exit_mode (if tc_both c then (if ex then MSessExit else MSessEntry) else (if ex then MExit else MEntry)) = ex) by (destruct (tc_both c), ex; reflexivity).
  rewrite Eexit.
  unfold can_lbr_of. rewrite (flags_ok c "both_entry_exit" (tc_both c)) by (cbn; tauto). rewrite (flags_ok c "output_lbr" (tc_lbr c)) by (cbn; tauto).
  rewrite (flags_ok c "output_pkt" (tc_pkt c)) by (cbn; tauto). rewrite (flags_ok c "output_arg" (negb (tc_data c =? 0))) by (cbn; tauto).
  assert (Elbr : (negb (tc_both c) || match (if tc_both c then (if ex then MSessExit else MSessEntry) else (if ex then MExit else MEntry)) with MSessEntry => true | _ => false end) && tc_lbr c
                 = tc_lbr c && negb (tc_both c && ex)).
  { destruct (tc_both c), ex, (tc_lbr c); reflexivity. }
  rewrite Elbr. set (cl := tc_lbr c && negb (tc_both c && ex)). set (cp := tc_pkt c && negb cutoff). set (ca := negb (tc_data c =? 0) && negb cutoff).
  unfold output_event. cbn [cc_flags cc_buf cc_dsz cc_en cc_ex cc_data].
  rewrite (flags_ok c "output_pkt" (tc_pkt c)) by (cbn; tauto). rewrite (flags_ok c "output_stack" (tc_stack c)) by (cbn; tauto).
  set (fl := mask "output_arg" ca (mask "output_pkt" cp (mask "output_lbr" cl (go_flags c)))).
  match goal with |- context [event_bytes ?x] => set (e := x) end.
  assert (Hfl : 0 <= fl < 2 ^ 12) by (unfold fl; repeat apply mask_range; try lia; apply go_flags_range).
  unfold fits in *.
  assert (He : hdr_ok e).
  { split; cbn [e e_type e_len e_ts e_sess e_ip e_cpu e_pid e_comm e_stack e_flags e_en e_ex e_data e_lbr]; try assumption; try lia.
    - destruct ex; lia.
    - apply Z.mod_pos_bound. lia.
    - destruct (tc_stack c); lia.
    - destruct ca; lia.
    - destruct cl; lia. }
  set (junk := repeat (pr_junk p) _).
  unfold go_handle. rewrite <- !app_assoc. rewrite app_length, event_bytes_length by apply He.
  match goal with |- context [(?a <? 80)%nat] => destruct (Nat.ltb_spec a 80) as [Hlt|_]; [lia|] end.
  rewrite go_event_bytes by exact He.
  rewrite skipn_app, event_bytes_length, Nat.sub_diag by apply He. rewrite skipn_all2 by (rewrite event_bytes_length by apply He; lia). cbn [app skipn].
  assert (Eargsz : (if e_type e =? 2 then e_ex e else e_en e) = tc_buf c).
  { cbn [e e_type e_ex e_en]. rewrite <- Hsz. destruct ex; reflexivity. }
  rewrite Eargsz.
  assert (Epf : have_flag (e_flags e) 2 = cp).
  { rewrite have_flag_bit by lia. cbn [e e_flags]. unfold fl. rewrite (mask_other "output_arg") by (vm_compute; congruence).
    change 2 with (index "output_pkt" c_bits) at 1. rewrite mask_same by (vm_compute; congruence).
    rewrite (mask_other "output_lbr") by (vm_compute; congruence). change (Z.testbit (go_flags c) (index "output_pkt" c_bits)) with (cflag "output_pkt" (go_flags c)).
    rewrite (flags_ok c "output_pkt" (tc_pkt c)) by (cbn; tauto). unfold cp. destruct (tc_pkt c), cutoff; reflexivity. }
  assert (Elf : have_flag (e_flags e) 0 = cl).
  { rewrite have_flag_bit by lia. cbn [e e_flags]. unfold fl. rewrite (mask_other "output_arg") by (vm_compute; congruence).
    rewrite (mask_other "output_pkt") by (vm_compute; congruence).
    change 0 with (index "output_lbr" c_bits) at 1. rewrite mask_same by (vm_compute; congruence).
    change (Z.testbit (go_flags c) (index "output_lbr" c_bits)) with (cflag "output_lbr" (go_flags c)).
    rewrite (flags_ok c "output_lbr" (tc_lbr c)) by (cbn; tauto). unfold cl. destruct (tc_lbr c), (tc_both c), ex; reflexivity. }
  assert (Esf : have_flag (e_flags e) 1 = tc_stack c).
  { rewrite have_flag_bit by lia. cbn [e e_flags]. unfold fl. rewrite (mask_other "output_arg") by (vm_compute; congruence).
    rewrite (mask_other "output_pkt") by (vm_compute; congruence). rewrite (mask_other "output_lbr") by (vm_compute; congruence).
    exact (flags_ok c "output_stack" (tc_stack c) ltac:(cbn; tauto)). }
  assert (Hargs : (if tc_buf c =? 0 then Some (None, pr_args p ++ (if cp then pr_pkt p else []) ++ (if ca then pr_data p else []) ++ junk)
     else match cut (Z.to_nat (tc_buf c)) (pr_args p ++ (if cp then pr_pkt p else []) ++ (if ca then pr_data p else []) ++ junk) with Some (a, r) => Some (Some a, r) | None => None end)
     = Some (if tc_buf c =? 0 then None else Some (pr_args p), (if cp then pr_pkt p else []) ++ (if ca then pr_data p else []) ++ junk)).
  { destruct (Z.eqb_spec (tc_buf c) 0) as [E0|E0].
    - destruct (pr_args p) as [|z l]; [reflexivity|cbn [List.length] in Pargs; lia].
    - rewrite cut_app by lia. reflexivity. }
  rewrite Hargs. rewrite Epf.
  assert (Hpk : (if cp then match cut pkt_size ((if cp then pr_pkt p else []) ++ (if ca then pr_data p else []) ++ junk) with Some (a, r) => Some (Some a, r) | None => None end
       else Some (None, (if cp then pr_pkt p else []) ++ (if ca then pr_data p else []) ++ junk)) = Some (if cp then Some (pr_pkt p) else None, (if ca then pr_data p else []) ++ junk)).
  { destruct cp; [|reflexivity]. rewrite cut_app by (symmetry; exact Ppkt). reflexivity. }
  rewrite Hpk.
  assert (Eda : e_data e = if ca then tc_data c else 0) by reflexivity. rewrite Eda.
  assert (Hda : (if (if ca then tc_data c else 0) =? 0 then Some (None, (if ca then pr_data p else []) ++ junk)
      else match cut (Z.to_nat (if ca then tc_data c else 0)) ((if ca then pr_data p else []) ++ junk) with Some (a, r) => Some (Some a, r) | None => None end)
      = Some (if ca then Some (pr_data p) else None, junk)).
  { unfold ca. destruct (Z.eqb_spec (tc_data c) 0) as [E0|E0]; cbn [negb andb]; [reflexivity|]. destruct cutoff; cbn [negb]; [reflexivity|].
    destruct (Z.eqb_spec (tc_data c) 0); [lia|]. rewrite cut_app by lia. reflexivity. }
  rewrite Hda.
  eexists. eexists. split; [reflexivity|]. cbn [s_args s_pkt s_data].
  repeat split; try reflexivity; try assumption.
  unfold ca. destruct (tc_data c =? 0), cutoff; reflexivity.
Qed.

(** Every configuration made for a function is consistent. *)
Lemma trace_fn_sizes hasfs modeexit f c is_return : In c (trace_fn hasfs modeexit f) ->
  (if exits c is_return then tc_ex c else tc_en c) = tc_buf c /\ (exits c is_return = true -> tc_ret c = true) /\ tc_buf c = f_buf f (tc_ret c) /\
  (tc_both c = true -> f_insn f || f_graph f || f_both f = true).
Proof.
  unfold trace_fn. destruct (f_tp f) eqn:Et.
  - intros [<-|[]]. unfold trace_one, exits. cbn. rewrite Et. cbn. repeat split; auto; discriminate.
  - destruct (f_insn f || f_graph f || f_both f).
    + destruct hasfs; cbn [In]; intros H; repeat destruct H as [<-|H]; try destruct H; unfold trace_one, exits; cbn; rewrite Et; cbn; repeat split; auto; destruct is_return; auto.
    + intros [<-|[]]. unfold trace_one, exits. cbn. rewrite Et. cbn. destruct modeexit; repeat split; auto; discriminate.
Qed.
Lemma trace_kmulti_sizes maxargs hassess modeexit f c is_return : In c (trace_kmulti maxargs hassess modeexit f) ->
  (if exits c is_return then tc_ex c else tc_en c) = tc_buf c /\ (exits c is_return = true -> tc_ret c = true) /\
  tc_buf c = 8 * maxargs + (if tc_ret c then 8 else 0).
Proof.
  unfold trace_kmulti. destruct (f_both f) eqn:Eb, hassess; cbn [andb In]; intros H; repeat destruct H as [<-|H]; try destruct H;
    unfold trace_kmulti_one, exits; cbn; rewrite ?Eb; cbn; repeat split; auto; try (destruct is_return; auto; fail); destruct modeexit; auto.
Qed.
