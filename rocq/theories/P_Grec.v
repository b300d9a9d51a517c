From Coq Require Import ZArith List Bool Lia.
From Verif Require Import M_Go M_Cfg S_Cfg P_Cfg M_Ghook M_Grec S_Grec.
Import ListNotations.
Open Scope Z_scope.

Lemma u32_id v : fits v -> u32 v = v.
Proof. intros H. apply Z.mod_small. exact H. Qed.
Lemma rec_flat r : rec_bytes r = le_put 2 (r_type r) ++ le_put 2 (r_len r) ++ le_put 4 (r_ts r) ++ le_put 8 (r_sess r) ++ le_put 8 (r_ip r) ++ le_put 4 (r_cpu r) ++ le_put 4 (r_depth r).
Proof. unfold rec_bytes. rewrite layout_flat by reflexivity. unfold flat. cbn [flat_map fst snd app]. rewrite app_nil_r. reflexivity. Qed.
Lemma rec_length r : List.length (rec_bytes r) = 32%nat.
Proof. rewrite rec_flat, !app_length, !le_put_length. reflexivity. Qed.
Ltac gets' := repeat (rewrite get_skip_put by (cbn; lia); cbn [Nat.sub]); apply get_head.
Lemma rec_read r rest : 0 <= r_type r < 2 ^ 16 -> 0 <= r_len r < 2 ^ 16 -> fits (r_ts r) -> word (r_sess r) -> word (r_ip r) -> fits (r_cpu r) -> fits (r_depth r) ->
  go_rec (rec_bytes r ++ rest) = r.
Proof.
  unfold fits, word. intros A B C D E F G. rewrite rec_flat, <- !app_assoc. destruct r as [a b c d e f g]. cbn [r_type r_len r_ts r_sess r_ip r_cpu r_depth] in *.
  unfold go_rec. f_equal; gets'; assumption.
Qed.
Lemma config_read pid tin md h : fits pid -> fits md -> word (h_ip h) -> fits (h_nr h) -> fits (h_buf h) ->
  c_graph_config (go_graph_bytes pid tin md h) =
  {| gc_ip := h_ip h; gc_depth := md; gc_mode := mode_num (h_mode h); gc_tin := Z.b2z tin; gc_pid := pid; gc_nr := h_nr h; gc_ret := h_withret h; gc_buf := h_buf h |}.
Proof.
  unfold word. intros A B C D E. unfold go_graph_bytes. rewrite !u32_id by assumption. unfold fits in *. unfold c_graph_config.
  f_equal; try (gets'; try assumption).
  - destruct (h_mode h); cbn; lia.
  - destruct tin; cbn; lia.
  - repeat (rewrite get_skip_put by (cbn; lia); cbn [Nat.sub]). rewrite get_head by (destruct (h_withret h); cbn; lia). destruct (h_withret h); reflexivity.
  - repeat (rewrite get_skip_put by (cbn; lia); cbn [Nat.sub]). apply get_last. assumption.
Qed.
Lemma is_entry_ok c h r : gc_mode c = mode_num (h_mode h) -> c_is_entry c r = ev_entry h r.
Proof. intros E. unfold c_is_entry, ev_entry. rewrite E. destruct (h_mode h); reflexivity. Qed.

Lemma quiet_graph c x : (x_ready x = false \/ gc_pid c = x_task x \/ x_sess x = 0 \/ x_room x = false) <-> graph_prog c x = None.
Proof.
  unfold graph_prog. destruct (x_ready x); cbn [negb]; [|split; auto].
  destruct (Z.eqb_spec (gc_pid c) (x_task x)) as [E|E]; [split; auto|].
  destruct (Z.eqb_spec (x_sess x) 0) as [F|F]; [split; auto|].
  destruct (x_room x); cbn [negb]; split; auto; [|discriminate]. intros [H|[H|[H|H]]]; try discriminate; contradiction.
Qed.
Section hooked.
Variables (pid : Z) (tin : bool) (md : Z) (h : hook) (x : gprobe) (known : Z -> bool).
Hypothesis (Hpid : fits pid) (Hmd : fits md) (Hh : hook_ok h) (Hx : gprobe_ok (h_buf h) x).
Let c := c_graph_config (go_graph_bytes pid tin md h).
Let r := {| r_type := if ev_entry h (x_ret x) then 4 else 5; r_len := 32 + h_buf h; r_ts := x_ts x mod 2 ^ 32; r_sess := x_sess x; r_ip := h_ip h;
            r_cpu := x_cpu x; r_depth := x_depth x |}.
Lemma buf_fits : fits (h_buf h).
Proof. destruct Hh as [_ _ H]. unfold fits. lia. Qed.
Lemma prog_graph : wanted pid x -> graph_prog c x = Some (rec_bytes r ++ x_args x).
Proof.
  intros (A & B & C & D). unfold graph_prog. unfold c. destruct Hh as [H1 H2 H3].
  rewrite config_read by (try assumption; exact buf_fits). cbn [gc_pid gc_buf gc_ip]. rewrite A, D. cbn [negb].
  destruct (Z.eqb_spec pid (x_task x)); [congruence|]. destruct (Z.eqb_spec (x_sess x) 0); [contradiction|].
  rewrite (is_entry_ok _ h) by reflexivity. unfold r. do 4 f_equal. apply Z.mod_small. lia.
Qed.
Lemma quiet : ~ wanted pid x -> graph_prog c x = None.
Proof.
  intros H. apply quiet_graph. unfold c. destruct Hh as [H1 H2 H3]. rewrite config_read by (try assumption; exact buf_fits). cbn [gc_pid]. unfold wanted in H.
  destruct (x_ready x); [|auto]. destruct (Z.eq_dec pid (x_task x)) as [E|E]; [auto|]. destruct (Z.eq_dec (x_sess x) 0); [auto|]. destruct (x_room x); [|auto].
  exfalso. apply H. auto.
Qed.
Lemma read_r rest : go_rec (rec_bytes r ++ rest) = r.
Proof.
  destruct Hh as [H1 H2 H3], Hx. apply rec_read; unfold r; cbn [r_type r_len r_ts r_sess r_ip r_cpu r_depth]; try assumption; try lia.
  - destruct (ev_entry h (x_ret x)); lia.
  - unfold fits. apply Z.mod_pos_bound. lia.
Qed.
Lemma typ_r rest : get 2 0 (rec_bytes r ++ rest) = if ev_entry h (x_ret x) then 4 else 5.
Proof. pose proof (f_equal r_type (read_r rest)) as E. exact E. Qed.
Lemma take_graph spare : known (h_ip h) = true ->
  go_take known (rec_bytes r ++ x_args x) spare =
  if (List.length spare <? 32)%nat then TPanic else TGraph r (negb (ev_entry h (x_ret x))) (x_args x ++ firstn 32 spare).
Proof.
  intros Hk. unfold go_take. rewrite typ_r, read_r. destruct Hh as [H1 H2 H3], Hx.
  rewrite <- !app_assoc, skipn_app, rec_length, skipn_all2 by (rewrite rec_length; lia). cbn [app Nat.sub skipn].
  rewrite !app_length, rec_length. change (r_len r) with (32 + h_buf h). change (r_ip r) with (h_ip h). rewrite Hk. cbn [negb].
  assert (Hc : (Z.of_nat (32 + (List.length (x_args x) + List.length spare)) <? 32 + (32 + h_buf h)) = (List.length spare <? 32)%nat).
  { destruct (Z.ltb_spec (Z.of_nat (32 + (List.length (x_args x) + List.length spare))) (32 + (32 + h_buf h))), (Nat.ltb_spec (List.length spare) 32); lia. }
  rewrite Hc.
  assert (Hf : firstn (Z.to_nat (32 + h_buf h)) (x_args x ++ spare) = x_args x ++ firstn 32 spare).
  { replace (Z.to_nat (32 + h_buf h)) with (List.length (x_args x) + 32)%nat by lia. apply firstn_app_2. }
  rewrite Hf. destruct (ev_entry h (x_ret x)); cbn [Z.eqb Pos.eqb orb negb]; destruct (List.length spare <? 32)%nat; reflexivity.
Qed.
Lemma take_unknown spare : known (h_ip h) = false -> go_take known (rec_bytes r ++ x_args x) spare = TUnknown.
Proof.
  intros Hk. unfold go_take. rewrite typ_r, read_r. change (r_ip r) with (h_ip h). rewrite Hk. destruct (ev_entry h (x_ret x)); reflexivity.
Qed.
End hooked.
Lemma prog_insn ip x : x_ready x = true -> x_sess x <> 0 -> x_room x = true -> word ip -> forall n, gprobe_ok n x ->
  exists d, insn_prog ip x = Some d /\ forall known spare,
  go_take known d spare = TInsn {| r_type := 3; r_len := 32; r_ts := x_ts x mod 2 ^ 32; r_sess := x_sess x; r_ip := ip; r_cpu := x_cpu x; r_depth := x_pad x |}.
Proof.
  intros A B C D n []. unfold insn_prog. rewrite A, C. cbn [negb]. destruct (Z.eqb_spec (x_sess x) 0); [contradiction|].
  eexists. split; [reflexivity|]. intros known spare.
  match goal with |- context [rec_bytes ?q] => set (r := q) end.
  assert (E : go_rec (rec_bytes r) = r).
  { rewrite <- (app_nil_r (rec_bytes r)). apply rec_read; unfold r; cbn [r_type r_len r_ts r_sess r_ip r_cpu r_depth]; try assumption; try lia.
    unfold fits. apply Z.mod_pos_bound. lia. }
  unfold go_take. pose proof (f_equal r_type E) as T. cbn [go_rec r_type] in T. rewrite T. cbn [r r_type Z.eqb Pos.eqb]. rewrite E. reflexivity.
Qed.
Lemma quiet_insn ip x : (x_ready x = false \/ x_sess x = 0 \/ x_room x = false) <-> insn_prog ip x = None.
Proof.
  unfold insn_prog. destruct (x_ready x); cbn [negb]; [|split; auto]. destruct (Z.eqb_spec (x_sess x) 0); [split; auto|].
  destruct (x_room x); cbn [negb]; split; auto; [|discriminate]. intros [H|[H|H]]; try discriminate; contradiction.
Qed.
Lemma handle_event d e sec : go_handle d = Some (Some (e, sec)) -> e = go_event d /\ (80 <= List.length d)%nat.
Proof.
  unfold go_handle. destruct (Nat.ltb_spec (List.length d) 80); [discriminate|]. cbv zeta.
  repeat match goal with |- match ?m with _ => _ end = _ -> _ => destruct m as [[? ?]|]; [|discriminate] end.
  intros [= <- <-]. split; [reflexivity|assumption].
Qed.
Lemma func_taken kmulti pid c is_return p known spare : fits pid -> cfg_ok c -> probe_ok c p -> (if exits c is_return then tc_ex c else tc_en c) = tc_buf c ->
  go_take known (emit kmulti (c_config (go_cfg_bytes pid c)) is_return p) spare = TFunc.
Proof.
  intros Hpid Hc Hp Hs. destruct (emit_handled kmulti pid c is_return p Hpid Hc Hp Hs) as (e & sec & E & Ht & _).
  apply handle_event in E. destruct E as [E L]. set (d := emit _ _ _ _) in *.
  assert (T : get 2 0 d = if exits c is_return then 2 else 1) by (rewrite <- Ht, E; reflexivity).
  unfold go_take. rewrite T. destruct (Nat.ltb_spec (List.length d) 80); [lia|]. destruct (exits c is_return); reflexivity.
Qed.
