(** * Instruction-mode sessions. *)
From Coq Require Import ZArith List Bool String Lia.
From Verif Require Import M_Go P_Go M_Sess S_Sess P_Sess P_Sess2.
Import ListNotations.
Open Scope Z_scope.

Lemma insn_tail delta id ex root (Hex : ev_type ex = 2) (Hreq : required_session (ev_flags ex) = true) (Hsh : ev_short ex = false)
  (Hd : delta <= dur32 root (ev_ns ex)) : forall evs gs outs m s i, NoDup (keys m) -> sess_get m id = Some s -> s_started s = root -> s_outs s = outs ->
  filter (belongs id) evs = gs ++ [ex] -> (forall g, In g gs -> ev_type g = 3) ->
  res_of (run_loop delta true i m evs) = Closed ->
  In (outs ++ insn_lines root gs ++ [line (ev_text ex) (Some (dur32 root (ev_ns ex)))]) (out_of (run_loop delta true i m evs)).
Proof.
  induction evs as [|e evs IH]; intros gs outs m s i Hnd Hs Hst Hout Hf Hgs Hres; [destruct gs; discriminate|].
  destruct (handle delta m e) as [| |m' w c] eqn:Hh.
  { cbn [run_loop orb negb] in Hres. rewrite Hh in Hres. discriminate. }
  { cbn [run_loop orb negb] in Hres. rewrite Hh in Hres. discriminate. }
  rewrite (run_loop_step delta true i m e evs m' w c eq_refl Hh) in *.
  change (out_of (w ++ ?x, ?y, ?z)) with (w ++ x). change (res_of (?x, ?y, ?z)) with y in Hres.
  destruct (handle_frame delta m e m' w c id Hnd Hh) as [Hnd' Hfr].
  cbn [filter] in Hf. destruct (belongs id e) eqn:Hb.
  2:{ apply in_or_app. right. apply (IH gs outs m' s); try assumption. rewrite Hfr by reflexivity. exact Hs. }
  destruct gs as [|g gs].
  - cbn [app] in Hf. injection Hf as -> _. cbn [insn_lines filter map app].
    unfold handle in Hh. rewrite Hex in Hh. cbn [Z.eqb Pos.eqb orb] in Hh. rewrite Hsh, Hreq in Hh.
    unfold belongs in Hb. rewrite Hex in Hb. cbn [Z.eqb Pos.eqb orb] in Hb. apply Z.eqb_eq in Hb.
    unfold sess_get_and_del in Hh. rewrite Hb in Hh. unfold sess_get in Hs. rewrite Hs in Hh.
    rewrite Hst, u32_dur in Hh.
    destruct (Z.ltb_spec (dur32 root (ev_ns ex)) delta); [lia|]. destruct (ev_err ex); [discriminate|].
    injection Hh as <- <- <-. rewrite Hout. left. reflexivity.
  - cbn [app] in Hf. injection Hf as -> Hf. pose proof (Hgs g (or_introl eq_refl)) as Hty.
    assert (Hid : ev_sid g = id).
    { unfold belongs in Hb. rewrite Hty in Hb; cbn [Z.eqb Pos.eqb orb] in Hb; apply Z.eqb_eq; exact Hb. }
    unfold handle in Hh. rewrite Hty in Hh. change (3 =? 3) with true in Hh. cbv iota in Hh. injection Hh as <- <- <-. cbn [app].
    assert (Hgs' : forall x, In x gs -> ev_type x = 3) by (intros x Hx; apply Hgs; right; exact Hx).
    unfold insn_event in *. unfold insn_lines. cbn [filter]. destruct (ev_known g) eqn:Hk; cbn [negb] in *; fold (insn_lines root gs).
    2:{ apply (IH gs outs m s); assumption. }
    rewrite Hid, Hs in *. rewrite Hst, u32_dur in *. cbn [map]. fold (insn_lines root gs).
    set (it := {| it_text := ev_text g; it_cost := None; it_dur := Some (dur32 root (ev_ns g)) |}) in *.
    specialize (IH gs (outs ++ [it]) (aput Z.eqb id (add_out s it) m) (add_out s it) i).
    rewrite <- app_assoc in IH. cbn [app] in IH. apply IH; try assumption.
    + unfold sess_get. rewrite (aget_aput _ Zeqb_ok), Z.eqb_refl. reflexivity.
    + cbn [s_outs add_out]. rewrite Hout. reflexivity.
Qed.
Lemma insn_session delta id e0 gs ex : forall evs,
  filter (belongs id) evs = e0 :: gs ++ [ex] ->
  ev_type e0 = 1 -> have_flag (ev_flags e0) flag_insn = true -> ev_short e0 = false ->
  (forall g, In g gs -> ev_type g = 3) ->
  ev_type ex = 2 -> have_flag (ev_flags ex) flag_insn = true -> ev_short ex = false -> delta <= dur32 (ev_ns e0) (ev_ns ex) ->
  res_of (run delta 0 evs) = Closed ->
  In (line (ev_text e0) None :: insn_lines (ev_ns e0) gs ++ [line (ev_text ex) (Some (dur32 (ev_ns e0) (ev_ns ex)))]) (printed delta evs).
Proof.
  intros evs. unfold printed, run. change (0 =? 0) with true. change (i64 0) with 0. fold (out_of (run_loop delta true 0 [] evs)).
  intros Hf H1 Hg Hsh Hgs H2 Hgx Hsx Hd.
  assert (Hreq : required_session (ev_flags ex) = true) by (unfold required_session; rewrite Hgx; reflexivity).
  assert (Hnd : NoDup (keys ([] : sessions))) by constructor. revert Hf Hnd. generalize ([] : sessions) as m. generalize 0 as i.
  induction evs as [|e evs IH]; intros i m Hf Hnd Hres; [discriminate|].
  destruct (handle delta m e) as [| |m' w c] eqn:Hh.
  { cbn [run_loop orb negb] in Hres. rewrite Hh in Hres. discriminate. }
  { cbn [run_loop orb negb] in Hres. rewrite Hh in Hres. discriminate. }
  rewrite (run_loop_step delta true i m e evs m' w c eq_refl Hh) in *.
  change (out_of (w ++ ?x, ?y, ?z)) with (w ++ x). change (res_of (?x, ?y, ?z)) with y in Hres.
  destruct (handle_frame delta m e m' w c id Hnd Hh) as [Hnd' Hfr].
  cbn [filter] in Hf. destruct (belongs id e) eqn:Hb.
  2:{ apply in_or_app. right. apply IH; assumption. }
  injection Hf as -> Hf. apply in_or_app. right.
  unfold handle in Hh. rewrite H1 in Hh. cbn [Z.eqb Pos.eqb orb] in Hh. rewrite Hsh in Hh.
  assert (Hr : required_session (ev_flags e0) = true) by (unfold required_session; rewrite Hg; reflexivity).
  rewrite Hr in Hh. destruct (ev_err e0); [discriminate|].
  unfold sess_get at 1, sess_add at 1 in Hh. rewrite (aget_aput _ Zeqb_ok), Z.eqb_refl in Hh.
  unfold belongs in Hb. rewrite H1 in Hb. cbn [Z.eqb Pos.eqb orb] in Hb. apply Z.eqb_eq in Hb. rewrite Hb in Hh.
  injection Hh as <- <- <-.
  change (line (ev_text e0) None :: insn_lines (ev_ns e0) gs ++ ?x) with ([line (ev_text e0) None] ++ insn_lines (ev_ns e0) gs ++ x).
  refine (insn_tail delta id ex (ev_ns e0) H2 Hreq Hsx Hd evs gs _ _ _ _ Hnd' _ _ _ Hf Hgs Hres).
  - unfold sess_get. rewrite (aget_aput _ Zeqb_ok), Z.eqb_refl. reflexivity.
  - reflexivity.
  - reflexivity.
Qed.
