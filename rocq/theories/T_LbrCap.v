(** * Property C86: the branches shown for an event are those of its own call. *)
From Coq Require Import List Bool String ZArith Lia.
From Verif Require Import M_Go P_Go M_Lbr M_LbrCap S_LbrCap P_LbrCap.
Import ListNotations.
Open Scope Z_scope.

(** C86.  For every history of runs, events and handlings in which no tracing program runs on a CPU between the start of a run there and its event, waiting
    events have different session numbers (fewer than 65536 wait) and no event with branches is dropped: every handled event, in order, shows exactly what
    its own run recorded - and nothing when its run recorded nothing or the snapshot failed. *)
Theorem C86_own_branches_partial : forall own name target lbr_nr os, (forall id, snap_ok (own id)) -> no_overlap (fun _ => None) os -> orderly own [] os ->
  let shown := run own name target lbr_nr sys0 os in
  map (fun r => (v_id (fst r), v_ip (fst r))) shown = handled [] os /\
  Forall (fun r => snd r = shown_for name target lbr_nr (v_ip (fst r)) (own (v_id (fst r)))) shown.
Proof. intros own name target lbr_nr os Hown HN HO. exact (run_ok own name target lbr_nr Hown os _ _ (Inv0 own) HN HO). Qed.
Print Assumptions C86_own_branches_partial.
(** Refuted when runs overlap on a CPU (interrupts, functions called by the program): the interrupted run shows the branches of the run that interrupted it. *)
Theorem C86_interrupted_run_refuted : forall own name target lbr_nr c s1 s2 ip1 ip2 l1 b2 l2, own 1 = SOk l1 -> own 2 = SOk (b2 :: l2) ->
  (List.length l1 <= 32)%nat -> (List.length (b2 :: l2) <= 32)%nat -> s1 <> s2 ->
  map (fun r => (v_id (fst r), snd r)) (run own name target lbr_nr sys0 [OStart c 1; OStart c 2; OEmit c 2 s2 ip2; OEmit c 1 s1 ip1; OHandle; OHandle]) =
    [(2, shown_for name target lbr_nr ip2 (own 2)); (1, shown_for name target lbr_nr ip1 (own 2))].
Proof.
  intros own name target lbr_nr c s1 s2 ip1 ip2 l1 b2 l2 E1 E2 L1 L2 Hs. cbn [run step y_buf y_map y_queue sys0 app]. rewrite !Z.eqb_refl. cbv iota. rewrite E1, E2.
  set (d := take (take empty_data (SOk l1)) (SOk (b2 :: l2))). cbn [records andb].
  assert (Hd : holds d (SOk (b2 :: l2))) by (apply take_holds; [exact L2|apply take_len; [exact L1|reflexivity]]).
  destruct Hd as (D1 & D2 & D3). assert (Hp : 0 <? ld_nr d = true) by (rewrite D2; cbn [nr_of List.length]; apply Z.ltb_lt; lia). rewrite Hp.
  assert (Hm : map_update (map_update [] s2 d) s1 d = [(s2, d); (s1, d)]).
  { unfold map_update. cbn [aget]. assert (X : forall n, (n < 2)%nat -> Z.of_nat n <? max_lbrs = true) by (intros n Hn; apply Z.ltb_lt; unfold max_lbrs; lia).
    cbn [List.length]. rewrite (X 0%nat) by lia. cbn [aput aget]. destruct (Z.eqb_spec s1 s2); [congruence|]. cbn [List.length]. rewrite (X 1%nat) by lia. reflexivity. }
  rewrite Hm. clearbody d. clear Hm. do 4 (cbn [run step y_buf y_map y_queue v_flag v_ret v_sid v_ip v_id andb aget adel fst snd map tl]; rewrite ?Hp, ?Z.eqb_refl).
  unfold show_data. rewrite D2. cbn [nr_of]. assert (Sh : forall w inf, show name w inf lbr_nr (ld_ents d) (24 * Z.of_nat (List.length (b2 :: l2))) = show name w inf lbr_nr (b2 :: l2) (24 * Z.of_nat (List.length (b2 :: l2))))
    by (intros w inf; rewrite show_prefix by (rewrite D1; exact L2); rewrite D3; reflexivity).
  rewrite !Sh. reflexivity.
Qed.
Print Assumptions C86_interrupted_run_refuted.
(** Refuted when a run that records no branches (the exit of a call traced in both modes) gets in between: nothing is shown. *)
Theorem C86_erased_refuted : forall own name target lbr_nr c s1 ip1 l1, own 1 = SOk l1 -> own 2 = SNone ->
  map (fun r => (v_id (fst r), snd r)) (run own name target lbr_nr sys0 [OStart c 1; OStart c 2; OEmit c 1 s1 ip1; OHandle]) = [(1, RNothing)].
Proof.
  intros own name target lbr_nr c s1 ip1 l1 E1 E2. cbn [run step y_buf y_map y_queue sys0 app]. rewrite !Z.eqb_refl. cbv iota. rewrite E1, E2. reflexivity.
Qed.
Print Assumptions C86_erased_refuted.
(** Refuted when two waiting events drew the same session number: the first shows the branches of the second, the second nothing. *)
Theorem C86_same_session_refuted : forall own name target lbr_nr s ip1 ip2 b1 l1 b2 l2, own 1 = SOk (b1 :: l1) -> own 2 = SOk (b2 :: l2) ->
  (List.length (b1 :: l1) <= 32)%nat -> (List.length (b2 :: l2) <= 32)%nat ->
  map (fun r => (v_id (fst r), snd r)) (run own name target lbr_nr sys0 [OStart 0 1; OEmit 0 1 s ip1; OStart 1 2; OEmit 1 2 s ip2; OHandle; OHandle]) =
    [(1, shown_for name target lbr_nr ip1 (own 2)); (2, RNothing)].
Proof.
  intros own name target lbr_nr s ip1 ip2 b1 l1 b2 l2 E1 E2 L1 L2. cbn [run step y_buf y_map y_queue sys0 app]. rewrite !Z.eqb_refl. cbn [Z.eqb]. cbv iota. rewrite E1, E2.
  set (d1 := take empty_data (SOk (b1 :: l1))). set (d2 := take empty_data (SOk (b2 :: l2))). cbn [records andb].
  assert (Hd : holds d2 (SOk (b2 :: l2))) by (apply take_holds; [exact L2|reflexivity]).
  assert (P1 : 0 <? ld_nr d1 = true) by (cbn [d1 take ld_nr List.length]; apply Z.ltb_lt; lia).
  destruct Hd as (D1 & D2 & D3). assert (P2 : 0 <? ld_nr d2 = true) by (rewrite D2; cbn [nr_of List.length]; apply Z.ltb_lt; lia). rewrite P1, P2.
  assert (Hm : map_update (map_update [] s d1) s d2 = [(s, d2)]).
  { unfold map_update. cbn [aget]. assert (X : Z.of_nat 0 <? max_lbrs = true) by reflexivity. cbn [List.length]. rewrite X. cbn [aput aget]. rewrite Z.eqb_refl. reflexivity. }
  rewrite Hm. clearbody d1 d2. clear Hm. do 4 (cbn [run step y_buf y_map y_queue v_flag v_ret v_sid v_ip v_id andb aget adel fst snd map tl]; rewrite ?P1, ?P2, ?Z.eqb_refl).
  unfold show_data. rewrite D2. cbn [nr_of]. assert (Sh : forall w inf, show name w inf lbr_nr (ld_ents d2) (24 * Z.of_nat (List.length (b2 :: l2))) = show name w inf lbr_nr (b2 :: l2) (24 * Z.of_nat (List.length (b2 :: l2))))
    by (intros w inf; rewrite show_prefix by (rewrite D1; exact L2); rewrite D3; reflexivity).
  rewrite !Sh. reflexivity.
Qed.
Print Assumptions C86_same_session_refuted.

(** Two CPUs, four runs: one without branches, one rejected by a filter (no event). *)
Definition ex_br a b := {| b_from := a; b_to := b; b_flags := 0 |}.
Definition ex_own (id : Z) : snap := if id =? 1 then SOk [ex_br 10 20; ex_br 30 40] else if id =? 2 then SOk [ex_br 11 21] else if id =? 3 then SNone else SOk [ex_br 50 60].
Definition ex_name (a : Z) : string := "f"%string.
Example demo_C86 : let os1 := [OStart 0 1; OStart 1 2; OEmit 0 1 100 7; OStart 0 4; OStart 0 3; OEmit 1 2 101 8; OEmit 0 3 99 7; OHandle; OHandle; OSkip; OStart 1 4; OEmit 1 4 102 9; OHandle] in
  (forall id, snap_ok (ex_own id)) /\ no_overlap (fun _ => None) os1 /\ orderly ex_own [] os1 /\ handled [] os1 = [(1, 7); (2, 8); (4, 9)] /\
  map snd (run ex_own ex_name (fun _ => (Verbose, fun _ => true)) 32 sys0 os1) =
    [RShown [(31, [{| e_from := 30; e_fromf := "f"; e_to := 40; e_tof := "f" |}; {| e_from := 10; e_fromf := "f"; e_to := 20; e_tof := "f" |}])];
     RShown [(31, [{| e_from := 11; e_fromf := "f"; e_to := 21; e_tof := "f" |}])]; RShown [(31, [{| e_from := 50; e_fromf := "f"; e_to := 60; e_tof := "f" |}])]]%string.
Proof.
  intros os1. split; [intros id; unfold ex_own; repeat (destruct (id =? _); [cbn; lia|]); cbn; lia|]. split; [cbn; repeat split|].
  split; [|split; [reflexivity|vm_compute; reflexivity]].
  assert (X : forall n, (n < 5)%nat -> Z.of_nat n < 65536) by (intros n Hn; lia).
  cbn [os1 orderly tl app map snd]. repeat split; try (cbn [List.length]; apply X; lia); try (cbn; lia); intros _ F; cbn [In] in F; lia.
Qed.
