(** * C93: what is printed when the ring buffer overflows. *)
From Coq Require Import ZArith List Bool String Lia.
From Verif Require Import M_Go M_Sess S_Sess P_Sess2 S_Lossy P_Lossy.
Import ListNotations.
Open Scope Z_scope.

(** Two tasks, a nested call, a rejected call. *)
Definition lossy_demo : list action :=
  [Call 1 10 7 100 true "a>"; Call 2 10 8 110 true "b>"; Call 1 20 9 120 true "c>"; Call 1 30 5 121 false "r>"; Ret 1 30 122 "r<";
   Ret 1 20 130 "c<"; Ret 2 10 150 "b<"; Ret 1 10 170 "a<"]%string.
Lemma lossy_demo_ok : nested no_calls lossy_demo /\ never_reused [] lossy_demo /\ within_limits no_calls lossy_demo.
Proof.
  split; [repeat split|]. split; [cbn [never_reused lossy_demo In]; repeat split; try lia; try (intros H; intuition lia)|].
  cbn [within_limits lossy_demo].
  assert (Hk : forall st : stacks, (forall t f, open_calls st t f <> [] -> In (t, f) [(1, 10); (2, 10); (1, 20)]) ->
     exists ks, Z.of_nat (List.length ks) < 65536 /\ forall t f, open_calls st t f <> [] -> In (t, f) ks).
  { intros st H. exists [(1, 10); (2, 10); (1, 20)]. split; [cbn; lia|exact H]. }
  repeat split; try discriminate; try (vm_compute; reflexivity); try (apply Hk; intros t f; unfold open_calls, upds, no_calls;
    destruct (Z.eqb_spec t 1) as [->|]; [|destruct (Z.eqb_spec t 2) as [->|]]; change (1 =? 1) with true; change (1 =? 2) with false; change (2 =? 1) with false; change (2 =? 2) with true;
    cbn [filter f_func f_pass andb tl]; repeat match goal with |- context [?a =? f] => destruct (Z.eqb_spec a f) as [<-|] end; cbn [andb In]; intros Hq; try (exfalso; apply Hq; reflexivity); auto).
Qed.

(** Whatever events are lost, exactly the calls of which both events arrived are printed, each with its own entry, exit and
    duration (programs sharing the session map). *)
Theorem C93_lost_events_map : forall delta mask h, nested no_calls h -> never_reused [] h -> within_limits no_calls h ->
  printed delta (kept mask (ring_map [] h)) = expected_lossy dur32 delta no_seen mask h.
Proof. exact lossy_map. Qed.
Print Assumptions C93_lost_events_map.
(** The entry of the call "b" and the exit of "c" are lost: only "a" is printed. *)
Example C93_map_case : kept [true; false; true; false; true; true] (ring_map [] lossy_demo) <> [] /\
  printed 0 (kept [true; false; true; false; true; true] (ring_map [] lossy_demo)) = [[line "a>" None; line "a<" (Some 70)]] /\
  expected_lossy dur32 0 no_seen [true; false; true; false; true; true] lossy_demo = [[line "a>" None; line "a<" (Some 70)]].
Proof. vm_compute. split; [discriminate|]. split; reflexivity. Qed.

(** The same for session programs (cookie). *)
Theorem C93_lost_events_cookie : forall delta mask h, nested no_calls h -> never_reused [] h ->
  printed delta (kept mask (ring_cookie (fun _ => []) h)) = expected_lossy dur32 delta no_seen mask h.
Proof. exact lossy_cookie. Qed.
Print Assumptions C93_lost_events_cookie.
Example C93_cookie_case : printed 20 (kept [true; true; true; false] (ring_cookie (fun _ => []) lossy_demo)) =
  [[line "b>" None; line "b<" (Some 40)]; [line "a>" None; line "a<" (Some 70)]].
Proof. vm_compute. reflexivity. Qed.

(** Losing events never makes anything else appear, nor changes the order: the output is a part of the output without loss. *)
Theorem C93_output_is_part : forall delta mask h, nested no_calls h -> never_reused [] h -> within_limits no_calls h ->
  sublist (printed delta (kept mask (ring_map [] h))) (printed delta (ring_map [] h)).
Proof.
  intros delta mask h Hn Hu Hw. rewrite (lossy_map delta mask h Hn Hu Hw), (map_mode_pairs delta h Hn (never_fresh0 h Hu) Hw).
  apply lossy_sublist. intros t. reflexivity.
Qed.
Print Assumptions C93_output_is_part.

(** The sessions that stay in memory are exactly those whose entry arrived and whose exit did not. *)
Theorem C93_sessions_left : forall delta mask h id, nested no_calls h -> never_reused [] h -> within_limits no_calls h ->
  let evs := kept mask (ring_map [] h) in
  In id (keys (table_after delta [] evs)) <-> entry_seen id evs /\ ~ exit_seen id evs.
Proof. exact table_map. Qed.
Print Assumptions C93_sessions_left.

(** So a lost exit event leaves its session in memory for good: every call of the history has returned. *)
Theorem C93_memory_freed_refuted : exists mask h, nested no_calls h /\ never_reused [] h /\ within_limits no_calls h /\
  ring_map [] h <> [] /\ (forall t f sid ns pass txt, In (Call t f sid ns pass txt) h -> exists ns' txt', In (Ret t f ns' txt') h) /\
  keys (table_after 0 [] (kept mask (ring_map [] h))) = [8; 9].
Proof.
  exists [true; true; true; false; false], lossy_demo. destruct lossy_demo_ok as (H1 & H2 & H3). split; [exact H1|]. split; [exact H2|]. split; [exact H3|].
  split; [vm_compute; discriminate|]. split; [|vm_compute; reflexivity].
  intros t f sid ns pass txt H. cbn [lossy_demo In] in H.
  repeat destruct H as [H|H]; try discriminate; try contradiction; injection H as <- <- _ _ _ _; do 2 eexists; cbn [lossy_demo In]; auto 12.
Qed.
Print Assumptions C93_memory_freed_refuted.

(** Ids that differ only from those of the calls in progress (which is enough when nothing is lost) are not enough: after a
    lost exit, the entry of one call is printed with the exit of another. *)
Theorem C93_reused_id_refuted : exists mask h, nested no_calls h /\ fresh_ids no_calls h /\ within_limits no_calls h /\
  printed 0 (kept mask (ring_map [] h)) = [[line "first>" None; line "second<" (Some 900)]] /\
  expected_lossy dur32 0 no_seen mask h = [].
Proof.
  exists [true; false; false; true],
    [Call 1 10 7 100 true "first>"; Ret 1 10 200 "first<"; Call 1 10 7 900 true "second>"; Ret 1 10 1000 "second<"]%string.
  split; [repeat split|]. split; [|split; [|split; vm_compute; reflexivity]].
  - cbn [fresh_ids]. repeat split; try lia; intros _ (t & fr & Hi & _); unfold upds, no_calls in Hi; destruct (t =? 1); cbn in Hi; exact Hi.
  - cbn [within_limits]. repeat split; try discriminate; try (vm_compute; reflexivity);
      (exists [(1, 10)]; split; [cbn; lia|]; intros t f; unfold open_calls, upds, no_calls; destruct (Z.eqb_spec t 1) as [->|]; cbn; try congruence;
       destruct (Z.eqb_spec 10 f) as [<-|]; cbn; auto; congruence).
Qed.
Print Assumptions C93_reused_id_refuted.
