(** * Properties C34, C63: the debug-symbol cache file. *)
From Coq Require Import List Bool ZArith Lia.
From Verif Require Import M_Go M_Cache S_Cache P_Cache P_Cache2.
Import ListNotations.
Open Scope Z_scope.

(** C34.  Any number of processes share the cache file; their system calls interleave in any order, any call may fail, processes may be
    killed between any two calls, files of earlier runs lie around, and power may fail while the file in place is on disk.  As long
    as no temporary name is chosen twice, at every moment the cache file is absent, or the version it was at the start, or one
    complete version that a process had in memory when it began to save it. *)
Theorem C34_old_or_complete_partial : forall enc dec s c0 t s',
  start enc s c0 -> NoDup (temps t) -> power_ok enc dec s t -> exec enc dec s t = Some s' ->
  read s' Target = None \/ exists c, read s' Target = Some (enc c) /\ (c0 = Some c \/ saved_in enc dec s t c).
Proof. exact file_is_a_version. Qed.
Print Assumptions C34_old_or_complete_partial.
(** so that a later run can load it *)
Theorem C34_always_loads_partial : forall enc dec s c0 t s', (forall c, dec (enc c) = Some c) ->
  start enc s c0 -> NoDup (temps t) -> power_ok enc dec s t -> exec enc dec s t = Some s' -> load dec s' <> None.
Proof.
  intros enc dec s c0 t s' Hc H1 H2 H3 H4. unfold load. destruct (file_is_a_version enc dec s c0 t s' H1 H2 H3 H4) as [->|(c & -> & _)]; [discriminate|]. rewrite Hc. discriminate.
Qed.
Print Assumptions C34_always_loads_partial.

Definition none : state := {| s_nodes := []; s_dir := []; s_procs := [] |}.
Definition thirty (p : nat) (base : Z) : list event := map (fun i => EAdd p (base + Z.of_nat i) (7 * Z.of_nat i)) (seq 0 30).
Definition save (p n : nat) (chunks : list nat) : list event := [ECreate p n] ++ map (EWrite p) chunks ++ [EClose p; ERename p; ERemove p].
Definition ver0 (base : Z) : cache := map (fun i => (base + Z.of_nat i, 7 * Z.of_nat i)) (seq 0 30).
(** two processes, the first killed half-way through its save *)
Definition history : list event := [EStart; EStart] ++ thirty 0 1000 ++ thirty 1 5000 ++ [ECreate 0 11; EWrite 0 7] ++ [ECreate 1 12; EWrite 1 20; EKill 0; EWrite 1 60; EClose 1; ERename 1].
Example demo_C34 : start enc0 none None /\ NoDup (temps history) /\ power_ok enc0 dec0 none history /\
  exists s', exec enc0 dec0 none history = Some s' /\ read s' Target = Some (enc0 (ver0 5000)) /\ read s' (Tmp 11) = Some (firstn 8 (enc0 (ver0 1000))).
Proof.
  split; [split; [reflexivity|]; split; [intros n i H; discriminate H|reflexivity]|]. split; [repeat constructor; cbn; intuition congruence|].
  split.
  - intros t1 k t2 s1 E _. exfalso. assert (H : In (EPower k) history) by (rewrite E; apply in_or_app; right; left; reflexivity).
    clear E. unfold history in H. rewrite !in_app_iff in H. unfold thirty in H. rewrite !in_map_iff in H. cbn [In] in H.
    repeat match goal with H : _ \/ _ |- _ => destruct H as [H|H] | H : exists _, _ |- _ => destruct H as (? & ? & ?) end; try discriminate; assumption.
  - eexists. split; [vm_compute; reflexivity|]. split; vm_compute; reflexivity.
Qed.

(** C34, refuted for power loss: nothing is flushed before the rename, so after a power loss the cache file can be a fragment, and every
    later run fails to start (addr2line_cache.go:45-48). *)
Theorem C34_power_loss_refuted : exists enc dec s t s', (forall c, dec (enc c) = Some c) /\ start enc s None /\ NoDup (temps t) /\
  exec enc dec s t = Some s' /\ load dec s' = None.
Proof.
  exists enc0, dec0, none, ([EStart] ++ thirty 0 1000 ++ save 0 11 [90%nat] ++ [EPower (fun _ => 9%nat)]). eexists. split; [exact codec0|].
  split; [split; [reflexivity|]; split; [intros n i H; discriminate H|reflexivity]|]. split; [repeat constructor; cbn; intuition congruence|].
  split; vm_compute; reflexivity.
Qed.
Print Assumptions C34_power_loss_refuted.
(** C34, refuted if temporary names come back: the deferred os.Remove acts on a name that is free again after the rename, so it can
    remove another process's temporary file, and a third one's half-written file can then be put in place. *)
Theorem C34_reused_name_refuted : exists enc dec s t s', (forall c, dec (enc c) = Some c) /\ start enc s None /\ (forall k, ~ In (EPower k) t) /\
  exec enc dec s t = Some s' /\ load dec s' = None.
Proof.
  exists enc0, dec0, none, ([EStart; EStart; EStart] ++ thirty 0 1000 ++ thirty 1 5000 ++ thirty 2 9000 ++
    [ECreate 0 11; EWrite 0 90; EClose 0; ERename 0; ECreate 1 11; ERemove 0; EWrite 1 90; EClose 1; ECreate 2 11; EWrite 2 3; ERename 1; EKill 2]%nat).
  eexists. split; [exact codec0|].
  split; [split; [reflexivity|]; split; [intros n i H; discriminate H|reflexivity]|].
  split; [|split; vm_compute; reflexivity].
  intros k H. rewrite !in_app_iff in H. unfold thirty in H. rewrite !in_map_iff in H. cbn [In] in H.
  repeat match goal with H : _ \/ _ |- _ => destruct H as [H|H] | H : exists _, _ |- _ => destruct H as (? & ? & ?) end; try discriminate; assumption.
Qed.
Print Assumptions C34_reused_name_refuted.

(** C63.  For every sequence of look-ups of one process: everything looked up is answered from memory from then on, with the line found
    first; the version saved last holds everything that was loaded and all that was looked up but the last (number of new ones modulo
    30) entries - never more than 29 are lost. *)
Theorem C63_looked_up_is_kept_partial : forall c0 l, exists c cnt saved lost new,
  adds c0 0 c0 l = (c, cnt, saved) /\
  (forall a, aget Z.eqb a c = match aget Z.eqb a c0 with Some v => Some v | None => aget Z.eqb a l end) /\
  c = c0 ++ new /\ cnt = Z.of_nat (List.length new) /\ c = saved ++ lost /\ Z.of_nat (List.length lost) = Z.of_nat (List.length new) mod 30 /\ Z.of_nat (List.length lost) <= 29 /\
  (exists more, saved = c0 ++ more).
Proof.
  intros c0 l. destruct (adds_ok l c0 0 c0 [] ltac:(lia) ltac:(rewrite app_nil_r; reflexivity) ltac:(reflexivity)) as (c & cnt & sv & tl & nw & A & B & C & D & E & F).
  exists c, cnt, sv, tl, nw. split; [exact A|]. split; [exact (adds_get _ _ _ _ _ _ _ A)|]. split; [exact D|]. split; [exact E|]. split; [exact B|].
  rewrite Z.add_0_l in E. split; [rewrite C, E; reflexivity|]. split; [|exact F]. pose proof (Z.mod_pos_bound cnt 30 ltac:(lia)). lia.
Qed.
Print Assumptions C63_looked_up_is_kept_partial.
Example demo_C63 : exists c saved, adds [(5, 50)] 0 [(5, 50)] (map (fun i => (Z.of_nat (i mod 70), Z.of_nat i)) (seq 0 80)) = (c, 69, saved) /\
  List.length saved = 61%nat /\ List.length c = 70%nat /\ aget Z.eqb 5 c = Some 50 /\ aget Z.eqb 6 saved = Some 6.
Proof. eexists. eexists. vm_compute. repeat split. Qed.
(** C63, refuted for processes that run at the same time: the file is replaced as a whole, so the process that saves last erases what
    the other one had saved. *)
Theorem C63_other_process_refuted : exists enc dec s t1 s1 t2 s2 a v c, (forall c, dec (enc c) = Some c) /\ start enc s None /\ NoDup (temps (t1 ++ t2)) /\
  exec enc dec s t1 = Some s1 /\ load dec s1 = Some c /\ aget Z.eqb a c = Some v /\
  exec enc dec s1 t2 = Some s2 /\ exists c2, load dec s2 = Some c2 /\ aget Z.eqb a c2 = None.
Proof.
  exists enc0, dec0, none, ([EStart; EStart] ++ thirty 0 1000 ++ save 0 11 [90%nat]). eexists. exists (thirty 1 5000 ++ save 1 12 [90%nat]). eexists. exists 1003, 21. eexists.
  split; [exact codec0|]. split; [split; [reflexivity|]; split; [intros n i H; discriminate H|reflexivity]|]. split; [repeat constructor; cbn; intuition congruence|].
  split; [vm_compute; reflexivity|]. split; [vm_compute; reflexivity|]. split; [reflexivity|]. split; [vm_compute; reflexivity|]. eexists. split; vm_compute; reflexivity.
Qed.
Print Assumptions C63_other_process_refuted.
