(** * Property theorems C99: branch recording is set up as asked. *)
From Coq Require Import List Bool String ZArith Lia.
From Verif Require Import M_Go M_Disasm S_Disasm M_LbrOpen S_LbrOpen P_LbrOpen.
Import ListNotations.
Open Scope list_scope.
Open Scope Z_scope.

(** The branch types asked for, together with "kernel", and no others; a name that is not known is refused. *)
Theorem C99_branch_types : forall types m, branch_mask PERF_SAMPLE_BRANCH_KERNEL types = Some m -> forall i, Z.testbit m i = true <-> asked types i.
Proof. exact mask_asked. Qed.
Print Assumptions C99_branch_types.
Theorem C99_known_types_accepted : forall types, (exists m, branch_mask PERF_SAMPLE_BRANCH_KERNEL types = Some m) <-> (forall s, In s types -> known s).
Proof. exact (fun types => mask_some types PERF_SAMPLE_BRANCH_KERNEL). Qed.
Print Assumptions C99_known_types_accepted.
Theorem C99_unknown_type_opens_nothing : forall perf_open n types s, In s types -> ~ known s -> (0 < n)%nat ->
  open_all perf_open (Some n) types = {| op_result := None; op_open := [] |}.
Proof. exact open_unknown. Qed.
Print Assumptions C99_unknown_type_opens_nothing.
Example types_case : branch_mask PERF_SAMPLE_BRANCH_KERNEL ["any_call"; "cond"; "any_call"]%string = Some 1042 /\ asked ["any_call"; "cond"]%string 10 /\ ~ known "anycall"%string.
Proof. split; [reflexivity|]. split; [right; exists "cond"%string; cbn; tauto|]. intros [i Hi]. cbn in Hi. intuition congruence. Qed.

(** On success there is one event per possible CPU, with that mask, and closing leaves none. *)
Theorem C99_one_event_per_cpu : forall perf_open n types fds, op_result (open_all perf_open (Some n) types) = Some fds -> (0 < n)%nat ->
  (exists m, branch_mask PERF_SAMPLE_BRANCH_KERNEL types = Some m /\ per_cpu (fun c => perf_open c m) n fds) /\ op_open (open_all perf_open (Some n) types) = fds.
Proof. exact open_good. Qed.
Print Assumptions C99_one_event_per_cpu.
Theorem C99_opened_when_possible : forall perf_open n types m, branch_mask PERF_SAMPLE_BRANCH_KERNEL types = Some m ->
  (forall i, (i < n)%nat -> perf_open (Z.of_nat i) m <> None) -> exists fds, op_result (open_all perf_open (Some n) types) = Some fds.
Proof. exact open_works. Qed.
Print Assumptions C99_opened_when_possible.
Theorem C99_close_closes_all : forall fds open, incl open fds -> lbr_close fds open = [].
Proof. exact close_nil. Qed.
Print Assumptions C99_close_closes_all.
Definition open_up_to (k : Z) (cpu m : Z) : option Z := if cpu <? k then Some (10 + cpu) else None.
Example open_case : op_result (open_all (open_up_to 4) (Some 4%nat) ["any"%string]) = Some [10; 11; 12; 13] /\
  lbr_close [10; 11; 12; 13] (op_open (open_all (open_up_to 4) (Some 4%nat) ["any"%string])) = [].
Proof. split; reflexivity. Qed.

(** On failure the events opened before stay open: those of all CPUs below the one that failed. *)
Theorem C99_failure_leaves : forall perf_open n types, op_result (open_all perf_open (Some n) types) = None ->
  exists k, (k < n)%nat /\ open_lbr perf_open (Z.of_nat k) types = None /\
    per_cpu (fun c => open_lbr perf_open c types) k (op_open (open_all perf_open (Some n) types)).
Proof. exact open_bad. Qed.
Print Assumptions C99_failure_leaves.
Theorem C99_failed_open_leaks_refuted : exists perf_open n types,
  op_result (open_all perf_open (Some n) types) = None /\ op_open (open_all perf_open (Some n) types) <> [].
Proof. exists (open_up_to 3), 4%nat, ["any"%string]. split; [reflexivity|]. cbn. discriminate. Qed.
Print Assumptions C99_failed_open_leaks_refuted.

(** Every possible CPU records into a buffer of its own, inside the map. *)
Theorem C99_own_buffer : forall n m fuel, 1 <= n -> lbr_data_size * n < 2 ^ 32 -> cpu_mask fuel n = Some m -> (63 <= fuel)%nat ->
  forall c b, 0 <= c < n -> buffer m c b -> 0 <= b < lbrs_value_size n /\ forall c', 0 <= c' < n -> buffer m c' b -> c' = c.
Proof. exact own_buffers. Qed.
Print Assumptions C99_own_buffer.
Theorem C99_mask_is_found : forall n fuel, 1 <= n <= 2 ^ 32 -> (63 <= fuel)%nat -> cpu_mask fuel n = Some (Z.ones (Z.log2_up n)).
Proof. exact cpu_mask_value. Qed.
Print Assumptions C99_mask_is_found.
(** (The mask is a 32-bit word: beyond, its low half is what is stored.) *)
Theorem C99_mask_is_a_word : forall n fuel, 2 ^ 32 < n <= 2 ^ 62 -> (63 <= fuel)%nat -> cpu_mask fuel n = Some (2 ^ 32 - 1).
Proof. exact cpu_mask_big. Qed.
Print Assumptions C99_mask_is_a_word.
(** To a verifier that knows nothing of the number of the CPU, the masked number stays inside the map exactly if the number of possible CPUs is
    a power of two: the size of the map is not rounded up as the mask is. *)
Theorem C99_mask_bounds_iff_power_of_two : forall n m fuel, 1 <= n -> lbr_data_size * n < 2 ^ 32 -> cpu_mask fuel n = Some m -> (63 <= fuel)%nat ->
  ((forall c b, 0 <= c < 2 ^ 32 -> buffer m c b -> b < lbrs_value_size n) <-> pow2 n).
Proof. exact mask_in_bounds. Qed.
Print Assumptions C99_mask_bounds_iff_power_of_two.
Theorem C99_mask_out_of_bounds_refuted : exists n m, cpu_mask 64 n = Some m /\ exists c, 0 <= c < 2 ^ 32 /\ buffer m c (lbr_offset m c) /\ lbrs_value_size n <= lbr_offset m c.
Proof.
  exists 6, 7. split; [reflexivity|]. exists 6. unfold buffer. vm_compute. intuition discriminate.
Qed.
Print Assumptions C99_mask_out_of_bounds_refuted.
Example buffer_case : cpu_mask 64 12 = Some 15 /\ lbr_data_size * 12 < 2 ^ 32 /\ buffer 15 11 8540 /\ cpu_mask 64 8 = Some 7 /\ cpu_mask 64 1 = Some 0.
Proof. unfold buffer. vm_compute. intuition discriminate. Qed.
(** mathx.Mask does not come to an end for numbers between 2^62 and the largest int. *)
Theorem C99_mask_never_ends_refuted : forall v, 2 ^ 62 < v < 2 ^ 63 - 1 -> forall fuel, mask fuel v = None.
Proof. exact mask_never. Qed.
Print Assumptions C99_mask_never_ends_refuted.
Theorem C99_mask_of_largest : forall fuel, mask fuel (2 ^ 63 - 1) = Some (2 ^ 63 - 1).
Proof. reflexivity. Qed.
Print Assumptions C99_mask_of_largest.
Theorem C99_mask_smallest : forall v fuel, 1 <= v <= 2 ^ 62 -> (63 <= fuel)%nat -> mask fuel v = Some (2 ^ Z.log2_up v - 1).
Proof. exact mask_value. Qed.
Print Assumptions C99_mask_smallest.

(** The depth is the number in the first member called lbr_nr of x86_pmu; 0 (also when it cannot be read) ends the program; without the symbol, the
    type or the member it is an error. *)
Theorem C99_depth_read : forall mem buff pmu pre m post n, pmu <> 0 -> mb_name m = "lbr_nr"%string -> (forall x, In x pre -> mb_name x <> "lbr_nr"%string) ->
  0 <= pmu -> 0 <= mb_bit m -> pmu + mb_bit m / 8 < 2 ^ 64 -> readable mem (pmu + mb_bit m / 8) 8 -> word32 mem (pmu + mb_bit m / 8) n ->
  read_lbr_nr mem buff pmu (Some (BStruct (pre ++ m :: post))) = if n =? 0 then NrFatal else NrSet n.
Proof. exact lbr_nr_read. Qed.
Print Assumptions C99_depth_read.
Theorem C99_depth_unreadable : forall mem buff pmu pre m post i, pmu <> 0 -> mb_name m = "lbr_nr"%string -> (forall x, In x pre -> mb_name x <> "lbr_nr"%string) ->
  0 <= pmu -> 0 <= mb_bit m -> pmu + mb_bit m / 8 < 2 ^ 64 -> 0 <= i < 8 -> mem (pmu + mb_bit m / 8 + i) = None ->
  read_lbr_nr mem buff pmu (Some (BStruct (pre ++ m :: post))) = NrFatal.
Proof. exact lbr_nr_unreadable. Qed.
Print Assumptions C99_depth_unreadable.
Theorem C99_depth_missing : forall mem buff pmu ty,
  pmu = 0 \/ ty = None \/ ty = Some BOther \/ (exists ms, ty = Some (BStruct ms) /\ forall x, In x ms -> mb_name x <> "lbr_nr"%string) ->
  read_lbr_nr mem buff pmu ty = NrErr.
Proof. exact lbr_nr_missing. Qed.
Print Assumptions C99_depth_missing.
Definition pmu_mem (a : Z) : option Z := if a =? 5008 then Some 32 else if (5000 <=? a) && (a <? 6000) then Some 0 else None.
Definition pmu_pre : list member := [{| mb_name := "name"%string; mb_bit := 0 |}].
Definition pmu_m : member := {| mb_name := "lbr_nr"%string; mb_bit := 64 |}.
Example depth_case : readable pmu_mem (5000 + mb_bit pmu_m / 8) 8 /\ word32 pmu_mem (5000 + mb_bit pmu_m / 8) 32 /\
  read_lbr_nr pmu_mem [] 5000 (Some (BStruct (pmu_pre ++ [pmu_m]))) = NrSet 32.
Proof.
  split; [|split].
  - intros i Hi. assert (i = 0 \/ i = 1 \/ i = 2 \/ i = 3 \/ i = 4 \/ i = 5 \/ i = 6 \/ i = 7) as H by lia.
    repeat destruct H as [->|H]; try (vm_compute; discriminate). subst i. vm_compute. discriminate.
  - split; [lia|]. intros k Hk. assert (k = 0 \/ k = 1 \/ k = 2 \/ k = 3) as H by lia. repeat destruct H as [->|H]; try reflexivity. subst k. reflexivity.
  - vm_compute. reflexivity.
Qed.
