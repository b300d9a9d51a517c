(** * Property theorems C98: session ids and the frame they are made from. *)
From Coq Require Import ZArith List Bool String.
From Verif Require Import M_Go M_Sess S_Sess M_Sid S_Sid P_Sid.
Import ListNotations.
Open Scope Z_scope.

(** Two ids are equal exactly when the random numbers and the low halves of the frames are. *)
Theorem C98_ids_equal_iff : forall r f r' f', 0 <= r < 2 ^ 32 -> 0 <= r' < 2 ^ 32 ->
  gen_session_id r f = gen_session_id r' f' <-> r = r' /\ low f = low f'.
Proof. exact gen_inj. Qed.
Print Assumptions C98_ids_equal_iff.

(** Entries and exits are paired for every history whose open calls of one task are in different frames of one stack (whatever the random
    numbers) and whose open calls of different tasks differ in the random number or in the low half of the frame. *)
Theorem C98_calls_told_apart : forall rnd fp delta h, nested no_calls h -> within_limits no_calls h -> good_draws rnd fp no_calls h ->
  printed delta (ring_map [] (with_ids (fun i => gen_session_id (rnd i) (fp i)) h)) = expected dur32 delta no_calls h.
Proof. exact ids_pair. Qed.
Print Assumptions C98_calls_told_apart.

Open Scope string_scope.
Definition h_rec : list action := [Call 1 10 1 0 true "outer in"; Call 1 10 2 10 true "inner in"; Ret 1 10 20 "inner out"; Ret 1 10 30 "outer out"].
Close Scope string_scope.
Definition rnd_same (i : Z) : Z := 7.
Definition fp_stack (i : Z) : Z := 2 ^ 63 + 4096 - 64 * i.
Lemma h_rec_limits : within_limits no_calls h_rec.
Proof.
  unfold h_rec, within_limits. repeat split; try discriminate.
  all: exists [(1, 10)]; split; [reflexivity|]; intros t' f'; unfold open_calls, upds, no_calls;
      (destruct (Z.eqb_spec t' 1) as [->|]); cbn; try congruence;
      (destruct (Z.eq_dec f' 10) as [->|Hf]; [auto|]); intros Hx; exfalso; apply Hx; destruct f' as [|q|q]; try reflexivity;
      destruct (Pos.eqb_spec 10 q); try reflexivity; congruence.
Qed.
Example h_rec_ok : nested no_calls h_rec /\ within_limits no_calls h_rec /\ good_draws rnd_same fp_stack no_calls h_rec.
Proof.
  split; [cbn; auto|]. split; [exact h_rec_limits|]. unfold h_rec, good_draws. repeat split; try discriminate; try (right; discriminate).
  - intros _ t' fr Hin. unfold no_calls in Hin. destruct Hin.
  - intros _ t' fr Hin _. unfold upds, no_calls in Hin. unfold differs. destruct (t' =? 1); [|destruct Hin]. destruct Hin as [<-|[]]. cbn. split; [discriminate|reflexivity].
Qed.

(** kprobe.multi: the id has the function's address in the low half, so two nested calls of one function differ in the random number only;
    when it repeats, the inner call's exit removes the session of both and the outer call is never printed. *)
Theorem C98_kmulti_recursion_refuted : nested no_calls h_rec /\ within_limits no_calls h_rec /\
  expected dur32 0 no_calls h_rec = [[line "inner in"%string None; line "inner out"%string (Some 10)]; [line "outer in"%string None; line "outer out"%string (Some 30)]] /\
  printed 0 (ring_map [] (with_ids (fun i => gen_session_id (rnd_same i) 18446744071579283456) h_rec)) =
    [[line "inner in"%string None; line "inner out"%string (Some 10)]].
Proof. split; [cbn; auto|]. split; [exact h_rec_limits|]. split; vm_compute; reflexivity. Qed.
Print Assumptions C98_kmulti_recursion_refuted.

(** An id may be 0, and 0 means "no session": the exit is lost. *)
Theorem C98_zero_id_refuted : gen_session_id 0 (2 ^ 63 + 2 ^ 32) = 0 /\
  let h := [Call 1 10 1 0 true "in"%string; Ret 1 10 5 "out"%string] in
  expected dur32 0 no_calls h = [[line "in"%string None; line "out"%string (Some 5)]] /\
  printed 0 (ring_map [] (with_ids (fun i => gen_session_id 0 (2 ^ 63 + 2 ^ 32)) h)) = [].
Proof. split; [vm_compute; reflexivity|]. split; vm_compute; reflexivity. Qed.
Print Assumptions C98_zero_id_refuted.

(** x86: the frame read is that of the tracee's caller, for functions of up to 15 argument words, when the trampoline saves a return value
    exactly if bpfsnoop thinks so. *)
Theorem C98_caller_frame_x86_partial : forall mem f func_ip, 0 <= fr_args f < 16 -> mem (fp_x86 f) = Some (fr_caller f) ->
  caller_fp_x86 mem false func_ip (fr_ctx f) (fr_args f) (fr_ret f) = fr_caller f.
Proof. exact x86_frame. Qed.
Print Assumptions C98_caller_frame_x86_partial.
Definition fr_demo : tframe := {| fr_ctx := 1000; fr_args := 2; fr_ret := true; fr_pad := 1; fr_caller := 5000 |}.
Definition mem_demo (a : Z) : option Z := if a =? 1024 then Some 5000 else if a =? 1048 then Some 6000 else if a =? 1016 then Some 99 else Some 1.
Example fr_demo_ok : 0 <= fr_args fr_demo < 16 /\ mem_demo (fp_x86 fr_demo) = Some (fr_caller fr_demo).
Proof. split; [split; discriminate || reflexivity|reflexivity]. Qed.
(** Memory that cannot be read: the program sees zeroes, and -14 (EFAULT) as the outcome. *)
Theorem C98_unreadable_frame : forall mem f func_ip, 0 <= fr_args f < 16 -> mem (fp_x86 f) = None ->
  caller_fp_x86 mem false func_ip (fr_ctx f) (fr_args f) (fr_ret f) = 0 /\
  exists err, probe_read mem (fp_x86 f) = (err, 0) /\ 0 <= err < 2 ^ 64 /\ err - 2 ^ 64 = -14.
Proof. exact x86_unreadable. Qed.
Print Assumptions C98_unreadable_frame.
(** Another program at the function's exit makes the trampoline save a return value although bpfsnoop traces the entry only: the word read is
    the place of the return value. *)
Theorem C98_other_exit_program_refuted : exists mem f, mem (fp_x86 f) = Some (fr_caller f) /\ fr_ret f = true /\
  caller_fp_x86 mem false 0 (fr_ctx f) (fr_args f) false <> fr_caller f.
Proof. exists mem_demo, fr_demo. split; [reflexivity|]. split; [reflexivity|]. vm_compute. discriminate. Qed.
Print Assumptions C98_other_exit_program_refuted.

(** arm64: whatever is on the stack, the scan never finds the frame (it compares the return value of bpf_probe_read_kernel, not the word
    read), remembers nothing, and takes the word behind x19 and x20, padding or not. *)
Theorem C98_arm64_never_found : forall mem f func_ip ip, 0 <= fr_args f < 16 -> 0 < ip < 2 ^ 64 - 4096 -> 0 <= fr_pad f ->
  tramp_fp_arm mem 0 (fr_ctx f) (fr_args f) ip (fr_ret f) = (0, fp_arm f - 8 * fr_pad f) /\
  fst (caller_fp_arm mem false func_ip 0 (fr_ctx f) (fr_args f) ip (fr_ret f)) = 0.
Proof. exact arm_frame. Qed.
Print Assumptions C98_arm64_never_found.
Theorem C98_caller_frame_arm64_partial : forall mem f func_ip ip, 0 <= fr_args f < 16 -> 0 < ip < 2 ^ 64 - 4096 -> fr_pad f = 0 -> mem (fp_arm f) = Some (fr_caller f) ->
  caller_fp_arm mem false func_ip 0 (fr_ctx f) (fr_args f) ip (fr_ret f) = (0, fr_caller f).
Proof. exact arm_nopad. Qed.
Print Assumptions C98_caller_frame_arm64_partial.
Definition fr_arm (pad : Z) : tframe := {| fr_ctx := 1000; fr_args := 2; fr_ret := true; fr_pad := pad; fr_caller := 6000 |}.
Definition mem_arm (pad : Z) (a : Z) : option Z := if a =? 1040 + 8 * pad then Some 6000 else Some 1.
Example fr_arm_ok : 0 <= fr_args (fr_arm 0) < 16 /\ mem_arm 0 (fp_arm (fr_arm 0)) = Some (fr_caller (fr_arm 0)).
Proof. split; [split; discriminate || reflexivity|reflexivity]. Qed.
Theorem C98_arm64_padding_refuted : exists mem f ip, 0 <= fr_args f < 16 /\ 0 < ip < 2 ^ 64 - 4096 /\ mem (fp_arm f) = Some (fr_caller f) /\
  snd (caller_fp_arm mem false 0 0 (fr_ctx f) (fr_args f) ip (fr_ret f)) <> fr_caller f.
Proof.
  exists (mem_arm 1), (fr_arm 1), 4096. split; [split; discriminate || reflexivity|]. split; [split; reflexivity|]. split; [reflexivity|]. vm_compute. discriminate.
Qed.
Print Assumptions C98_arm64_padding_refuted.
