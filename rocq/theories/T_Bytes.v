(** * Property theorems C24, C32, C35, C39, C40, C42, C46, C47, C48. *)
From Coq Require Import ZArith List Bool String.
From Verif Require Import M_Go M_Kallsyms S_Kallsyms M_Bytes P_Bytes P_Bytes2.
Import ListNotations.
Open Scope Z_scope.

(** C35 *)
Theorem C35_string_is_longest_nul_free_prefix : forall b,
  exists r, b = null_terminated b ++ r /\ ~ In 0 (null_terminated b) /\ (r = [] \/ exists r', r = 0 :: r').
Proof. exact null_terminated_spec. Qed.
Print Assumptions C35_string_is_longest_nul_free_prefix.
Example C35_demo : null_terminated [104; 105; 0; 33] = [104; 105] /\ null_terminated [7; 8] = [7; 8] /\ null_terminated [0; 1] = [].
Proof. repeat split. Qed.

(** C24 *)
Theorem C24_sample_value : forall b size, Forall is_byte b -> 0 < size <= Z.of_nat (List.length b) ->
  bytes2i b size = le_bytes (firstn (Z.to_nat size) b) mod 2 ^ 64.
Proof. exact bytes2i_spec. Qed.
Print Assumptions C24_sample_value.
(** For every sequence of positive samples (fewer than 2^64): no crash, bucket k holds the number
    of samples in [2^k, 2^(k+1)), the total is the number of samples.  Missing from the English
    property: samples equal to 0 (refuted below). *)
Theorem C24_positive_samples_counted_partial : forall l,
  Forall (fun s => Forall is_byte (fst s) /\ 0 < bytes2i (fst s) (snd s)) l ->
  Z.of_nat (List.length l) < 2 ^ 64 ->
  exists h, hist_adds new_histogram l = Some h /\
    (forall k, 0 <= k < 64 -> nth (Z.to_nat k) (log2 h) 0 =
        Z.of_nat (List.length (filter (fun s => (2 ^ k <=? bytes2i (fst s) (snd s)) &&
                                               (bytes2i (fst s) (snd s) <? 2 ^ (k + 1))) l))) /\
    total h = Z.of_nat (List.length l).
Proof. exact hist_counts'. Qed.
Print Assumptions C24_positive_samples_counted_partial.
(** A sample equal to 0 crashes the process, whatever was counted before. *)
Theorem C24_zero_sample_refuted : exists data size, Forall is_byte data /\ size = Z.of_nat (List.length data) /\
  le_bytes data = 0 /\ forall h, hist_add h data size = None.
Proof.
  exists [0; 0; 0; 0], 4. split; [repeat constructor; unfold is_byte; cbn; discriminate|]. split; [reflexivity|].
  split; [reflexivity|]. intros h. apply hist_zero_panics. reflexivity.
Qed.
Print Assumptions C24_zero_sample_refuted.
(** Row labels: rows 0..62 are labelled with the bucket's bounds; row 63 is labelled 0 -> 2^64-1. *)
Theorem C24_row_labels_partial : forall k, 0 <= k <= 62 ->
  bucket_high k = 2 ^ (k + 1) - 1 /\ bucket_low k = if k =? 0 then 0 else 2 ^ k.
Proof. exact bucket_bounds. Qed.
Print Assumptions C24_row_labels_partial.
(** The table printed for samples in [1, 2^63): the number in every row is the number of samples between the bounds shown in that
    row, and every sample falls into a row shown. *)
Theorem C24_rows_printed_partial : forall l,
  Forall (fun s => Forall is_byte (fst s) /\ 0 < bytes2i (fst s) (snd s) < 2 ^ 63) l ->
  Z.of_nat (List.length l) < 2 ^ 64 ->
  exists h, hist_adds new_histogram l = Some h /\
    (forall lo hi c, In (lo, hi, c) (hist_rows h) ->
       c = Z.of_nat (List.length (filter (fun s => (lo <=? bytes2i (fst s) (snd s)) && (bytes2i (fst s) (snd s) <=? hi)) l))) /\
    (forall s, In s l -> exists lo hi c, In (lo, hi, c) (hist_rows h) /\ lo <= bytes2i (fst s) (snd s) <= hi).
Proof. exact rows_cover. Qed.
Print Assumptions C24_rows_printed_partial.
Theorem C24_top_row_label_refuted : exists v data h, le_bytes data = v /\ 2 ^ 63 <= v < 2 ^ 64 /\
  hist_adds new_histogram [(data, 8)] = Some h /\
  last (hist_rows h) (0, 0, 0) = (0, 2 ^ 64 - 1, 1).
Proof. exists (2 ^ 63), [0;0;0;0;0;0;0;128]. eexists. split; [reflexivity|]. split; [split; [discriminate|reflexivity]|]. split; [vm_compute; reflexivity|]. vm_compute; reflexivity. Qed.
Print Assumptions C24_top_row_label_refuted.
Example C24_demo : exists h, hist_adds new_histogram [([5;0;0;0], 4); ([7;1;0;0], 4); ([6], 1)] = Some h /\
  hist_rows h = [(0,1,0); (2,3,0); (4,7,2); (8,15,0); (16,31,0); (32,63,0); (64,127,0); (128,255,0); (256,511,1)].
Proof. eexists. split; [vm_compute; reflexivity|]. vm_compute; reflexivity. Qed.

(** C39 *)
Theorem C39_tailcall_probe_total_and_exact : forall insns,
  exists r, is_tailcall_reachable insns = Some r /\
   (r = true <-> (12 <= List.length insns)%nat /\
      let off := if is_endbr_insn (le_bytes (firstn 4 insns)) then 9%nat else 5%nat in
      firstn 2 (skipn off insns) = [49; 192] \/ firstn 3 (skipn off insns) = [72; 49; 192]).
Proof. exact tailcall_spec. Qed.
Print Assumptions C39_tailcall_probe_total_and_exact.
(** endbr32, endbr64 and the kernel's poisoned endbr are recognised, nothing else. *)
Theorem C39_endbr_recognised : forall v, 0 <= v < 2 ^ 32 ->
  (is_endbr_insn v = true <-> v = 2035558 \/ v = 4196274163 \/ v = 4213051379).
Proof. exact endbr_spec. Qed.
Print Assumptions C39_endbr_recognised.
Example C39_demo : is_tailcall_reachable [15;31;68;0;0;49;192;85;72;137;229;0] = Some true /\
  is_tailcall_reachable [243;15;30;250;15;31;68;0;0;49;192;85] = Some true /\
  is_tailcall_reachable [15;31;68;0;0;102;144;85;72;137;229;0] = Some false.
Proof. repeat split. Qed.

(** C32 : [off] is the unsigned 32-bit field of the call instruction; the CPU sign-extends it. *)
Theorem C32_callee_is_cpu_target : forall kaddr off,
  0 <= off < 2 ^ 32 ->
  let rel := if off <? 2 ^ 31 then off else off - 2 ^ 32 in
  let target := (kaddr + 5 + rel) mod 2 ^ 64 in
  2 ^ 64 - 2 ^ 32 <= target -> get_callee_ip kaddr off = target.
Proof. exact callee_cpu. Qed.
Print Assumptions C32_callee_is_cpu_target.
(** The decoder only treats 5-byte e8 instructions as calls. *)
Theorem C32_only_calls_decoded : forall addr bytes, callee_from_insn addr bytes <> 0 ->
  exists b1 b2 b3 b4, bytes = [232; b1; b2; b3; b4] /\ callee_from_insn addr bytes = get_callee_ip addr (le_bytes [b1; b2; b3; b4]).
Proof.
  intros addr bytes. destruct bytes as [|b0 [|b1 [|b2 [|b3 [|b4 [|]]]]]]; cbn [callee_from_insn]; try congruence.
  destruct (Z.eqb_spec b0 232); [subst; intros _; eauto 10|congruence].
Qed.
Print Assumptions C32_only_calls_decoded.
Example C32_demo : get_callee_ip 18446744071578845184 4294967195 = 18446744071578845184 + 5 - 101.
Proof. reflexivity. Qed.

(** C40 *)
Theorem C40_guess_bounded : forall ls ks a,
  new_kallsyms ls = Some ks -> text_syms ls <> [] -> 0 <= a < 2 ^ 64 ->
  (forall s, In s (text_syms ls) -> 0 <= fst s < 2 ^ 64) ->
  exists n, guess_bytes ks a 0 = Some n /\ 0 < n <= 4096 /\
   ((exists s, In s (text_syms ls) /\ fst s <= a) ->
    forall s, In s (text_syms ls) -> a < fst s -> a + n <= fst s).
Proof. exact guess_spec. Qed.
Print Assumptions C40_guess_bounded.
Theorem C40_user_size_wins : forall ks a n, n <> 0 -> guess_bytes ks a n = Some n.
Proof. exact guess_user. Qed.
Print Assumptions C40_user_size_wins.
Theorem C40_trim_only_padding : forall b,
  exists tail, b = trim_tail b ++ tail /\ Forall (fun x => x = 204 \/ x = 144) tail /\
    (trim_tail b = [] \/ exists p x, trim_tail b = p ++ [x] /\ x <> 204 /\ x <> 144).
Proof. exact trim_spec. Qed.
Print Assumptions C40_trim_only_padding.
Example C40_demo : trim_tail [85; 144; 195; 204; 144; 204] = [85; 144; 195] /\
  exists ks, new_kallsyms [["ffffffff81000000"; "T"; "a"]; ["ffffffff81000040"; "t"; "b"]]%string = Some ks /\
   guess_bytes ks 18446744071578845184 0 = Some 64 /\ guess_bytes ks 18446744071578845248 0 = Some 4096.
Proof. split; [reflexivity|]. eexists. split; [vm_compute; reflexivity|]. split; vm_compute; reflexivity. Qed.

(** C42: the first four of the captured bytes (the rest of the buffer does not matter) *)
Theorem C42_xdp_actions_named : forall data spare, List.length data = 4%nat -> Forall is_byte data ->
  show_xdp_ret (data ++ spare) = match nth_error ["XDP_ABORTED"; "XDP_DROP"; "XDP_PASS"; "XDP_TX"; "XDP_REDIRECT"]%string (Z.to_nat (le_bytes data)) with
                      | Some s => Named s | None => Number (le_bytes data) end.
Proof. exact xdp_spec. Qed.
Print Assumptions C42_xdp_actions_named.
(** Missing: TC_ACT_UNSPEC (next theorem). *)
Theorem C42_tc_actions_named_partial : forall data spare, List.length data = 4%nat -> Forall is_byte data ->
  show_tc_ret (data ++ spare) = match nth_error ["TC_ACT_OK"; "TC_ACT_RECLASSIFY"; "TC_ACT_SHOT"; "TC_ACT_PIPE"; "TC_ACT_STOLEN";
   "TC_ACT_QUEUED"; "TC_ACT_REPEAT"; "TC_ACT_REDIRECT"; "TC_ACT_TRAP"]%string (Z.to_nat (le_bytes data)) with
                      | Some s => Named s | None => Number (le_bytes data) end.
Proof. exact tc_spec. Qed.
Print Assumptions C42_tc_actions_named_partial.
(** A program returning TC_ACT_UNSPEC (-1, bytes ff ff ff ff) is printed as 4294967295. *)
Theorem C42_tc_unspec_refuted : exists data, List.length data = 4%nat /\ Forall is_byte data /\
  le_bytes data - 2 ^ 32 = -1 /\ show_tc_ret data = Number 4294967295.
Proof. exists [255; 255; 255; 255]. repeat split; repeat constructor; unfold is_byte; cbn; discriminate. Qed.
Print Assumptions C42_tc_unspec_refuted.

(** C46: the CPU mask loaded into the BPF programs keeps every CPU number below the CPU count, and is
    the smallest such all-ones mask, so per-CPU buffers are not shared. *)
Theorem C46_cpu_mask : forall ncpu, 1 <= ncpu <= 2 ^ 62 ->
  exists j, mask 64 ncpu = Some (2 ^ j - 1) /\ 0 <= j /\ ncpu <= 2 ^ j /\ (j = 0 \/ 2 ^ (j - 1) < ncpu) /\
   forall cpu, 0 <= cpu < ncpu -> Z.land cpu (2 ^ j - 1) = cpu.
Proof. exact mask_spec. Qed.
Print Assumptions C46_cpu_mask.
Theorem C46_mask_of_largest : forall fuel, mask fuel (2 ^ 63 - 1) = Some (2 ^ 63 - 1).
Proof. reflexivity. Qed.
Print Assumptions C46_mask_of_largest.
(** Beyond 2^62 (not a realistic CPU count) the loop never ends. *)
Theorem C46_cpu_mask_large_diverges : forall fuel v, 2 ^ 62 < v < 2 ^ 63 - 1 -> mask fuel v = None.
Proof. exact mask_large_diverges. Qed.
Print Assumptions C46_cpu_mask_large_diverges.
Example C46_demo : mask 64 12 = Some 15 /\ mask 64 16 = Some 15 /\ mask 64 1 = Some 0.
Proof. repeat split. Qed.

(** C47: batching the traceability probe removes exactly the functions the probe rejects, for every
    batch size and number of functions. *)
Theorem C47_batched_probe_is_filter : forall traceable cap addrs, (0 < cap)%nat ->
  detect_traceables (List.length addrs) cap (map traceable) addrs = filter traceable addrs.
Proof. exact (fun t cap addrs Hc => detect_filter t cap _ addrs Hc (le_n _)). Qed.
Print Assumptions C47_batched_probe_is_filter.
Example C47_demo : detect_traceables 5 2 (map Z.even) [1; 2; 3; 4; 6] = [2; 4; 6].
Proof. reflexivity. Qed.

(** C48: a kernel read asks for at least the requested bytes, rounded up to 8, at most 64 KiB. *)
Theorem C48_read_size : forall size, 0 <= size < 2 ^ 32 - 7 ->
  read_size size = if 65536 <? (size + 7) / 8 * 8 then None else Some ((size + 7) / 8 * 8).
Proof. exact read_size_spec. Qed.
Print Assumptions C48_read_size.
(** Within 7 of 2^32 the rounding wraps to 0 and the limit check passes. *)
Theorem C48_read_size_wrap_refuted : exists size, 65536 < size < 2 ^ 32 /\ read_size size = Some 0.
Proof. exists 4294967290. repeat split. Qed.
Print Assumptions C48_read_size_wrap_refuted.
