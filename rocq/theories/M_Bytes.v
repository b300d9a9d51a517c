(** * Small byte/number helpers of bpfsnoop. *)
From Coq Require Import ZArith List Bool String.
From Verif Require Import M_Go M_Kallsyms.
Import ListNotations.
Open Scope Z_scope.

(** strx.NullTerminated, /repo/internal/strx/string.go:8-16 *)
Fixpoint null_idx (b : list Z) : nat :=
  match b with
  | [] => O
  | x :: b' => if x =? 0 then O else S (null_idx b')
  end.
Definition null_terminated (b : list Z) : list Z :=
  let idx := null_idx b in
  if Nat.eqb idx 0 then [] else firstn idx b.

(** bytes2i, /repo/internal/bpfsnoop/bpfsnoop_arg_histogram.go:26-37.
    [i] is the running index; Go shifts of a uint64 by 64 or more give 0. *)
Fixpoint bytes2i_go (b : list Z) (n : nat) (i : Z) (v : Z) {struct n} : Z :=
  match n, b with
  | S n', x :: b' => bytes2i_go b' n' (i + 1) (Z.lor v (u64 (Z.shiftl x (8 * i))))
  | _, _ => v
  end.
Definition bytes2i (b : list Z) (size : Z) : Z :=
  if (size <=? 0) || (Z.of_nat (List.length b) <? size) then 0
  else bytes2i_go b (Z.to_nat size) 0 0.

(** histogram, bpfsnoop_arg_histogram.go:13-48.  bits.LeadingZeros64 is
    64 for 0 and 63 - floor(log2 v) otherwise. *)
Record histogram := { log2 : list Z; total : Z }.
Definition new_histogram : histogram := {| log2 := repeat 0 64; total := 0 |}.
Definition leading_zeros64 (v : Z) : Z := if v <=? 0 then 64 else 63 - Z.log2 v.
Definition i2h (v : Z) : Z := 63 - leading_zeros64 v.
(** None = run-time panic (array index out of range). *)
Definition hist_add (h : histogram) (data : list Z) (size : Z) : option histogram :=
  let idx := i2h (bytes2i data size) in
  if (idx <? 0) || (64 <=? idx) then None
  else Some {| log2 := upd_nth (Z.to_nat idx) (fun c => u64 (c + 1)) (log2 h); total := u64 (total h + 1) |}.
Fixpoint hist_adds (h : histogram) (l : list (list Z * Z)) : option histogram :=
  match l with
  | [] => Some h
  | (d, n) :: l' => match hist_add h d n with Some h' => hist_adds h' l' | None => None end
  end.
(** Bounds printed for bucket i, bpfsnoop_arg_histogram.go:97-101 (uint64 arithmetic). *)
Definition bucket_low (i : Z) : Z :=
  let low := Z.shiftr (u64 (Z.shiftl 1 (i + 1))) 1 in
  let high := u64 (u64 (Z.shiftl 1 (i + 1)) - 1) in
  if low =? high then u64 (low - 1) else low.
Definition bucket_high (i : Z) : Z := u64 (u64 (Z.shiftl 1 (i + 1)) - 1).
(** Index of the last non-empty bucket (-1 if none); rows 0..idxMax are printed. *)
Fixpoint idx_max_go (l : list Z) (i best : Z) : Z :=
  match l with
  | [] => best
  | v :: l' => idx_max_go l' (i + 1) (if 0 <? v then i else best)
  end.
Definition idx_max (l : list Z) : Z := idx_max_go l 0 (-1).
Definition hist_rows (h : histogram) : list (Z * Z * Z) :=
  map (fun i => (bucket_low (Z.of_nat i), bucket_high (Z.of_nat i), nth i (log2 h) 0))
      (seq 0 (Z.to_nat (idx_max (log2 h) + 1))).

(** isEndbrInsn, /repo/internal/bpfsnoop/bpf_endbr.go:33-43 *)
Definition endbr_poison : Z := 2035558.       (* 0x001f0f66 *)
Definition endbr64 : Z := 4196274163.         (* 0xfa1e0ff3 *)
Definition is_endbr_insn (val : Z) : bool :=
  if val =? endbr_poison then true
  else Z.land val (4294967295 - 16777216) =? endbr64.   (* val &^ 0x01000000 *)

(** Go slice expression b[lo:hi]: None = panic. *)
Definition slice (b : list Z) (lo hi : nat) : option (list Z) :=
  if (lo <=? hi)%nat && (hi <=? List.length b)%nat then Some (firstn (hi - lo) (skipn lo b)) else None.
Fixpoint eq_bytes (a b : list Z) : bool :=
  match a, b with
  | [], [] => true
  | x :: a', y :: b' => (x =? y) && eq_bytes a' b'
  | _, _ => false
  end.
(** isTailcallReachable, /repo/internal/bpfsnoop/bpf_tail_call.go:30-46 (little-endian machine).
    None = run-time panic. Go evaluates the right operand of || only if the left is false. *)
Definition is_tailcall_reachable (insns : list Z) : option bool :=
  if (List.length insns =? 0)%nat || (List.length insns <? 12)%nat then Some false else
  match slice insns 0 4 with
  | None => None
  | Some w =>
      let offset := if is_endbr_insn (le_bytes w) then 9%nat else 5%nat in
      match slice insns offset (offset + 2) with
      | None => None
      | Some a => if eq_bytes a [49; 192] then Some true          (* 31 c0 *)
                  else match slice insns offset (offset + 3) with
                       | None => None
                       | Some b => Some (eq_bytes b [72; 49; 192])  (* 48 31 c0 *)
                       end
      end
  end.

(** getCalleeIP / getCalleeIPFromInsn for amd64, func_graph_parser.go:99-137.
    Go's + and | have equal precedence and associate to the left. *)
Definition get_callee_ip (kaddr offset : Z) : Z :=
  Z.lor (u64 (u64 (kaddr + 5) + offset)) (W64 - W32).
Definition callee_from_insn (addr : Z) (bytes : list Z) : Z :=
  match bytes with
  | [b0; b1; b2; b3; b4] => if b0 =? 232 then get_callee_ip addr (le_bytes [b1; b2; b3; b4]) else 0
  | _ => 0
  end.

(** guessBytes, /repo/internal/bpfsnoop/disasm.go:51-62 *)
Definition guess_bytes (ks : kallsyms) (kaddr bytes : Z) : option Z :=
  if negb (bytes =? 0) then Some bytes else
  match ks_next ks kaddr with
  | FPanic => None
  | FNone => Some 4096
  | FSome None => None        (* nil dereference *)
  | FSome (Some e) => Some (Z.min (u64 (M_Kallsyms.kaddr e - kaddr)) 4096)
  end.
(** trimTailingInsns on amd64, disasm.go:64-81 : drop trailing 0xcc / 0x90 bytes. *)
Definition is_pad (b : Z) : bool := (b =? 204) || (b =? 144).
Fixpoint trim_len (b : list Z) : nat :=        (* i + 1 after the loop *)
  match b with
  | [] => O
  | x :: b' => match trim_len b' with
               | O => if is_pad x then O else 1%nat
               | S n => S (S n)
               end
  end.
Definition trim_tail (b : list Z) : list Z := firstn (trim_len b) b.

(** mathx.Mask, /repo/internal/mathx/math.go:8-18 (int is 64 bits; n <<= 1 wraps).
    [fuel] bounds the loop; None = the loop is still running after that many steps. *)
Definition s64z (z : Z) : Z := let m := z mod W64 in if m <? 9223372036854775808 then m else m - W64.
Fixpoint mask_loop (fuel : nat) (v n : Z) : option Z :=
  if n <? v then match fuel with O => None | S f => mask_loop f v (s64z (2 * n)) end
  else Some (n - 1).
Definition max_int : Z := 9223372036854775807.
Definition mask (fuel : nat) (v : Z) : option Z :=
  if v =? max_int then Some max_int else mask_loop fuel v 1.

(** XDP / TC action names, /repo/internal/bpfsnoop/bpfsnoop_func_args.go:22-106.
    The 32-bit return value is converted uint32 -> int (64-bit). *)
Inductive shown := Named (s : string) | Number (n : Z) | Panicked.
Definition xdp_actions : list string := ["XDP_ABORTED"; "XDP_DROP"; "XDP_PASS"; "XDP_TX"; "XDP_REDIRECT"]%string.
Definition tc_actions : list string :=
  ["TC_ACT_UNSPEC"; "TC_ACT_OK"; "TC_ACT_RECLASSIFY"; "TC_ACT_SHOT"; "TC_ACT_PIPE"; "TC_ACT_STOLEN";
   "TC_ACT_QUEUED"; "TC_ACT_REPEAT"; "TC_ACT_REDIRECT"; "TC_ACT_TRAP"]%string.
Definition idx_str (l : list string) (i : Z) : shown :=
  if i <? 0 then Panicked else match nth_error l (Z.to_nat i) with Some s => Named s | None => Panicked end.
Definition xdp_action (a : Z) : shown :=
  if (0 <=? a) && (a <=? 4) then idx_str xdp_actions a else Number a.
Definition tc_action (a : Z) : shown :=
  if (-1 <=? a) && (a <=? 8) then idx_str tc_actions (a + 1) else Number a.
(** outputFnRetval for XDP and SchedCLS programs: the first four bytes of the captured value. *)
Definition show_xdp_ret (data : list Z) : shown := xdp_action (le_bytes (firstn 4 data)).
Definition show_tc_ret (data : list Z) : shown := tc_action (le_bytes (firstn 4 data)).

(** readKernel's size rounding, /repo/internal/bpfsnoop/bpf_read_kernel.go:86-89 (uint32 arithmetic):
    number of bytes the BPF reader is asked for, None = rejected as too large. *)
Definition read_size (size : Z) : option Z :=
  let r := Z.land (u32 (size + 7)) (W32 - 8) in
  if 65536 <? r then None else Some r.

(** detectTraceables, /repo/internal/bpfsnoop/bpf_kfuncs.go:93-127: functions (sorted addresses) are
    probed in batches of at most 1024.  [detect] is the BPF program's verdict for a batch (one answer
    per address); result: addresses kept.  [fuel] >= number of addresses. *)
Fixpoint keep_batch (batch : list Z) (verdicts : list bool) : list Z :=
  match batch, verdicts with
  | a :: b, v :: vs => if v then a :: keep_batch b vs else keep_batch b vs
  | b, [] => b
  | [], _ => []
  end.
Fixpoint detect_traceables (fuel : nat) (cap : nat) (detect : list Z -> list bool) (addrs : list Z) : list Z :=
  match fuel with
  | O => []
  | S f =>
      match addrs with
      | [] => []
      | _ => if (cap <? List.length addrs)%nat
             then keep_batch (firstn cap addrs) (detect (firstn cap addrs)) ++
                  detect_traceables f cap detect (skipn cap addrs)
             else keep_batch addrs (detect addrs)
      end
  end.
