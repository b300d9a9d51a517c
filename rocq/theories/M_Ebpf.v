(** * eBPF instruction subset emitted by bpfsnoop and its execution.

    Models the target language of /repo/internal/cc/*.go and
    /repo/internal/bpfsnoop/func_arg.go.  The instruction constructors mirror the
    cilium/ebpf [asm] values used there (asm.Mov.Imm, asm.Mov.Reg, asm.Add.Imm, ...,
    asm.LoadMem, asm.StoreMem, asm.JEq.Imm(..., label), cc.JmpOff/JmpReg/Ja of
    /repo/internal/cc/insn.go, asm.FnProbeReadKernel.Call, bpfKfuncCall, asm.Return).

    Trusted reading of external components (none is in /repo):
    - cilium/ebpf marshals [Instruction.Constant] (int64) as a 32-bit immediate;
    - the kernel sign-extends immediates of 64-bit ALU/JMP instructions;
    - DIV/MOD by a zero register give 0 / the dividend; shift counts are taken mod 64;
    - jump comparisons JEq JNE JGT JGE JLT JLE are unsigned 64-bit;
    - bpf_probe_read_kernel(dst, n, src) copies n bytes or zero-fills dst and returns an
      error when some source byte is not mapped; helper calls return in R0 and leave
      R1..R5 with unspecified contents; R6..R10 are preserved;
    - a load through a BTF pointer that faults yields 0;
    - bpf_rdonly_cast(p, id) returns p.
    Simplification: the 512-byte stack frame is its own address space: an instruction whose
    base register is R10 accesses the frame (addresses relative to R10), every other load
    or store accesses kernel memory; a helper writes to the frame iff its destination
    lies in [R10-512, R10). *)
From Coq Require Import ZArith List Bool.
Import ListNotations.
Open Scope Z_scope.

Definition reg := nat.
Definition R0 : reg := 0%nat.
Definition R1 : reg := 1%nat.
Definition R2 : reg := 2%nat.
Definition R3 : reg := 3%nat.
Definition R4 : reg := 4%nat.
Definition R5 : reg := 5%nat.
Definition R6 : reg := 6%nat.
Definition R7 : reg := 7%nat.
Definition R8 : reg := 8%nat.
Definition R9 : reg := 9%nat.
Definition RFP : reg := 10%nat.

(** 64-bit wrap-around, Go's int64(..), int32(..), int16(..) conversions. *)
Definition M64 : Z := 18446744073709551616.   (* 2^64 *)
Definition wrap (z : Z) : Z := z mod M64.
Definition sgn (bits z : Z) : Z :=
  let m := z mod 2 ^ bits in if m <? 2 ^ (bits - 1) then m else m - 2 ^ bits.
Definition s64 (z : Z) : Z := sgn 64 z.
Definition s32 (z : Z) : Z := sgn 32 z.
Definition s16 (z : Z) : Z := sgn 16 z.

(** Value of a 32-bit immediate field holding [Constant] c, as used by ALU64/JMP64. *)
Definition immv (c : Z) : Z := wrap (s32 c).

Inductive alu := AAdd | ASub | AMul | ADiv | AMod | AAnd | AOr | AXor | ALsh | ARsh.
Inductive jop := JEq | JNE | JGT | JGE | JLT | JLE.

Inductive insn :=
| IMovI (d : reg) (c : Z)
| IMovR (d s : reg)
| IAluI (op : alu) (d : reg) (c : Z)
| IAluR (op : alu) (d s : reg)
| INegR (d s : reg)                          (* asm.Neg.Reg(d, s): opcode NEG with the X (register) source bit *)
| ILd (d s : reg) (off : Z) (sz : nat)       (* d = *(sz bytes)(s + off) *)
| ISt (d : reg) (off : Z) (s : reg) (sz : nat)
| IJmpI (op : jop) (d : reg) (c : Z) (off : Z)
| IJmpR (op : jop) (d s : reg) (off : Z)
| IJmpL (op : jop) (d : reg) (c : Z)         (* jump to the exit label *)
| IJa (off : Z)
| IProbeRead                                 (* call bpf_probe_read_kernel(r1, r2, r3) *)
| IProbeReadStr                              (* call bpf_probe_read_kernel_str(r1, r2, r3) *)
| IRdonlyCast (fast : bool)                  (* call kfunc bpf_rdonly_cast(r1, r2) *)
| IExit.

Definition alu_sem (op : alu) (a b : Z) : Z :=
  match op with
  | AAdd => wrap (a + b)
  | ASub => wrap (a - b)
  | AMul => wrap (a * b)
  | ADiv => if b =? 0 then 0 else a / b
  | AMod => if b =? 0 then a else a mod b
  | AAnd => Z.land a b
  | AOr => Z.lor a b
  | AXor => Z.lxor a b
  | ALsh => wrap (Z.shiftl a (b mod 64))
  | ARsh => Z.shiftr a (b mod 64)
  end.

Definition jop_sem (op : jop) (a b : Z) : bool :=
  match op with
  | JEq => a =? b
  | JNE => negb (a =? b)
  | JGT => b <? a
  | JGE => b <=? a
  | JLT => a <? b
  | JLE => a <=? b
  end.

(** Machine: constant environment. *)
Record mach := {
  mapped : Z -> bool;               (* which kernel addresses can be read *)
  clob : nat -> reg -> Z            (* junk left in R1..R5 by the n-th call *)
}.

Record mst := {
  rg : reg -> Z;                    (* register file *)
  stk : Z -> Z;                     (* frame bytes, key: address - R10 (negative) *)
  ker : Z -> Z;                     (* kernel memory bytes *)
  ncall : nat                       (* number of calls made so far *)
}.

Definition upd {A} (f : reg -> A) (r : reg) (v : A) : reg -> A :=
  fun x => if Nat.eqb x r then v else f x.
Definition setr (s : mst) (r : reg) (v : Z) : mst :=
  {| rg := upd (rg s) r v; stk := stk s; ker := ker s; ncall := ncall s |}.

(** Little-endian value of the n bytes at key a of a byte store. *)
Fixpoint le (f : Z -> Z) (a : Z) (n : nat) : Z :=
  match n with
  | O => 0
  | S k => f a mod 256 + 256 * le f (a + 1) k
  end.
(** Kernel addresses wrap modulo 2^64. *)
Definition kb (s : mst) (a : Z) : Z := ker s (wrap a).
Fixpoint all_mapped (m : mach) (a : Z) (n : nat) : bool :=
  match n with
  | O => true
  | S k => mapped m (wrap a) && all_mapped m (a + 1) k
  end.
Definition kread (m : mach) (s : mst) (a : Z) (n : nat) : Z :=
  if all_mapped m a n then le (kb s) a n else 0.

(** Byte i (from the low end) of v. *)
Definition byte_of (v : Z) (i : Z) : Z := Z.shiftr v (8 * i) mod 256.
Definition wr (f : Z -> Z) (a : Z) (n : Z) (g : Z -> Z) : Z -> Z :=
  fun x => if (a <=? x) && (x <? a + n) then g (x - a) else f x.
Definition set_stk (s : mst) (f : Z -> Z) : mst :=
  {| rg := rg s; stk := f; ker := ker s; ncall := ncall s |}.
Definition set_ker (s : mst) (f : Z -> Z) : mst :=
  {| rg := rg s; stk := stk s; ker := f; ncall := ncall s |}.

Definition load (m : mach) (s : mst) (b : reg) (off : Z) (n : nat) : Z :=
  if Nat.eqb b RFP then le (stk s) off n else kread m s (rg s b + off) n.
Definition store (s : mst) (b : reg) (off : Z) (n : nat) (v : Z) : mst :=
  if Nat.eqb b RFP then set_stk s (wr (stk s) off (Z.of_nat n) (byte_of v))
  else set_ker s (wr (ker s) (wrap (rg s b + off)) (Z.of_nat n) (byte_of v)).

(** Write g(0..n-1) at machine address a: to the frame if a lies in it. *)
Definition write_at (s : mst) (a n : Z) (g : Z -> Z) : mst :=
  let d := wrap (a - rg s RFP) in
  if M64 - 512 <=? d then set_stk s (wr (stk s) (d - M64) n g)
  else set_ker s (wr (ker s) a n g).

Definition clobber (m : mach) (s : mst) (hi : nat) (r0 : Z) : mst :=
  {| rg := fun r => if Nat.eqb r 0 then r0
                    else if Nat.leb r hi then wrap (clob m (ncall s) r) else rg s r;
     stk := stk s; ker := ker s; ncall := S (ncall s) |}.

(** First index below n holding a NUL, else n. *)
Fixpoint strnlen (f : Z -> Z) (a : Z) (n : nat) : nat :=
  match n with
  | O => O
  | S k => if f a mod 256 =? 0 then O else S (strnlen f (a + 1) k)
  end.

Definition do_probe_read (m : mach) (s : mst) : mst :=
  let n := rg s R2 in
  let src := rg s R3 in
  if all_mapped m src (Z.to_nat n)
  then clobber m (write_at s (rg s R1) n (fun i => kb s (src + i) mod 256)) 5 0
  else clobber m (write_at s (rg s R1) n (fun _ => 0)) 5 (M64 - 14).

(** bpf_probe_read_kernel_str: copies up to and including the first NUL, at most n bytes, the
    last of which is forced to NUL; the rest of dst is left alone.  On a fault (conservatively:
    any of the bytes up to the terminator unmapped) it zero-fills dst. *)
Definition do_probe_read_str (m : mach) (s : mst) : mst :=
  let n := rg s R2 in
  let src := rg s R3 in
  let l := strnlen (kb s) src (Z.to_nat n - 1) in
  if all_mapped m src (S l)
  then clobber m (write_at s (rg s R1) (Z.of_nat l + 1)
                    (fun i => if i <? Z.of_nat l then kb s (src + i) mod 256 else 0)) 5 (Z.of_nat l + 1)
  else clobber m (write_at s (rg s R1) n (fun _ => 0)) 5 (M64 - 14).

(** Effect of one instruction: new state and where to continue. *)
Inductive ctl :=
| CNext                     (* next instruction *)
| CSkip (off : Z)           (* relative jump: off instructions after the next one *)
| CLabel                    (* jump to the exit label *)
| CExit.

Definition step1 (m : mach) (i : insn) (s : mst) : mst * ctl :=
  match i with
  | IMovI d c => (setr s d (immv c), CNext)
  | IMovR d r => (setr s d (rg s r), CNext)
  | IAluI op d c => (setr s d (alu_sem op (rg s d) (immv c)), CNext)
  | IAluR op d r => (setr s d (alu_sem op (rg s d) (rg s r)), CNext)
  | INegR d r => (setr s d (wrap (- rg s d)), CNext)
  | ILd d b off n => (setr s d (load m s b off n), CNext)
  | ISt b off r n => (store s b off n (rg s r), CNext)
  | IJmpI op d c off => (s, if jop_sem op (rg s d) (immv c) then CSkip off else CNext)
  | IJmpR op d r off => (s, if jop_sem op (rg s d) (rg s r) then CSkip off else CNext)
  | IJmpL op d c => (s, if jop_sem op (rg s d) (immv c) then CLabel else CNext)
  | IJa off => (s, CSkip off)
  | IProbeRead => (do_probe_read m s, CNext)
  | IProbeReadStr => (do_probe_read_str m s, CNext)
  | IRdonlyCast fast => (clobber m s (if fast then 2 else 5) (rg s R1), CNext)
  | IExit => (s, CExit)
  end.

(** A program: instructions plus the position carrying the exit-label symbol. *)
Record prog := { code : list insn; label : option nat }.

Inductive outcome :=
| Done (r0 : Z) (s : mst)     (* executed exit *)
| Crash                       (* left the program / undefined label: rejected by the verifier *)
| OutOfFuel.

(** Program-counter machine. *)
Fixpoint run (fuel : nat) (m : mach) (p : prog) (pc : Z) (s : mst) : outcome :=
  match fuel with
  | O => OutOfFuel
  | S k =>
      if pc <? 0 then Crash else
      match nth_error (code p) (Z.to_nat pc) with
      | None => Crash
      | Some i =>
          let '(s', c) := step1 m i s in
          match c with
          | CNext => run k m p (pc + 1) s'
          | CSkip off => run k m p (pc + 1 + off) s'
          | CLabel => match label p with
                      | Some l => run k m p (Z.of_nat l) s'
                      | None => Crash
                      end
          | CExit => Done (rg s' R0) s'
          end
      end
  end.
