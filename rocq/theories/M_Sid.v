(** * Session ids and the frame of the tracee's caller.

    Modelled: gen_session_id (bpfsnoop.c:50-56, bpfsnoop_kmulti.c:70-80), get_tracee_caller_fp (bpfsnoop.c:37-48), __get_ptr, get_tramp_fp and
    detect_tramp_fp_offset of both architectures (bpfsnoop_stack.h:51-126).  Memory is read in 8-byte words; [None] is an address that cannot be read. *)
From Coq Require Import ZArith List Bool.
From Verif Require Import M_Go.
Import ListNotations.
Open Scope Z_scope.

(** bpfsnoop.c:50-56; [rnd] is bpf_get_prandom_u32().  kprobe.multi: bpfsnoop_kmulti.c:70-80 with the function's address for [fp]. *)
Definition gen_session_id (rnd fp : Z) : Z := Z.lor (Z.shiftl rnd 32) (Z.land fp 4294967295).
(** bpf_probe_read_kernel: return value (as __u64) and the bytes delivered; on a fault the buffer is zeroed and -EFAULT returned *)
Definition efault : Z := 2 ^ 64 - 14.
Definition probe_read (mem : Z -> option Z) (addr : Z) : Z * Z := match mem addr with Some v => (0, v) | None => (efault, 0) end.
(** bpfsnoop_stack.h:51-59 *)
Definition get_ptr (ctx args_nr : Z) (retval : bool) : Z := ctx + Z.land args_nr 15 * 8 + (if retval then 8 else 0).
(** bpfsnoop_stack.h:62-66 (x86) *)
Definition tramp_fp_x86 (ctx args_nr : Z) (retval : bool) : Z := get_ptr ctx args_nr retval.
(** bpfsnoop_stack.h:92-110 (arm64): the scan; result: new tramp_fp_offset (if set) and the value returned.  [nregs]: bpf_get_func_arg_cnt. *)
Fixpoint detect_loop (mem : Z -> option Z) (ptr ip : Z) (i : Z) (n : nat) : option Z * Z :=
  match n with
  | O => (None, ptr)
  | S n' => let fp := fst (probe_read mem (ptr + i * 8)) in        (* :103: the return value is assigned to fp, over the word read *)
            if fp =? ip then (Some (i * 8 - 8), fp - 8) else detect_loop mem ptr ip (i + 1) n'
  end.
Definition detect_tramp_fp (mem : Z -> option Z) (ctx nregs ip : Z) (retval : bool) : option Z * Z :=
  detect_loop mem (get_ptr ctx nregs retval + 16) (ip + 8) 0 6.
(** bpfsnoop_stack.h:112-126 (arm64); [off]: tramp_fp_offset *)
Definition tramp_fp_arm (mem : Z -> option Z) (off ctx nregs ip : Z) (retval : bool) : Z * Z :=
  if negb (off =? 0) then (off, snd (probe_read mem (ctx + off))) else
  match detect_tramp_fp mem ctx nregs ip retval with (Some o, fp) => (o, fp) | (None, fp) => (off, fp) end.
(** bpfsnoop.c:37-48 (x86).  [args_nr], [is_tp], [func_ip]: the configuration; [retval]: both_entry_exit or with_retval. *)
Definition caller_fp_x86 (mem : Z -> option Z) (is_tp : bool) (func_ip ctx args_nr : Z) (retval : bool) : Z :=
  if is_tp then func_ip else snd (probe_read mem (tramp_fp_x86 ctx args_nr retval)).
(** arm64; with the new tramp_fp_offset *)
Definition caller_fp_arm (mem : Z -> option Z) (is_tp : bool) (func_ip off ctx nregs ip : Z) (retval : bool) : Z * Z :=
  if is_tp then (off, func_ip) else let '(o, fp) := tramp_fp_arm mem off ctx nregs ip retval in (o, snd (probe_read mem fp)).
