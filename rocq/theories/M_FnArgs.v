(** * Capture of function arguments (code injected into output_fn_args) and their decoding.

    Modelled: getFuncParams (bpf_tracing_info.go:28-70), genOutputFuncArgs, genOutputKmultiFnArgs
    (func_arg.go:21-186), outputFnArgs, outputFnArgsKmulti (bpfsnoop_func_args.go:133-262),
    outputFuncArgsKmulti, getArgSize (bpfsnoop_func.go:120-147).  Simplified: what is handed to
    btfx.ReprFuncParam / ReprFuncReturn is the result; the text they make is modelled in M_Repr. *)
From Coq Require Import ZArith List Bool.
From Verif Require Import M_Go M_Ebpf M_Bytes.
Import ListNotations.
Open Scope Z_scope.

(** What matters of a parameter type: btf.Sizeof, mybtf.IsConstCharPtr, btfx.IsNumberPointer. *)
Record ptype := { pt_size : Z; pt_charptr : bool; pt_numptr : bool }.
(** FuncParamFlags *)
Record prm := { p_str : bool; p_num : bool; p_part : bool }.
(** bpf_tracing_info.go:28-62; None: error (a parameter of more than 16 bytes). *)
Fixpoint func_params (used : bool) (l : list ptype) : option (list prm) :=
  match l with
  | [] => Some []
  | t :: l' =>
      let v := pt_charptr t in
      if 16 <? pt_size t then None else
      match func_params (used || v) l' with
      | None => None
      | Some r => Some (if 8 <? pt_size t
                        then {| p_str := false; p_num := false; p_part := false |} :: {| p_str := false; p_num := false; p_part := true |} :: r
                        else {| p_str := v && negb used; p_num := pt_numptr t; p_part := false |} :: r)
      end
  end.
(** bpf_tracing_info.go:64-66 *)
Definition ret_flags (rt : ptype) : prm := {| p_str := pt_charptr rt; p_num := pt_numptr rt; p_part := false |}.

(** bpfsnoop_func_args.go:18 maxOutputStrLen *)
Definition max_str : Z := 64.
(** func_arg.go:46-87: code for the i-th register at offset off of the buffer; regArg R3, regArgs R6, regBuff R7, regRet R8 *)
Definition cap_size (p : prm) : Z := if p_str p then max_str else if p_num p then 16 else 8.
Definition read_ptr : list insn := [IMovI R2 8; IMovR R1 RFP; IAluI AAdd R1 (-8); IProbeRead].
Definition read_str (off : Z) : list insn :=
  if off =? 0 then [IMovI R2 max_str; IMovR R1 R7; IProbeReadStr]
  else [IMovI R2 max_str; IMovR R1 R7; IAluI AAdd R1 (s32 off); IProbeReadStr].
Definition cap_param (i off : Z) (p : prm) : list insn :=
  ILd R3 R6 (s16 (i * 8)) 8 ::
  (if negb (p_str p) then
     ISt R7 (s16 off) R3 8 ::
     (if p_num p then read_ptr ++ [ILd R3 RFP (-8) 8; ISt R7 (s16 (off + 8)) R3 8] else [])
   else read_str off).
Fixpoint cap_params (i off : Z) (l : list prm) : list insn * Z :=
  match l with
  | [] => ([], off)
  | p :: l' => let '(c, o) := cap_params (i + 1) (off + cap_size p) l' in (cap_param i off p ++ c, o)
  end.
(** func_arg.go:96-137: return value *)
Definition cap_ret (off : Z) (r : prm) : list insn :=
  if negb (p_str r) then
    ISt R7 (s16 off) R8 8 ::
    (if p_num r then IMovR R3 R8 :: read_ptr ++ [ILd R8 RFP (-8) 8; ISt R7 (s16 (off + 8)) R8 8] else [])
  else IMovR R3 R8 :: read_str off.
(** func_arg.go:21-144 genOutputFuncArgs *)
Definition gen_output_fn_args (prms : list prm) (ret : prm) (withret : bool) : list insn * Z :=
  let '(c, off) := cap_params 0 0 prms in
  let save := [IMovR R6 R1; IMovR R7 R2; IMovR R8 R3] in
  if negb withret then (save ++ c ++ [IExit], off)
  else (save ++ c ++ cap_ret off ret ++ [IExit], off + cap_size ret).

(** ** Decoding *)
(** One shown argument: register number, string / value / pointed-to value, and the value of the following 8 bytes. *)
Record sarg := { sa_reg : Z; sa_str : list Z; sa_val : Z; sa_ptr : Z; sa_next : Z }.
(** bpfsnoop_func_args.go:128-146 getU64, readUint64, readStr; None: index or slice out of range.  (A read of 8 bytes through
    a pointer into fewer than 8 remaining bytes is not a panic in Go but leaves the slice; it is None too.) *)
Definition get_u64 (d : list Z) : option Z := if (List.length d <? 8)%nat then None else Some (le_bytes (firstn 8 d)).
Definition read_u64 (d : list Z) : option (Z * list Z) := match get_u64 d with Some v => Some (v, skipn 8 d) | None => None end.
Definition read_strn (d : list Z) (n : nat) : option (list Z * list Z) :=
  if (List.length d <? n)%nat then None else Some (null_terminated (firstn n d), skipn n d).
(** one parameter: bpfsnoop_func_args.go:174-191 *)
Definition dec_param (last i : Z) (p : prm) (d : list Z) : option (sarg * list Z) :=
  let r := if p_str p then match read_strn d 64 with Some (s, d') => Some (s, 0, 0, d') | None => None end
           else match read_u64 d with
                | None => None
                | Some (v, d') => if p_num p then match read_u64 d' with Some (w, d'') => Some ([], v, w, d'') | None => None end
                                  else Some ([], v, 0, d')
                end in
  match r with
  | None => None
  | Some (s, v, w, d') =>
      let mk n := Some ({| sa_reg := i; sa_str := s; sa_val := v; sa_ptr := w; sa_next := n |}, d') in
      if i <? last then match get_u64 d' with Some n => mk n | None => None end else mk 0
  end.
(** bpfsnoop_func_args.go:163-203: the loop; [last] = number of C parameters - 1. *)
Fixpoint dec_params (last i : Z) (l : list prm) (d : list Z) : option (list sarg * list Z) :=
  match l with
  | [] => Some ([], d)
  | p :: l' =>
      if p_part p then dec_params last (i + 1) l' d else
      match dec_param last i p d with
      | None => None
      | Some (a, d') => match dec_params last (i + 1) l' d' with Some (r, d'') => Some (a :: r, d'') | None => None end
      end
  end.
(** bpfsnoop_func_args.go:206-215 and outputFnRetval:90-126 (neither XDP nor TC): string, value, pointed-to value.
    The bytes are copied to a zeroed array first. *)
Definition pad_u64 (d : list Z) : Z := le_bytes (firstn 8 (d ++ repeat 0 8)).
Definition dec_ret (r : prm) (d : list Z) : sarg :=
  {| sa_reg := -1;
     sa_str := if p_str r && (64 <=? List.length d)%nat then null_terminated (firstn 64 d) else [];
     sa_val := pad_u64 d; sa_ptr := pad_u64 (skipn 8 d); sa_next := 0 |}.
(** bpfsnoop_func_args.go:155-215 outputFnArgs *)
Definition output_fn_args (nparams : Z) (prms : list prm) (ret : prm) (withret : bool) (d : list Z) : option (list sarg * option sarg) :=
  match dec_params (nparams - 1) 0 prms d with
  | None => None
  | Some (l, d') => Some (l, if withret then Some (dec_ret ret d') else None)
  end.

(** ** kprobe.multi *)
(** kernel_functions_multi.go:12-19 maxArgsKmulti (amd64: 6, arm64: 8) is a parameter here. *)
(** func_arg.go:146-175 genOutputKmultiFnArgs *)
Fixpoint km_args (off : Z) (n : nat) : list insn :=
  match n with O => [] | S k => [ILd R0 R1 (s16 off) 8; ISt R2 (s16 off) R0 8] ++ km_args (off + 8) k end.
Definition gen_output_kmulti (argsnr : nat) (withret : bool) : list insn * Z :=
  let off := 8 * Z.of_nat argsnr in
  (km_args 0 argsnr ++ (if withret then [ISt R2 (s16 off) R3 8] else []) ++ [IExit], off + (if withret then 8 else 0)).
(** bpfsnoop_func_args.go:218-262 outputFnArgsKmulti: value and following value of the first [limit] parameters; ellipsis *)
Definition km_slot (maxargs : nat) (d : list Z) (i : nat) : Z :=
  if (i <? maxargs)%nat && ((i + 1) * 8 <=? List.length d)%nat then le_bytes (firstn 8 (skipn (i * 8) d)) else 0.
Definition output_fn_args_kmulti (maxargs nparams : nat) (d : list Z) : list (Z * Z) * bool :=
  (map (fun i => (km_slot maxargs d i, km_slot maxargs d (i + 1))) (seq 0 (Nat.min nparams maxargs)), (maxargs <? nparams)%nat).
(** bpfsnoop_func.go:138-147 outputFuncArgsKmulti, outputFnRetvalKmulti: the raw return value *)
Definition output_kmulti (maxargs nparams : nat) (d : list Z) (withret : bool) : list (Z * Z) * bool * option Z :=
  (output_fn_args_kmulti maxargs nparams d,
   if negb withret || (List.length d <? (maxargs + 1) * 8)%nat then None
   else Some (le_bytes (firstn 8 (skipn (maxargs * 8) d)))).
