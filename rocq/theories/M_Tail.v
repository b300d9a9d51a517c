(** * The tail-call probe: /repo/internal/bpfsnoop/bpf_tail_call.go:47-201, bpf_feature.go:130-143 and its use in bpf_tracing_info.go:131-150.

    - amd64, little-endian; [dec] is the decoder (M_Disasm).
    - The probe program is loaded, attached and its information read without an error; [code]: its instructions, [ksym]: its address. *)
From Coq Require Import List Bool ZArith Arith.
From Verif Require Import M_Go M_Bytes M_Disasm.
Import ListNotations.
Open Scope list_scope.
Open Scope Z_scope.

(** error, panic, or the field fixedTailcallInfiniteLoopCausedByTrampoline *)
Inductive pres := PErr | PPanic | POk (fixed : bool).
Section Tail.
  Variable dec : list Z -> Z -> option nat.
  (** bpf_tail_call.go:91-119; [n]: iterations allowed (each consumes a byte at least) *)
  Fixpoint scan (n : nat) (b : list Z) (pc : Z) : pres :=
    match n with
    | O => POk false
    | S n' =>
        match b with
        | [] => POk false
        | _ =>
            match dec b pc with
            | None => if (List.length b <=? 10)%nat then POk false else PErr
            | Some sz =>
                match firstn sz b with
                | [x] => if x =? 80 then POk true else if x =? 195 then POk false else scan n' (skipn sz b) (u64 (pc + Z.of_nat sz))
                | _ => scan n' (skipn sz b) (u64 (pc + Z.of_nat sz))
                end
            end
        end
    end.
  (** bpf_tail_call.go:59-67: past the endbr; None: the slice expression panics *)
  Definition past_endbr (ksym : Z) (code : list Z) : option (Z * list Z) :=
    match slice code 0 4 with
    | None => None
    | Some w => if is_endbr_insn (le_bytes w) then Some (u64 (ksym + 4), skipn 4 code) else Some (ksym, code)
    end.
  (** bpf_tail_call.go:78-79: the 32 bits are not sign-extended *)
  Definition tramp_addr (kaddr : Z) (jinsns : list Z) : option Z :=
    match slice jinsns 1 5 with None => None | Some w => Some (u64 (kaddr + 5 + le_bytes w)) end.
  (** bpf_tail_call.go:47-122 probeTailcallInfo; [buff]: the read buffer (readKernel) *)
  Definition probe (m : kmem) (buff : list Z) (ksym : Z) (code : list Z) : pres :=
    match code with
    | [] => POk false
    | _ =>
        match past_endbr ksym code with
        | None => PPanic
        | Some (kaddr, jinsns) =>
            match is_tailcall_reachable jinsns with
            | None => PPanic
            | Some false => POk false
            | Some true =>
                match tramp_addr kaddr jinsns with
                | None => PPanic
                | Some t =>
                    match fst (read_kernel m buff t 512) with
                    | None | Some [] => PErr
                    | Some data => scan (S (List.length data)) data t
                    end
                end
            end
        end
    end.
End Tail.
(** bpf_feature.go:130-143, called at bpf_tail_call.go:69 with the endbr already removed; [old]: the flag before.  None: panic *)
Definition jmp_mode (old : bool) (jinsns : list Z) : option bool :=
  if (List.length jinsns <? 9)%nat then Some old
  else match slice jinsns 0 4 with
       | None => None
       | Some w => match (if is_endbr_insn (le_bytes w) then skipn 4 jinsns else jinsns) with [] => None | x :: _ => Some (x =? 233) end
       end.
(** bpf_tail_call.go:124-201 ProbeTailcallIssue: how it ends, and haveTailcallInfiniteLoopIssue (204-207) afterwards.
    [LUnsupported]: the kernel refuses tail calls in programs with bpf-to-bpf calls. *)
Inductive loading := LUnsupported | LLoaded.
Definition issue (arm64 : bool) (l : loading) (p : pres) : option bool :=
  match l with
  | LUnsupported => Some false
  | LLoaded => if arm64 then Some false else match p with POk fixed => Some (negb fixed) | PErr | PPanic => None end
  end.
(** bpf_tracing_info.go:141-158: function [idx] of a program with instructions [code] is left out; None: panic *)
Definition left_out (has_issue : bool) (idx : nat) (code : list Z) : option bool :=
  if negb (idx =? 0)%nat && has_issue then is_tailcall_reachable code else Some false.
