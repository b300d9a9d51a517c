(** * Reading and disassembling kernel memory: /repo/internal/bpfsnoop/bpf_read_kernel.go with bpf/read.c, disasm.go, dump.go, bpf_disasm.go,
    func_insn.go.

    - The decoder (capstone) is a parameter [dec]: for the bytes left and their address, the size of the first instruction, or none.
    - The text of an instruction is left out: a line is its address, offset and bytes.
    - amd64. *)
From Coq Require Import List Bool String Ascii ZArith Arith.
From Verif Require Import M_Go M_Kallsyms M_Bytes M_Flags.
Import ListNotations.
Open Scope list_scope.
Open Scope Z_scope.

(** ** readKernel *)
(** kernel memory: a byte, or not readable *)
Definition kmem := Z -> option Z.
Fixpoint read_mem (m : kmem) (n : nat) (a : Z) : option (list Z) :=
  match n with
  | O => Some []
  | S k => match m a, read_mem m k (a + 1) with Some b, Some l => Some (b :: l) | _, _ => None end
  end.
(** read.c:9-31: the program reads target_size & 0xffff bytes into buff; a failed read leaves zeros there *)
Definition bpf_read (m : kmem) (buff : list Z) (addr size : Z) : list Z :=
  let n := Z.to_nat (Z.land size 65535) in
  (match read_mem m n addr with Some l => l | None => repeat 0 n end) ++ skipn n buff.
(** bpf_read_kernel.go:75-122: result (None: an error) and the buffer left in the reader; [buff] has 65536 bytes *)
Definition read_kernel (m : kmem) (buff : list Z) (addr size : Z) : option (list Z) * list Z :=
  match read_size size with
  | None => (None, buff)
  | Some rs => let buff' := bpf_read m buff addr rs in (Some (firstn (Z.to_nat size) buff'), buff')
  end.
Definition buff0 : list Z := repeat 0 (Z.to_nat 65536).
(** a sequence of reads *)
Fixpoint reads (m : kmem) (buff : list Z) (rs : list (Z * Z)) : list Z :=
  match rs with [] => buff | (a, n) :: rs' => reads m (snd (read_kernel m buff a n)) rs' end.

(** ** Which function: parseDisasmKfunc *)
(** strconv.ParseUint("0x" + s, 0, 64): hexadecimal digits, with single underscores before a digit (strconv's underscoreOK) *)
Fixpoint hex_under (s : string) (under : bool) (acc : Z) : option Z :=
  match s with
  | EmptyString => if under then None else Some acc
  | String c s' =>
      if Ascii.eqb c "_" then if under then None else hex_under s' true acc
      else match hexval c with
           | None => None
           | Some d => let acc' := acc * 16 + d in if W64 <=? acc' then None else hex_under s' false acc'
           end
  end.
Definition parse_0x (s : string) : option Z := match s with EmptyString => None | _ => hex_under s false 0 end.
(** disasm.go:105-110 *)
Definition parse_addr (kfunc : string) : option Z := if has_prefix "0x" kfunc then parse_0x (drop 2 kfunc) else parse_0x kfunc.
(** outcome: address and name; the program ends with a message (assert); run-time panic *)
Inductive where_is := At (a : Z) (n : string) | Fatal | Crash.
(** disasm.go:103-145.  [kmods a]: findDisasmKfuncInKmods (a = 0: by symbol); [globs]: what findKernelFuncs finds, sorted by name.
    The second look-up by symbol (disasm.go:127) never succeeds after the first has failed. *)
Definition parse_disasm (ks : kallsyms) (order : list (string * nat)) (kmods : Z -> option Z) (globs : list (string * Z)) (kfunc : string) : where_is :=
  match parse_addr kfunc with
  | Some a =>
      match ks_find ks a with
      | FPanic => Crash
      | FSome (Some e) => At a (kname e)
      | FSome None => Crash
      | FNone => match kmods a with Some a' => At a' kfunc | None => Fatal end
      end
  | None =>
      match find_by_symbol ks order kfunc with
      | Some e => At (kaddr e) (kname e)
      | None => match globs with (n, a) :: _ => At a n | [] => match kmods 0 with Some a' => At a' kfunc | None => Fatal end end
      end
  end.

(** ** Listings *)
Section Dec.
  Variable dec : list Z -> Z -> option nat.
  Record iline := { l_addr : Z; l_off : Z; l_bytes : list Z; l_bad : bool }.
  (** disasm.go:232-293: the loop; [n]: iterations allowed (the loop consumes at least one byte each time).  Second component: the program
      ends with a message, the listing so far printed.  (The early exit at retq needs bytes == 0, which guessBytes excludes.) *)
  Fixpoint dump_loop (n : nat) (kaddr : Z) (b : list Z) (pc : Z) : list iline * bool :=
    match n with
    | O => ([], false)
    | S n' =>
        match b with
        | [] => ([], false)
        | b0 :: b1 =>
            match dec b pc with
            | None =>
                if (List.length b <=? 10)%nat then ([], false)
                else if b0 =? 130 then
                  let '(r, f) := dump_loop n' kaddr b1 (u64 (pc + 1)) in
                  ({| l_addr := pc; l_off := u64 (pc - kaddr); l_bytes := [b0]; l_bad := true |} :: r, f)
                else ([], true)
            | Some sz =>
                let '(r, f) := dump_loop n' kaddr (skipn sz b) (u64 (pc + Z.of_nat sz)) in
                ({| l_addr := pc; l_off := u64 (pc - kaddr); l_bytes := firstn sz b; l_bad := false |} :: r, f)
            end
        end
    end.
  Definition dump (kaddr : Z) (data : list Z) : list iline * bool := dump_loop (S (List.length data)) kaddr data kaddr.

  (** dump.go:135-189: the functions of a program, one after the other; None: the program ends with a message before printing anything, or a
      slice expression panics.  A function is its name, its address and the length of its code. *)
  Fixpoint fn_loop (n : nat) (ksym : Z) (b : list Z) (pc : Z) : option (list iline) :=
    match n with
    | O => Some []
    | S n' =>
        match b with
        | [] => Some []
        | _ => match dec b (u64 (ksym + pc)) with
               | None => None
               | Some sz =>
                   match fn_loop n' ksym (skipn sz b) (pc + Z.of_nat sz) with
                   | None => None
                   | Some r => Some ({| l_addr := u64 (ksym + pc); l_off := pc; l_bytes := firstn sz b; l_bad := false |} :: r)
                   end
               end
        end
    end.
  Fixpoint dump_prog (all : bool) (want : string) (fns : list (string * Z * nat)) (insns : list Z) : option (list (string * list iline)) :=
    match fns with
    | [] => Some []
    | (name, ksym, len) :: fns' =>
        if (List.length insns <? len)%nat then None
        else if all || String.eqb name want then
          match fn_loop (S len) ksym (firstn len insns) 0, dump_prog all want fns' (skipn len insns) with
          | Some ls, Some r => Some ((name, ls) :: r)
          | _, _ => None
          end
        else dump_prog all want fns' (skipn len insns)
    end.

  (** ** Instructions to trace *)
  (** capstone's Disasm(data, address, 0): as many instructions as can be decoded *)
  Fixpoint decode_all (n : nat) (b : list Z) (pc : Z) : list (Z * list Z) :=
    match n with
    | O => []
    | S n' => match b with
              | [] => []
              | _ => match dec b pc with None => [] | Some sz => (pc, firstn sz b) :: decode_all n' (skipn sz b) (u64 (pc + Z.of_nat sz)) end
              end
    end.
  (** func_insn.go:11-18 (Func, Off, IP, FnIP) *)
  Record finsn := { fi_off : Z; fi_fnip : Z }.
  Inductive ires := IOk (m : list (Z * finsn)) | IErr | IPanic.
  (** func_insn.go:22-55 parseFuncInsns with the bytes [data] read at [kaddr] (bpf_disasm.go:12-26: trimmed; no instruction is an error);
      [cnt]: debugTraceInsnCnt *)
  Definition parse_insns (cnt : nat) (kaddr : Z) (data : list Z) (m : list (Z * finsn)) : ires :=
    let d := trim_tail data in
    match decode_all (S (List.length d)) d kaddr with
    | [] => IErr
    | insns =>
        if (List.length insns <? 4)%nat then IPanic
        else
          let r := skipn 4 insns in
          let r := if negb (cnt =? 0)%nat && (cnt <? List.length r)%nat then firstn cnt r else r in
          IOk (fold_left (fun m i => if match snd i with [195] => true | _ => false end then m
                                     else aput Z.eqb (fst i) {| fi_off := u64 (fst i - kaddr); fi_fnip := kaddr |} m) r m)
    end.
End Dec.
