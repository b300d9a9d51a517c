(** * Which functions can be traced, and the return sites in their trampolines: bpf/traceable.c, /repo/internal/bpfsnoop/bpf_kfuncs.go,
    bpf_tracing_graph.go (probeTrampAddrs, extractTrampolineIPs, populateFgraphTrampolineIPs).

    - x86.  Kernel memory and readKernel are those of M_Disasm; the decoder is a parameter.
    - Loading, attaching and running the detection program succeeds; it runs once (the flag [run]). *)
From Coq Require Import List Bool ZArith.
From Verif Require Import M_Go M_Kallsyms M_Bytes M_Disasm.
Import ListNotations.
Open Scope list_scope.
Open Scope Z_scope.

(** (__s32) v *)
Definition s32of (v : Z) : Z := let m := v mod 2 ^ 32 in if m <? 2 ^ 31 then m else m - 2 ^ 32.
(** traceable.c:19-57 probe_addr_info: traceables[i] and tramps[i], both zero when the memory cannot be read *)
Definition probe_addr (m : kmem) (has_endbr tramp_jmp : bool) (addr : Z) : bool * Z :=
  match read_mem m 16 addr with
  | None => (false, 0)
  | Some buff =>
      let ptr := if has_endbr then skipn 4 buff else buff in
      let a := le_bytes (firstn 4 ptr) in
      let b := nth 4 ptr 0 in
      let c := Z.lor (Z.shiftl b 32) a in
      let p0 := nth 0 ptr 0 in
      ((c =? 4464399) || (p0 =? 232) || (p0 =? 233),
       if tramp_jmp && (p0 =? 233) then u64 (addr + (if has_endbr then 4 else 0) + 5 + s32of (Z.land (Z.shiftr c 8) 4294967295)) else 0)
  end.
(** bpf_kfuncs.go:32-94 detectTraceable: the arrays have 1024 elements; None: index out of range *)
Definition detect (m : kmem) (has_endbr tramp_jmp : bool) (addrs : list Z) : option (list (bool * Z)) :=
  if (1024 <? List.length addrs)%nat then None else Some (map (probe_addr m has_endbr tramp_jmp) addrs).
(** bpf_kfuncs.go:96-130 detectTraceables on the keys of kfuncs: those that are left, in the order of the batches; [n]: batches allowed *)
Fixpoint detect_batches (m : kmem) (has_endbr tramp_jmp : bool) (n : nat) (addrs : list Z) : option (list (Z * Z)) :=
  match addrs with
  | [] => Some []
  | _ =>
      match n with
      | O => None
      | S n' =>
          let big := (1024 <? List.length addrs)%nat in
          let now := if big then firstn 1024 addrs else addrs in
          let later := if big then skipn 1024 addrs else [] in
          match detect m has_endbr tramp_jmp now, detect_batches m has_endbr tramp_jmp n' later with
          | Some r, Some l => Some (map (fun x => (snd (snd x), fst x)) (filter (fun x => fst (snd x)) (combine now r)) ++ l)
          | _, _ => None
          end
      end
  end.
(** The keys sorted.  DetectTraceable keeps the second components; probeTrampAddrs (bpf_tracing_graph.go:321-359) returns both. *)
Definition probe_tramps (m : kmem) (has_endbr tramp_jmp : bool) (keys : list Z) : option (list (Z * Z)) :=
  let addrs := isort Z.leb keys in detect_batches m has_endbr tramp_jmp (List.length addrs) addrs.
Definition detect_traceable (m : kmem) (has_endbr tramp_jmp : bool) (keys : list Z) : option (list Z) :=
  option_map (map snd) (probe_tramps m has_endbr tramp_jmp keys).

Section Tramp.
  Variable dec : list Z -> Z -> option nat.
  (** bpf_disasm.go:12-26 disasmKfuncAt(addr, 0): the instructions, and the reader's buffer; None: an error or a crash *)
  Definition disasm_at (m : kmem) (ks : kallsyms) (buff : list Z) (addr : Z) : option (list (Z * list Z)) * list Z :=
    match guess_bytes ks addr 0 with
    | None => (None, buff)
    | Some n =>
        let '(r, buff') := read_kernel m buff addr n in
        (match r with
         | None => None
         | Some d => match decode_all dec (S (List.length (trim_tail d))) (trim_tail d) addr with [] => None | l => Some l end
         end, buff')
    end.
  (** bpf_tracing_graph.go:361-375 extractTrampolineIPs: the loop over the instructions *)
  Fixpoint call_sites (pc : Z) (insts : list (Z * list Z)) : list Z :=
    match insts with
    | [] => []
    | i :: l => let pc' := u64 (pc + Z.of_nat (List.length (snd i))) in
                if nth 0 (snd i) 0 =? 232 then pc' :: call_sites pc' l else call_sites pc' l
    end.
  (** bpf_tracing_graph.go:377-420 populateFgraphTrampolineIPs: the loop *)
  Fixpoint tramp_ips (m : kmem) (ks : kallsyms) (buff : list Z) (tfs : list (Z * Z)) (acc : list (Z * Z)) : option (list (Z * Z)) :=
    match tfs with
    | [] => Some acc
    | (addr, f) :: tfs' =>
        match disasm_at m ks buff addr with
        | (None, _) => None
        | (Some insts, buff') => tramp_ips m ks buff' tfs' (fold_left (fun a ip => aput Z.eqb ip f a) (call_sites addr insts) acc)
        end
    end.
  Definition populate_tramps (m : kmem) (ks : kallsyms) (buff : list Z) (has_endbr tramp_jmp : bool) (graphs : list Z) : option (list (Z * Z)) :=
    if negb tramp_jmp then Some []
    else match probe_tramps m has_endbr tramp_jmp graphs with None => None | Some tfs => tramp_ips m ks buff tfs [] end.
End Tramp.
