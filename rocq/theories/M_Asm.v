(** * Editing the BPF programs before they are loaded: /repo/internal/bpfsnoop/bpf_asm.go and bpf_session.go.

    An instruction (cilium/ebpf asm.Instruction) is its body B (opcode, registers, offset, constant) with the symbol and the
    reference of its metadata ("" for none); other metadata (source lines, map pointers) is left out.
    Simplified: slices are lists (the appends of bpf_asm.go:40-41 copy the tail before overwriting it, so no aliasing shows). *)
From Coq Require Import List Bool String.
Import ListNotations.
Open Scope string_scope.

Section Asm.
  Variable B : Type.
  (** asm.Mov.Imm(R0, n) and a kfunc call with the given BTF id *)
  Variables (mov0 : bool -> B) (kcall : nat -> B).
  Record ins := { i_sym : string; i_ref : string; i_body : B }.

  (** bpf_asm.go:11-18 findStartIndex *)
  Fixpoint find_start (p : list ins) (stub : string) : option nat :=
    match p with
    | [] => None
    | i :: p' => if String.eqb (i_sym i) stub then Some O else option_map S (find_start p' stub)
    end.
  (** bpf_asm.go:20-28 findEndIndex: the instructions after [start] up to the next symbol; the Go index is start + this. *)
  Fixpoint body_len (p : list ins) : nat :=
    match p with
    | [] => O
    | i :: p' => if String.eqb (i_sym i) "" then S (body_len p') else O
    end.
  Definition find_end (p : list ins) (start : nat) : nat := start + body_len (skipn (S start) p).
  (** bpf_asm.go:30-43 injectInsns: the first injected instruction takes the metadata of the stub's first. *)
  Definition inject (p : list ins) (stub : string) (code : list ins) : list ins :=
    match find_start p stub with
    | None => p
    | Some k =>
        let code' := match code, nth_error p k with
                     | c :: t, Some i => {| i_sym := i_sym i; i_ref := i_ref i; i_body := i_body c |} :: t
                     | l, _ => l end in
        firstn k p ++ code' ++ skipn (find_end p k + 1) p
    end.
  (** bpf_asm.go:45-62 __clearSubprog, clearOutputSubprog, clearFilterSubprog *)
  Definition clear_subprog (p : list ins) (stub : string) (is_filter : bool) : list ins :=
    map (fun i => if String.eqb (i_ref i) stub then {| i_sym := ""; i_ref := ""; i_body := mov0 is_filter |} else i) (inject p stub []).
  (** bpf_session.go:70-91 patchBPFSessionInsns with a kernel that has kprobe sessions; [cookie], [isret] the kfunc ids *)
  Definition cookie_func := "bpfsnoop_session_cookie".
  Definition isret_func := "bpfsnoop_session_is_return".
  Definition patch_session (cookie isret : nat) (p : list ins) : list ins :=
    let q := map (fun i => if String.eqb (i_ref i) cookie_func then {| i_sym := ""; i_ref := ""; i_body := kcall cookie |}
                           else if String.eqb (i_ref i) isret_func then {| i_sym := ""; i_ref := ""; i_body := kcall isret |} else i) p in
    inject (inject q cookie_func []) isret_func [].
End Asm.
Arguments i_sym {B}. Arguments i_ref {B}. Arguments i_body {B}.
Arguments find_start {B}. Arguments body_len {B}. Arguments find_end {B}. Arguments inject {B}. Arguments clear_subprog {B}. Arguments patch_session {B}.
