(** * Where an address is: getLineInfo of /repo/internal/bpfsnoop/lineinfo.go and the build directory of addr2line.go.

    The parts are the BPF functions (M_Line), the kernel symbols (M_Kallsyms) and the debug data with its cache (M_A2l).  A line of
    M_A2l is a number; [ent] gives its file, function and line number.  Waiting for the debug data is modelled in M_Ready. *)
From Coq Require Import List Bool String ZArith.
From Verif Require Import M_Go M_Kallsyms M_Cache M_A2l M_Line M_Flags.
Import ListNotations.
Open Scope string_scope.
Open Scope Z_scope.

(** addr2line.Addr2LineEntry *)
Record dline := { d_file : string; d_func : string; d_num : Z }.
(** lbr_stack.go:13-26 branchEndpoint, without the texts made from it *)
Record place := { p_addr : Z; p_func : string; p_off : Z; p_file : string; p_line : Z; p_prog : bool; p_vml : bool }.
Inductive pres := PPlace (p : place) | PPanic.

(** addr2line.go:63-69: the build directory from the file name of __x64_sys_bpf; None is an error *)
Definition syscall_file : string := "kernel/bpf/syscall.c".
Definition build_dir (f : string) : option string :=
  if Nat.ltb (String.length f) (String.length syscall_file) then None
  else Some (substring 0 (String.length f - String.length syscall_file) f).
(** lineinfo.go:48-51 *)
Definition rel_file (dir f : string) : string := if has_prefix dir f then drop (String.length dir) f else f.

Section LineInfo.
  Variable ent : Z -> dline.
  Variables (b : boot) (dir : string).
  Variable progs : list pfunc.
  Variable ks : kallsyms.

  (** lineinfo.go:23-30: after the defer; an unknown address keeps an empty name and offset 0 *)
  Definition sym_place (a : Z) (e : option ksym) : place :=
    match e with
    | Some e => {| p_addr := a; p_func := kname e; p_off := u64 (a - kaddr e); p_file := ""; p_line := 0; p_prog := false; p_vml := false |}
    | None => {| p_addr := a; p_func := ""; p_off := 0; p_file := ""; p_line := 0; p_prog := false; p_vml := false |}
    end.
  (** lineinfo.go:32-61, with the symbol that was found.  [s]: None when a2l is nil. *)
  Definition with_line (ok : bool) (s : option st) (a : Z) (e : option ksym) : pres * option st :=
    let ep := sym_place a e in
    match s with
    | None => (PPlace ep, None)
    | Some s =>
        let '(r, s') := get b ok s a (option_map kmod e) in
        match r with
        | APanic => (PPanic, Some s')
        | ANotFound | AError => (PPlace ep, Some s')
        | ALine l =>
            let d := ent l in
            (PPlace {| p_addr := a; p_func := if String.eqb (p_func ep) "" then d_func d else p_func ep; p_off := p_off ep;
                       p_file := rel_file dir (d_file d); p_line := d_num d; p_prog := false; p_vml := true |}, Some s')
        end
    end.
  (** lineinfo.go:9-62 getLineInfo; [ok]: saving the cache works if it is tried.  A found symbol that is nil (ksym.name) panics. *)
  Definition line_info (ok : bool) (s : option st) (a : Z) : pres * option st :=
    match progs_get progs a with
    | LPanic => (PPanic, s)
    | LOk li => (PPlace {| p_addr := a; p_func := li_func li; p_off := u64 (a - li_start li); p_file := li_file li; p_line := li_line li; p_prog := true; p_vml := false |}, s)
    | LNone =>
        match ks_find ks a with
        | FPanic | FSome None => (PPanic, s)
        | FNone => with_line ok s a None
        | FSome (Some e) => with_line ok s a (Some e)
        end
    end.
  (** the look-ups of one run *)
  Fixpoint line_infos (s : option st) (l : list (Z * bool)) : list pres * option st :=
    match l with
    | [] => ([], s)
    | (a, ok) :: l' => let '(r, s1) := line_info ok s a in let '(rs, s2) := line_infos s1 l' in (r :: rs, s2)
    end.
End LineInfo.
