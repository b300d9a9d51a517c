(** * The parameter types of a traced BPF program: /repo/internal/bpfsnoop/bpf_tracing_prog.go:30-71 and btfx.GetStructBtfPointer.

    A BPF program declares its context as struct __sk_buff or struct xdp_md; the function that is really called gets the kernel's own sk_buff
    or xdp_buff.  Types as in M_PktSel.v; the kernel's BTF is a function from names to types (None: no such type).
    Simplified: a parameter is its name and its type. *)
From Coq Require Import List Bool String ZArith.
From Verif Require Import M_PktSel.
Import ListNotations.
Open Scope string_scope.

(** internal/btfx/types.go GetStructBtfPointer *)
Definition struct_pointer (krnl : string -> option ptype) (name : string) : option ptype :=
  match krnl name with Some (PStruct n s) => Some (PPtr (PStruct n s)) | _ => None end.
(** bpf_tracing_prog.go:30-57 correctArgType; None: an error *)
Definition correct_arg (krnl : string -> option ptype) (t : ptype) : option ptype :=
  match underlying t with
  | PPtr (PStruct n _) =>
      if String.eqb n "__sk_buff" then struct_pointer krnl "sk_buff"
      else if String.eqb n "xdp_md" then struct_pointer krnl "xdp_buff" else Some t
  | _ => Some t
  end.
(** bpf_tracing_prog.go:59-71 correctArgTypeInParams *)
Fixpoint correct_params (krnl : string -> option ptype) (ps : list (string * ptype)) : option (list (string * ptype)) :=
  match ps with
  | [] => Some []
  | (n, t) :: ps' =>
      match correct_arg krnl t with
      | None => None
      | Some t' => option_map (cons (n, t')) (correct_params krnl ps')
      end
  end.
