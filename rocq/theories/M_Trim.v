(** * Leaving out what was not asked for: TrimSpec of /repo/internal/bpfsnoop/bpf_spec.go.

    A collection is its programs by name, each the instructions of M_Asm.v.  The Go loop runs over a map: every program is edited on its own,
    so the order is left out. *)
From Coq Require Import List Bool String Arith.
From Verif Require Import M_Asm M_PktSel.
Import ListNotations.
Open Scope string_scope.
Open Scope list_scope.

Section Trim.
  Variable B : Type.
  Variable mov0 : bool -> B.
  (** bpf_spec.go:12-22, the body of the loop.  [expr]: the --filter-pkt expression; [nargs], [nouts]: how many --filter-arg and --output-arg
      expressions there are.  filter_arg.go:81-83 clearFilterArgSubprog; output_arg.go:399-401 argDataOutput.clear *)
  Definition trim_prog (expr : string) (nargs nouts : nat) (p : list (ins B)) : list (ins B) :=
    let p := if String.eqb expr "" then filter_clear mov0 p else p in
    let p := if Nat.eqb nargs 0 then clear_subprog mov0 p "filter_arg" true else p in
    if Nat.eqb nouts 0 then clear_subprog mov0 p "output_arg" false else p.
  (** bpf_spec.go:10-24 TrimSpec *)
  Definition trim_spec (expr : string) (nargs nouts : nat) (progs : list (string * list (ins B))) : list (string * list (ins B)) :=
    map (fun np => (fst np, trim_prog expr nargs nouts (snd np))) progs.
End Trim.
