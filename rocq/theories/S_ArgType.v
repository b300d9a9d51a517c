(** * What the type of a parameter of a BPF program really is. *)
From Coq Require Import List Bool String ZArith.
From Verif Require Import M_PktSel.
Import ListNotations.
Open Scope string_scope.

(** The type without typedefs and qualifiers, at both levels of a pointer: what a C compiler looks at. *)
Definition points_to_struct (t : ptype) (name : string) : Prop :=
  exists u s, underlying t = PPtr u /\ underlying u = PStruct name s.
(** The same, but the pointed-to type is the struct itself, not a typedef or const version of it. *)
Definition points_plainly (t : ptype) (name : string) : Prop := exists s, underlying t = PPtr (PStruct name s).
(** The kernel's struct behind a context struct of BPF programs. *)
Definition behind (ctx : string) : option string :=
  if String.eqb ctx "__sk_buff" then Some "sk_buff" else if String.eqb ctx "xdp_md" then Some "xdp_buff" else None.
