(** * Specification of graph depth. *)
From Coq Require Import ZArith List Bool String.
From Verif Require Import M_Go M_Sess S_Sess.
Import ListNotations.
Open Scope Z_scope.

(** The call stacks and the session map after a history. *)
Fixpoint stacks_after (st : stacks) (h : list action) : stacks :=
  match h with
  | [] => st
  | Call t f sid ns pass txt :: h' => stacks_after (upds st t ({| f_func := f; f_sid := sid; f_ns := ns; f_pass := pass; f_text := txt |} :: st t)) h'
  | Ret t f ns txt :: h' => stacks_after (upds st t (tl (st t))) h'
  end.
Fixpoint smap_after (m : smap) (h : list action) : smap :=
  match h with
  | [] => m
  | Call t f sid ns pass txt :: h' => smap_after (fst (enter_map m (t, f) sid pass)) h'
  | Ret t f ns txt :: h' => smap_after (fst (exit_map m (t, f))) h'
  end.
(** The return addresses on the stack: one return site per traced call in progress, other addresses in between. *)
Inductive shows (endbr : bool) (funcs : list Z) : list Z -> list Z -> Prop :=
| shows_nil : shows endbr funcs [] []
| shows_traced f ip ips fs : In f funcs -> ip = (f + 5 + (if endbr then 4 else 0)) mod 2 ^ 64 -> shows endbr funcs ips fs -> shows endbr funcs (ip :: ips) (f :: fs)
| shows_other ip ips fs : (forall f, In f funcs -> ip <> (f + 5 + (if endbr then 4 else 0)) mod 2 ^ 64) -> shows endbr funcs ips fs -> shows endbr funcs (ip :: ips) fs.
(** Distance to the nearest accepted root call among the callers, innermost first. *)
Fixpoint root_below (callers : list frame) (d : Z) : option (frame * Z) :=
  match callers with
  | [] => None
  | fr :: l => if f_pass fr then Some (fr, d) else root_below l (d + 1)
  end.

(** The session map when the roots are traced with fsession programs: bpfsnoop_session_enter and bpfsnoop_session_exit use the
    cookie and leave the map alone (bpfsnoop_session.h:22-24, 36-43). *)
Fixpoint smap_after_fsession (m : smap) (h : list action) : smap :=
  match h with [] => m | _ :: h' => smap_after_fsession m h' end.
