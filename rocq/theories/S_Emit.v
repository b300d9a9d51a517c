(** * Specification: the calls the user asked for (C89). *)
From Coq Require Import ZArith List Bool String.
From Verif Require Import M_Sess S_Sess M_Emit.
Import ListNotations.
Open Scope Z_scope.

(** The process of a task. *)
Definition process (t : Z) : Z := t / 2 ^ 32.
(** Asked for: not by bpfsnoop itself, by the process given with --pid if one is given, accepted by the filters. *)
Definition wanted (c : ecfg) (t : Z) : Prop := process t <> own_pid c /\ (want_pid c <> 0 -> process t = want_pid c).
Definition wantedb (c : ecfg) (t : Z) : bool := negb (process t =? own_pid c) && ((want_pid c =? 0) || (process t =? want_pid c)).
(** The calls and returns of a history; a call counts as accepted when it is asked for and tracing has begun. *)
Fixpoint calls_of (c : ecfg) (begun : bool) (h : list fire) : list action :=
  match h with
  | [] => []
  | FReady :: h' => calls_of c true h'
  | FCall t f sid ns farg fpkt txt :: h' => Call t f sid ns (begun && wantedb c t && farg && fpkt) txt :: calls_of c begun h'
  | FRet t f ns _ _ txt :: h' => Ret t f ns txt :: calls_of c begun h'
  | FInsn _ _ _ _ :: h' => calls_of c begun h'
  end.
Definition no_insns (h : list fire) : Prop := forall t f ns txt, ~ In (FInsn t f ns txt) h.
(** Instructions executed (after tracing began) inside an accepted call of their function, with that call's session; the state: the open calls. *)
Fixpoint insns_of (c : ecfg) (begun : bool) (st : stacks) (h : list fire) : list (Z * Z * string) :=
  match h with
  | [] => []
  | FReady :: h' => insns_of c true st h'
  | FCall t f sid ns farg fpkt txt :: h' =>
      insns_of c begun (upds st t ({| f_func := f; f_sid := sid; f_ns := ns; f_pass := begun && wantedb c t && farg && fpkt; f_text := txt |} :: st t)) h'
  | FRet t f ns _ _ txt :: h' => insns_of c begun (upds st t (tl (st t))) h'
  | FInsn t f ns txt :: h' =>
      match open_calls st t f with fr :: _ => [(f_sid fr, ns mod 2 ^ 32, txt)] | [] => [] end ++ insns_of c begun st h'
  end.
Definition insn_part (evs : list event) : list (Z * Z * string) := map (fun e => (ev_sid e, ev_ns e, ev_text e)) (filter (fun e => ev_type e =? 3) evs).
(** Entries (exits) only: the accepted ones. *)
Fixpoint singles (c : ecfg) (exits begun : bool) (h : list fire) : list (Z * string) :=
  match h with
  | [] => []
  | FReady :: h' => singles c exits true h'
  | FCall t f sid ns farg fpkt txt :: h' => (if negb exits && begun && wantedb c t && farg && fpkt then [(ns mod 2 ^ 32, txt)] else []) ++ singles c exits begun h'
  | FRet t f ns farg fpkt txt :: h' => (if exits && begun && wantedb c t && farg && fpkt then [(ns mod 2 ^ 32, txt)] else []) ++ singles c exits begun h'
  | FInsn _ _ _ _ :: h' => singles c exits begun h'
  end.
