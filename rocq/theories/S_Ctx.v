(** * Specification for C96: execution contexts that share a process id. *)
From Coq Require Import ZArith List Bool String.
From Verif Require Import M_Go M_Sess S_Sess.
Import ListNotations.
Open Scope Z_scope.

(** bpfsnoop_sess.h:59-60, 95-97, bpfsnoop.c: the key of a session is bpf_get_current_pid_tgid() and the function.  Histories of S_Sess with execution
    contexts (threads, and the idle threads of the CPUs) for tasks: [pid c] is what the helper returns in context [c]. *)
Definition as_seen (pid : Z -> Z) (h : list action) : list action :=
  map (fun a => match a with Call c f sid ns pass txt => Call (pid c) f sid ns pass txt | Ret c f ns txt => Ret (pid c) f ns txt end) h.
(** Whenever a context enters (accepted) or leaves a function, no other context with the same id is inside an accepted call of it. *)
Definition others_out (pid : Z -> Z) (st : stacks) (c f : Z) : Prop := forall c', c' <> c -> pid c' = pid c -> open_calls st c' f = [].
Fixpoint apart (pid : Z -> Z) (st : stacks) (h : list action) : Prop :=
  match h with
  | [] => True
  | Call c f sid ns pass txt :: h' => (pass = true -> others_out pid st c f) /\
      apart pid (upds st c ({| f_func := f; f_sid := sid; f_ns := ns; f_pass := pass; f_text := txt |} :: st c)) h'
  | Ret c f ns txt :: h' => others_out pid st c f /\ apart pid (upds st c (tl (st c))) h'
  end.
(** The context of an action. *)
Definition context (a : action) : Z := match a with Call c _ _ _ _ _ => c | Ret c _ _ _ => c end.
