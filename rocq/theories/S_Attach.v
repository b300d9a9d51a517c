(** * What a user expects of the attaching of the probes: specification, independent of the functions of M_Attach *)
From Coq Require Import List Bool String.
From Verif Require Import M_Attach.
Import ListNotations.

(** Which probes a command line asks for (kind of target, name, place).  Tracepoints have one probe; a function shown at entry and exit - because asked so
    (both), or because its instructions or its callees are shown - has one probe that sees both where the kernel has sessions, and two elsewhere;
    other functions have one, at the place of the -m option.  The functions of a graph that are not its roots are seen at both ends. *)
Definition ends (session : bool) (p : ptype) : Prop := if session then p = PSession else p = PEntry \/ p = PExit.
Definition place (exit : bool) (p : ptype) : Prop := if exit then p = PExit else p = PEntry.
Definition wanted (c : cfg) (k : kind) (t : string) (p : ptype) : Prop :=
  match k with
  | KProg => exists f, In f (c_progs c) /\ a_target f = t /\
      ((a_graph f = true \/ a_both f = true) /\ ends (c_fsession c) p \/ (a_graph f = false /\ a_both f = false) /\ place (c_exit c) p)
  | KFn => exists f, In f (c_fns c) /\ a_target f = t /\
      (a_tp f = true /\ p = PTp
       \/ a_tp f = false /\ (a_insn f = true \/ a_graph f = true \/ a_both f = true) /\ ends (c_fsession c) p
       \/ a_tp f = false /\ (a_insn f = false /\ a_graph f = false /\ a_both f = false) /\ place (c_exit c) p)
  | KMulti => exists b, In (t, b) (c_multi c) /\ (if b then ends (c_ksession c) p else place (c_exit c) p)
  | KInsn => In t (c_insns c) /\ p = PKprobe
  | KGraph => In (t, false) (c_graphs c) /\ ends (c_fsession c) p
  end.
(** The refusals that are not errors for the user, by kind of target; false: of the program, true: of the attachment *)
Definition tolerated : list (kind * bool * trait) :=
  [ (KFn, false, ENOENT); (KFn, false, StructArg); (KFn, false, UnionArg);
    (KGraph, false, ENOENT); (KGraph, false, StructArg); (KGraph, false, UnionArg);
    (KFn, true, ENOENT); (KFn, true, EINVAL); (KFn, true, EOPNOTSUPP); (KFn, true, NotSupported); (KFn, true, EBUSY);
    (KGraph, true, ENOENT); (KGraph, true, EINVAL); (KGraph, true, EOPNOTSUPP); (KGraph, true, NotSupported); (KGraph, true, EBUSY);
    (KProg, true, Recursive);
    (KInsn, true, ENOENT); (KInsn, true, EINVAL); (KInsn, true, EADDRNOTAVAIL) ].
Definition tolerable (k : kind) (attach : bool) (e : err) : Prop := exists t, In (k, attach, t) tolerated /\ In t e.
(** The probe that a name stands for *)
Definition is_probe (c : cfg) (x : id) (k : kind) (t : string) (p : ptype) : Prop :=
  exists j, nth_error (jobs c) (fst x) = Some j /\ j_kind j = k /\ j_target j = t /\ nth_error (j_probes j) (snd x) = Some p.
(** What the kernel answered *)
Definition attached (s : st) (x : id) : Prop := In (x, true, AOk) (log s).
Definition refused (s : st) (x : id) (attach : bool) (e : err) : Prop := In (x, attach, AErr e) (log s).
Definition reached (c : cfg) (s : st) : Prop := exists ls, run c ls (init c) = Some s.
(** A failure that is one for the user: the program of a probe could not be prepared, or was refused for another reason than those tolerated *)
Definition real (c : cfg) (s : st) (x : id) : Prop :=
  In (x, false, AInject) (log s) \/ exists k t p att e, is_probe c x k t p /\ refused s x att e /\ ~ tolerable k att e.
