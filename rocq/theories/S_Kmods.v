(** * What a symbol listing says about modules and the kernel's own anchors (specification for C113). *)
From Coq Require Import ZArith List Bool String Ascii.
From Verif Require Import M_Kallsyms.
Import ListNotations.
Open Scope string_scope.

(** A text symbol of module [m]: its line has a fourth field *)
Definition text_of_module (ls : list (list string)) (m : string) : Prop :=
  exists fa ft fn rest, In (fa :: ft :: fn :: m :: rest) ls /\ (ft = "t" \/ ft = "T").
(** Not the name of a loadable module: nothing, "bpf" and what the kernel calls __builtin... *)
Definition builtin_name (m : string) : Prop := m = "" \/ m = "bpf" \/ exists r, m = "__builtin" ++ r.
(** The line [l] gives the address [a] of the anchor [n]: _stext and the bpf system call are text; the raw tracepoint table, the module list and x86_pmu text
    or data (since Linux 6.14); btf_id_deny read-only data. *)
Definition anchor_line (n : string) (a : Z) (l : list string) : Prop :=
  exists fa ft rest, l = fa :: ft :: n :: rest /\ parse_hex fa = Some a /\
    (In ft ["t"; "T"] /\ In n ["_stext"; "__x64_sys_bpf"] \/
     In ft ["t"; "T"; "D"; "d"] /\ In n ["__start__bpf_raw_tp"; "__stop__bpf_raw_tp"; "bpf_trace_modules"; "x86_pmu"] \/
     In ft ["R"; "r"] /\ n = "btf_id_deny").
(** [a] is what the last such line gives. *)
Definition last_anchor (n : string) (a : Z) (ls : list (list string)) : Prop :=
  exists pre l post, ls = (pre ++ l :: post)%list /\ anchor_line n a l /\ forall l' a', In l' post -> ~ anchor_line n a' l'.
