(** * What a command line asks for and what a kernel offers. *)
From Coq Require Import List Bool String.
From Verif Require Import M_Flags S_Flags S_Ltest M_Need.
Import ListNotations.
Open Scope string_scope.
Open Scope list_scope.

(** The argument [k] of -k, -t or -p has option [x] among its prefixes. *)
Definition has_option (x : kind) (k : string) : Prop := exists ts body, k = (texts ts ++ body)%string /\ opens body = false /\ asked x ts = true.
(** Branches are asked for: --output-lbr or a target with (l); on functions and programs, and on tracepoints. *)
Definition asks_branches (a : nargs) : Prop := a_lbr a = true \/ exists k, In k (a_kfuncs a ++ a_progs a) /\ has_option Kl k.
(** Stacks are asked for. *)
Definition asks_stacks_everywhere (a : nargs) : Prop := a_stack a = true \/ a_flame a = true.
Definition asks_stacks (a : nargs) : Prop := asks_stacks_everywhere a \/ exists k, In k (a_kfuncs a ++ a_ktps a ++ a_progs a) /\ has_option Ks k.
(** Multi mode is asked for. *)
Definition asks_multi (a : nargs) : Prop := exists k, In k (a_kfuncs a) /\ has_option Km k.
(** The kernel has an enumeration of this name, just one type has the name, and [v] is (not) one of its values. *)
Definition one_enum (b : nbtf) (e : string) (vs : list string) : Prop := exists b1 b2, b = b1 ++ (e, NEnum vs) :: b2 /\ (forall p, In p (b1 ++ b2) -> fst p <> e).
Definition offers (b : nbtf) (e v : string) : Prop := exists vs, In (e, NEnum vs) b /\ In v vs.
Definition branches_offered (b : nbtf) := offers b "bpf_func_id" "BPF_FUNC_get_branch_snapshot".
Definition stacks_offered (b : nbtf) := offers b "bpf_func_id" "BPF_FUNC_get_stackid".
Definition ringbuf_offered (b : nbtf) := offers b "bpf_map_type" "BPF_MAP_TYPE_RINGBUF".
Definition multi_offered (b : nbtf) := offers b "bpf_attach_type" "BPF_TRACE_KPROBE_MULTI".
(** The two enumerations that are looked up by name can be found. *)
Definition readable (b : nbtf) : Prop := (exists vs, one_enum b "bpf_func_id" vs) /\ exists vs, one_enum b "bpf_attach_type" vs.
(** The text of an argument. *)
Definition mentions_text (t : string) (ks : list string) : Prop := exists k, In k ks /\ occurs_in t k.
