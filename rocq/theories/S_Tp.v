(** * What the tracepoint table should be. *)
From Coq Require Import List Bool String ZArith.
From Verif Require Import M_Go M_Flags M_Kfuncs S_Kfuncs M_Tp.
Import ListNotations.
Open Scope Z_scope.

(** the i-th entry of a table of entries of [size] bytes *)
Definition entry (table : Z -> raw_tp) (start size i : Z) : raw_tp := table (start + size * i).
(** entries that are tracepoints with a function *)
Definition live (r : raw_tp) : Prop := r_sym r <> 0.
(** the kernel's symbols and BTF know its function *)
Definition resolved (a2s : Z -> option string) (btf_fn : string -> option func) (r : raw_tp) (fn : func) : Prop :=
  exists s, a2s (r_sym r) = Some s /\ btf_fn s = Some fn.
(** names of tracepoints are shorter than 64 characters and pairwise different *)
Definition good_names (table : Z -> raw_tp) (start size total : Z) : Prop :=
  (forall i, 0 <= i < total -> live (entry table start size i) -> (String.length (r_name (entry table start size i)) < 64)%nat) /\
  (forall i j, 0 <= i < total -> 0 <= j < total -> live (entry table start size i) -> live (entry table start size j) ->
     r_name (entry table start size i) = r_name (entry table start size j) -> i = j).

(** a circular list of nodes starting and ending at [head] *)
Fixpoint chain (next : Z -> Z) (head cur : Z) (nodes : list Z) : Prop :=
  match nodes with [] => cur = head | n :: ns => cur = n /\ n <> head /\ chain next head (next n) ns end.
(** the tracepoints of module [md] include [t] under the name [n] *)
Definition offers (mods : list (string * list (string * tp_info))) (md n : string) (t : tp_info) : Prop :=
  exists tps, In (md, tps) mods /\ In (n, t) tps.
Definition with_kmod (md : string) (t : tp_info) : tp_info :=
  {| t_name := t_name t; t_kmod := md; t_sym := t_sym t; t_nargs := t_nargs t; t_fn := t_fn t |}.
(** a module's tracepoints, by name *)
Definition wf_mods (mods : list (string * list (string * tp_info))) : Prop :=
  forall md l, In (md, l) mods -> NoDup (keys l) /\ forall k t, In (k, t) l -> t_name t = k.
(** modules that are probed: with a believable number of tracepoints, and with BTF *)
Definition usable (has_btf : string -> Z) (m : mod_info) : bool := negb ((m_nr m =? 0) || (65536 <? m_nr m)) && negb (has_btf (m_name m) =? 0).
Definition cut (m : mod_info) : mod_info := {| m_name := take 55 (m_name m); m_nr := m_nr m; m_events := m_events m |}.

(** a tracepoint as a function: its own name, the parameters without the first (void *__data) *)
Definition tp_func (n : string) (ps : list param) : func := {| fn_name := n; fn_params := ps; fn_ret_struct := false; fn_params_ok := true |}.
(** the flags of a pattern, without instruction and graph tracing *)
Definition tp_flag (f : kflag) : kflag :=
  {| f_name := f_name f; f_arg := f_arg f; f_typ := f_typ f; f_insn := false; f_graph := false; f_stack := f_stack f; f_lbr := f_lbr f;
     f_both := f_both f; f_pkt := f_pkt f; f_multi := f_multi f; f_argName := f_argName f; f_argType := f_argType f |}.
(** a tracepoint is traced, with these settings: its function has the arguments the kernel passes and at most 12, and a pattern fits (the
    first that does gives the flags) *)
Definition chosen (glob : string -> string -> bool) (flags : list kflag) (n : string) (t : tp_info) (k : ktp) : Prop :=
  exists p0 ps f, fn_params (t_fn t) = p0 :: ps /\ t_nargs t <= Z.of_nat (List.length ps) <= 12 /\ fn_params_ok (t_fn t) = true /\
    first_fit glob flags f (tp_func n ps) /\ k = {| kt_name := n; kt_params := ps; kt_kmod := t_kmod t; kt_flag := tp_flag f |}.
