(** * Vocabulary for the statements about configurations and event records. *)
From Coq Require Import ZArith List Bool String.
From Verif Require Import M_Go M_Cfg.
Import ListNotations.
Open Scope Z_scope.

(** representable in 32 bits *)
Definition fits (v : Z) : Prop := 0 <= v < 2 ^ 32.
Record cfg_ok (c : tcfg) : Prop := { k_nr : fits (tc_nr c); k_buf : fits (tc_buf c); k_data : fits (tc_data c); k_en : fits (tc_en c); k_ex : fits (tc_ex c) }.

(** What the probe wrote is of the announced sizes. *)
Record probe_ok (c : tcfg) (p : probe) : Prop := {
  po_sess : 0 <= pr_sess p < 2 ^ 64; po_ip : 0 <= pr_ip p < 2 ^ 64; po_cpu : 0 <= pr_cpu p < 2 ^ 32; po_pid : 0 <= pr_pid p < 2 ^ 32;
  po_comm : List.length (pr_comm p) = 16%nat; po_stack : 0 <= pr_stackid p < 2 ^ 64; po_lbr : 0 <= pr_lbr p < 2 ^ 64;
  po_args : Z.of_nat (List.length (pr_args p)) = tc_buf c; po_pkt : List.length (pr_pkt p) = 16%nat; po_data : Z.of_nat (List.length (pr_data p)) = tc_data c }.

(** Direction of the event: a session program asks the kernel, others were attached to entry or exit. *)
Definition exits (c : tcfg) (is_return : bool) : bool := if tc_both c && tc_sess c then is_return else tc_ret c.

(** The BPF-side name of each option. *)
Definition flags_table (c : tcfg) : list (string * bool) :=
  [("output_lbr", tc_lbr c); ("output_stack", tc_stack c); ("output_pkt", tc_pkt c); ("output_arg", negb (tc_data c =? 0)%Z);
   ("both_entry_exit", tc_both c); ("is_entry", negb (tc_ret c)); ("is_session", tc_sess c); ("insn_mode", tc_insn c);
   ("graph_mode", tc_graph c); ("is_tp", tc_tp c); ("is_prog", tc_prog c); ("kmulti_mode", tc_kmulti c)]%string.
