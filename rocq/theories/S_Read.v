(** * Specification of --read *)
From Coq Require Import ZArith List Bool.
From Verif Require Import M_Go M_Ebpf M_Cc M_OutArg S_CSem S_CSup S_OutArg M_Read.
Import ListNotations.
Open Scope Z_scope.

(** A call of bpf_fentry_test1 made by thread tid of process pid *)
Definition made_by (pid tid : Z) (h : hit) : Prop := h_pid h = pid /\ h_tid h = tid.
Definition thread (pid tid : Z) : Prop := 0 <= pid < 2 ^ 31 /\ 0 <= tid < 2 ^ 31.
(** Memory as the C semantics sees it is the memory of the machine; there are no parameters. *)
Definition sees (K : cfg) (C : cenv) (m : mach) (s : mst) : Prop :=
  ce_bt C = cf_env K /\ cf_vars K = [] /\ ce_vars C = [] /\ (forall a, ce_map C a = true -> mapped m a = true) /\
  (forall a, ce_map C a = true -> ker s a = ce_mem C a).
(** The buffer at B: outside the frame of the program and outside the memory the expression looks at *)
Record buff_at (C : cenv) (s : mst) (B : Z) : Prop := {
  ba_range : 0 <= B /\ B + buff_size <= 2 ^ 64;
  ba_frame : forall i, 0 <= i < buff_size -> (B + i - rg s RFP) mod 2 ^ 64 < 2 ^ 64 - 512;
  ba_apart : forall a, ce_map C a = true -> ~ (B <= a < B + buff_size) }.
