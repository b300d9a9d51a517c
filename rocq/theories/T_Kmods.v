(** * Property C113: the modules and the kernel's anchors read from /proc/kallsyms. *)
From Coq Require Import ZArith List Bool String Ascii.
From Verif Require Import M_Go M_Kallsyms S_Kmods P_Kmods.
Import ListNotations.
Open Scope string_scope.

(** C113.  From every listing that is accepted: the modules are, each once, those whose text symbols are listed, the kernel's own pseudo-modules left out. *)
Theorem C113_modules : forall ls ks, new_kallsyms ls = Some ks -> NoDup (mods ks) /\ forall m, In m (mods ks) <-> text_of_module ls m /\ ~ builtin_name m.
Proof. exact modules_ok. Qed.
Print Assumptions C113_modules.
(** The address kept for a name is that of the last line which gives it one; names without such a line, and all other names, have none. *)
Theorem C113_anchors : forall ls ks n a, new_kallsyms ls = Some ks -> (aget String.eqb n (specials ks) = Some a <-> last_anchor n a ls).
Proof. exact anchors_ok. Qed.
Print Assumptions C113_anchors.
(** Which names addresses are kept for *)
Theorem C113_only_these_names : forall ls ks n a, new_kallsyms ls = Some ks -> aget String.eqb n (specials ks) = Some a ->
  In n ["_stext"; "__x64_sys_bpf"; "__start__bpf_raw_tp"; "__stop__bpf_raw_tp"; "bpf_trace_modules"; "x86_pmu"; "btf_id_deny"].
Proof.
  intros ls ks n a H E. apply (anchors_ok ls ks n a H) in E as (pre & l & post & _ & (fa & ft & rest & _ & _ & X) & _). cbn [In] in *. intuition auto.
Qed.
Print Assumptions C113_only_these_names.

Definition km_demo : list (list string) :=
  [["ffffffff81000000"; "T"; "_stext"]; ["ffffffff82000000"; "D"; "__start__bpf_raw_tp"]; ["ffffffffc0000000"; "t"; "nft_do_chain"; "nf_tables"];
   ["ffffffffc0000100"; "t"; "nft_x"; "nf_tables"]; ["ffffffffc0001000"; "t"; "bpf_prog_1"; "bpf"]; ["ffffffffc0002000"; "t"; "ftrace_trampoline"; "__builtin__ftrace"];
   ["ffffffff83000000"; "r"; "btf_id_deny"]; ["0"; "d"; "x"]; ["short"]].
Example C113_demo : exists ks, new_kallsyms km_demo = Some ks /\ mods ks = ["nf_tables"] /\ aget String.eqb "_stext" (specials ks) = Some 18446744071578845184%Z /\
  aget String.eqb "__start__bpf_raw_tp" (specials ks) = Some 18446744071595622400%Z /\ aget String.eqb "x86_pmu" (specials ks) = None.
Proof. eexists. split; [vm_compute; reflexivity|]. vm_compute. auto. Qed.
