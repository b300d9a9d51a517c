(** * Properties C43, C64: which kernel functions are traced, and which BTF files they are looked up in. *)
From Coq Require Import List Bool String ZArith Lia.
From Verif Require Import M_Go M_Flags M_Kfuncs S_Kfuncs P_Kfuncs.
Import ListNotations.
Open Scope string_scope.
Open Scope list_scope.

(** C43.  For every glob matcher, symbol table, list of patterns, argument limit and function: the function is selected, with pattern m and
    symbol k, exactly if m is the first pattern that fits it, it is not variadic, returns no struct, its parameters can be read, its name is a
    symbol (unique unless the pattern is a multi one) and it has few enough parameters (or, for a multi pattern, the wanted one is among the first). *)
Theorem C43_selected_iff : forall glob syms ms max fn m k, match_kernel_func glob syms ms max fn = Some (m, k) <-> selected glob syms ms max fn m k.
Proof. exact match_iff. Qed.
Print Assumptions C43_selected_iff.
(** C43.  What is traced at an address: the last function visited that is selected at that address, unless it is on the deny list, or never
    returns while its exit (or its instructions, or its graph) is asked for.  Nothing else is traced. *)
Theorem C43_traced_iff : forall glob syms exit_mode ms max all a kf, aget Z.eqb a (search_funcs glob syms exit_mode ms max all) = Some kf <->
  the_last glob syms ms max a all kf /\ ~ denied (fn_name (kf_func kf)) /\
  ~ ((exit_mode = true \/ f_both (kf_flag kf) = true \/ f_insn (kf_flag kf) = true \/ f_graph (kf_flag kf) = true) /\ never_returns (fn_name (kf_func kf))).
Proof.
  intros glob syms ex ms max all a kf. rewrite search_iff.
  assert (forall n, In n deny <-> denied n) as -> by (intros n; reflexivity).
  assert (forall n, In n noreturn <-> never_returns n) as -> by (intros n; unfold never_returns; cbn [In noreturn]; tauto).
  reflexivity.
Qed.
Print Assumptions C43_traced_iff.

Definition pat (name arg typ : string) (both multi : bool) : kflag :=
  {| f_name := name; f_arg := arg; f_typ := typ; f_insn := false; f_graph := false; f_stack := false; f_lbr := false; f_both := both; f_pkt := false; f_multi := multi; f_argName := arg; f_argType := typ |}.
Definition star (p s : string) : bool := String.eqb p "*" || String.eqb p s.
Definition skb_fn := {| fn_name := "ip_rcv"; fn_params := [{| pm_name := "skb"; pm_void := false; pm_type := "struct sk_buff *" |}; {| pm_name := "dev"; pm_void := false; pm_type := "struct net_device *" |}];
  fn_ret_struct := false; fn_params_ok := true |}.
Definition exit_fn := {| fn_name := "do_exit"; fn_params := [{| pm_name := "code"; pm_void := false; pm_type := "long int" |}]; fn_ret_struct := false; fn_params_ok := true |}.
Definition printk := {| fn_name := "_printk"; fn_params := [{| pm_name := "fmt"; pm_void := false; pm_type := "const char *" |}; {| pm_name := ""; pm_void := true; pm_type := "void" |}]; fn_ret_struct := false; fn_params_ok := true |}.
Definition tab (s : string) : option ksym := if String.eqb s "ip_rcv" then Some {| ky_addr := 16; ky_duped := false |} else if String.eqb s "do_exit" then Some {| ky_addr := 32; ky_duped := false |}
  else if String.eqb s "_printk" then Some {| ky_addr := 48; ky_duped := false |} else None.
Definition all_fns := [("vmlinux", skb_fn); ("vmlinux", exit_fn); ("vmlinux", printk)].
(** Non-vacuous: the first pattern fits only functions with an skb of that type; the second takes the rest; printk is variadic; do_exit is kept
    for its entry only. *)
Example C43_demo : search_funcs star tab false [pat "*" "skb" "struct sk_buff *" false false; pat "*" "" "" false false] 6 all_fns =
    [(16, {| kf_func := skb_fn; kf_flag := pat "*" "skb" "struct sk_buff *" false false; kf_btf := "vmlinux" |}); (32, {| kf_func := exit_fn; kf_flag := pat "*" "" "" false false; kf_btf := "vmlinux" |})]%Z
  /\ keys (search_funcs star tab true [pat "*" "" "" false false] 6 all_fns) = [16%Z]
  /\ selected star tab [pat "*" "skb" "int" false false; pat "ip_rcv" "skb" "" false false] 6 skb_fn (pat "ip_rcv" "skb" "" false false) {| ky_addr := 16; ky_duped := false |}
  /\ match_kernel_func star tab [pat "*" "dev" "" false true] 1 skb_fn = None.
Proof. split; [vm_compute; reflexivity|]. split; [vm_compute; reflexivity|]. split; [apply match_iff; vm_compute; reflexivity|vm_compute; reflexivity]. Qed.

(** C64.  When "vmlinux" is not listed among the modules: its BTF is searched first, then that of each listed module that has one, each once;
    with all modules asked for: vmlinux first, then each file once. *)
Theorem C64_each_btf_once_partial :
  (forall files kmods, ~ In "vmlinux" kmods -> In "vmlinux" files -> exists r, btfs false files kmods = Some ("vmlinux" :: r) /\ NoDup ("vmlinux" :: r) /\ forall m, In m r <-> In m kmods /\ In m files) /\
  (forall files kmods, NoDup files -> exists r, btfs true files kmods = Some ("vmlinux" :: r) /\ NoDup ("vmlinux" :: r) /\ forall m, In m r <-> In m files /\ m <> "vmlinux").
Proof. split; [exact btfs_no_vmlinux|exact btfs_all]. Qed.
Print Assumptions C64_each_btf_once_partial.
Example C64_demo : btfs false ["vmlinux"; "xfs"; "kvm"] ["kvm"; "nosuch"; "xfs"; "kvm"] = Some ["vmlinux"; "kvm"; "xfs"] /\ btfs true ["xfs"; "vmlinux"; "kvm"] [] = Some ["vmlinux"; "kvm"; "xfs"].
Proof. split; vm_compute; reflexivity. Qed.
(** C64, refuted: with "vmlinux" listed, the program crashes exactly if two of the listed modules sort before it; if one does, vmlinux is searched twice. *)
Theorem C64_vmlinux_listed_refuted :
  (forall files kmods, In "vmlinux" kmods ->
     (btfs false files kmods = None <-> exists a b, a <> b /\ In a kmods /\ In b kmods /\ String.ltb a "vmlinux" = true /\ String.ltb b "vmlinux" = true)) /\
  (forall files kmods a, In "vmlinux" kmods -> In "vmlinux" files -> In a kmods -> String.ltb a "vmlinux" = true ->
     (forall b, In b kmods -> String.ltb b "vmlinux" = true -> b = a) -> exists r, btfs false files kmods = Some ("vmlinux" :: r) /\ In "vmlinux" r).
Proof. split; [exact btfs_crash|exact btfs_twice]. Qed.
Print Assumptions C64_vmlinux_listed_refuted.
Example C64_crash_demo : btfs false ["vmlinux"; "kvm"; "nf_tables"] ["vmlinux"; "kvm"; "nf_tables"] = None /\ btfs false ["vmlinux"; "kvm"] ["vmlinux"; "kvm"] = Some ["vmlinux"; "kvm"; "vmlinux"]
  /\ btfs false ["vmlinux"; "xfs"] ["xfs"; "vmlinux"] = Some ["vmlinux"; "xfs"].
Proof. repeat split; vm_compute; reflexivity. Qed.
(** C64.  The modules searched are those listed, those whose name begins a pattern (the first such in the symbol table's order) and those of
    the symbols named by a pattern: each once, and no others. *)
Theorem C64_modules_partial : forall mods sym_mod kmods fs, NoDup (prepare mods sym_mod kmods fs) /\
  forall x, In x (prepare mods sym_mod kmods fs) <-> In x kmods \/ (x <> "" /\ exists f, In f fs /\ (first_mod mods f = Some x \/ sym_mod f = Some x)).
Proof. intros. split; [apply sort_compact_nodup|intros x; apply prepare_iff]. Qed.
Print Assumptions C64_modules_partial.
(** C64, refuted: the patterns are looked up as the user wrote them.  A pattern written with an option, "(b)nft_do_chain", is no symbol and
    begins with no module name: its module is never searched, whatever function it names. *)
Theorem C64_options_hide_module_refuted : forall mods sym_mod kmods fs, (forall m, In m mods -> has_prefix "(" m = false) ->
  (forall f, In f fs -> has_prefix "(" f = true /\ sym_mod f = None) -> forall x, In x (prepare mods sym_mod kmods fs) <-> In x kmods.
Proof.
  intros mods sym_mod kmods fs Hm Hf x. rewrite prepare_iff. split; [|auto]. intros [H|(Hx & f & Hin & H)]; [exact H|]. exfalso. destruct (Hf f Hin) as [H1 H2].
  destruct H as [H|H]; [|congruence]. unfold first_mod in H. apply find_some in H as [H3 H4]. specialize (Hm x H3).
  destruct x as [|c x]; [congruence|]. destruct f as [|d f]; [discriminate|]. cbn [has_prefix] in H1, H4, Hm.
  rewrite andb_true_r in H1. apply Ascii.eqb_eq in H1. subst d. apply andb_prop in H4 as [H4 _]. apply Ascii.eqb_eq in H4. subst c. rewrite Ascii.eqb_refl in Hm. discriminate.
Qed.
Print Assumptions C64_options_hide_module_refuted.
Example C64_infer_demo : let smod f := if String.eqb f "__nft_trace" then Some "nf_tables" else None in
  prepare ["nf"; "kvm"] smod [] ["kvm_vcpu_run"; "__nft_trace"] = ["kvm"; "nf_tables"] /\ prepare ["nf"; "kvm"] smod [] ["(b)kvm_vcpu_run"; "(b)__nft_trace"] = [].
Proof. split; vm_compute; reflexivity. Qed.
