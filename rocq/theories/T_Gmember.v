(** * Property C101: which functions may join the call graph of --output-fgraph. *)
From Coq Require Import List Bool String ZArith Lia.
From Verif Require Import M_Go P_Go M_Flags M_Kfuncs S_Kfuncs P_Kfuncs M_Gmember S_Gmember P_Gmember M_Gparse S_Gparse P_Gparse T_Gparse.
From Verif Require M_Kallsyms S_Kallsyms.
Import ListNotations.
Open Scope string_scope.
Open Scope list_scope.

(** C101.  A kernel function joins, with this declaration from this BTF, exactly when: it is the function at that address; no exclude pattern rules it out; its
    name is not taken yet; and this is the first BTF with a declaration the include patterns (or, without any, the registers) allow, none with an unusable
    one coming first. *)
Theorem C101_member : forall glob w ls taken ip n b d, M_Kallsyms.new_kallsyms ls = Some (mw_ks w) -> no_multi w ->
  (may_join glob w taken ip = VFunc n b d <->
   kernel_function ls w ip n /\ ~ ruled_out glob w n /\ ~ In n taken /\
   exists ts, first_spec (fun s => exists d', declared (snd s) n d' /\ (allowed glob w n d' \/ fatal w n d')) (mw_specs w) (b, ts) /\ declared ts n d /\ allowed glob w n d).
Proof. intros. apply member_iff; assumption. Qed.
Print Assumptions C101_member.
(** C101.  A BPF program joins unless it is itself a fentry or fexit program whose (last listed) link attaches it to another program. *)
Theorem C101_program : forall glob w taken ip p, may_join glob w taken ip = VProg p <->
  mw_progs w ip = Some p /\ (b_tracing p = true -> forall l, last_link (mw_links w) (b_id p) l -> l_fentry_exit l = true -> l_target l = 0%Z).
Proof. exact prog_iff. Qed.
Print Assumptions C101_program.
(** C101.  What joins fits no exclude pattern, and fits an include pattern if there are any. *)
Theorem C101_patterns : forall glob w ls taken ip n b d, M_Kallsyms.new_kallsyms ls = Some (mw_ks w) -> no_multi w -> may_join glob w taken ip = VFunc n b d ->
  (forall m, In m (mw_excludes w) -> ~ fits glob m (to_func n d)) /\ (mw_includes w <> [] -> exists m, In m (mw_includes w) /\ fits glob m (to_func n d)).
Proof.
  intros glob w ls taken ip n b d Hks Hm H. apply (member_iff glob w ls Hks Hm) in H as (_ & Hr & _ & ts & (l1 & l2 & E & _ & _) & Hd & Hp & Hs & Ha). split.
  - intros m Hin Hf. apply Hr. exists b, ts, d. split; [rewrite E; apply in_or_app; right; left; reflexivity|]. split; [exact Hd|]. split; [exact Hp|]. split; [exact Hs|]. split; [|exists m; auto].
    destruct (mw_includes w); [|apply Ha]. unfold regs in Ha. lia.
  - intros Hne. destruct (mw_includes w); [congruence|]. apply Ha.
Qed.
Print Assumptions C101_patterns.
(** C101.  The check for names already taken refuses nothing: names of functions that may join are unique. *)
Theorem C101_names : forall glob w ls taken ip, M_Kallsyms.new_kallsyms ls = Some (mw_ks w) -> no_multi w ->
  (forall n, In n taken -> exists ip', ip' <> ip /\ kernel_function ls w ip' n) -> may_join glob w taken ip = may_join glob w [] ip.
Proof.
  intros glob w ls taken ip Hks Hm Ht. destruct (mw_progs w ip) as [p|] eqn:Hp; [unfold may_join; rewrite Hp; reflexivity|].
  destruct (join_cases glob w ls Hks taken ip Hp) as [(m & Hk & E)|(Hk & E)]; destruct (join_cases glob w ls Hks [] ip Hp) as [(m' & Hk' & E')|(Hk' & E')].
  - assert (m' = m) by exact (kf_fun w ls ip m' m Hk' Hk). subst m'. rewrite E, E'. cbn [mem existsb]. destruct (mem m taken) eqn:Em; [|reflexivity]. exfalso. apply mem_iff in Em. destruct (Ht m Em) as (ip' & Hne & Hk2).
    apply Hne. exact (names_distinct w ls ip' ip m Hk2 Hk).
  - exfalso. exact (Hk' m Hk).
  - exfalso. exact (Hk m' Hk').
  - congruence.
Qed.
Print Assumptions C101_names.

(** The exploration of C30/C31 with this check. *)
Definition joins (glob : string -> string -> bool) (w : mworld) (ip : Z) : bool := match may_join glob w [] ip with VProg _ | VFunc _ _ _ => true | _ => false end.
Definition graph_world (glob : string -> string -> bool) (w : mworld) (callees : Z -> list Z) (repl : Z -> option Z) (max : nat) : gworld :=
  {| w_ok := joins glob w; w_callees := callees; w_repl := repl; w_max := max |}.
(** C101.  Whatever the schedule: a kernel function in the graph is one that no exclude pattern fits and that an include pattern fits if any is given; this holds of the
    roots too. *)
Theorem C101_graph : forall glob w ls callees repl max roots n b s ip r, M_Kallsyms.new_kallsyms ls = Some (mw_ks w) -> no_multi w ->
  gsteps (graph_world glob w callees repl max) n b (ginit roots) s -> aget Z.eqb ip (g_graphs s) = Some (Some r) ->
  (exists p, mw_progs w ip = Some p) \/
  exists name d, kernel_function ls w ip name /\ plain name d /\ small d /\
    (forall m, In m (mw_excludes w) -> ~ fits glob m (to_func name d)) /\ (mw_includes w <> [] -> exists m, In m (mw_includes w) /\ fits glob m (to_func name d)).
Proof.
  intros glob w ls callees repl max roots n b s ip r Hks Hm H Hg. destruct (C30_depth _ _ _ _ _ _ _ H Hg) as [Ho _]. cbn [graph_world w_ok] in Ho. unfold joins in Ho.
  destruct (may_join glob w [] ip) as [| |p|name btf d] eqn:E; try discriminate.
  - left. exists p. apply prog_iff in E. apply E.
  - right. exists name, d. assert (P := C101_patterns glob w ls [] ip name btf d Hks Hm E). apply (member_iff glob w ls Hks Hm) in E as (Hk & _ & _ & ts & _ & _ & Hp & Hs & _).
    split; [exact Hk|]. split; [exact Hp|]. split; [exact Hs|]. exact P.
Qed.
Print Assumptions C101_graph.

(** C101.  With include patterns the check never fails: what cannot be traced is left out. *)
Theorem C101_no_abort_partial : forall glob w ls taken ip, M_Kallsyms.new_kallsyms ls = Some (mw_ks w) -> no_multi w -> mw_includes w <> [] -> may_join glob w taken ip <> VErr.
Proof.
  intros glob w ls taken ip Hks Hm Hne H. apply (abort_iff glob w ls Hks Hm) in H as (n & _ & _ & b & ts & d & _ & _ & (Hi & _)). contradiction.
Qed.
Print Assumptions C101_no_abort_partial.
(** C101.  When it fails (and with it the whole run): exactly at a function that passes the other checks and takes an argument of more than 16 bytes. *)
Theorem C101_abort : forall glob w ls taken ip, M_Kallsyms.new_kallsyms ls = Some (mw_ks w) -> no_multi w ->
  (may_join glob w taken ip = VErr <-> exists n, kernel_function ls w ip n /\ ~ ruled_out glob w n /\
     exists b ts d, first_spec (fun s => exists d', declared (snd s) n d' /\ (allowed glob w n d' \/ fatal w n d')) (mw_specs w) (b, ts) /\ declared ts n d /\ fatal w n d).
Proof. intros. apply abort_iff; assumption. Qed.
Print Assumptions C101_abort.

Definition star : string -> string -> bool := fun p s => String.eqb p "*" || String.eqb p s.
Definition pat (n : string) : kflag := {| f_name := n; f_arg := ""; f_typ := ""; f_insn := false; f_graph := false; f_stack := false; f_lbr := false; f_both := false; f_pkt := false;
  f_multi := false; f_argName := ""; f_argType := "" |}.
Definition par (n : string) : param := {| pm_name := n; pm_void := false; pm_type := "int" |}.
Definition demo_ls : list (list string) := [["10"; "T"; "foo"]; ["20"; "t"; "big"]; ["30"; "T"; "foo2"]; ["30"; "T"; "foo2_alias"]; ["40"; "t"; "sub"; "bpf"]; ["50"; "t"; "twin"]; ["60"; "t"; "twin"]].
Definition demo_big : decl := {| d_params := [(par "s", 24%Z)]; d_ret_struct := false |}.
Definition demo_foo : decl := {| d_params := [(par "a", 8%Z); (par "b", 16%Z)]; d_ret_struct := false |}.
Definition demo_none : decl := {| d_params := []; d_ret_struct := false |}.
Definition demo_types : list typ := [{| t_name := "foo"; t_decl := Some demo_foo |}; {| t_name := "big"; t_decl := Some demo_big |}; {| t_name := "sock"; t_decl := None |};
  {| t_name := "foo2"; t_decl := Some demo_none |}; {| t_name := "sub"; t_decl := Some demo_none |}; {| t_name := "twin"; t_decl := Some demo_none |}].
Definition demo_w (inc exc : list kflag) : mworld := {| mw_ks := match M_Kallsyms.new_kallsyms demo_ls with Some k => k | None => M_Kallsyms.ks_empty end;
  mw_progs := fun _ => None; mw_links := []; mw_specs := [("vmlinux", demo_types); ("mod", [])]; mw_includes := inc; mw_excludes := exc; mw_max := 6 |}.
(** C101, refuted: without include patterns, meeting a function with a large argument among the callees is an error, which ends the run; excluding that function does not help. *)
Theorem C101_large_argument_refuted : exists w ls ip n d, M_Kallsyms.new_kallsyms ls = Some (mw_ks w) /\ no_multi w /\ kernel_function ls w ip n /\
  (exists m, In m (mw_excludes w) /\ fits star m (to_func n d)) /\ In ("vmlinux", demo_types) (mw_specs w) /\ declared demo_types n d /\ may_join star w [] ip = VErr.
Proof.
  exists (demo_w [] [pat "big"]), demo_ls, 32%Z, "big", demo_big. split; [vm_compute; reflexivity|]. split.
  { intros m [[]|[<-|[]]]. reflexivity. }
  split; [|split; [|split; [left; reflexivity|split; [apply func_named_iff|]; vm_compute; reflexivity]]].
  - split; [reflexivity|]. split; [exists [(16%Z, "foo")], [(48%Z, "foo2"); (48%Z, "foo2_alias"); (64%Z, "sub"); (80%Z, "twin"); (96%Z, "twin")]; split; [vm_compute; reflexivity|]; cbn; intros s' Hs; intuition (subst; cbn in *; lia)|].
    split; [exists [(16%Z, "foo")], 32%Z, [(48%Z, "foo2"); (48%Z, "foo2_alias"); (64%Z, "sub"); (80%Z, "twin"); (96%Z, "twin")]; split; [vm_compute; reflexivity|]; cbn; intros s' Hs; intuition (subst; cbn in *; discriminate)|].
    split; [|split; unfold denied, never_returns; cbn; intuition discriminate].
    intros (fa & ft & rest & Hin & _). cbn in Hin. intuition congruence.
  - exists (pat "big"). split; [left; reflexivity|]. split; [reflexivity|left; reflexivity].
Qed.
Print Assumptions C101_large_argument_refuted.
(** C101, refuted: a function that -k selects is dropped from the graph when another symbol at its address is listed after it. *)
Theorem C101_alias_refuted : exists w ls n d k, M_Kallsyms.new_kallsyms ls = Some (mw_ks w) /\ no_multi w /\ mw_includes w = [] /\ mw_excludes w = [] /\ In ("vmlinux", demo_types) (mw_specs w) /\
  declared demo_types n d /\ match_kernel_func star (msyms w) [pat n] (mw_max w) (to_func n d) = Some (pat n, k) /\ may_join star w [] (ky_addr k) = VSkip.
Proof.
  exists (demo_w [] []), demo_ls, "foo2", demo_none, {| ky_addr := 48; ky_duped := false |}.
  split; [vm_compute; reflexivity|]. split; [intros m [[]|[]]|]. split; [reflexivity|]. split; [reflexivity|]. split; [left; reflexivity|].
  split; [apply func_named_iff|split]; vm_compute; reflexivity.
Qed.
Print Assumptions C101_alias_refuted.
(** Concrete: foo joins, unless excluded or not included; a symbol of BPF code, an alias without BTF and a name listed twice do not. *)
Example C101_demo :
  may_join star (demo_w [] []) [] 16 = VFunc "foo" "vmlinux" demo_foo /\
  may_join star (demo_w [] [pat "*"]) [] 16 = VSkip /\ may_join star (demo_w [pat "twin"] []) [] 16 = VSkip /\ may_join star (demo_w [pat "*"] []) [] 32 = VSkip /\
  may_join star (demo_w [] []) [] 64 = VSkip /\ may_join star (demo_w [] []) [] 80 = VSkip /\ may_join star (demo_w [] []) [] 17 = VSkip.
Proof. vm_compute. repeat split; reflexivity. Qed.
Example C101_hyps : M_Kallsyms.new_kallsyms demo_ls = Some (mw_ks (demo_w [pat "*"] [pat "big"])) /\ no_multi (demo_w [pat "*"] [pat "big"]).
Proof. split; [vm_compute; reflexivity|]. intros m [[<-|[]]|[<-|[]]]; reflexivity. Qed.
