(** * C104: what a run needs is there, or the run does not start. *)
From Coq Require Import List Bool String.
From Verif Require Import M_Flags S_Flags P_Flags S_Ltest P_Ltest M_Need S_Need P_Need.
Import ListNotations.
Open Scope string_scope.
Open Scope list_scope.

(** C104.  Whenever tracing starts and branches were asked for of all targets, of a function or of a program, the kernel can hand them out and their
    recording is on.  Missing: tracepoints (refuted below). *)
Theorem C104_branches_ready_partial : forall a b loaded ran endbr lbr_ok vm a2l_ok f br ln, start a b loaded ran endbr lbr_ok vm a2l_ok = SGo f br ln ->
  asks_branches a -> br = true /\ lbr_ok = true /\ branches_offered b.
Proof.
  intros a b loaded ran endbr lbr_ok vm a2l_ok f br ln H Ha. apply start_go in H as (Hd & Hb & Hl & _). apply asks_required in Ha. rewrite Ha in Hb. subst br.
  split; [reflexivity|]. split; [apply Hl; reflexivity|]. apply (detect_iff a b loaded ran endbr); [exists f; exact Hd|exact Ha].
Qed.
(** C104.  Whenever tracing starts with --output-stack or --output-flamegraph, the kernel can record stacks; with a multi-mode target, it can attach to
    many functions at once; and it always can send events. *)
Theorem C104_kernel_suffices : forall a b loaded ran endbr lbr_ok vm a2l_ok f br ln, start a b loaded ran endbr lbr_ok vm a2l_ok = SGo f br ln ->
  ringbuf_offered b /\ (asks_stacks_everywhere a -> stacks_offered b) /\ (asks_multi a -> multi_offered b).
Proof.
  intros a b loaded ran endbr lbr_ok vm a2l_ok f br ln H. apply start_go in H as (Hd & _ & _ & Hm & _).
  assert (Hi : exists f, detect a b loaded ran endbr = Some f) by (exists f; exact Hd). apply detect_iff in Hi as (_ & _ & _ & _ & Hr & _ & Hs).
  split; [exact Hr|]. split; [exact Hs|]. intros (k & Hk & Ho). apply (detect_kmulti _ _ _ _ _ _ Hd), Hm. intros E.
  assert (X : In k (filter (contains "(m)") (a_kfuncs a))).
  { apply filter_In. split; [exact Hk|]. apply (option_text Km "(m)" k eq_refl); [right; right; left; reflexivity|exact Ho]. }
  rewrite E in X. destruct X.
Qed.
(** C104.  Whenever tracing starts and stacks or branches were asked for, they come with source lines if a vmlinux file was found and use of it was not
    forbidden; without one, and if forbidden, there are none. *)
Theorem C104_lines : forall a b loaded ran endbr lbr_ok vm a2l_ok f br ln, start a b loaded ran endbr lbr_ok vm a2l_ok = SGo f br ln ->
  asks_stacks a \/ asks_branches a -> (ln = true <-> vm = VFound /\ a_novmlinux a = false).
Proof.
  intros a b loaded ran endbr lbr_ok vm a2l_ok f br ln H Ha. apply start_go in H as (_ & _ & _ & _ & Hl). rewrite Hl. unfold required_vmlinux.
  rewrite (asks_lines a Ha), andb_true_r, negb_true_iff. reflexivity.
Qed.
(** C104.  What else tracing can use is known: exactly what the kernel declares. *)
Theorem C104_features_known : forall a b loaded ran endbr lbr_ok vm a2l_ok f br ln, start a b loaded ran endbr lbr_ok vm a2l_ok = SGo f br ln ->
  (has_kmulti f = true <-> multi_offered b) /\ (has_ksession f = true <-> offers b "bpf_attach_type" "BPF_TRACE_KPROBE_SESSION") /\
  (has_fsession f = true <-> offers b "bpf_attach_type" "BPF_TRACE_FSESSION") /\ endbr = Some (has_endbr f).
Proof. intros a b loaded ran endbr lbr_ok vm a2l_ok f br ln H. apply start_go in H as (Hd & _). exact (detect_kmulti _ _ _ _ _ _ Hd). Qed.
(** C104.  Nothing else keeps a run from starting: on a kernel with a ring buffer, where the probe runs and the enumerations can be found, branches are
    needed only if --output-lbr is given or the text of a -k or -p argument has "(l)", the stack helper only with --output-stack or --output-flamegraph,
    kprobe.multi only if the text of a -k argument has "(m)". *)
Theorem C104_starts : forall a b e lbr_ok vm a2l_ok, ringbuf_offered b -> readable b ->
  (a_lbr a = true \/ mentions_text "(l)" (a_kfuncs a ++ a_progs a) -> branches_offered b /\ lbr_ok = true) ->
  (asks_stacks_everywhere a -> stacks_offered b) -> (mentions_text "(m)" (a_kfuncs a) -> multi_offered b) -> vm <> VError -> (vm = VFound -> a2l_ok = true) ->
  exists f ln, start a b true true (Some e) lbr_ok vm a2l_ok = SGo f (required_lbr a) ln.
Proof.
  intros a b e lbr_ok vm a2l_ok Hr Hb Hl Hs Hm Hv Ha.
  assert (Hd : exists f, detect a b true true (Some e) = Some f).
  { apply detect_iff. split; [reflexivity|]. split; [reflexivity|]. split; [discriminate|]. split; [exact Hb|]. split; [exact Hr|]. split; [|exact Hs].
    intros E. apply required_text in E. apply Hl in E. apply E. }
  destruct Hd as (f & Hd). exists f. apply start_runs; [exact Hd| | |exact Hv|auto].
  - intros E. apply required_text in E. apply Hl in E. apply E.
  - intros E. apply (detect_kmulti _ _ _ _ _ _ Hd), Hm. destruct (filter (contains "(m)") (a_kfuncs a)) as [|k ks] eqn:Ef; [contradiction|].
    assert (X : In k (filter (contains "(m)") (a_kfuncs a))) by (rewrite Ef; left; reflexivity). apply filter_In in X as [X Y]. exists k. split; [exact X|apply contains_iff, Y].
Qed.

Definition kernel : nbtf :=
  [("bpf_map_type", NEnum ["BPF_MAP_TYPE_HASH"; "BPF_MAP_TYPE_RINGBUF"]); ("task_struct", NOther);
   ("bpf_func_id", NEnum ["BPF_FUNC_get_stackid"; "BPF_FUNC_get_branch_snapshot"]); ("bpf_attach_type", NEnum ["BPF_TRACE_FENTRY"; "BPF_TRACE_KPROBE_MULTI"])].
Definition targets (ks ts ps : list string) : nargs :=
  {| a_kfuncs := ks; a_ktps := ts; a_progs := ps; a_lbr := false; a_stack := false; a_flame := false; a_novmlinux := false |}.
(** C104, refuted: a tracepoint with option (l) is traced although branch recording was never switched on, and on machines without it. *)
Theorem C104_tracepoint_branches_refuted : exists a b f, (exists k, In k (a_ktps a) /\ has_option Kl k) /\ start a b true true (Some false) false VNotFound false = SGo f false false.
Proof.
  exists (targets [] ["(l)netif_receive_skb"] []), kernel. eexists. split; [|vm_compute; reflexivity].
  exists "(l)netif_receive_skb". split; [left; reflexivity|]. exists [Tok Kl], "netif_receive_skb". repeat split.
Qed.
(** C104, refuted: a function with option (s) starts on a kernel that cannot record stacks. *)
Theorem C104_target_stacks_refuted : exists a b f, asks_stacks a /\ ~ stacks_offered b /\ start a b true true (Some false) false VNotFound false = SGo f false false.
Proof.
  exists (targets ["(s)tcp_v4_rcv"] [] []).
  exists [("bpf_map_type", NEnum ["BPF_MAP_TYPE_RINGBUF"]); ("bpf_func_id", NEnum ["BPF_FUNC_get_branch_snapshot"]); ("bpf_attach_type", NEnum [])]. eexists. split; [|split; [|vm_compute; reflexivity]].
  - right. exists "(s)tcp_v4_rcv". split; [left; reflexivity|]. exists [Tok Ks], "tcp_v4_rcv". repeat split.
  - intros (vs & [E|[E|[E|[]]]] & Hv); inversion E; subst. destruct Hv as [Hv|[]]. discriminate.
Qed.
(** C104, refuted: "(l)" anywhere in a function's argument (here, the type of a parameter) demands branch recording that nobody asked for. *)
Theorem C104_branches_not_asked_refuted : exists a, a_lbr a = false /\ (forall k, In k (a_kfuncs a ++ a_ktps a ++ a_progs a) -> ~ has_option Kl k) /\
  forall b vm a2l_ok, start a b true true (Some false) false vm a2l_ok = SRefused.
Proof.
  exists (targets ["tcp_sendmsg:(l)size"] [] []). split; [reflexivity|]. split.
  - intros k [<-|[]] (ts & body & E & _ & Ha). destruct ts as [|t ts]; [discriminate|]. destruct t as [[]|[] [] []]; discriminate.
  - intros b vm a2l_ok. unfold start. destruct (detect (targets ["tcp_sendmsg:(l)size"] [] []) b true true (Some false)); reflexivity.
Qed.
Print Assumptions C104_branches_ready_partial.
Print Assumptions C104_kernel_suffices.
Print Assumptions C104_lines.
Print Assumptions C104_features_known.
Print Assumptions C104_starts.
Print Assumptions C104_tracepoint_branches_refuted.
Print Assumptions C104_target_stacks_refuted.
Print Assumptions C104_branches_not_asked_refuted.

(** -k '(l)(m)tcp_*:(struct sock * )sk' -p '(s)123' *)
Definition demo_args := targets ["(l)(m)tcp_*:(struct sock * )sk"] [] ["(s)123"].
Example C104_case : asks_branches demo_args /\ asks_multi demo_args /\ asks_stacks demo_args /\ readable kernel /\ ringbuf_offered kernel /\ branches_offered kernel /\ multi_offered kernel /\
  start demo_args kernel true true (Some true) true VFound true = SGo {| has_fsession := false; has_kmulti := true; has_ksession := false; has_endbr := true |} true true.
Proof.
  assert (E : demo_args = targets ["(l)(m)tcp_*:(struct sock * )sk"] [] ["(s)123"]) by reflexivity.
  split; [|split; [|split; [|split; [|split; [|split; [|split; [|vm_compute; reflexivity]]]]]]].
  - right. eexists. split; [left; reflexivity|]. exists [Tok Kl; Tok Km], "tcp_*:(struct sock * )sk". repeat split.
  - eexists. split; [left; reflexivity|]. exists [Tok Kl; Tok Km], "tcp_*:(struct sock * )sk". repeat split.
  - right. eexists. split; [right; left; reflexivity|]. exists [Tok Ks], "123". repeat split.
  - split; eexists; [exists (firstn 2 kernel), (skipn 3 kernel)|exists (firstn 3 kernel), []]; (split; [reflexivity|]); cbn; intros p Hp; repeat (destruct Hp as [<-|Hp]; [discriminate|]); destruct Hp.
  - eexists. split; [left; reflexivity|]. right. left. reflexivity.
  - eexists. split; [right; right; left; reflexivity|]. right. left. reflexivity.
  - eexists. split; [right; right; right; left; reflexivity|]. right. left. reflexivity.
Qed.
