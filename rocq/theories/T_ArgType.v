(** * Property C108: the context of a traced BPF program has the type of what is really passed. *)
From Coq Require Import List Bool String ZArith.
From Verif Require Import M_PktSel M_ArgType S_ArgType P_ArgType.
Import ListNotations.
Open Scope string_scope.

(** Parameters keep their number, order and names; one that points to a context struct gets the kernel's struct behind it, every other keeps
    its type.  Missing: a pointer to a const or typedef version of the context (refuted below). *)
Theorem C108_context_types_partial : forall krnl ps qs, correct_params krnl ps = Some qs -> List.length qs = List.length ps /\
  forall i n t, nth_error ps i = Some (n, t) -> exists t', nth_error qs i = Some (n, t') /\
    (forall c k, behind c = Some k -> points_plainly t c -> exists m s, krnl k = Some (PStruct m s) /\ t' = PPtr (PStruct m s)) /\
    ((forall c k, behind c = Some k -> ~ points_plainly t c) -> t' = t).
Proof.
  intros krnl ps qs H. destruct (params_nth krnl ps qs H) as [Hl Hi]. split; [exact Hl|]. intros i n t Hn. destruct (Hi i n t Hn) as (t' & Ht & E).
  exists t'. split; [exact Ht|]. split.
  - intros c k Hb Hp. rewrite (arg_ctx krnl t c k Hb Hp) in E. unfold struct_pointer in E. destruct (krnl k) as [u|] eqn:Ek; [|discriminate].
    destruct u as [|m s| |]; try discriminate. injection E as <-. eauto.
  - intros Ho. rewrite (arg_other krnl t Ho) in E. congruence.
Qed.
Print Assumptions C108_context_types_partial.

(** Tracing fails exactly when there is a context parameter and the kernel's BTF has no struct for it. *)
Theorem C108_fails_exactly_without_struct : forall krnl ps, correct_params krnl ps = None <->
  exists n t c k, In (n, t) ps /\ behind c = Some k /\ points_plainly t c /\ (forall m s, krnl k <> Some (PStruct m s)).
Proof.
  intros krnl ps. rewrite params_none. split.
  - intros (n & t & Hi & H). apply arg_none in H as (c & k & Hb & Hp & H). exists n, t, c, k. repeat split; auto. intros m s E.
    unfold struct_pointer in H. rewrite E in H. discriminate.
  - intros (n & t & c & k & Hi & Hb & Hp & H). exists n, t. split; [exact Hi|]. apply arg_none. exists c, k. split; [exact Hb|]. split; [exact Hp|].
    unfold struct_pointer. destruct (krnl k) as [u|] eqn:E; [|reflexivity]. destruct u as [|m s| |]; try reflexivity. destruct (H m s eq_refl).
Qed.
Print Assumptions C108_fails_exactly_without_struct.

(** With the corrected parameters --filter-pkt picks the parameter and the kind of packet it would have picked, never as a context. *)
Theorem C108_same_packet_parameter : forall krnl ps qs, (forall n m s, krnl n = Some (PStruct m s) -> m = n) -> correct_params krnl ps = Some qs ->
  choose_filter 0 (map snd qs) = option_map (fun r => (fst r, false)) (choose_filter 0 (map snd ps)).
Proof. intros krnl ps qs Hn H. exact (same_choice krnl Hn ps qs 0 H). Qed.
Print Assumptions C108_same_packet_parameter.

(** No parameter points to a context struct any more. *)
Theorem C108_no_context_left_partial : forall krnl ps qs n t c k, (forall n m s, krnl n = Some (PStruct m s) -> m = n) ->
  correct_params krnl ps = Some qs -> In (n, t) qs -> behind c = Some k -> ~ points_plainly t c.
Proof. intros krnl ps qs n t c k Hn. exact (no_context_left krnl Hn ps qs n t c k). Qed.
Print Assumptions C108_no_context_left_partial.

(** `const struct __sk_buff *ctx`: whatever the kernel has, the parameter keeps the layout of struct __sk_buff though an sk_buff is passed. *)
Theorem C108_const_context_refuted : forall krnl s, let t := PPtr (PQual (PStruct "__sk_buff" s)) in
  points_to_struct t "__sk_buff" /\ correct_params krnl [("ctx", t)] = Some [("ctx", t)].
Proof. intros krnl s t. split; [exists (PQual (PStruct "__sk_buff" s)), s; split; reflexivity|reflexivity]. Qed.
Print Assumptions C108_const_context_refuted.

Definition demo_krnl (n : string) : option ptype :=
  if String.eqb n "sk_buff" then Some (PStruct "sk_buff" 232) else if String.eqb n "xdp_buff" then Some (PStruct "xdp_buff" 56) else None.
Example C108_demo : correct_params demo_krnl
    [("n", PScalar 4); ("skb", PQual (PPtr (PStruct "__sk_buff" 192))); ("m", PPtr (PStruct "bpf_map" 320)); ("x", PPtr (PStruct "xdp_md" 24))] =
  Some [("n", PScalar 4); ("skb", PPtr (PStruct "sk_buff" 232)); ("m", PPtr (PStruct "bpf_map" 320)); ("x", PPtr (PStruct "xdp_buff" 56))] /\
  points_plainly (PQual (PPtr (PStruct "__sk_buff" 192))) "__sk_buff" /\ behind "__sk_buff" = Some "sk_buff" /\
  correct_params (fun _ => None) [("x", PPtr (PStruct "xdp_md" 24))] = None /\
  (forall n m s, demo_krnl n = Some (PStruct m s) -> m = n).
Proof.
  split; [reflexivity|]. split; [exists 192%Z; reflexivity|]. split; [reflexivity|]. split; [reflexivity|].
  intros n m s. unfold demo_krnl. destruct (String.eqb_spec n "sk_buff") as [->|]; [congruence|]. destruct (String.eqb_spec n "xdp_buff") as [->|]; [congruence|discriminate].
Qed.
