(** * C83 (which packet --filter-pkt and --output-pkt are about), C84 (the programs they leave). *)
From Coq Require Import List Bool String ZArith Lia.
From Verif Require Import M_Go M_Asm S_Asm M_Pkt M_PktSel S_PktSel P_PktSel.
Import ListNotations.
Open Scope string_scope.
Open Scope list_scope.
Open Scope Z_scope.

(** C83.  A call of a function passes the packet filter exactly if the packet given by its first packet parameter matches the expression: the
    bytes from the link-layer header (or the network-layer header, if there is no link-layer one) to the end of the linear data, seen as
    the layer they start with; an expression that makes no sense for the network layer matches no packet without a link-layer header.
    Missing: parameters declared with a qualifier behind the pointer, and those behind a struct of more than 8 bytes passed by value (both
    refuted below). *)
Theorem C83_packet_filter_partial : forall skip m l2 l3 at_ ps slots i k, Forall bare ps -> first_packet ps i k -> Forall (fun t => slots_of t = 1%nat) (firstn i ps) ->
  (verdict skip m l2 l3 at_ ps slots = true <-> matches skip m l2 l3 k (at_ (nth (slot ps i) slots 0))).
Proof. exact verdict_iff. Qed.
(** C83.  Every call of a function without a packet parameter passes. *)
Theorem C83_no_packet_passes : forall skip m l2 l3 at_ ps slots, Forall bare ps -> (forall t k, In t ps -> ~ is_packet t k) -> verdict skip m l2 l3 at_ ps slots = true.
Proof. exact no_packet_passes. Qed.
(** C83.  The packet that is shown is the packet that is filtered. *)
Theorem C83_same_packet : forall ps, choose_output 0 ps = option_map fst (choose_filter 0 ps).
Proof. intros ps. apply choices_agree. Qed.
(** C83, refuted: a parameter declared as pointer to a const packet is not recognised, and calls pass whatever the packet. *)
Theorem C83_const_packet_refuted : forall skip m l2 l3 at_ slots n sz k, packet_kind n k ->
  first_packet [PPtr (PQual (PStruct n sz))] 0 k /\ verdict skip m l2 l3 at_ [PPtr (PQual (PStruct n sz))] slots = true.
Proof.
  intros skip m l2 l3 at_ slots n sz k Hk. split; [|reflexivity]. exists (PPtr (PQual (PStruct n sz))). split; [reflexivity|]. split; [exists n; auto|]. intros j u k' Hj. lia.
Qed.
(** C83, refuted: behind a struct of 16 bytes passed by value, the second half of the struct is taken for the packet's address. *)
Theorem C83_behind_struct_refuted : forall skip m l2 l3 at_ x y skb n, let ps := [PStruct n 16; PPtr (PStruct "sk_buff" 232)] in
  first_packet ps 1 KSkb /\ nth (slot ps 1) [x; y; skb] 0 = skb /\ verdict skip m l2 l3 at_ ps [x; y; skb] = filter_fn KSkb skip m l2 l3 (at_ y).
Proof.
  intros skip m l2 l3 at_ x y skb n ps. split; [|split; reflexivity]. exists (PPtr (PStruct "sk_buff" 232)). split; [reflexivity|]. split.
  - exists "sk_buff". split; [reflexivity|]. left. reflexivity.
  - intros [|j] u k' Hj E; [|lia]. cbn in E. injection E as <-. intros (n' & E & _). discriminate.
Qed.
(** C83, refuted: an expression the pcap compiler rejects is not reported for a BPF program: it runs with the filter of the compiled object. *)
Theorem C83_bad_expression_refuted : forall (B : Type) (mov0 : bool -> B) ldarg call exit_ pcap reject kern expr sz p ctx, expr <> "" -> pcap expr true = None ->
  (ctx = "xdp_md" /\ kern "xdp_buff" = true \/ ctx = "__sk_buff" /\ kern "sk_buff" = true) ->
  inject_pkt_filter mov0 ldarg call exit_ pcap reject kern expr [PPtr (PStruct ctx sz)] p = (p, false).
Proof.
  intros B mov0 ldarg call exit_ pcap reject kern expr sz p ctx He Hp Hk. unfold inject_pkt_filter. destruct (String.eqb_spec expr ""); [contradiction|].
  destruct Hk as [[-> Hk]|[-> Hk]]; cbn; rewrite Hk; unfold filter_xdp_edit, filter_skb_edit; rewrite Hp; reflexivity.
Qed.
(** C83.  For other packets it is. *)
Theorem C83_bad_expression_reported : forall (B : Type) (mov0 : bool -> B) ldarg call exit_ pcap reject kern expr ps p i k, expr <> "" -> pcap expr true = None ->
  choose_filter 0 ps = Some (i, k, false) -> snd (inject_pkt_filter mov0 ldarg call exit_ pcap reject kern expr ps p) = true.
Proof.
  intros B mov0 ldarg call exit_ pcap reject kern expr ps p i k He Hp Hc. unfold inject_pkt_filter. destruct (String.eqb_spec expr ""); [contradiction|]. rewrite Hc.
  destruct k; cbn [filter_edit]; unfold filter_xdp_edit, filter_skb_edit; rewrite Hp; reflexivity.
Qed.

(** C84.  For every program with the filter functions and every function whose first packet parameter is the i-th: the edited program can be
    loaded, its filter_pkt loads argument slot [i] and returns what the function for that kind of packet says of it, filter_pcap_l2 (and, for an
    skb, filter_pcap_l3) runs the compiled expression, and every other function is as compiled, but that calls of functions no longer needed are
    replaced by "true". *)
Theorem C84_filter_program : forall (B : Type) (mov0 : bool -> B) ldarg call exit_ pcap reject kern (ext : string -> Prop) fs expr ps i k l2,
  inv ext fs -> incl stubs (map f_name fs) -> (forall b c, pcap expr b = Some c -> good_code c) -> good_code reject -> pcap expr true = Some l2 ->
  expr <> "" -> Forall bare ps -> first_packet ps i k -> (forall t, kern t = true) ->
  exists fs', inject_pkt_filter mov0 ldarg call exit_ pcap reject kern expr ps (image fs) = (image fs', false) /\ inv ext fs' /\
    find_fn "filter_pkt" fs' = Some {| f_name := "filter_pkt"; f_ref := ""; f_head := ldarg i; f_rest := [call_ call (handler k); plain exit_] |} /\
    (exists c t, l2 = c :: t /\ find_fn "filter_pcap_l2" fs' = Some {| f_name := "filter_pcap_l2"; f_ref := ""; f_head := i_body c; f_rest := t |}) /\
    (k = KSkb -> exists c t, (match pcap expr false with Some l3 => l3 | None => reject end) = c :: t /\
       find_fn "filter_pcap_l3" fs' = Some {| f_name := "filter_pcap_l3"; f_ref := ""; f_head := i_body c; f_rest := t |}) /\
    (forall n, ~ In n ["filter_pkt"; "filter_pcap_l2"; "filter_pcap_l3"] ->
       find_fn n fs' = if mem (removed k) n then None else option_map (without (removed k) (mov0 true)) (find_fn n fs)).
Proof.
  intros B mov0 ldarg call exit_ pcap reject kern ext fs expr ps i k l2 Hi Hs Hc Hr Hp He Hb Hf Hk.
  destruct (proj2 (choose_iff ps Hb 0%nat i k) Hf) as (c & Ec). cbn [Nat.add] in Ec. unfold inject_pkt_filter.
  destruct (String.eqb_spec expr ""); [contradiction|]. rewrite Ec.
  destruct (edit_ok mov0 ldarg call exit_ pcap reject ext fs expr i k l2 Hi Hs Hc Hr Hp) as (fs' & E & E1 & E2 & E3 & E4 & E5).
  exists fs'. destruct c; [rewrite Hk, E|rewrite E]; (split; [reflexivity|]); destruct k; auto.
Qed.
(** C84.  Without a packet parameter the filter functions are gone and their calls are "true"; without --filter-pkt nothing is edited here. *)
Theorem C84_filter_cleared : forall (B : Type) (mov0 : bool -> B) ldarg call exit_ pcap reject kern (ext : string -> Prop) fs expr ps, inv ext fs ->
  expr <> "" -> Forall bare ps -> (forall t k, In t ps -> ~ is_packet t k) ->
  exists fs', inject_pkt_filter mov0 ldarg call exit_ pcap reject kern expr ps (image fs) = (image fs', false) /\ inv ext fs' /\
    forall n, find_fn n fs' = if mem all_removed n then None else option_map (without all_removed (mov0 true)) (find_fn n fs).
Proof.
  intros B mov0 ldarg call exit_ pcap reject kern ext fs expr ps Hi He Hb Hn. unfold inject_pkt_filter. destruct (String.eqb_spec expr ""); [contradiction|].
  rewrite (choose_none ps Hb Hn). destruct (clear_all_ok mov0 ext fs Hi) as (fs' & E & H). exists fs'. rewrite E. auto.
Qed.
(** C84.  The same for the functions that record the packet. *)
Theorem C84_output_program : forall (B : Type) (mov0 : bool -> B) ldarg call exit_ (ext : string -> Prop) fs ps i k, inv ext fs ->
  incl recorders (map f_name fs) -> Forall bare ps -> first_packet ps i k ->
  exists fs', inject_pkt_output mov0 ldarg call exit_ true ps (image fs) = (image fs', true) /\ inv ext fs' /\
    find_fn "output_pkt" fs' = Some {| f_name := "output_pkt"; f_ref := ""; f_head := ldarg i; f_rest := [call_ call (recorder k); plain exit_] |} /\
    (forall n, n <> "output_pkt" -> find_fn n fs' = if mem (unused_recorders k) n then None else option_map (without (unused_recorders k) (mov0 false)) (find_fn n fs)).
Proof.
  intros B mov0 ldarg call exit_ ext fs ps i k Hi Hs Hb Hf. destruct (proj2 (choose_iff ps Hb 0%nat i k) Hf) as (c & Ec). cbn [Nat.add] in Ec.
  unfold inject_pkt_output. cbn [negb]. rewrite choices_agree, Ec. cbn [option_map fst].
  destruct (output_edit_ok mov0 ldarg call exit_ ext fs i k Hi Hs) as (fs' & E & E1 & E2 & E3). exists fs'. rewrite E. split; [reflexivity|].
  split; [exact E1|]. destruct k; split; [exact E2|exact E3|exact E2|exact E3|exact E2|exact E3].
Qed.
(** C84.  Where the packet is not asked for, or there is none, they are gone and their calls are "false". *)
Theorem C84_output_cleared : forall (B : Type) (mov0 : bool -> B) ldarg call exit_ (ext : string -> Prop) fs pkt ps, inv ext fs ->
  (pkt = false \/ Forall bare ps /\ forall t k, In t ps -> ~ is_packet t k) ->
  exists fs', inject_pkt_output mov0 ldarg call exit_ pkt ps (image fs) = (image fs', false) /\ inv ext fs' /\
    forall n, find_fn n fs' = if mem recorders n then None else option_map (without recorders (mov0 false)) (find_fn n fs).
Proof.
  intros B mov0 ldarg call exit_ ext fs pkt ps Hi Hc.
  assert (E : inject_pkt_output mov0 ldarg call exit_ pkt ps (image fs) = (output_clear mov0 (image fs), false)).
  { unfold inject_pkt_output. destruct pkt; [|reflexivity]. destruct Hc as [|[Hb Hn]]; [discriminate|]. cbn [negb]. rewrite choices_agree, (choose_none ps Hb Hn). reflexivity. }
  rewrite E. destruct (output_clear_ok mov0 ext fs Hi) as (fs' & E2 & H). exists fs'. rewrite E2. auto.
Qed.
Print Assumptions C83_packet_filter_partial.
Print Assumptions C83_no_packet_passes.
Print Assumptions C83_same_packet.
Print Assumptions C83_const_packet_refuted.
Print Assumptions C83_behind_struct_refuted.
Print Assumptions C83_bad_expression_refuted.
Print Assumptions C83_bad_expression_reported.
Print Assumptions C84_filter_program.
Print Assumptions C84_filter_cleared.
Print Assumptions C84_output_program.
Print Assumptions C84_output_cleared.

(** int f(struct net *net, typedef'd struct sk_buff * skb, int n) *)
Definition demo_ps : list ptype := [PPtr (PStruct "net" 4096); PQual (PPtr (PStruct "sk_buff" 232)); PScalar 4].
Example C83_case : Forall bare demo_ps /\ first_packet demo_ps 1 KSkb /\ Forall (fun t => slots_of t = 1%nat) (firstn 1 demo_ps) /\ choose_filter 0 demo_ps = Some (1%nat, KSkb, false) /\
  (* a frame of 60 bytes at 1000 with a link-layer header matches "longer than 40 bytes" *)
  verdict false (fun _ => None) (fun a e => 40 <? e - a) None (fun p => Descr 1000 14 64 78 124 0 0 0) demo_ps [1; 2; 3] = true.
Proof.
  split; [repeat constructor|]. split; [|split; [repeat constructor|split; reflexivity]].
  exists (PQual (PPtr (PStruct "sk_buff" 232))). split; [reflexivity|]. split; [exists "sk_buff"; split; [reflexivity|left; reflexivity]|].
  intros [|j] u k' Hj E; [|lia]. cbn in E. injection E as <-. intros (n & E & Hk). cbn in E. injection E as <-. destruct k'; cbn in Hk; [destruct Hk|destruct Hk|]; discriminate.
Qed.
(** the filter functions as in the compiled object; instruction bodies are numbers *)
Definition ci (r : string) (b : nat) : ins nat := {| i_sym := ""; i_ref := r; i_body := b |}.
Definition demo_fs : list (func nat) :=
  [{| f_name := "main"; f_ref := ""; f_head := 1%nat; f_rest := [ci "filter_pkt" 7; ci "events" 2; ci "" 9] |};
   {| f_name := "filter_pkt"; f_ref := ""; f_head := 3%nat; f_rest := [ci "filter_xdp_buff" 7; ci "filter_xdp_frame" 7; ci "filter_skb" 7; ci "" 9] |};
   {| f_name := "filter_skb"; f_ref := ""; f_head := 4%nat; f_rest := [ci "filter_pcap_l2" 7; ci "filter_pcap_l3" 7; ci "" 9] |};
   {| f_name := "filter_xdp_buff"; f_ref := ""; f_head := 5%nat; f_rest := [ci "filter_pcap_l2" 7; ci "" 9] |};
   {| f_name := "filter_xdp_frame"; f_ref := ""; f_head := 6%nat; f_rest := [ci "filter_pcap_l2" 7; ci "" 9] |};
   {| f_name := "filter_pcap_l2"; f_ref := ""; f_head := 8%nat; f_rest := [ci "" 9] |};
   {| f_name := "filter_pcap_l3"; f_ref := ""; f_head := 8%nat; f_rest := [ci "" 9] |}].
Example C84_case : inv (fun r => r = "events") demo_fs /\ incl stubs (map f_name demo_fs) /\
  map (fun i => (i_sym i, i_ref i, i_body i)) (fst (filter_edit (fun _ => 50%nat) (fun i => 100 + i)%nat 7%nat 9%nat (fun _ _ => Some [ci "" 60; ci "" 9]) [ci "" 70] "tcp" 2 KXdp (image demo_fs))) =
  [("main", "", 1%nat); ("", "filter_pkt", 7%nat); ("", "events", 2%nat); ("", "", 9%nat);
   ("filter_pkt", "", 102%nat); ("", "filter_xdp_buff", 7%nat); ("", "", 9%nat);
   ("filter_xdp_buff", "", 5%nat); ("", "filter_pcap_l2", 7%nat); ("", "", 9%nat); ("filter_pcap_l2", "", 60%nat); ("", "", 9%nat)].
Proof.
  split; [|split; [intros n Hn; cbn in Hn |- *; intuition|vm_compute; reflexivity]]. split; [|split].
  - split; [repeat constructor; cbn; intuition discriminate|]. intros f Hf. cbn in Hf.
    repeat (destruct Hf as [<-|Hf]; [split; [discriminate|]; cbn; intros i Hi; repeat (destruct Hi as [<-|Hi]; [reflexivity|]); destruct Hi|]). destruct Hf.
  - intros f Hf. cbn in Hf. repeat (destruct Hf as [<-|Hf]; [reflexivity|]). destruct Hf.
  - intros i Hi. cbn in Hi. repeat (destruct Hi as [<-|Hi]; [cbn; auto 12|]). destruct Hi.
Qed.
