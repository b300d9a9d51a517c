(** * Property C90: an event is labelled with the function it comes from, and its arguments are shown by that function's description. *)
From Coq Require Import ZArith List Bool String Ascii Lia.
From Verif Require Import M_Go P_Go M_Kallsyms S_Kallsyms P_Kallsyms M_Label S_Label P_Label.
Import ListNotations.
Open Scope Z_scope.

(** C90 (functions of BPF programs): for all tables, whatever else is traced. *)
Theorem C90_programs : forall A (progs : list (Z * (string * A))) ks kfuncs multi graph kmulti ip n d,
  aget Z.eqb ip progs = Some (n, d) ->
  get_func_info progs ks kfuncs multi graph kmulti ip = Some (append n "[bpf]", Some d).
Proof. intros. unfold get_func_info. rewrite H. reflexivity. Qed.
Print Assumptions C90_programs.
(** C90 (kernel functions), where [kf] are the functions selected and [kfuncs] the table after the tracepoints have been added to it: the label is a
    name of the function at that address, and the description is its own. *)
Theorem C90_kernel_functions_partial : forall A (progs : list (Z * (string * A))) ls ks kf tps rs kfuncs ids multi ip n m d,
  new_kallsyms ls = Some ks -> NoDup (map fst kf) -> merge_tps tps kf rs = Some (kfuncs, ids) ->
  aget Z.eqb ip kf = Some {| k_name := n; k_tp := false; k_data := d |} -> named ls ip m -> free ip progs ->
  exists n', named ls ip n' /\ get_func_info progs ks kfuncs multi None false ip = Some (n', Some d).
Proof.
  intros A progs ls ks kf tps rs kfuncs ids multi ip n m d HK Hn HM Hk Hs Hp. destruct (merge_ok _ _ _ _ _ Hn HM) as (_ & _ & _ & _ & E & _).
  destruct (find_named ls ks ip m HK Hs) as (e & Ee & He). exists (kname e). split; [exact He|].
  unfold get_func_info. rewrite (free_none _ _ Hp), Ee, (E _ _ Hk). reflexivity.
Qed.
Print Assumptions C90_kernel_functions_partial.
(** ... so with a single name for the address, it is the name. *)
Theorem C90_kernel_functions_single_name : forall A (progs : list (Z * (string * A))) ls ks kf tps rs kfuncs ids multi ip n d,
  new_kallsyms ls = Some ks -> NoDup (map fst kf) -> merge_tps tps kf rs = Some (kfuncs, ids) ->
  aget Z.eqb ip kf = Some {| k_name := n; k_tp := false; k_data := d |} -> only_name ls ip n -> free ip progs ->
  get_func_info progs ks kfuncs multi None false ip = Some (n, Some d).
Proof.
  intros A progs ls ks kf tps rs kfuncs ids multi ip n d HK Hn HM Hk [Hs Ho] Hp.
  destruct (C90_kernel_functions_partial A progs ls ks kf tps rs kfuncs ids multi ip n n d HK Hn HM Hk Hs Hp) as (n' & H1 & H2).
  rewrite <- (Ho n' H1). exact H2.
Qed.
Print Assumptions C90_kernel_functions_single_name.
(** Refuted in general: a function with two names is shown under the other name than the one the user asked for. *)
Definition aliases : list (list string) := [["1000"; "T"; "ksys_a"]; ["1000"; "T"; "sys_a_alias"]; ["2000"; "T"; "end"]]%string.
Definition aks : kallsyms := Eval vm_compute in match new_kallsyms aliases with Some k => k | None => ks_empty end.
Theorem C90_other_name_refuted : exists ls ks ip n n' (d : nat),
  new_kallsyms ls = Some ks /\ first_named (text_syms ls) (ip, n) /\ n' <> n /\
  get_func_info [] ks [(ip, {| k_name := n; k_tp := false; k_data := d |})] [] None false ip = Some (n', Some d).
Proof.
  exists aliases, aks, 4096, "ksys_a"%string, "sys_a_alias"%string, 7%nat.
  split; [vm_compute; reflexivity|]. split; [|split; [discriminate|vm_compute; reflexivity]].
  exists [], [(4096, "sys_a_alias"%string); (8192, "end"%string)]. split; [vm_compute; reflexivity|intros ? []].
Qed.
Print Assumptions C90_other_name_refuted.
(** C90 (tracepoints): whatever numbers are drawn, each tracepoint gets a number of its own that no selected function has, no function is lost,
    and nothing else is in the table ... *)
Theorem C90_tracepoint_numbers : forall A (tps : list (kfn A)) kf rs kfuncs ids, NoDup (map fst kf) -> merge_tps tps kf rs = Some (kfuncs, ids) ->
  map snd ids = tps /\ NoDup (map fst ids) /\ (forall a, In a (map fst ids) -> free a kf) /\
  forall a f, aget Z.eqb a kfuncs = Some f <-> aget Z.eqb a kf = Some f \/ In (a, f) ids.
Proof.
  intros A tps kf rs kfuncs ids Hn HM. destruct (merge_ok _ _ _ _ _ Hn HM) as (E1 & E2 & _ & E4 & E5 & E6 & E7).
  split; [exact E1|]. split; [exact E2|]. split; [exact E4|]. intros a f. split; [apply E7|]. intros [H|H]; [exact (E5 _ _ H)|exact (E6 _ _ H)].
Qed.
Print Assumptions C90_tracepoint_numbers.
(** ... and the drawing ends once enough unused numbers have come up. *)
Theorem C90_numbering_ends : forall A (tps : list (kfn A)) kf rs, NoDup rs -> (forall r, In r rs -> free r kf) -> (List.length tps <= List.length rs)%nat ->
  exists kfuncs ids, merge_tps tps kf rs = Some (kfuncs, ids).
Proof. intros A. exact merge_ends. Qed.
Print Assumptions C90_numbering_ends.
(** Its events carry the number, and are labelled with its name - if the number is not the address of a function of a BPF program. *)
Theorem C90_tracepoints_partial : forall A (progs : list (Z * (string * A))) ls ks tps kf rs kfuncs ids multi id n d,
  new_kallsyms ls = Some ks -> text_syms ls <> [] -> NoDup (map fst kf) -> merge_tps tps kf rs = Some (kfuncs, ids) ->
  In (id, {| k_name := n; k_tp := true; k_data := d |}) ids -> free id progs ->
  get_func_info progs ks kfuncs multi None false id = Some (append n "[tp]", Some d).
Proof.
  intros A progs ls ks tps kf rs kfuncs ids multi id n d HK Hne Hn HM Hi Hp. destruct (merge_ok _ _ _ _ _ Hn HM) as (_ & _ & _ & _ & _ & E & _).
  unfold get_func_info. rewrite (free_none _ _ Hp), (E _ _ Hi).
  destruct (ks_find ks id) as [| |[e|]] eqn:F; try reflexivity. exfalso. unfold ks_find in F.
  pose proof (load_inv _ _ HK) as I. destruct (ks_index (addrs ks) id) eqn:G; try discriminate. unfold ks_index in G.
  destruct (addrs ks) as [|x l] eqn:Ea; [|destruct ((id <? x) || (last (x :: l) 0 <? id)); discriminate].
  destruct (text_syms ls) as [|[a m] tl] eqn:Et; [congruence|].
  assert (In a (addrs ks)) as X. { apply (addrs_In _ _ _ I). exists (a, m). split; [|reflexivity]. left. reflexivity. }
  rewrite Ea in X. destruct X.
Qed.
Print Assumptions C90_tracepoints_partial.
(** Refuted otherwise: only the selected functions are avoided when a number is drawn. *)
Theorem C90_tracepoint_collision_refuted : exists (progs : list (Z * (string * nat))) ks tps rs kfuncs id,
  merge_tps tps [] rs = Some (kfuncs, [(id, {| k_name := "sched_switch"; k_tp := true; k_data := 1%nat |})]) /\
  get_func_info progs ks kfuncs [] None false id = Some ("xdp_pass[bpf]"%string, Some 2%nat).
Proof.
  exists [(4096, ("xdp_pass"%string, 2%nat))], aks, [{| k_name := "sched_switch"; k_tp := true; k_data := 1%nat |}], [4096].
  eexists. exists 4096. split; [reflexivity|vm_compute; reflexivity].
Qed.
Print Assumptions C90_tracepoint_collision_refuted.
(** C90 (multi mode): the description of the first pattern's function at the address; then as above. *)
Theorem C90_multi : forall A (progs : list (Z * (string * A))) ls ks kfuncs before m after ip n f,
  new_kallsyms ls = Some ks -> named ls ip n -> free ip progs -> Forall (fun x => free ip x) before ->
  aget Z.eqb ip m = Some f -> k_tp f = false ->
  exists n', named ls ip n' /\ get_func_info progs ks kfuncs (before ++ m :: after) None true ip = Some (n', Some (k_data f)).
Proof.
  intros A progs ls ks kfuncs before m after ip n f HK Hn Hp Hb Hm Ht. destruct (find_named ls ks ip n HK Hn) as (e & Ee & He).
  exists (kname e). split; [exact He|]. unfold get_func_info. rewrite (free_none _ _ Hp), Ee.
  assert (E : find_multi (before ++ m :: after) ip = Some f).
  { induction Hb as [|x l Hx _ IH]; cbn [find_multi app]; [rewrite Hm; reflexivity|]. rewrite (free_none _ _ Hx). exact IH. }
  rewrite E, Ht. reflexivity.
Qed.
Print Assumptions C90_multi.
(** C90 (functions of a call graph) *)
Theorem C90_graph_programs : forall A (progs : list (Z * (string * A))) ks kfuncs multi k ip n d, free ip progs ->
  get_func_info progs ks kfuncs multi (Some {| g_bprog := Some (n, d); g_kfunc := k |}) false ip = Some (append n "[bpf]", Some d).
Proof. intros. unfold get_func_info. rewrite (free_none _ _ H). reflexivity. Qed.
Print Assumptions C90_graph_programs.
Theorem C90_graph_kernel_functions : forall A (progs : list (Z * (string * A))) ls ks kfuncs multi ip m f,
  new_kallsyms ls = Some ks -> named ls ip m -> free ip progs -> k_tp f = false ->
  (forall f', aget Z.eqb ip kfuncs = Some f' -> k_tp f' = false /\ k_data f' = k_data f) ->
  exists n', named ls ip n' /\
    get_func_info progs ks kfuncs multi (Some {| g_bprog := None; g_kfunc := Some f |}) false ip = Some (n', Some (k_data f)).
Proof.
  intros A progs ls ks kfuncs multi ip m f HK Hs Hp Ht Hk. destruct (find_named ls ks ip m HK Hs) as (e & Ee & He). exists (kname e).
  split; [exact He|]. unfold get_func_info. rewrite (free_none _ _ Hp), Ee. cbn [g_bprog g_kfunc].
  destruct (aget Z.eqb ip kfuncs) as [f'|] eqn:E; [destruct (Hk f' eq_refl) as [-> ->]; reflexivity|rewrite Ht; reflexivity].
Qed.
Print Assumptions C90_graph_kernel_functions.
(** C90 (unknown addresses): an address outside the symbols is shown as its hexadecimal value. *)
Theorem C90_unknown_address : forall A (progs : list (Z * (string * A))) ls ks ip, new_kallsyms ls = Some ks -> text_syms ls <> [] ->
  (forall s, In s (text_syms ls) -> ip < fst s) \/ (forall s, In s (text_syms ls) -> fst s < ip) -> free ip progs -> 0 <= ip < 2 ^ 64 ->
  exists x, get_func_info progs ks [] [] None false ip = Some (append "0x" x, None) /\ hex_value x 0 = ip.
Proof.
  intros A progs ls ks ip HK Hne Ho Hp Hr. exists (fmt_x ip). split; [|exact (fmt_x_value ip Hr)]. unfold get_func_info.
  rewrite (free_none _ _ Hp), (proj1 (find_out_of_range ls ks ip HK Hne Ho)). reflexivity.
Qed.
Print Assumptions C90_unknown_address.
(** C90 (start of the line): entry, exit and tracepoint lines of whatever names are told apart, and the name can be read off. *)
Theorem C90_header : forall e1 t1 n1 e2 t2 n2, (e1 = true -> t1 = false) -> (e2 = true -> t2 = false) ->
  header e1 t1 n1 = header e2 t2 n2 -> e1 = e2 /\ t1 = t2 /\ n1 = n2.
Proof.
  intros e1 t1 n1 e2 t2 n2 H1 H2. apply header_inj. intros e t [E|E] He; injection E as -> ->; auto.
Qed.
Print Assumptions C90_header.
Example C90_header_shown : header false false "f" = "→ f args"%string /\ header true false "f" = "← f args"%string /\ header false true "f" = "- f args"%string.
Proof. repeat split; reflexivity. Qed.

(** Two functions and two tracepoints; the first number drawn is taken, the third repeats the second. *)
Definition kf2 : list (Z * kfn nat) := [(4096, Build_kfn "sys_a_alias" false 1%nat); (8192, Build_kfn "end" false 2%nat)]%string.
Definition tp2 : list (kfn nat) := [Build_kfn "sched_switch" true 3%nat; Build_kfn "sched_wakeup" true 4%nat]%string.
Example C90_demo : match merge_tps tp2 kf2 [8192; 99; 99; 100; 5] with
  | Some (k, ids) => map fst ids = [99; 100] /\
      map (get_func_info [(500, ("xdp"%string, 9%nat))] aks k [] None false) [4096; 8192; 99; 100; 500; 4097; 5] =
      [Some ("sys_a_alias", Some 1%nat); Some ("end", Some 2%nat); Some ("sched_switch[tp]", Some 3%nat); Some ("sched_wakeup[tp]", Some 4%nat);
       Some ("xdp[bpf]", Some 9%nat); Some ("sys_a_alias", None); Some ("0x5", None)]%string
  | None => False end.
Proof. vm_compute. auto. Qed.
Example C90_single : only_name aliases 8192 "end" /\ named aliases 4096 "ksys_a" /\ text_syms aliases <> [] /\ NoDup (map fst kf2).
Proof.
  vm_compute. split; [split; [right; right; left; reflexivity|]|split; [left; reflexivity|split; [discriminate|]]].
  - intros n' [E|[E|[E|[]]]]; congruence.
  - repeat constructor; cbn; intuition discriminate.
Qed.
