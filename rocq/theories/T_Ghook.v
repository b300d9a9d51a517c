(** * C80: tracing the functions of a graph. *)
From Coq Require Import List Bool ZArith Lia.
From Verif Require Import M_Go M_Ebpf M_FnArgs M_Ghook P_Ghook.
Import ListNotations.
Open Scope list_scope.
Open Scope Z_scope.

(** Every function of the graph that is not a root is traced once at entry and once at exit (by one session program where the kernel has
    them); roots, which the regular programs trace, and functions outside the graph are not. *)
Theorem C80_traced_once : forall fs gs, NoDup (map gf_ip gs) ->
  (forall g, In g gs -> map h_mode (filter (fun h => h_ip h =? gf_ip g) (fst (trace_graphs fs gs))) =
     if gf_root g then [] else if fs then [HSession] else [HEntry; HExit]) /\
  (forall h, In h (fst (trace_graphs fs gs)) -> exists g, In g gs /\ gf_root g = false /\ h_ip h = gf_ip g).
Proof. intros fs gs Hn. split; [intros g Hg; exact (modes fs gs g Hn Hg)|exact (trace_ip fs gs)]. Qed.
(** The event [d] (of the size the program reserves, other bytes may follow) of a call or return is decoded as what the program's code -
    the capture of C16 for that function, with the result at returns - has written; the result is read from behind the arguments.
    Partial: entries where session programs are used. *)
Theorem C80_shown_partial : forall fs gs g h r sz d junk, NoDup (map gf_ip gs) -> In g gs -> In h (filter (fun h => h_ip h =? gf_ip g) (fst (trace_graphs fs gs))) ->
  (fs = false \/ ev_entry h r = false) -> aget Z.eqb (gf_ip g) (snd (trace_graphs fs gs)) = Some sz -> Z.of_nat (List.length d) = h_buf h ->
  let exit := negb (ev_entry h r) in
  output_info g sz exit (d ++ junk) = output_fn_args (gf_np g) (gf_prms g) (gf_ret g) exit d /\
  ((gf_prms g <> [] \/ exit = true) -> h_code h = Some (fst (gen_output_fn_args (gf_prms g) (gf_ret g) exit)) /\ h_buf h = snd (gen_output_fn_args (gf_prms g) (gf_ret g) exit)) /\
  h_nr h = Z.of_nat (List.length (gf_prms g)) /\ (exit = true -> h_withret h = true).
Proof. exact shown. Qed.
(** Refuted: where the kernel has session programs, a call is always shown without arguments. *)
Theorem C80_session_entry_refuted : forall gs g sz data, NoDup (map gf_ip gs) -> In g gs -> gf_root g = false ->
  aget Z.eqb (gf_ip g) (snd (trace_graphs true gs)) = Some sz -> output_info g sz false data = Some ([], None).
Proof. exact session_entry. Qed.
Print Assumptions C80_traced_once.
Print Assumptions C80_shown_partial.
Print Assumptions C80_session_entry_refuted.

Definition plain : prm := {| p_str := false; p_num := false; p_part := false |}.
Definition gr_root := {| gf_ip := 4096; gf_root := true; gf_prms := [plain]; gf_ret := plain; gf_np := 1 |}.
Definition gr_fn := {| gf_ip := 8192; gf_root := false; gf_prms := [plain; plain]; gf_ret := plain; gf_np := 2 |}.
Example C80_case : NoDup (map gf_ip [gr_root; gr_fn]) /\ map h_mode (fst (trace_graphs false [gr_root; gr_fn])) = [HEntry; HExit] /\
  snd (trace_graphs false [gr_root; gr_fn]) = [(4096, (0, 0)); (8192, (16, 24))] /\
  option_map (fun x => map sa_val (fst x)) (output_info gr_fn (16, 24) false [5; 0; 0; 0; 0; 0; 0; 0; 6; 0; 0; 0; 0; 0; 0; 0]) = Some [5; 6] /\
  snd (trace_graphs true [gr_root; gr_fn]) = [(4096, (0, 0)); (8192, (0, 24))].
Proof.
  split; [|repeat split]. repeat constructor; cbn; lia.
Qed.
