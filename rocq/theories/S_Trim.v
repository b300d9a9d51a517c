(** * What is to be left of the programs when options are not given. *)
From Coq Require Import List Bool String.
From Verif Require Import M_Asm S_Asm.
Import ListNotations.
Open Scope string_scope.

(** The options that need code in the BPF programs, and the functions that exist only for them (bpf/bpfsnoop_pkt_filter.h,
    bpf/bpfsnoop_arg_filter.h, bpf/bpfsnoop_arg_output.h). *)
Inductive opt := FilterPkt | FilterArg | OutputArg.
Definition pkt_functions : list string :=
  ["filter_pkt"; "filter_skb"; "filter_xdp_buff"; "filter_xdp_frame"; "filter_pcap_l2"; "filter_pcap_l3"; "filter_pcap_l2.specialized.1"; "filter_pcap_l3.specialized.1"].
Definition owner (name : string) : option opt :=
  if existsb (String.eqb name) pkt_functions then Some FilterPkt
  else if String.eqb name "filter_arg" then Some FilterArg
  else if String.eqb name "output_arg" then Some OutputArg else None.
(** What a call is to answer when its option was not given: a filter that is not there lets everything pass. *)
Definition answer (o : opt) : bool := match o with FilterPkt | FilterArg => true | OutputArg => false end.

Section S.
  Variable B : Type.
  Variable const : bool -> B.   (** R0 = 1 or R0 = 0 *)
  Variable given : opt -> bool.
  Definition left_out (name : string) : option bool :=
    match owner name with Some o => if given o then None else Some (answer o) | None => None end.
  Definition without_call (i : ins B) : ins B :=
    match left_out (i_ref i) with Some a => {| i_sym := i_sym i; i_ref := ""; i_body := const a |} | None => i end.
  (** The functions of options not given are gone, every call of them is the constant, the rest is as it was. *)
  Definition trimmed (fs : list (func B)) : list (func B) :=
    map (fun f => {| f_name := f_name f; f_ref := f_ref f; f_head := f_head f; f_rest := map without_call (f_rest f) |})
        (filter (fun f => match left_out (f_name f) with Some _ => false | None => true end) fs).
  (** Every function called is there. *)
  Definition linked (fs : list (func B)) : Prop :=
    forall i, In i (image fs) -> i_ref i = "" \/ In (i_ref i) (map f_name fs).
End S.
Arguments without_call {B}. Arguments trimmed {B}. Arguments linked {B}.
