(** * --filter-pkt and --output-pkt: the parameter that is the packet, and the edits of the BPF programs:
    /repo/internal/bpfsnoop/bpf_tracing.go, filter_pkt.go, output_pkt.go, bpf_get_func_arg.go, bpf/bpfsnoop_pkt_filter.h.

    - The pcap compiler (elibpcap, not in the repository) is a parameter: Some code, or None for an expression it rejects; it then leaves
      the program as it was.  It puts its code in place of the stub.
    - mybtf.UnderlyingType (not in the repository) strips typedefs and qualifiers.
    - What the compiled expression decides about the bytes between two addresses is a parameter of the verdict. *)
From Coq Require Import List Bool String ZArith.
From Verif Require Import M_Go M_Asm M_Pkt.
Import ListNotations.
Open Scope string_scope.
Open Scope list_scope.
Open Scope Z_scope.

(** C types of parameters; [PQual]: a typedef, const, volatile, ... of a type *)
Inductive ptype := PScalar (size : Z) | PStruct (name : string) (size : Z) | PPtr (to : ptype) | PQual (t : ptype).
Fixpoint underlying (t : ptype) : ptype := match t with PQual t' => underlying t' | _ => t end.
Inductive pkind := KSkb | KXdp | KFrame.
(** what is done with a parameter: bpf_tracing.go:246-275; [true]: the type is a context, replaced by the kernel's own type *)
Definition filter_kind (name : string) : option (pkind * bool) :=
  if String.eqb name "sk_buff" then Some (KSkb, false) else if String.eqb name "__sk_buff" then Some (KSkb, true)
  else if String.eqb name "xdp_buff" then Some (KXdp, false) else if String.eqb name "xdp_md" then Some (KXdp, true)
  else if String.eqb name "xdp_frame" then Some (KFrame, false) else None.
(** bpf_tracing.go:306-320 *)
Definition output_kind (name : string) : option pkind :=
  if String.eqb name "sk_buff" || String.eqb name "__sk_buff" then Some KSkb
  else if String.eqb name "xdp_buff" || String.eqb name "xdp_md" then Some KXdp
  else if String.eqb name "xdp_frame" then Some KFrame else None.
(** bpf_tracing.go:232-243, 294-304: the struct a parameter points to *)
Definition struct_of (t : ptype) : option string := match underlying t with PPtr (PStruct n _) => Some n | _ => None end.
(** the loops of injectPktFilter and injectPktOutput: the first parameter with a kind; [i]: the index of the first of the list *)
Fixpoint choose_filter (i : nat) (ps : list ptype) : option (nat * pkind * bool) :=
  match ps with
  | [] => None
  | p :: ps' => match struct_of p with
                | Some n => match filter_kind n with Some (k, c) => Some (i, k, c) | None => choose_filter (S i) ps' end
                | None => choose_filter (S i) ps'
                end
  end.
Fixpoint choose_output (i : nat) (ps : list ptype) : option (nat * pkind) :=
  match ps with
  | [] => None
  | p :: ps' => match struct_of p with
                | Some n => match output_kind n with Some k => Some (i, k) | None => choose_output (S i) ps' end
                | None => choose_output (S i) ps'
                end
  end.

(** ** The edits *)
Section Edit.
  Variable B : Type.
  (** R0 = n; R1 = *(u64 * )(R1 + 8 * i); call; exit *)
  Variables (mov0 : bool -> B) (ldarg : nat -> B) (call exit_ : B).
  (** elibpcap's code, for link-layer ([true]) or network-layer packets; "__reject_all__" always compiles *)
  Variable pcap : string -> bool -> option (list (ins B)).
  Variable reject : list (ins B).
  Definition plain (b : B) : ins B := {| i_sym := ""; i_ref := ""; i_body := b |}.
  Definition call_ (f : string) : ins B := {| i_sym := ""; i_ref := f; i_body := call |}.
  Definition clears (is_filter : bool) (stubs : list string) (p : list (ins B)) : list (ins B) := fold_left (fun p s => clear_subprog mov0 p s is_filter) stubs p.
  (** filter_pkt.go:72-75, output_pkt.go:32-37 with bpf_get_func_arg.go:8-12 *)
  Definition stub_code (i : nat) (f : string) : list (ins B) := [plain (ldarg i); call_ f; plain exit_].
  Definition func_of (k : pkind) : string := match k with KSkb => "filter_skb" | KXdp => "filter_xdp_buff" | KFrame => "filter_xdp_frame" end.
  Definition specialized : list string := ["filter_pcap_l2.specialized.1"; "filter_pcap_l3.specialized.1"].
  (** filter_pkt.go:40-81 filterSkb; the boolean: an error was returned *)
  Definition filter_skb_edit (expr : string) (i : nat) (p : list (ins B)) : list (ins B) * bool :=
    match pcap expr true with
    | None => (p, true)
    | Some l2 =>
        let p := inject p "filter_pcap_l2" l2 in
        let p := inject p "filter_pcap_l3" (match pcap expr false with Some l3 => l3 | None => reject end) in
        let p := clears true (specialized ++ ["filter_xdp_buff"; "filter_xdp_frame"]) p in
        (inject p "filter_pkt" (stub_code i "filter_skb"), false)
    end.
  (** filter_pkt.go:83-120 injectFilterXdp, filterXdp, filterXdpFrame *)
  Definition filter_xdp_edit (expr : string) (i : nat) (k : pkind) (p : list (ins B)) : list (ins B) * bool :=
    match pcap expr true with
    | None => (p, true)
    | Some l2 =>
        let p := inject p "filter_pcap_l2" l2 in
        let other := match k with KXdp => "filter_xdp_frame" | _ => "filter_xdp_buff" end in
        let p := clears true (specialized ++ ["filter_skb"; other; "filter_pcap_l3"]) p in
        (inject p "filter_pkt" (stub_code i (func_of k)), false)
    end.
  Definition filter_edit (expr : string) (i : nat) (k : pkind) (p : list (ins B)) : list (ins B) * bool :=
    match k with KSkb => filter_skb_edit expr i p | _ => filter_xdp_edit expr i k p end.
  (** filter_pkt.go:122-135 clear *)
  Definition filter_clear (p : list (ins B)) : list (ins B) :=
    clears true (specialized ++ ["filter_pcap_l2"; "filter_pcap_l3"; "filter_skb"; "filter_xdp_buff"; "filter_xdp_frame"; "filter_pkt"]) p.
  (** bpf_tracing.go:227-286 injectPktFilter: the program and whether an error is returned.  [kern]: the kernel has the context's own type.
      For a context type the error of the edit is assigned to an inner variable and lost (bpf_tracing.go:249-255, 260-266). *)
  Definition inject_pkt_filter (kern : string -> bool) (expr : string) (ps : list ptype) (p : list (ins B)) : list (ins B) * bool :=
    if String.eqb expr "" then (p, false) else
    match choose_filter 0 ps with
    | None => (filter_clear p, false)
    | Some (i, k, false) => filter_edit expr i k p
    | Some (i, k, true) =>
        if kern (match k with KSkb => "sk_buff" | _ => "xdp_buff" end) then (fst (filter_edit expr i k p), false) else (p, true)
    end.
  (** output_pkt.go:24-62 *)
  Definition out_func (k : pkind) : string := match k with KSkb => "output_skb" | KXdp => "output_xdp_buff" | KFrame => "output_xdp_frame" end.
  Definition out_others (k : pkind) : list string :=
    match k with KSkb => ["output_xdp_buff"; "output_xdp_frame"] | KXdp => ["output_skb"; "output_xdp_frame"] | KFrame => ["output_skb"; "output_xdp_buff"] end.
  Definition output_edit (i : nat) (k : pkind) (p : list (ins B)) : list (ins B) := inject (clears false (out_others k) p) "output_pkt" (stub_code i (out_func k)).
  Definition output_clear (p : list (ins B)) : list (ins B) := clears false ["output_pkt"; "output_skb"; "output_xdp_buff"; "output_xdp_frame"] p.
  (** bpf_tracing.go:288-327 injectPktOutput; the boolean is the result *)
  Definition inject_pkt_output (pkt : bool) (ps : list ptype) (p : list (ins B)) : list (ins B) * bool :=
    if negb pkt then (output_clear p, false) else
    match choose_output 0 ps with Some (i, k) => (output_edit i k p, true) | None => (output_clear p, false) end.
End Edit.
Arguments plain {B}. Arguments call_ {B}. Arguments clears {B}. Arguments stub_code {B}. Arguments filter_skb_edit {B}. Arguments filter_xdp_edit {B}.
Arguments filter_edit {B}. Arguments filter_clear {B}. Arguments inject_pkt_filter {B}. Arguments output_edit {B}. Arguments output_clear {B}.
Arguments inject_pkt_output {B}.

(** ** What the edited program decides: bpf/bpfsnoop_pkt_filter.h:33-80 *)
(** the fields read from a packet descriptor *)
Record descr := Descr { d_head : Z; d_mac_len : Z; d_mac : Z; d_net : Z; d_tail : Z; d_data : Z; d_end : Z; d_len : Z }.
(** [l2], [l3]: what the compiled expression says about the bytes from .. to ..; [l3] None: it does not compile for the network layer *)
Definition filter_fn (k : pkind) (skip : bool) (m : kmem) (l2 : Z -> Z -> bool) (l3 : option (Z -> Z -> bool)) (d : descr) : bool :=
  match k with
  | KSkb =>
      let data := d_head d + (if d_mac_len d =? 0 then d_net d else d_mac d) in
      let data_end := d_head d + d_tail d in
      let data := if d_mac_len d =? 0 then skip_tunnel_iph skip m data else skip_tunnel skip m data in
      if d_mac_len d =? 0 then match l3 with Some f => f data data_end | None => false end else l2 data data_end
  | KXdp => l2 (skip_tunnel skip m (d_data d)) (d_end d)
  | KFrame => l2 (skip_tunnel skip m (d_data d)) (d_data d + d_len d)
  end.
(** filter_pkt as edited: the argument in slot [i] (8 bytes each) is the descriptor; without a packet parameter the call of filter_pkt is
    replaced by "true".  [at_]: the descriptor at an address, as read by the program. *)
Definition verdict (skip : bool) (m : kmem) (l2 : Z -> Z -> bool) (l3 : option (Z -> Z -> bool)) (at_ : Z -> descr) (ps : list ptype) (slots : list Z) : bool :=
  match choose_filter 0 ps with
  | Some (i, k, _) => filter_fn k skip m l2 l3 (at_ (nth i slots 0))
  | None => true
  end.
