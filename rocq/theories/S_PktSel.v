(** * What packet filters should do. *)
From Coq Require Import List Bool String ZArith.
From Verif Require Import M_Go M_Asm S_Asm M_Pkt M_PktSel.
Import ListNotations.
Open Scope string_scope.
Open Scope list_scope.
Open Scope Z_scope.

(** ** Programs *)
Section S.
  Variable B : Type.
  Definition find_fn (n : string) (fs : list (func B)) : option (func B) := find (fun f => String.eqb (f_name f) n) fs.
  (** every reference is to a function of the program or to something outside it (a map, a helper) *)
  Definition closed (ext : string -> Prop) (fs : list (func B)) : Prop :=
    forall i, In i (image fs) -> i_ref i = "" \/ In (i_ref i) (map f_name fs) \/ ext (i_ref i).
  (** no function begins with a call *)
  Definition no_head_call (fs : list (func B)) : Prop := forall f, In f fs -> f_ref f = "".
  (** the function with its calls of [removed] replaced by the instruction [b] *)
  Definition without (removed : list string) (b : B) (f : func B) : func B :=
    {| f_name := f_name f; f_ref := f_ref f; f_head := f_head f;
       f_rest := map (fun i => if existsb (String.eqb (i_ref i)) removed then {| i_sym := ""; i_ref := ""; i_body := b |} else i) (f_rest f) |}.
  Definition mem (R : list string) (n : string) : bool := existsb (String.eqb n) R.
  (** a program that can be loaded: functions are named differently, references have a target *)
  Definition inv (ext : string -> Prop) (fs : list (func B)) : Prop := wf_image fs /\ no_head_call fs /\ closed ext fs.
  (** code without calls, for the middle of a program *)
  Definition good_code (c : list (ins B)) : Prop := c <> [] /\ forall i, In i c -> i_sym i = "" /\ i_ref i = "".
End S.
Arguments inv {B}. Arguments good_code {B}.
(** the functions of the compiled program that the filter for a kind of packet does not need *)
Definition removed (k : pkind) : list string :=
  ["filter_pcap_l2.specialized.1"; "filter_pcap_l3.specialized.1"] ++ match k with
  | KSkb => ["filter_xdp_buff"; "filter_xdp_frame"]
  | KXdp => ["filter_skb"; "filter_xdp_frame"; "filter_pcap_l3"]
  | KFrame => ["filter_skb"; "filter_xdp_buff"; "filter_pcap_l3"]
  end.
Definition stubs : list string := ["filter_pkt"; "filter_skb"; "filter_xdp_buff"; "filter_xdp_frame"; "filter_pcap_l2"; "filter_pcap_l3"].
Definition all_removed : list string := ["filter_pcap_l2.specialized.1"; "filter_pcap_l3.specialized.1"] ++ ["filter_pcap_l2"; "filter_pcap_l3"; "filter_skb"; "filter_xdp_buff"; "filter_xdp_frame"; "filter_pkt"].
(** the function that handles a kind of packet, for filtering and for recording, and the recording functions that are not needed *)
Definition handler (k : pkind) : string := match k with KSkb => "filter_skb" | KXdp => "filter_xdp_buff" | KFrame => "filter_xdp_frame" end.
Definition recorder (k : pkind) : string := match k with KSkb => "output_skb" | KXdp => "output_xdp_buff" | KFrame => "output_xdp_frame" end.
Definition recorders : list string := ["output_pkt"; "output_skb"; "output_xdp_buff"; "output_xdp_frame"].
Definition unused_recorders (k : pkind) : list string := filter (fun n => negb (String.eqb n "output_pkt" || String.eqb n (recorder k))) recorders.
Arguments find_fn {B}. Arguments closed {B}. Arguments no_head_call {B}. Arguments without {B}.

(** ** The packet of a call *)
Fixpoint strip (t : ptype) : ptype := match t with PQual t' => strip t' | _ => t end.
(** C: a pointer to one of the kernel's packet descriptors, qualifiers and typedefs aside *)
Definition points_to (t : ptype) : option string :=
  match strip t with PPtr u => match strip u with PStruct n _ => Some n | _ => None end | _ => None end.
Definition packet_kind (n : string) (k : pkind) : Prop :=
  match k with
  | KSkb => n = "sk_buff" \/ n = "__sk_buff"
  | KXdp => n = "xdp_buff" \/ n = "xdp_md"
  | KFrame => n = "xdp_frame"
  end.
Definition is_packet (t : ptype) (k : pkind) : Prop := exists n, points_to t = Some n /\ packet_kind n k.
(** the first parameter that is a packet *)
Definition first_packet (ps : list ptype) (i : nat) (k : pkind) : Prop :=
  exists t, nth_error ps i = Some t /\ is_packet t k /\ forall j u k', (j < i)%nat -> nth_error ps j = Some u -> ~ is_packet u k'.
(** how many 8-byte slots of the argument area a parameter takes: a struct passed by value takes as many as its size needs *)
Definition slots_of (t : ptype) : nat := match strip t with PStruct _ sz => Z.to_nat ((sz + 7) / 8) | _ => 1%nat end.
Definition slot (ps : list ptype) (i : nat) : nat := fold_right Nat.add 0%nat (map slots_of (firstn i ps)).
(** the type says so without a qualifier between the pointer and the struct *)
Definition bare (t : ptype) : Prop := match strip t with PPtr u => strip u = u | _ => True end.
(** The bytes of a packet and whether they start at the link layer: from the link-layer header if there is one, else from the network-layer
    header, to the end of the linear part; the whole buffer of XDP. *)
Definition packet_bytes (k : pkind) (d : descr) : Z * Z * bool :=
  match k with
  | KSkb => if d_mac_len d =? 0 then (d_head d + d_net d, d_head d + d_tail d, false) else (d_head d + d_mac d, d_head d + d_tail d, true)
  | KXdp => (d_data d, d_end d, true)
  | KFrame => (d_data d, d_data d + d_len d, true)
  end.
(** the packet matches the expression *)
Definition matches (skip : bool) (m : kmem) (l2 : Z -> Z -> bool) (l3 : option (Z -> Z -> bool)) (k : pkind) (d : descr) : Prop :=
  let '(a, e, link) := packet_bytes k d in
  if link : bool then l2 (skip_tunnel skip m a) e = true else exists f, l3 = Some f /\ f (skip_tunnel_iph skip m a) e = true.
