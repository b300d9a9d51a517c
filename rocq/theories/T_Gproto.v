(** * C82: call-tree listings. *)
From Coq Require Import List Bool String ZArith Lia Sorting.Sorted Permutation.
From Verif Require Import M_Go M_Gproto S_Gproto P_Gproto.
Import ListNotations.
Open Scope string_scope.
Open Scope list_scope.
Open Scope Z_scope.

(** The listing consists of a section per function asked for, kernel functions before BPF functions, each kind sorted by name.  A section is
    the function itself, one line per chain of calls that starts there and is at most [maxd] calls long - indented by the number of calls,
    naming the last function called, in the order in which depth-first reading of the code meets them -, and an empty line. *)
Theorem C82_tree_partial : forall W maxd ks ps, sized W (ks ++ ps) -> exists ks' ps' sk sp,
  Permutation ks ks' /\ Permutation ps ps' /\
  StronglySorted (fun a b => String.leb (r_name a) (r_name b) = true) ks' /\ StronglySorted (fun a b => String.leb (r_name a) (r_name b) = true) ps' /\
  Forall2 (section W maxd) ks' sk /\ Forall2 (section W maxd) ps' sp /\
  g_out (show_graph W (fun _ => false) maxd ks ps) = List.concat sk ++ gap ks ps ++ List.concat sp.
Proof. exact listing_full. Qed.
(** No function is disassembled twice, and none after an interrupt: whatever is disassembled follows a look at the context that saw no
    interrupt. *)
Theorem C82_disassembled_once : forall W cancel maxd ks ps,
  NoDup (map (fun e => fst (fst e)) (g_log (show_graph W cancel maxd ks ps))) /\
  forall ip bytes n, In (ip, bytes, n) (g_log (show_graph W cancel maxd ks ps)) -> exists i, n = S i /\ cancel i = false.
Proof.
  intros W cancel maxd ks ps. destruct (graph_linv W cancel maxd ks ps) as (H1 & _ & H3). split; [exact H1|].
  intros ip bytes n Hin. rewrite Forall_forall in H3. exact (H3 _ Hin).
Qed.
(** Only functions less than [maxd] calls away from one that was asked for are disassembled, each over its own length. *)
Theorem C82_disassembled_reachable : forall W cancel maxd ks ps ip bytes n, sized W (ks ++ ps) ->
  In (ip, bytes, n) (g_log (show_graph W cancel maxd ks ps)) ->
  size_of W ip = Some bytes /\ exists r p, In r (ks ++ ps) /\ (List.length p < maxd)%nat /\ ends W (r_ip r) p = Some ip.
Proof. exact graph_reach. Qed.
(** An interrupted listing only leaves lines out. *)
Theorem C82_interrupted : forall W maxd cancel ks ps, sized W (ks ++ ps) ->
  subseq (g_out (show_graph W cancel maxd ks ps)) (g_out (show_graph W (fun _ => false) maxd ks ps)).
Proof. exact interrupted. Qed.
(** Refuted: an interrupt does not stop the listing.  If it comes before the first call is followed, every further call of the function is
    still listed, however many there are, and so is every further function asked for. *)
Theorem C82_interrupt_refuted : forall W maxd r, (0 < maxd)%nat -> size_of W (r_ip r) = Some (r_bytes r) ->
  g_out (show_graph W (fun i => (0 <? i)%nat) maxd [r] []) = GLine 0 (r_text r) :: map (fun t => GLine 1 (label W t)) (direct W (r_ip r)) ++ [GBlank].
Proof.
  intros W maxd r Hm Hs. destruct maxd as [|f]; [lia|]. unfold show_graph. cbn [isort insert]. unfold show_roots. cbn [fold_left]. unfold show_root.
  unfold emit at 1. cbn [g_out]. rewrite prints_on; [reflexivity|exact (coh0 W)|exact Hs|reflexivity].
Qed.
(** Refuted: with --disasm-bytes the section of a function depends on which other functions are listed.  In this world f calls h at its second
    instruction, and g calls f; g is listed first because of its name a_g; disassembling only one instruction of each function asked for shows
    f without calls, unless a_g was listed before. *)
Definition two : world := {|
  w_prog := fun _ => None;
  w_sym := fun ip => if ip =? 16 then Some "f" else if ip =? 32 then Some "a_g" else if ip =? 48 then Some "h" else None;
  w_btf := fun _ => None; w_mark := fun _ => false;
  w_guess := fun _ limit => if limit =? 0 then 2 else limit;
  w_dis := fun ip n => firstn (Z.to_nat n) (if ip =? 16 then [0; 48] else if ip =? 32 then [16; 0] else [0; 0]) |}.
Theorem C82_disasm_bytes_refuted : exists W maxd limit f g tail1 tail2,
  g_out (show_graph W (fun _ => false) maxd [f] []) = GLine 0 (r_text f) :: tail1 /\
  g_out (show_graph W (fun _ => false) maxd [g; f] []) = [GLine 0 (r_text g); GLine 1 (r_text f); GLine 2 "h"; GBlank] ++ GLine 0 (r_text f) :: tail2 /\
  f = kroot W limit "f" 16 /\ g = kroot W limit "a_g" 32 /\ tail1 = [GBlank] /\ tail2 = [GLine 1 "h"; GBlank].
Proof.
  exists two, 2%nat, 1, (kroot two 1 "f" 16), (kroot two 1 "a_g" 32), [GBlank], [GLine 1 "h"; GBlank].
  split; [vm_compute; reflexivity|]. split; [vm_compute; reflexivity|]. repeat split.
Qed.
(** Refuted: the mark of a BPF function says whether the kernel function of the same name can be traced, not whether the BPF function can. *)
Theorem C82_mark_refuted : forall W ip n p len, w_prog W ip = Some (n, p, len) -> label W ip = (p ++ ";" ++ (if w_mark W n then " [traceable]" else ""))%string.
Proof. intros W ip n p len H. unfold label. rewrite H. reflexivity. Qed.
Print Assumptions C82_tree_partial.
Print Assumptions C82_disassembled_once.
Print Assumptions C82_disassembled_reachable.
Print Assumptions C82_interrupted.
Print Assumptions C82_interrupt_refuted.
Print Assumptions C82_disasm_bytes_refuted.
Print Assumptions C82_mark_refuted.

(** main calls a twice; a calls b and itself (recursion); the BPF program p calls a and an address without a function. *)
Definition demo : world := {|
  w_prog := fun ip => if ip =? 80 then Some ("p", "int p(void *ctx)", 3) else None;
  w_sym := fun ip => if ip =? 16 then Some "main" else if ip =? 32 then Some "a" else if ip =? 48 then Some "b" else None;
  w_btf := fun n => if String.eqb n "a" then Some "int a(int x)" else None; w_mark := fun n => String.eqb n "a";
  w_guess := fun _ limit => if limit =? 0 then 4 else limit;
  w_dis := fun ip n => if ip =? 16 then [32; 0; 32] else if ip =? 32 then [48; 32] else if ip =? 80 then [99; 32; 0] else [0] |}.
Example C82_case :
  sized demo [kroot demo 0 "main" 16; proot demo "p" "int p(void *ctx)" 80 3] /\
  ends demo 16 [1; 1; 0]%nat = Some 48 /\
  g_out (show_graph demo (fun _ => false) 2 [kroot demo 0 "main" 16] [proot demo "p" "int p(void *ctx)" 80 3]) =
    [GLine 0 "main"; GLine 1 "int a(int x); [traceable]"; GLine 2 "b"; GLine 2 "int a(int x); [traceable]";
     GLine 1 "int a(int x); [traceable]"; GLine 2 "b"; GLine 2 "int a(int x); [traceable]"; GBlank; GBlank;
     GLine 0 "int p(void *ctx);"; GLine 1 "int a(int x); [traceable]"; GLine 2 "b"; GLine 2 "int a(int x); [traceable]"; GBlank] /\
  map (fun e => fst (fst e)) (g_log (show_graph demo (fun _ => false) 2 [kroot demo 0 "main" 16] [proot demo "p" "int p(void *ctx)" 80 3])) = [16; 32; 80].
Proof.
  split; [intros r [<-|[<-|[]]]; reflexivity|]. split; [reflexivity|]. split; vm_compute; reflexivity.
Qed.
