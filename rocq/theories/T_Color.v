(** * Property C102: colours add nothing but colour, and branch tables are aligned. *)
From Coq Require Import Lia Arith.
From Coq Require Import ZArith NArith List Bool String Ascii.
From Verif Require Import M_Color S_Color P_Color.
Import ListNotations.
Open Scope string_scope.
Open Scope Z_scope.

(** C102.  For every event whose texts bring no escape character: what the terminal shows with colours is the text printed without.
    Missing: stacks with a function name so long that it [fits] not (refuted below, and that is exactly the case by the next theorem). *)
Theorem C102_event_same_text_partial : forall nocolor verbose lbr_nr v,
  event_plain v -> Forall fits (e_stack v) ->
  visible (out_event nocolor verbose true lbr_nr v) = out_event nocolor verbose false lbr_nr v.
Proof. exact event_seg. Qed.
(** C102.  However many parameters, each is painted with a proper 24-bit colour (ESC[38;2;R;G;Bm), and neighbours with different ones. *)
Theorem C102_parameter_colours : forall i, (exists r g b, param_color i = rgb r g b) /\ param_color i <> param_color (S i).
Proof.
  intros i. unfold param_color. pose proof (Nat.mod_upper_bound i 6 ltac:(discriminate)) as H. pose proof (Nat.div_mod i 6 ltac:(discriminate)) as D.
  replace (Nat.modulo (S i) 6) with (Nat.modulo (S (Nat.modulo i 6)) 6)
    by (replace (S i) with (S (Nat.modulo i 6) + (i / 6) * 6)%nat by lia; rewrite Nat.mod_add by discriminate; reflexivity).
  destruct (Nat.modulo i 6) as [|[|[|[|[|[|n]]]]]]; [..|lia]; (split; [do 3 eexists; reflexivity|discriminate]).
Qed.
Print Assumptions C102_parameter_colours.
Print Assumptions C102_event_same_text_partial.
(** A frame of a stack reads the same with and without colours if and only if its function name is at most 50 characters longer than
    the offset after it. *)
Theorem C102_frame_same_text_iff : forall nocolor verbose f, ep_plain (f_ep f) -> ep_ascii (f_ep f) ->
  (visible (out_frame nocolor verbose true f) = out_frame nocolor verbose false f <-> fits f).
Proof. exact frame_iff. Qed.
Print Assumptions C102_frame_same_text_iff.
(** The event line without colours says these things in this order. *)
Theorem C102_event_line_text : forall nocolor v, e_empty v = false -> e_more v = false ->
  out_func nocolor false v ++ out_tail nocolor false v =
  e_arrow v ++ e_name v ++ " args=(" ++ String.concat ", " (e_params v) ++ ")" ++ match e_ret v with Some r => " retval=" ++ r | None => "" end ++
  " cpu=" ++ M_Proto.fmt_d (e_cpu v) ++ " process=(" ++ M_Proto.fmt_d (e_pid v) ++ ":" ++ e_comm v ++ ")" ++
  match e_dur v with Some d => " duration=" ++ d | None => "" end ++ " timestamp=" ++ e_time v ++ eol.
Proof. exact event_line. Qed.
Print Assumptions C102_event_line_text.
(** The line of the expressions, if those that go into a histogram or t-digest come first; if there is no other, the line is empty. *)
Theorem C102_expressions_line_partial : forall nocolor n l, Forall ordinary l -> l <> nil ->
  out_attrs nocolor false (repeat AHidden n ++ l)%list = "Arg attrs: " ++ String.concat ", " (map attr_text l) ++ eol.
Proof. exact attrs_line. Qed.
Print Assumptions C102_expressions_line_partial.
Theorem C102_histograms_alone : forall nocolor n, out_attrs nocolor false (repeat AHidden n) = eol.
Proof. exact attrs_hidden. Qed.
Print Assumptions C102_histograms_alone.
(** One after another expression leaves a comma with nothing behind it. *)
Theorem C102_stray_comma_refuted : out_attrs false false [AShown "(int)'y'=1"; AHidden] = "Arg attrs: (int)'y'=1, " ++ eol.
Proof. reflexivity. Qed.
Print Assumptions C102_stray_comma_refuted.
(** Traced instructions, disassembly listings, --read results. *)
Theorem C102_insn_same_text : forall nocolor fn cpu dur desc, plain fn -> plain dur -> plain desc ->
  visible (out_insn nocolor true fn cpu dur desc) = out_insn nocolor false fn cpu dur desc.
Proof. exact insn_seg. Qed.
Print Assumptions C102_insn_same_text.
Theorem C102_disasm_same_text : forall nocolor pc off bytes mnemonic opstr, plain mnemonic -> plain opstr ->
  visible (out_dis nocolor true pc off bytes mnemonic opstr) = out_dis nocolor false pc off bytes mnemonic opstr.
Proof. exact dis_seg. Qed.
Print Assumptions C102_disasm_same_text.
Theorem C102_read_same_text : forall nocolor expr attrs, plain expr -> Forall attr_plain attrs ->
  visible (out_read nocolor true expr (out_attrs_go nocolor true false attrs)) = out_read nocolor false expr (out_attrs_go nocolor false false attrs).
Proof. intros. apply read_seg; [assumption|]. apply attrs_seg. assumption. Qed.
Print Assumptions C102_read_same_text.
(** Lines of a call graph differ in their indentation alone: dots with colours, blanks without; two per level. *)
Theorem C102_graph_indentation : forall nocolor v depth cpu cost dur, event_plain v -> plain cost -> plain dur -> exists rest,
  visible (out_graph nocolor true depth (out_func nocolor true v) cpu cost dur) = rep depth ".." ++ rest /\
  out_graph nocolor false depth (out_func nocolor false v) cpu cost dur = rep depth "  " ++ rest.
Proof. intros. apply graph_text; [apply func_seg; assumption|assumption..]. Qed.
Print Assumptions C102_graph_indentation.
(** The branch table: one line per branch, from the oldest; the arrows of all lines are in the same column, and all lines are equally long. *)
Theorem C102_branch_table_aligned : forall nocolor verbose lbr_nr l, Forall en_ok l -> Z.of_nat (List.length l) <= lbr_nr <= 100 ->
  exists left right lines, out_lbr nocolor verbose false lbr_nr l = String.concat "" lines /\ Forall2 (branch_line verbose left right) l lines.
Proof. exact lbr_aligned. Qed.
Print Assumptions C102_branch_table_aligned.

(** A function with a long name: with colours, blanks are added after the offset (and shift the source position). *)
Definition long_name := "__traceiter_some_function_of_a_module_with_a_very_long_name_indeed".
Definition ep n f l := {| ep_addr := 4096; ep_func := n; ep_off := 26; ep_file := f; ep_line := l; ep_inline := false |}.
Theorem C102_long_name_refuted : exists f, ep_plain (f_ep f) /\ ep_ascii (f_ep f) /\
  visible (out_frame false false true f) = "  " ++ long_name ++ "+0x1a           	; a.c:7" ++ eol /\
  out_frame false false false f = "  " ++ long_name ++ "+0x1a	; a.c:7" ++ eol.
Proof.
  exists {| f_ip := 4096; f_ep := ep long_name "a.c" 7 |}. split; [vm_compute; repeat split; discriminate|]. split; [vm_compute; repeat split; Lia.lia|].
  split; vm_compute; reflexivity.
Qed.
Print Assumptions C102_long_name_refuted.
(** With colours the indentation of a call graph is drawn with dots. *)
Theorem C102_graph_dots_refuted : exists depth fi, plain fi /\ visible (out_graph false true depth fi 3 "1us" "2us") <> out_graph false false depth fi 3 "1us" "2us".
Proof. exists 1%nat, "f args=()". split; [vm_compute; repeat split; discriminate|vm_compute; discriminate]. Qed.
Print Assumptions C102_graph_dots_refuted.

Definition demo : event := {|
  e_arrow := "→ "; e_name := "tcp_sendmsg"; e_empty := false; e_params := ["(struct sock *)sk=0x1"; "(u64)size=5"]; e_more := false; e_ret := Some "(int)0"; e_kmulti := false; e_exit := true;
  e_cpu := 3; e_pid := 77; e_comm := "curl"; e_dur := Some "1.5us"; e_time := "10:00:00.1"; e_pkt := Some "1.1.1.1:80 -> 2.2.2.2:90";
  e_attrs := [ANull true "(int)'x'=[NULL]"; AShown "(int)'y'=1"; AHidden; AShown "z"];
  e_lbr := [{| en_from := ep "f" "" 0; en_to := ep "gg" "kernel/b.c" 12 |}; {| en_from := ep "gg" "b.c" 3; en_to := ep "hhh" "" 0 |}; {| en_from := ep "x" "" 0; en_to := ep "y" "y.c" 9 |}];
  e_stack := [{| f_ip := 4096; f_ep := ep "tcp_sendmsg" "net.c" 44 |}] |}.
Example demo_plain : event_plain demo /\ Forall fits (e_stack demo).
Proof. split; [vm_compute; repeat (split || constructor); first [discriminate|exact I|Lia.lia]|]. constructor; [vm_compute; discriminate|constructor]. Qed.
Example demo_colors : out_event false false true 32 demo <> out_event false false false 32 demo.
Proof. vm_compute. discriminate. Qed.
Example demo_text : out_event false false false 32 demo =
"→ tcp_sendmsg args=((struct sock *)sk=0x1, (u64)size=5) retval=(int)0 cpu=3 process=(77:curl) duration=1.5us timestamp=10:00:00.1
Pkt tuple: 1.1.1.1:80 -> 2.2.2.2:90
Arg attrs: (int)'x'=[NULL](int)'y'=1, , z
LBR stack:
[#31] f+0x1a          -> gg+0x1a  (kernel/b.c:12)
      gg+0x1a (b.c:3) -> hhh+0x1a                
[#30] x+0x1a          -> y+0x1a   (y.c:9)        
Func stack:
  tcp_sendmsg+0x1a                                  	; net.c:44
".
Proof. vm_compute. reflexivity. Qed.
