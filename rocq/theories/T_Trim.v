(** * Property C107: what was not asked for is left out of the BPF programs. *)
From Coq Require Import List Bool String Arith.
From Verif Require Import M_Asm S_Asm M_Trim S_Trim P_Trim T_Asm.
Import ListNotations.
Open Scope string_scope.

(** Which options were given, from their values. *)
Definition given (expr : string) (nargs nouts : nat) (o : opt) : bool :=
  match o with FilterPkt => negb (String.eqb expr "") | FilterArg => negb (Nat.eqb nargs 0) | OutputArg => negb (Nat.eqb nouts 0) end.

(** For every program laid out from named functions: the functions of every option not given are removed, each call of one becomes the
    constant that lets the event pass (filters) or says nothing was written (output), and every other instruction of every other function
    is as it was.
    Missing: a function whose first instruction calls one of them loses its name (C20_wrapper_loses_its_name_refuted). *)
Theorem C107_unused_left_out_partial : forall (B : Type) (const : bool -> B) expr nargs nouts (fs : list (func B)),
  wf_image fs -> (forall f, In f fs -> left_out (given expr nargs nouts) (f_ref f) = None) ->
  trim_prog B const expr nargs nouts (image fs) = image (trimmed const (given expr nargs nouts) fs).
Proof. exact trim_ok. Qed.
Print Assumptions C107_unused_left_out_partial.

(** The same for each program of the collection, none added or dropped. *)
Theorem C107_every_program_partial : forall (B : Type) (const : bool -> B) expr nargs nouts (ps : list (string * list (func B))),
  (forall n fs, In (n, fs) ps -> wf_image fs /\ forall f, In f fs -> left_out (given expr nargs nouts) (f_ref f) = None) ->
  trim_spec B const expr nargs nouts (map (fun p => (fst p, image (snd p))) ps) =
  map (fun p => (fst p, image (trimmed const (given expr nargs nouts) (snd p)))) ps.
Proof.
  intros B const e a o ps H. unfold trim_spec. rewrite map_map. apply map_ext_in. intros [n fs] Hi. cbn [fst snd]. destruct (H n fs Hi) as [Hw Hh].
  f_equal. exact (trim_ok B const e a o fs Hw Hh).
Qed.
Print Assumptions C107_every_program_partial.

(** What is left still links: when every called function was there, every function still called is. *)
Theorem C107_still_links : forall (B : Type) (const : bool -> B) expr nargs nouts (fs : list (func B)),
  (forall f, In f fs -> left_out (given expr nargs nouts) (f_ref f) = None) -> linked fs -> linked (trimmed const (given expr nargs nouts) fs).
Proof. intros B const e a o. exact (trim_linked B const (given e a o)). Qed.
Print Assumptions C107_still_links.

(** Doing it again, as the tracing of every single function does for its filters, changes nothing. *)
Theorem C107_again_nothing : forall (B : Type) (const : bool -> B) expr nargs nouts (fs : list (func B)),
  wf_image fs -> (forall f, In f fs -> left_out (given expr nargs nouts) (f_ref f) = None) ->
  trim_prog B const expr nargs nouts (trim_prog B const expr nargs nouts (image fs)) = trim_prog B const expr nargs nouts (image fs).
Proof. exact trim_twice. Qed.
Print Assumptions C107_again_nothing.

(** With all three options nothing is touched, whatever the program. *)
Theorem C107_all_given_untouched : forall (B : Type) (const : bool -> B) expr nargs nouts (p : list (ins B)),
  expr <> "" -> nargs <> O -> nouts <> O -> trim_prog B const expr nargs nouts p = p.
Proof. exact trim_nothing. Qed.
Print Assumptions C107_all_given_untouched.

(** The hook calls both filters and the output function; filter_pkt calls filter_skb, which calls the pcap stub. *)
Definition hook : list (func nat) :=
  [{| f_name := "hook"; f_ref := ""; f_head := 1; f_rest := [call 2 "filter_arg"; call 3 ""; call 2 "filter_pkt"; call 2 "output_arg"; call 2 "output_pkt"; call 4 ""] |};
   {| f_name := "filter_pkt"; f_ref := ""; f_head := 5; f_rest := [call 2 "filter_skb"; call 4 ""] |};
   {| f_name := "filter_skb"; f_ref := ""; f_head := 6; f_rest := [call 2 "filter_pcap_l2"; call 4 ""] |};
   {| f_name := "filter_pcap_l2"; f_ref := ""; f_head := 7; f_rest := [call 4 ""] |};
   {| f_name := "filter_arg"; f_ref := ""; f_head := 8; f_rest := [call 4 ""] |};
   {| f_name := "output_pkt"; f_ref := ""; f_head := 9; f_rest := [call 4 ""] |};
   {| f_name := "output_arg"; f_ref := ""; f_head := 10; f_rest := [call 4 ""] |}].
Example hook_ok : wf_image hook /\ (forall f, In f hook -> f_ref f = "") /\ linked hook.
Proof.
  split; [split|split].
  - repeat constructor; cbn; intuition discriminate.
  - intros f Hf. cbn [hook In] in Hf. repeat (destruct Hf as [<-|Hf]; [split; [discriminate|]; cbn; intros i Hi; repeat (destruct Hi as [<-|Hi]; [reflexivity|]); destruct Hi|]). destruct Hf.
  - intros f Hf. cbn [hook In] in Hf. repeat (destruct Hf as [<-|Hf]; [reflexivity|]). destruct Hf.
  - intros i Hi. vm_compute in Hi. repeat (destruct Hi as [<-|Hi]; [cbn; tauto|]). destruct Hi.
Qed.
Definition const (b : bool) : nat := if b then 101 else 100.
Example hook_no_options : map i_body (trim_prog nat const "" 0 0 (image hook)) = [1; 101; 3; 101; 100; 2; 4; 9; 4].
Proof. reflexivity. Qed.
Example hook_filter_arg : map i_body (trim_prog nat const "" 1 0 (image hook)) = [1; 2; 3; 101; 100; 2; 4; 8; 4; 9; 4].
Proof. reflexivity. Qed.
Example hook_filter_pkt : map i_body (trim_prog nat const "tcp" 0 2 (image hook)) = [1; 101; 3; 2; 2; 2; 4; 5; 2; 4; 6; 2; 4; 7; 4; 9; 4; 10; 4].
Proof. reflexivity. Qed.
