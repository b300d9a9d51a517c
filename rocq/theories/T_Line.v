(** * Property C38: line look-up in BPF programs. *)
From Coq Require Import List Bool String ZArith Sorted Permutation.
From Verif Require Import M_Line P_Line.
Import ListNotations.
Open Scope string_scope.
Open Scope Z_scope.

(** C38.  Let a program's line table be ascending and a function occupy [start, start+len).  For an address in the function with
    some line of the function at or before it, the line shown is one that starts at the greatest such address.
    Missing: addresses before the function's first line (refuted below). *)
Theorem C38_covering_line_partial : forall start len name (tab : list (Z * line)) a,
  Sorted Z.le (map fst tab) -> start <= a < start + len -> (exists p, In p tab /\ start <= fst p <= a) ->
  exists b l, In (b, l) tab /\ start <= b <= a /\ (forall p, In p tab -> fst p <= a -> fst p <= b) /\
    func_get (new_func start len name tab) a = LOk {| li_func := name; li_start := start; li_file := short_name (l_file l); li_line := l_num l |}.
Proof. intros start len name tab a Hs. exact (get_covering start len name tab Hs a). Qed.
Print Assumptions C38_covering_line_partial.
(** Outside the function there is no answer. *)
Theorem C38_outside_no_answer : forall start len name tab a, ~ (start <= a < start + len) -> func_get (new_func start len name tab) a = LNone.
Proof.
  intros start len name tab a H. apply get_outside. unfold contains_addr, new_func. cbn.
  destruct (Z.leb_spec start a); destruct (Z.ltb_spec a (start + len)); try reflexivity. destruct H. split; assumption.
Qed.
Print Assumptions C38_outside_no_answer.
(** Refuted: any address inside the function before its first line (all addresses when it has no line table) crashes the look-up. *)
Theorem C38_before_first_line_crashes_refuted : forall start len name (tab : list (Z * line)) a,
  Sorted Z.le (map fst tab) -> start <= a < start + len -> (forall p, In p tab -> start <= fst p -> a < fst p) ->
  func_get (new_func start len name tab) a = LPanic.
Proof. intros start len name tab a Hs. exact (get_crash start len name tab Hs a). Qed.
Print Assumptions C38_before_first_line_crashes_refuted.
(** The functions are walked in map order, which is random: with disjoint ranges the answer is the same for every order. *)
Theorem C38_any_order : forall fs fs' a,
  (forall x i j f g, nth_error fs i = Some f -> nth_error fs j = Some g -> contains_addr f x = true -> contains_addr g x = true -> i = j) ->
  Permutation fs fs' -> progs_get fs a = progs_get fs' a.
Proof. exact progs_order. Qed.
Print Assumptions C38_any_order.

Definition demo : list (Z * line) :=
  [(100, {| l_file := "./bpf/a.c"; l_num := 3 |}); (108, {| l_file := "bpf/a.c"; l_num := 5 |}); (120, {| l_file := "bpf/b.h"; l_num := 9 |}); (140, {| l_file := "bpf/a.c"; l_num := 6 |})].
Example demo_sorted : Sorted Z.le (map fst demo).
Proof. repeat constructor; discriminate. Qed.
Example demo_get : func_get (new_func 100 40 "main" demo) 119 = LOk {| li_func := "main"; li_start := 100; li_file := "bpf/a.c"; li_line := 5 |} /\
  func_get (new_func 100 40 "main" demo) 100 = LOk {| li_func := "main"; li_start := 100; li_file := "bpf/a.c"; li_line := 3 |} /\
  func_get (new_func 96 4 "sub" demo) 97 = LPanic.
Proof. repeat split; reflexivity. Qed.
