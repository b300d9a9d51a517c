(** * Property C25: the flame graph conserves samples. *)
From Coq Require Import List Bool String ZArith.
From Verif Require Import M_Flame S_Flame P_Flame.
Import ListNotations.
Open Scope string_scope.
Open Scope Z_scope.

(** C25.  After any sequence of samples (a stack and its weight; bpfsnoop adds 1) the folded output has exactly one line for every
    stack with a positive weight, showing that weight. Missing: stacks with a frame called "root" (refuted below). *)
Theorem C25_one_line_per_stack_partial : forall samples : list (list string * Z),
  (forall s, In s samples -> ~ In "root" (fst s)) ->
  let out := folded (fold_left (fun g s => add_stack g (fst s) (snd s)) samples new_graph) in
  NoDup (map fst out) /\ (forall p n, In (p, n) out <-> p <> [] /\ n = weight samples p /\ 0 < n).
Proof. exact folded_counts. Qed.
Print Assumptions C25_one_line_per_stack_partial.
(** The counts of the lines add up to the samples taken. *)
Theorem C25_counts_sum_partial : forall samples : list (list string * Z),
  (forall s, In s samples -> ~ In "root" (fst s) /\ fst s <> [] /\ 0 < snd s) ->
  fold_right Z.add 0 (map snd (folded (fold_left (fun g s => add_stack g (fst s) (snd s)) samples new_graph))) = total samples.
Proof. exact folded_sum. Qed.
Print Assumptions C25_counts_sum_partial.
(** The total recorded by the graph is the weight of all samples with a stack. *)
Theorem C25_total_value : forall samples : list (list string * Z),
  g_total (fold_left (fun g s => add_stack g (fst s) (snd s)) samples new_graph) = total (filter (fun s => match fst s with [] => false | _ => true end) samples).
Proof. intros samples. exact (total_value samples new_graph). Qed.
Print Assumptions C25_total_value.
(** A function called "root" is dropped: its samples disappear, and those below it are filed under its caller. *)
Theorem C25_frame_named_root_refuted : exists samples,
  total samples = 5 /\ folded (fold_left (fun g s => add_stack g (fst s) (snd s)) samples new_graph) = [(["main"; "leaf"], 2)].
Proof. exists [(["main"; "root"], 3); (["main"; "root"; "leaf"], 2)]. split; reflexivity. Qed.
Print Assumptions C25_frame_named_root_refuted.

(** The file that --output-flamegraph writes: one text line per line of the folded output, in that order; no file at all when no
    stack has a positive weight. *)
Theorem C25_file_partial : forall samples : list (list string * Z),
  (forall s, In s samples -> ~ In "root" (fst s)) ->
  let g := fold_left (fun g s => add_stack g (fst s) (snd s)) samples new_graph in
  (content g = None <-> forall p, p <> [] -> weight samples p <= 0) /\
  (forall s, content g = Some s -> s = String.concat "" (map (fun l => file_line (fst l) (snd l)) (folded g))).
Proof. exact file_content. Qed.
Print Assumptions C25_file_partial.

Definition demo := [(["main"; "f"], 1); (["main"; "g"; "f"], 1); (["main"; "f"], 1); (["idle"], 1); (["main"], 1); (["main"; "g"; "f"], 1); (["main"; "f"], 1)].
Example demo_ok : forall s, In s demo -> ~ In "root" (fst s) /\ fst s <> [] /\ 0 < snd s.
Proof. intros s Hs. cbn [demo In] in Hs. repeat (destruct Hs as [<-|Hs]; [split; [cbn; intuition discriminate|split; [discriminate|reflexivity]]|]). destruct Hs. Qed.
Example demo_file : content (fold_left (fun g s => add_stack g (fst s) (snd s)) demo new_graph) = Some "main 1
main;f 3
main;g;f 2
idle 1
".
Proof. reflexivity. Qed.
