(** * Specification for C100: what a test runner's verdict should mean. *)
From Coq Require Import List Bool String Arith ZArith.
From Verif Require Import M_Flags M_Ltest.
Import ListNotations.
Open Scope string_scope.

(** [sub] occurs in [l] *)
Definition occurs_in (sub l : string) : Prop := exists a b, l = a ++ sub ++ b.
(** how many of the lines contain [sub] *)
Definition count (sub : string) (ls : list string) : nat := List.length (filter (contains sub) ls).
(** Whatever the runner's goroutines do from [s] on, the process under test doing nothing more, the runner returns. *)
Inductive settles (m : string) : state -> Prop :=
| settled s p : s_main s = Returned p -> settles m s
| settling s : s_panic s = false -> (exists a, environment a = false /\ step m s a <> None) ->
    (forall a s', environment a = false -> step m s a = Some s' -> settles m s') -> settles m s.
(** a run of the runner that has come to [s] *)
Definition reached (m : string) (ls : list label) (s : state) : Prop := run m init ls = Some s.

(** A test case as written in a file; [timeout] is text *)
Record written := { w_name : string; w_tag : string; w_test : string; w_match : string; w_timeout : string; w_req : string; w_trig : string }.
Definition lines_of (w : written) : list string :=
  ["name: " ++ w_name w; "tag: " ++ w_tag w; "test: " ++ w_test w; "match: " ++ w_match w; "timeout: " ++ w_timeout w;
   "prerequisite: " ++ w_req w; "trigger: " ++ w_trig w].
Fixpoint file_of (ws : list written) : list string :=
  match ws with [] => [] | [w] => lines_of w | w :: ws' => (lines_of w ++ "---" :: file_of ws')%list end.
(** no space at either end *)
Definition tidy (s : string) : Prop := trim s = s.
Definition well_written (duration : string -> option Z) (w : written) : Prop :=
  tidy (w_name w) /\ tidy (w_tag w) /\ tidy (w_test w) /\ tidy (w_match w) /\ tidy (w_timeout w) /\ tidy (w_req w) /\ tidy (w_trig w) /\
  w_tag w <> "" /\ w_match w <> "" /\ exists d, duration (w_timeout w) = Some d /\ (0 < d)%Z.
(** the case it stands for *)
Definition case_of (duration : string -> option Z) (w : written) : tcase :=
  {| t_name := w_name w; t_tag := w_tag w; t_test := "./bpfsnoop " ++ w_test w; t_match := w_match w;
     t_timeout := match duration (w_timeout w) with Some d => d | None => 0 end; t_req := w_req w; t_trig := w_trig w |}.
(** the cases --name selects *)
Definition selected (wanted : string) (cs : list tcase) : list tcase := filter (fun t => (wanted =? "") || (wanted =? t_name t)) cs.
(** a line without meaning: blank, or a comment *)
Definition blank_or_comment (l : string) : Prop := trim l = "" \/ exists r, trim l = "#" ++ r.
(** a case with nothing missing *)
Definition complete (t : tcase) : Prop := t_tag t <> "" /\ t_test t <> "" /\ t_match t <> "" /\ (0 < t_timeout t)%Z.
(** the shortest way to write a case, and what it stands for: five seconds, no helpers *)
Definition short_lines (w : written) : list string := ["name: " ++ w_name w; "tag: " ++ w_tag w; "test: " ++ w_test w; "match: " ++ w_match w].
Definition short_case (w : written) : tcase :=
  {| t_name := w_name w; t_tag := w_tag w; t_test := "./bpfsnoop " ++ w_test w; t_match := w_match w; t_timeout := 5 * 1000000000; t_req := ""; t_trig := "" |}.
