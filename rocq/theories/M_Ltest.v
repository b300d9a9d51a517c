(** * The test runner: /repo/cmd/localtest/file.go, test.go, command.go.

    One run of [test] is a transition system: main, its three goroutines (errgroup) and the process under test.  Labels of the environment: what the
    process writes, and its exit.  Simplifications:
    - exec.Command, the pipes and Start do not fail (test.go:61-78).
    - A line is handled in one step, but for the send on [matched], which may wait.
    - killCmd's own cmd.Wait returns when the process is dead; closing the pipes is left to the goroutine of test.go:89-93.
    - bufio.Scanner has no limit on the length of a line.
    - strings.TrimSpace is the ASCII one. *)
From Coq Require Import List Bool String Ascii Arith ZArith.
From Verif Require Import M_Flags.
Import ListNotations.
Open Scope string_scope.
Open Scope list_scope.

(** ** test.go:36-169 *)
(** A goroutine reading a pipe: [Sending r]: waiting to send on [matched]; r: the line also says that bpfsnoop is running. *)
Inductive reader := Reading | Sending (r : bool) | Ended.
Inductive mainpc :=
| Starting            (* test.go:128-148, the first select *)
| Matching            (* :157-165, the second select *)
| Killing (p : bool)  (* :167 *)
| Joining (p : bool)  (* :169 errg.Wait() *)
| Returned (p : bool).
Record state := {
  s_exit : option Z;           (* exit status of the process, if it is dead *)
  s_out : list string; s_err : list string;   (* written to stdout and stderr, not yet read *)
  s_wrote : list string;       (* all lines written (nobody reads this) *)
  s_chan : nat;                (* elements in [matched], capacity 10 *)
  s_ready : bool;              (* ready is closed *)
  s_waited : bool;             (* cmd.Wait has returned in the goroutine of :89-93: the pipes are closed and the status is in errCh *)
  s_o : reader; s_e : reader;
  s_main : mainpc;
  s_panic : bool }.
Definition init : state :=
  {| s_exit := None; s_out := []; s_err := []; s_wrote := []; s_chan := 0; s_ready := false; s_waited := false; s_o := Reading; s_e := Reading; s_main := Starting; s_panic := false |}.

Inductive label :=
| WriteOut (l : string) | WriteErr (l : string) | Exit (c : Z)     (* the process *)
| Wait                                                             (* the goroutine of :89-93 *)
| OLine | OSend | OEnd                                             (* :95-107 *)
| ELine | ESend | EEnd                                             (* :109-124 *)
| MErr | MReady | MStartTimeout | MMatched | MMatchTimeout | MKill | MJoin.
Definition environment (a : label) : bool := match a with WriteOut _ | WriteErr _ | Exit _ => true | _ => false end.

Definition is_nil {A} (l : list A) : bool := match l with [] => true | _ => false end.
Definition running_text : string := "bpfsnoop is running..".
Definition set_main (s : state) (m : mainpc) : state :=
  {| s_exit := s_exit s; s_out := s_out s; s_err := s_err s; s_wrote := s_wrote s; s_chan := s_chan s; s_ready := s_ready s; s_waited := s_waited s; s_o := s_o s; s_e := s_e s; s_main := m; s_panic := s_panic s |}.
Definition set_o (s : state) (out : list string) (ch : nat) (o : reader) : state :=
  {| s_exit := s_exit s; s_out := out; s_err := s_err s; s_wrote := s_wrote s; s_chan := ch; s_ready := s_ready s; s_waited := s_waited s; s_o := o; s_e := s_e s; s_main := s_main s; s_panic := s_panic s |}.
Definition set_e (s : state) (err : list string) (ch : nat) (e : reader) : state :=
  {| s_exit := s_exit s; s_out := s_out s; s_err := err; s_wrote := s_wrote s; s_chan := ch; s_ready := s_ready s; s_waited := s_waited s; s_o := s_o s; s_e := e; s_main := s_main s; s_panic := s_panic s |}.
(** close(ready), which panics if it is closed: :119-121 *)
Definition close_ready (s : state) : state :=
  {| s_exit := s_exit s; s_out := s_out s; s_err := s_err s; s_wrote := s_wrote s; s_chan := s_chan s; s_ready := true; s_waited := s_waited s; s_o := s_o s; s_e := s_e s; s_main := s_main s; s_panic := s_ready s |}.
Definition close_if (r : bool) (s : state) : state := if r then close_ready s else s.

Section Test.
  Variable the_match : string.   (* t.match *)
  (** chan capacity: :82 *)
  Definition cap : nat := 10.
  (** a pipe is at its end when cmd.Wait has closed it, whatever is unread, or when the process is dead and everything has been read *)
  Definition at_end (s : state) (unread : list string) : bool := s_waited s || (match s_exit s with Some _ => is_nil unread | None => false end).
  Definition step (s : state) (a : label) : option state :=
    if s_panic s then None else
    match a with
    | WriteOut l => match s_exit s with
        | None => Some {| s_exit := None; s_out := s_out s ++ [l]; s_err := s_err s; s_wrote := s_wrote s ++ [l]; s_chan := s_chan s; s_ready := s_ready s; s_waited := s_waited s; s_o := s_o s; s_e := s_e s; s_main := s_main s; s_panic := s_panic s |}
        | Some _ => None end
    | WriteErr l => match s_exit s with
        | None => Some {| s_exit := None; s_out := s_out s; s_err := s_err s ++ [l]; s_wrote := s_wrote s ++ [l]; s_chan := s_chan s; s_ready := s_ready s; s_waited := s_waited s; s_o := s_o s; s_e := s_e s; s_main := s_main s; s_panic := s_panic s |}
        | Some _ => None end
    | Exit c => match s_exit s with
        | None => Some {| s_exit := Some c; s_out := s_out s; s_err := s_err s; s_wrote := s_wrote s; s_chan := s_chan s; s_ready := s_ready s; s_waited := s_waited s; s_o := s_o s; s_e := s_e s; s_main := s_main s; s_panic := s_panic s |}
        | Some _ => None end
    | Wait => match s_exit s, s_waited s with
        | Some _, false => Some {| s_exit := s_exit s; s_out := s_out s; s_err := s_err s; s_wrote := s_wrote s; s_chan := s_chan s; s_ready := s_ready s; s_waited := true; s_o := s_o s; s_e := s_e s; s_main := s_main s; s_panic := s_panic s |}
        | _, _ => None end
    | OLine => match s_o s, s_out s with
        | Reading, l :: rest => Some (set_o s rest (s_chan s) (if contains the_match l then Sending false else Reading))
        | _, _ => None end
    | OSend => match s_o s with
        | Sending _ => if (s_chan s <? cap)%nat then Some (set_o s (s_out s) (S (s_chan s)) Reading) else None
        | _ => None end
    | OEnd => match s_o s with Reading => if at_end s (s_out s) then Some (set_o s (s_out s) (s_chan s) Ended) else None | _ => None end
    | ELine => match s_e s, s_err s with
        | Reading, l :: rest => Some (if contains the_match l then set_e s rest (s_chan s) (Sending (contains running_text l))
                                      else close_if (contains running_text l) (set_e s rest (s_chan s) Reading))
        | _, _ => None end
    | ESend => match s_e s with
        | Sending r => if (s_chan s <? cap)%nat then Some (close_if r (set_e s (s_err s) (S (s_chan s)) Reading)) else None
        | _ => None end
    | EEnd => match s_e s with Reading => if at_end s (s_err s) then Some (set_e s (s_err s) (s_chan s) Ended) else None | _ => None end
    | MErr => match s_main s, s_waited s, s_exit s with
        | Starting, true, Some c => Some (set_main s (if Z.eqb c 0 then Matching else Returned false))
        | _, _, _ => None end
    | MReady => match s_main s with Starting => if s_ready s then Some (set_main s Matching) else None | _ => None end
    | MStartTimeout => match s_main s with Starting => Some (set_main s (Returned false)) | _ => None end
    | MMatched => match s_main s, s_chan s with
        | Matching, S n => Some {| s_exit := s_exit s; s_out := s_out s; s_err := s_err s; s_wrote := s_wrote s; s_chan := n; s_ready := s_ready s; s_waited := s_waited s; s_o := s_o s; s_e := s_e s; s_main := Killing true; s_panic := s_panic s |}
        | _, _ => None end
    | MMatchTimeout => match s_main s with Matching => Some (set_main s (Killing false)) | _ => None end
    | MKill => match s_main s with
        | Killing p => Some {| s_exit := Some (match s_exit s with Some c => c | None => (-1)%Z end); s_out := s_out s; s_err := s_err s; s_wrote := s_wrote s; s_chan := s_chan s; s_ready := s_ready s; s_waited := s_waited s; s_o := s_o s; s_e := s_e s; s_main := Joining p; s_panic := s_panic s |}
        | _ => None end
    | MJoin => match s_main s, s_waited s, s_o s, s_e s with Joining p, true, Ended, Ended => Some (set_main s (Returned p)) | _, _, _, _ => None end
    end.
  Fixpoint run (s : state) (ls : list label) : option state :=
    match ls with [] => Some s | a :: ls' => match step s a with Some s' => run s' ls' | None => None end end.
End Test.

(** ** command.go:12-33: the process that triggers, started by a goroutine after a pause, and killed when test returns *)
Inductive helper := Sleeping | Up | Killed.
Inductive hlabel := HStart | HKill.
Definition hstep (h : helper) (a : hlabel) : helper :=
  match a, h with
  | HStart, Sleeping => Up                 (* cmd.Start() *)
  | HStart, h => h
  | HKill, Up => Killed
  | HKill, h => h                          (* cmd.Process is nil: nothing is done *)
  end.

(** ** file.go *)
Record tcase := { t_name : string; t_tag : string; t_test : string; t_match : string; t_timeout : Z; t_req : string; t_trig : string }.
Section File.
  Variable arch : string.                      (* runtime.GOARCH *)
  Variable duration : string -> option Z.      (* time.ParseDuration *)
  Variable wanted : string.                    (* --name *)
  Variable exec : tcase -> bool.               (* test *)
  Definition fresh : tcase := {| t_name := ""; t_tag := ""; t_test := ""; t_match := ""; t_timeout := 5000000000; t_req := ""; t_trig := "" |}.
  (** test.go:30-32 *)
  Definition valid (t : tcase) : bool := negb (t_tag t =? "") && negb (t_test t =? "") && negb (t_match t =? "") && (0 <? t_timeout t)%Z.
  (** file.go:36-76: a field; None: an error *)
  Definition field (t : tcase) (a b : string) : option tcase :=
    if a =? "name" then Some {| t_name := b; t_tag := t_tag t; t_test := t_test t; t_match := t_match t; t_timeout := t_timeout t; t_req := t_req t; t_trig := t_trig t |}
    else if a =? "tag" then Some {| t_name := t_name t; t_tag := b; t_test := t_test t; t_match := t_match t; t_timeout := t_timeout t; t_req := t_req t; t_trig := t_trig t |}
    else if a =? "test" then Some {| t_name := t_name t; t_tag := t_tag t; t_test := "./bpfsnoop " ++ b; t_match := t_match t; t_timeout := t_timeout t; t_req := t_req t; t_trig := t_trig t |}
    else if (a =? "match") || (a =? "match_" ++ arch) then Some {| t_name := t_name t; t_tag := t_tag t; t_test := t_test t; t_match := b; t_timeout := t_timeout t; t_req := t_req t; t_trig := t_trig t |}
    else if a =? "timeout" then match duration b with
        | Some d => Some {| t_name := t_name t; t_tag := t_tag t; t_test := t_test t; t_match := t_match t; t_timeout := d; t_req := t_req t; t_trig := t_trig t |}
        | None => None end
    else if a =? "prerequisite" then Some {| t_name := t_name t; t_tag := t_tag t; t_test := t_test t; t_match := t_match t; t_timeout := t_timeout t; t_req := b; t_trig := t_trig t |}
    else if a =? "trigger" then Some {| t_name := t_name t; t_tag := t_tag t; t_test := t_test t; t_match := t_match t; t_timeout := t_timeout t; t_req := t_req t; t_trig := b |}
    else if has_prefix "match_" a then Some t
    else None.
  (** file.go:22-34: what a line is *)
  Inductive kind := Skip | Separator | Field (a b : string) | Bad.
  Definition kind_of_line (line : string) : kind :=
    let l := trim line in
    if (l =? "") || has_prefix "#" l then Skip
    else if has_prefix "---" l then Separator
    else let '(a, b, ok) := cut_colon l in if ok then Field (trim a) (trim b) else Bad.
  (** what has become of a file: the cases that were run, and the verdict *)
  Definition finish (t : tcase) (ran : list tcase) (passed : bool) : list tcase * bool :=
    if (wanted =? "") || (wanted =? t_name t) then (ran ++ [t], exec t && passed) else (ran, passed).
  (** testFile's loop (file.go:92-117) and parseTestCase's (:19-83) in one; [t] is the case being read *)
  Fixpoint file (t : tcase) (ran : list tcase) (passed : bool) (lines : list string) : list tcase * bool :=
    match lines with
    | [] => if valid t then finish t ran passed else (ran, false)
    | line :: rest =>
        match kind_of_line line with
        | Skip => file t ran passed rest
        | Separator => if valid t then let '(ran', passed') := finish t ran passed in file fresh ran' passed' rest else (ran, false)
        | Field a b => match field t a b with Some t' => file t' ran passed rest | None => (ran, false) end
        | Bad => (ran, false)
        end
    end.
  Definition test_file (lines : list string) : list tcase * bool := file fresh [] true lines.
End File.
(** main.go:71-79: the files of a directory *)
Definition test_dir (verdict : string -> bool) (files : list string) : bool := fold_left (fun p f => verdict f && p) files true.
