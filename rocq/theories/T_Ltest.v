(** * Property theorems C100: the verdict of the test runner. *)
From Coq Require Import List Bool String Arith ZArith.
From Verif Require Import M_Flags M_Ltest S_Ltest P_Ltest.
Import ListNotations.
Open Scope string_scope.
Open Scope list_scope.

(** A test passes only if the process has printed a line with the text looked for. *)
Theorem C100_passes_only_on_match : forall m ls s, reached m ls s -> s_main s = Returned true -> exists l, In l (s_wrote s) /\ occurs_in m l.
Proof. exact pass_sound. Qed.
Print Assumptions C100_passes_only_on_match.
Theorem C100_lines_written : forall m ls s l, reached m ls s -> In l (s_wrote s) -> In (WriteOut l) ls \/ In (WriteErr l) ls.
Proof. intros m ls s l H Hl. destruct (wrote_by_process m ls init s H l Hl) as [[]|H']. exact H'. Qed.
Print Assumptions C100_lines_written.
(** It fails only after a timeout or if the process ended with an error. *)
Theorem C100_fails_with_reason : forall m ls s, reached m ls s -> s_main s = Returned false ->
  In MStartTimeout ls \/ In MMatchTimeout ls \/ exists c, c <> 0%Z /\ In (Exit c) ls.
Proof. exact fail_reason. Qed.
Print Assumptions C100_fails_with_reason.
(** With at most ten lines that match and one that says that bpfsnoop is running, the runner returns under every schedule. *)
Theorem C100_returns_partial : forall m ls s, reached m ls s -> (count m (s_wrote s) <= 10)%nat -> (count running_text (s_wrote s) <= 1)%nat -> settles m s.
Proof. exact returns. Qed.
Print Assumptions C100_returns_partial.

Definition good_run : list label :=
  [WriteErr "2025 bpfsnoop is running.."; ELine; MReady; WriteOut "hit 1"; OLine; OSend; MMatched; MKill; WriteOut "x"; Wait; OEnd; EEnd; MJoin].
Definition good_run' : list label :=
  [WriteErr "2025 bpfsnoop is running.."; ELine; MReady; WriteOut "hit 1"; OLine; OSend; MMatched; MKill; Wait; OEnd; EEnd; MJoin].
Example good_case : (exists s, reached "hit" good_run' s /\ s_main s = Returned true /\ (count "hit" (s_wrote s) <= 10)%nat /\ (count running_text (s_wrote s) <= 1)%nat) /\
  run "hit" init good_run = None.
Proof. split; [eexists; split; [vm_compute; reflexivity|]; split; [reflexivity|]; split; vm_compute; repeat constructor|vm_compute; reflexivity]. Qed.
Example bad_case : exists s, reached "hit" [Exit 1; Wait; MErr] s /\ s_main s = Returned false.
Proof. eexists. split; vm_compute; reflexivity. Qed.

(** A goroutine that reads the output can stop if and only if cmd.Wait has closed the pipe, or the process is dead and all has been read;
    so what is lost is lost to cmd.Wait alone (see below). *)
Theorem C100_reader_stops_iff : forall m s, s_panic s = false ->
  (s_o s = Reading -> (step m s OEnd <> None <-> s_waited s = true \/ (s_exit s <> None /\ s_out s = []))) /\
  (s_e s = Reading -> (step m s EEnd <> None <-> s_waited s = true \/ (s_exit s <> None /\ s_err s = []))).
Proof. exact reader_stops. Qed.
Print Assumptions C100_reader_stops_iff.
Theorem C100_nothing_lost_before_wait : forall m ls s, reached m ls s -> s_waited s = false -> (s_o s = Ended -> s_out s = []) /\ (s_e s = Ended -> s_err s = []).
Proof. exact nothing_lost. Qed.
Print Assumptions C100_nothing_lost_before_wait.
(** Twelve lines that match: the goroutine that reads them waits for ever for room in the channel, and errg.Wait for the goroutine. *)
Definition hits (n : nat) : list label := List.concat (repeat [WriteOut "hit"; OLine; OSend] n).
Definition stuck_run : list label :=
  [WriteErr "bpfsnoop is running.."; ELine; MReady] ++ [WriteOut "hit"; OLine; OSend; MMatched] ++ hits 10 ++ [WriteOut "hit"; OLine; MKill; Wait; EEnd].
Theorem C100_many_matches_hang_refuted : exists s, reached "hit" stuck_run s /\ count "hit" (s_wrote s) = 12%nat /\
  forall ls s', run "hit" s ls = Some s' -> s_main s' = Joining true.
Proof.
  eexists. split; [vm_compute; reflexivity|]. split; [vm_compute; reflexivity|].
  intros ls s' H. eapply stuck_for_ever in H; [exact H|reflexivity|discriminate|reflexivity|reflexivity|reflexivity].
Qed.
Print Assumptions C100_many_matches_hang_refuted.
(** Two lines with "bpfsnoop is running..": the runner itself panics (close of closed channel). *)
Theorem C100_two_ready_lines_panic_refuted : exists s,
  reached "hit" [WriteErr "bpfsnoop is running.."; WriteErr "bpfsnoop is running.."; ELine; MReady; ELine] s /\ s_panic s = true.
Proof. eexists. split; vm_compute; reflexivity. Qed.
Print Assumptions C100_two_ready_lines_panic_refuted.
(** A process that prints the text, says that it is running, and ends without error may fail the test: cmd.Wait closes the pipes before they are read. *)
Theorem C100_output_lost_refuted : exists s,
  reached "hit" [WriteErr "bpfsnoop is running.."; WriteOut "hit"; Exit 0; Wait; OEnd; EEnd; MErr] s /\ In "hit" (s_wrote s) /\
  forall ls s', run "hit" s ls = Some s' -> s_main s' <> Returned true.
Proof.
  eexists. split; [vm_compute; reflexivity|]. split; [vm_compute; auto|].
  intros ls s' H. eapply lost; [|exact H]. cbn. repeat split. intros p [A|[A|A]]; discriminate.
Qed.
Print Assumptions C100_output_lost_refuted.
(** The process that triggers is killed at the end if it has been started by then; else it is started afterwards, and goes on. *)
Theorem C100_helper_killed : hstep (hstep Sleeping HStart) HKill = Killed.
Proof. exact eq_refl. Qed.
Print Assumptions C100_helper_killed.
Theorem C100_helper_outlives_refuted : hstep (hstep Sleeping HKill) HStart = Up.
Proof. exact eq_refl. Qed.
Print Assumptions C100_helper_outlives_refuted.

(** A file: the selected cases are run, in order, and it passes if and only if they all pass. *)
Theorem C100_file : forall arch duration wanted exec ws, ws <> [] -> Forall (well_written duration) ws ->
  let cs := selected wanted (map (case_of duration) ws) in
  test_file arch duration wanted exec (file_of ws) = (cs, forallb exec cs).
Proof. exact file_cases. Qed.
Print Assumptions C100_file.
(** Blank lines and comments do not matter, wherever they are. *)
Theorem C100_comments_ignored : forall arch duration wanted exec pre l post, blank_or_comment l ->
  test_file arch duration wanted exec (pre ++ l :: post) = test_file arch duration wanted exec (pre ++ post).
Proof. intros. apply skip_line. apply blank_skip. assumption. Qed.
Print Assumptions C100_comments_ignored.
(** Whatever is in a file: if it passes, every case run has passed. *)
Theorem C100_pass_is_all : forall arch duration wanted exec lines, snd (test_file arch duration wanted exec lines) = true ->
  forallb exec (fst (test_file arch duration wanted exec lines)) = true.
Proof.
  intros arch duration wanted exec lines H. destruct (file_passes arch duration wanted exec fresh [] true lines H) as (_ & more & E & F).
  unfold test_file. rewrite E. exact F.
Qed.
Print Assumptions C100_pass_is_all.
(** Only complete cases are run. *)
Theorem C100_cases_complete : forall arch duration wanted exec lines t, In t (fst (test_file arch duration wanted exec lines)) -> complete t.
Proof.
  intros arch duration wanted exec lines t H. pose proof (file_complete arch duration wanted exec lines fresh [] true (Forall_nil _)) as F.
  rewrite Forall_forall in F. exact (F t H).
Qed.
Print Assumptions C100_cases_complete.
(** Without a timeout: five seconds. *)
Theorem C100_default_timeout : forall arch duration exec w, tidy (w_name w) -> tidy (w_tag w) -> tidy (w_test w) -> tidy (w_match w) -> w_tag w <> "" -> w_match w <> "" ->
  test_file arch duration "" exec (short_lines w) = ([short_case w], exec (short_case w)).
Proof. exact short_run. Qed.
Print Assumptions C100_default_timeout.
Theorem C100_separator_last_fails : forall arch duration wanted exec lines, snd (test_file arch duration wanted exec (lines ++ ["---"])) = false.
Proof. intros. apply file_sep_last. Qed.
Print Assumptions C100_separator_last_fails.
Theorem C100_directory : forall verdict files, test_dir verdict files = forallb verdict files.
Proof. exact dir_all. Qed.
Print Assumptions C100_directory.
(** A name that no case has passes, without a test having been run. *)
Definition secs (s : string) : option Z := if (s =? "5s")%string then Some 5000000000%Z else None.
Definition w_demo : written := {| w_name := "tp::skb"; w_tag := "tp"; w_test := "-t netif_receive_skb"; w_match := "a: b"; w_timeout := "5s"; w_req := ""; w_trig := "ping" |}.
Example w_ok : well_written secs w_demo /\ lines_of w_demo = ["name: tp::skb"; "tag: tp"; "test: -t netif_receive_skb"; "match: a: b"; "timeout: 5s"; "prerequisite: "; "trigger: ping"].
Proof. split; [|reflexivity]. unfold well_written, tidy. repeat split; try reflexivity; try discriminate. exists 5000000000%Z. split; reflexivity. Qed.
Theorem C100_no_such_name_passes_refuted : test_file "amd64" secs "tp:skb" (fun _ => false) (file_of [w_demo]) = ([], true).
Proof. vm_compute. reflexivity. Qed.
Print Assumptions C100_no_such_name_passes_refuted.
Theorem C100_occurs : forall sub l, contains sub l = true <-> occurs_in sub l.
Proof. exact contains_iff. Qed.
Print Assumptions C100_occurs.
