(** * Property C110: the kernel's text files are read as the kernel writes them. *)
From Coq Require Import List Bool String Ascii NArith ZArith Lia.
From Verif Require Import M_Kallsyms S_Kallsyms S_Flags M_Text S_Text P_Text.
Import ListNotations.
Open Scope nat_scope.
Open Scope string_scope.

(** Every listing the kernel can print is accepted, and the table has exactly its functions, in order: address, name and module. *)
Theorem C110_kallsyms_text_read : forall l, Forall sym_ok l -> exists ks, ks_of_text (file (map sym_line l)) = Some ks /\
  map (fun e => (kaddr e, kname e, kmod e)) (heap ks) = map (fun s => (s_addr s, s_name s, sym_mod s)) (filter is_function l).
Proof. exact text_loads. Qed.
Print Assumptions C110_kallsyms_text_read.

(** From text to symbol: an address between two functions of the listing resolves to the function with the greatest address not above it. *)
Theorem C110_address_resolved_from_text : forall l a, Forall sym_ok l ->
  (exists s, In s l /\ is_function s = true /\ (s_addr s <= a)%Z) -> (exists s, In s l /\ is_function s = true /\ (a <= s_addr s)%Z) ->
  exists ks e s, ks_of_text (file (map sym_line l)) = Some ks /\ ks_find ks a = FSome (Some e) /\ In s l /\ is_function s = true /\
    kaddr e = s_addr s /\ kname e = s_name s /\ (s_addr s <= a)%Z /\
    forall s', In s' l -> is_function s' = true -> (s_addr s' <= a)%Z -> (s_addr s' <= s_addr s)%Z.
Proof. exact text_find. Qed.
Print Assumptions C110_address_resolved_from_text.

(** The functions that can be probed are exactly those listed, whatever module they are in. *)
Theorem C110_available_functions_read : forall l, Forall avail_ok l -> load_avail (file (map avail_line l)) = ANames (map fst l).
Proof. exact avail_reads. Qed.
Print Assumptions C110_available_functions_read.

(** No text whatsoever makes that reader crash. *)
Theorem C110_available_functions_no_crash : forall text, load_avail text <> APanic.
Proof. exact avail_never_panics. Qed.
Print Assumptions C110_available_functions_no_crash.

(** The programs a process holds: those of its file descriptors that are BPF programs, by the id the kernel reports. *)
Theorem C110_programs_of_process : forall fds ids, Forall2 fd_of fds ids -> pid_progs fds = Some (listed_ids ids).
Proof. exact pid_reads. Qed.
Print Assumptions C110_programs_of_process.

(** Line by line, for every text: nothing is skipped silently.  Either all lines are seen (without their line feed and one carriage return), or
    some line is longer than the scanner takes and the reader says so. *)
Theorem C110_no_line_lost : forall text ls ok, scan text = (ls, ok) ->
  exists pieces, String.concat newline pieces = text /\ Forall (all_chars (fun c => c <> LF)) pieces /\
  if ok then Forall is_line pieces /\ ls = map drop_cr (match last pieces "" with EmptyString => removelast pieces | _ => pieces end)
  else exists x, In x pieces /\ (65536 <= N.of_nat (String.length x))%N.
Proof. exact scan_complete. Qed.
Print Assumptions C110_no_line_lost.
Theorem C110_unreadable_refused : forall text, (exists x, In x (split_lf text) /\ (65536 <= N.of_nat (String.length x))%N) ->
  ks_of_text text = None /\ (forall ls, load_avail text <> ANames ls).
Proof. exact long_line_refused. Qed.
Print Assumptions C110_unreadable_refused.

(** ** The hypotheses are met *)
Definition demo : list sym :=
  [{| s_addr := 18446744071578845184; s_type := "T"; s_name := "_stext"; s_mod := None |};
   {| s_addr := 18446744071578845952; s_type := "t"; s_name := "foo.isra.0"; s_mod := None |};
   {| s_addr := 18446744071578845999; s_type := "D"; s_name := "jiffies"; s_mod := None |};
   {| s_addr := 18446744072645001216; s_type := "t"; s_name := "nf_ct_get"; s_mod := Some "nf_conntrack" |}].
Lemma printables s : forallb (fun c => Nat.leb 33 (nat_of_ascii c) && Nat.leb (nat_of_ascii c) 126) (list_ascii_of_string s) = true -> all_chars printable s.
Proof.
  induction s as [|c s IH]; intros H; [exact I|]. cbn [list_ascii_of_string forallb] in H. apply andb_prop in H as [H1 H2]. apply andb_prop in H1 as [H0 H1].
  split; [|exact (IH H2)]. split; now apply PeanoNat.Nat.leb_le.
Qed.
Example demo_ok : Forall sym_ok demo.
Proof.
  assert (forall s, s <> "" -> forallb (fun c => Nat.leb 33 (nat_of_ascii c) && Nat.leb (nat_of_ascii c) 126) (list_ascii_of_string s) = true -> word s) as HW
    by (intros s H1 H2; split; [exact H1|now apply printables]).
  assert (forall a t n mo, (Z.leb 0 a && Z.ltb a (2 ^ 64))%Z = true -> all_chars printable (String t "") -> word n -> short n ->
    (forall m, mo = Some m -> word m /\ short m /\ all_chars no_bracket m) -> sym_ok {| s_addr := a; s_type := t; s_name := n; s_mod := mo |}) as HS.
  { intros a t n mo Ha Ht Hn Hl Hm. apply andb_prop in Ha as [H1 H2]. apply Z.leb_le in H1. apply Z.ltb_lt in H2. destruct Ht as [Ht _].
    repeat split; cbn; auto; try apply Ht; try apply Hn; now apply Hm. }
  unfold demo. apply Forall_cons; [|apply Forall_cons; [|apply Forall_cons; [|apply Forall_cons; [|apply Forall_nil]]]];
    apply HS; try (vm_compute; reflexivity); try (apply printables; vm_compute; reflexivity); try (apply HW; [discriminate|vm_compute; reflexivity]);
    intros m H; try discriminate.
  injection H as <-. split; [apply HW; [discriminate|vm_compute; reflexivity]|]. split; [vm_compute; reflexivity|].
  repeat (split; [split; discriminate|]). exact I.
Qed.
Example demo_text : exists ks, ks_of_text (file (map sym_line demo)) = Some ks /\
  map kname (heap ks) = ["_stext"; "foo.isra.0"; "nf_ct_get"] /\ map kmod (heap ks) = [""; ""; "nf_conntrack"].
Proof. eexists. split; [vm_compute; reflexivity|]. split; vm_compute; reflexivity. Qed.
Example demo_avail : load_avail (file (map avail_line [("tcp_v4_rcv", None); ("nf_ct_get", Some "nf_conntrack")])) = ANames ["tcp_v4_rcv"; "nf_ct_get"].
Proof. vm_compute. reflexivity. Qed.
Example demo_fd : fd_of {| fd_link := Some "anon_inode:bpf-prog"; fd_info := Some (fdinfo ["pos:	0"; "prog_type:	6"; "prog_jited:	1"] [4; 2] (file ["run_time_ns:	0"])) |} (Some 42%Z) /\
  fd_of {| fd_link := Some "socket:[1234]"; fd_info := None |} None.
Proof.
  split.
  - change 42%Z with (number [4; 2]). constructor.
    + repeat constructor; cbn; repeat split; discriminate.
    + cbn. intros l H. intuition; subst; reflexivity.
    + discriminate.
    + cbn. intros d H. lia.
    + vm_compute. reflexivity.
    + cbn. lia.
  - constructor. intros t H. injection H as <-. discriminate.
Qed.
Example crlf_line : scan ("a" ++ String CR (String LF "b")) = (["a"; "b"], true).
Proof. reflexivity. Qed.
