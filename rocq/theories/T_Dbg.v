(** * Property C87: which debug files are used. *)
From Coq Require Import List Bool String Ascii.
From Verif Require Import M_Dbg S_Dbg P_Dbg.
Import ListNotations.
Open Scope string_scope.

(** C87, kernel image.  Without --kernel-vmlinux, the file used is the first of the seven usual places of this kernel release that is a file; if none is, tracing
    goes on without debug data. *)
Theorem C87_usual_places : forall is_file rel wanted,
  match main_vmlinux is_file "" (Some rel) wanted with
  | Goes (Some p) => wanted = true /\ exists pre post, usual_places rel = (pre ++ p :: post)%list /\ is_file p = true /\ forall q, In q pre -> is_file q = false
  | Goes None => wanted = false \/ forall q, In q (usual_places rel) -> is_file q = false
  | Ends => False
  end.
Proof.
  intros is_file rel wanted. unfold main_vmlinux, find_vmlinux. cbn [String.eqb negb]. pose proof (first_file_spec is_file (locations rel)) as H.
  destruct (first_file is_file (locations rel)) as [p| | |]; try contradiction; [|right; exact H]. destruct wanted; [split; [reflexivity|exact H]|left; reflexivity].
Qed.
Print Assumptions C87_usual_places.
(** With a directory given, only vmlinux in it is used; without one there, the process ends, whether or not debug data is wanted and whatever the usual places hold. *)
Theorem C87_given_directory : forall is_file dir rel wanted, dir <> "" ->
  main_vmlinux is_file dir rel wanted = if is_file (dir ++ "/vmlinux") then Goes (if wanted then Some (dir ++ "/vmlinux") else None) else Ends.
Proof.
  intros is_file dir rel wanted H. unfold main_vmlinux, find_vmlinux. destruct (String.eqb_spec dir ""); [congruence|]. cbn [negb]. unfold join_vmlinux.
  destruct (is_file (dir ++ "/vmlinux")); reflexivity.
Qed.
Print Assumptions C87_given_directory.
(** C87, modules.  In any directory tree: what is found is named <module>.ko or <module>.ko.zst up to dashes; nothing is missed when all directories can be read;
    the search fails only because of a directory that cannot be read. *)
Theorem C87_module_file : forall md root tree, no_dash md ->
  match walk md root tree with
  | WFound p => exists n, at_path root tree p n /\ module_file md (hd "" p)
  | WErr => exists p, at_path root tree p (Dir None)
  | WDone => forall p n, at_path root tree p n -> ~ module_file md (hd "" p)
  end.
Proof.
  intros md root tree H. pose proof (walk_spec md tree root) as W. destruct (walk md root tree) as [p| |].
  - destruct W as (n & A & B). exists n. split; [exact A|]. apply fits_iff; assumption.
  - exact W.
  - intros p n A F. destruct (W p n A) as [_ B]. apply (fits_iff md _ H) in F. congruence.
Qed.
Print Assumptions C87_module_file.
(** Refuted: a file that is there is not found when a directory visited before it cannot be read - and then no line of the module is shown (C60) although
    nothing is wrong with the file. *)
Theorem C87_unreadable_directory_refuted : exists md root tree p, no_dash md /\ at_path root tree p File /\ module_file md (hd "" p) /\ walk md root tree = WErr.
Proof.
  exists "nf_tables", ["6.8.0"], (Dir (Some [("a", Dir None); ("net", Dir (Some [("nf-tables.ko.zst", File)]))])), ["nf-tables.ko.zst"; "net"; "6.8.0"].
  split; [cbn; repeat split; discriminate|]. split.
  - eapply below; [eapply below; [constructor|right; left; reflexivity]|left; reflexivity].
  - split; [right; cbn; repeat split; auto|reflexivity].
Qed.
Print Assumptions C87_unreadable_directory_refuted.
Example demo_C87 : walk "nf_tables" ["6.8.0"] (Dir (Some [("fs", Dir (Some [("ext4.ko", File)])); ("net", Dir (Some [("nf-tables.ko.zst", File)]))])) = WFound ["nf-tables.ko.zst"; "net"; "6.8.0"] /\
  walk "xfs" ["6.8.0"] (Dir (Some [("fs", Dir (Some [("ext4.ko", File)]))])) = WDone /\
  main_vmlinux (fun p => String.eqb p "/usr/lib/debug/boot/vmlinux-6.8.0" || String.eqb p "/lib/modules/6.8.0/build/vmlinux") "" (Some "6.8.0") true = Goes (Some "/lib/modules/6.8.0/build/vmlinux").
Proof. repeat split. Qed.
