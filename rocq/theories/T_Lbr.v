(** * Property C33: last branch records. *)
From Coq Require Import List Bool String ZArith.
From Verif Require Import M_Lbr S_Lbr P_Lbr.
Import ListNotations.
Open Scope string_scope.
Open Scope Z_scope.

(** C33.  For every list of n hardware branches (newest first): read from top to bottom, the printed branches are the kept ones from
    the oldest to the newest, each once; each numbered record is a chain of branches, a new record starts where the chain breaks, and
    records are numbered downwards. *)
Theorem C33_branches_in_order : forall name w inf nr data n b0 rest,
  data = b0 :: rest -> ~ (b_from b0 = 0 /\ b_to b0 = 0 /\ b_flags b0 = 0) -> 0 < n <= Z.of_nat (List.length data) ->
  exists recs, show name w inf nr data (24 * n) = RShown recs /\
    List.concat (map snd recs) = rev (map (endpoint name) (trim w inf (firstn (Z.to_nat n) data))) /\
    Forall chain (map snd recs) /\ breaks (map snd recs) /\ (forall k p, nth_error recs k = Some p -> fst p = nr - 1 - Z.of_nat k).
Proof. exact show_ok. Qed.
Print Assumptions C33_branches_in_order.
(** The kept branches are a contiguous part of the history, never empty; all of it in verbose mode; for a kernel function or a program
    traced at its entry, from the newest branch taken inside it on. *)
Theorem C33_kept_branches : forall inf l, l <> [] ->
  (forall w, infix (trim w inf l) l /\ trim w inf l <> []) /\ trim Verbose inf l = l /\
  starts_at (fun b => inf (b_from b) = true) (trim Kernel inf l) l /\ starts_at (fun b => inf (b_from b) = true) (trim ProgEntry inf l) l.
Proof.
  intros inf l H. split; [intros w; split; [apply trim_infix|apply trim_nonempty; exact H]|]. split; [reflexivity|].
  split; apply cut_front_spec; reflexivity.
Qed.
Print Assumptions C33_kept_branches.

Definition fn (a : Z) : string := if a <? 100 then "bpf" else if a <? 200 then "f" else if a <? 300 then "g" else "h".
Definition br a b := {| b_from := a; b_to := b; b_flags := 0 |}.
Definition hist := [br 10 20; br 150 5; br 160 110; br 250 130; br 350 210; br 120 330; br 140 260].
Example demo_show : show fn Kernel (fun a => (100 <=? a) && (a <? 200)) 32 hist (24 * 6) =
  RShown [(31, [{| e_from := 120; e_fromf := "f"; e_to := 330; e_tof := "h" |}; {| e_from := 350; e_fromf := "h"; e_to := 210; e_tof := "g" |};
     {| e_from := 250; e_fromf := "g"; e_to := 130; e_tof := "f" |}; {| e_from := 160; e_fromf := "f"; e_to := 110; e_tof := "f" |}; {| e_from := 150; e_fromf := "f"; e_to := 5; e_tof := "bpf" |}])].
Proof. reflexivity. Qed.
