(** * C70: t-digest tables. *)
From Coq Require Import List Bool ZArith Lia Sorted.
From Verif Require Import M_Go M_Tdigest S_Tdigest P_Tdigest.
Import ListNotations.
Open Scope Z_scope.

(** For every list of centroids in ascending order: no crash; one row per integer value that has samples, in ascending order; each row shows the
    number of samples at its value; the rows add up to all samples; the bars are in proportion to the largest count, which gets all 40 columns. *)
Theorem C70_table : forall cs, ascending cs -> (forall c, In c cs -> 0 <= snd c) -> 0 < samples cs -> 40 * samples cs < 2 ^ 64 -> forall total, total <> 0 ->
  exists rs mx, render total cs = Some rs /\
    StronglySorted Z.lt (map (fun r => fst (fst r)) rs) /\
    (forall v c bar, In (v, c, bar) rs -> c = samples_at v cs /\ 0 < c <= mx /\ bar_ok c mx bar) /\
    (forall v c, In (v, c) cs -> 0 < c -> exists c' bar, In (v, c', bar) rs) /\
    fold_right Z.add 0 (map (fun r => snd (fst r)) rs) = samples cs /\
    (exists v, In (v, mx, (40, 0, false)) rs).
Proof. exact render_ok. Qed.
(** No samples, no table. *)
Theorem C70_empty : forall cs, render 0 cs = Some [].
Proof. intros cs. reflexivity. Qed.

Example C70_case : let cs := [(1, 3); (1, 1); (2, 0); (2, 8); (7, 2)] in
  ascending cs /\ (forall c, In c cs -> 0 <= snd c) /\ 0 < samples cs /\ 40 * samples cs < 2 ^ 64 /\
  render 14 cs = Some [(1, 4, (20, 20, false)); (2, 8, (40, 0, false)); (7, 2, (10, 30, false))].
Proof.
  intros cs. split; [|split; [|split; [|split]]]; try reflexivity.
  - unfold ascending, cs. cbn [map fst]. repeat (constructor; [|repeat (constructor; [lia|]); constructor]). constructor.
  - intros c Hc. cbn [cs In] in Hc. repeat destruct Hc as [<-|Hc]; cbn; lia.
Qed.

Print Assumptions C70_table.
Print Assumptions C70_empty.
