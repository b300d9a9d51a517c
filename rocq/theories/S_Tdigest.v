(** * What a t-digest table should show. *)
From Coq Require Import List ZArith Sorted.
Import ListNotations.
Open Scope Z_scope.

(** the number of samples in the centroids of (integer) mean [v], and in all *)
Definition samples_at (v : Z) (cs : list (Z * Z)) : Z := fold_right Z.add 0 (map snd (filter (fun c => fst c =? v) cs)).
Definition samples (cs : list (Z * Z)) : Z := fold_right Z.add 0 (map snd cs).
(** the centroids in the order in which the digest visits them *)
Definition ascending (cs : list (Z * Z)) : Prop := StronglySorted Z.le (map fst cs).
(** the bar of a count: 40 columns for the largest count, in proportion, rounded down *)
Definition bar_ok (c maxc : Z) (bar : Z * Z * bool) : Prop := bar = (40 * c / maxc, 40 - 40 * c / maxc, false).
