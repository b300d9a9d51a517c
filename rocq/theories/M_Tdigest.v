(** * T-digests: /repo/internal/bpfsnoop/bpfsnoop_arg_tdigest.go, with printStars of bpfsnoop_arg_histogram.go.

    The t-digest itself (github.com/caio/go-tdigest) is outside: its centroids are given as the list that ForEachCentroid visits, the
    mean already converted by uint64(mean).  Numbers are uint64 (Z below 2^64). *)
From Coq Require Import List Bool ZArith Arith.
From Verif Require Import M_Go.
Import ListNotations.
Open Scope Z_scope.

(** slice element assignment s[i] = v *)
Fixpoint set_nth (l : list Z) (i : nat) (v : Z) : list Z :=
  match l, i with
  | [], _ => []
  | _ :: l', O => v :: l'
  | x :: l', S i' => x :: set_nth l' i' v
  end.
(** bpfsnoop_arg_tdigest.go:42-48: centroids without samples are left out *)
Definition collect (cs : list (Z * Z)) : list Z * list Z :=
  let l := filter (fun c => negb (snd c =? 0)) cs in (map fst l, map snd l).
(** bpfsnoop_arg_tdigest.go:50-59: the loop from i to len(means), on the two slices in place; [n]: iterations left *)
Fixpoint merge (n : nat) (i j : nat) (means counts : list Z) : nat * list Z * list Z :=
  match n with
  | O => (j, means, counts)
  | S n' =>
      if nth (i - 1) means 0 =? nth i means 0 then merge n' (S i) j means (set_nth counts j (u64 (nth j counts 0 + nth i counts 0)))
      else merge n' (S i) (S j) (set_nth means (S j) (nth i means 0)) (set_nth counts (S j) (nth i counts 0))
  end.
(** bpfsnoop_arg_histogram.go:60-74: stars, spaces, plus sign *)
Definition print_stars (val maxv width : Z) : Z * Z * bool :=
  let n := u64 (Z.min val maxv * width) / maxv in (n, width - n, maxv <? val).
(** bpfsnoop_arg_tdigest.go:69-82 tdigest2hist: value, count and bar of each row *)
Definition max_count (counts : list Z) : Z := fold_left (fun m v => if m <? v then v else m) counts (hd 0 counts).
Definition rows (vals counts : list Z) : list (Z * Z * (Z * Z * bool)) :=
  map (fun p => (fst p, snd p, print_stars (snd p) (max_count counts) 40)) (combine vals counts).
(** bpfsnoop_arg_tdigest.go:34-66 render: None is a run-time panic (means[:j+1] beyond an empty slice) *)
Definition render (total : Z) (cs : list (Z * Z)) : option (list (Z * Z * (Z * Z * bool))) :=
  if total =? 0 then Some []
  else
    let '(means, counts) := collect cs in
    let '(j, means, counts) := merge (List.length means - 1) 1 0 means counts in
    if (List.length means <? S j)%nat then None else Some (rows (firstn (S j) means) (firstn (S j) counts)).
