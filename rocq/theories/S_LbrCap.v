(** * Specification: whose branches are shown (C86). *)
From Coq Require Import List Bool String ZArith.
From Verif Require Import M_Go M_Lbr M_LbrCap.
Import ListNotations.
Open Scope Z_scope.

(** The kernel delivers at most 32 branches, or a negative error. *)
Definition snap_ok (s : snap) : Prop := match s with SNone => True | SErr e => e < 0 | SOk l => (List.length l <= 32)%nat end.
(** No tracing program runs on a CPU between the start of a run there and the event of that run. *)
Fixpoint no_overlap (last : Z -> option Z) (os : list op) : Prop :=
  match os with
  | [] => True
  | OStart c id :: os' => no_overlap (fun x => if x =? c then Some id else last x) os'
  | OEmit c id _ _ :: os' => last c = Some id /\ no_overlap last os'
  | _ :: os' => no_overlap last os'
  end.
(** Events wait with different session numbers, fewer than 65536 of them, and no event with branches is dropped before they are looked up.
    [w]: the runs and session numbers that wait. *)
Fixpoint orderly (own : Z -> snap) (w : list (Z * Z)) (os : list op) : Prop :=
  match os with
  | [] => True
  | OStart _ _ :: os' => orderly own w os'
  | OEmit _ id sid _ :: os' => (own id <> SNone -> ~ In sid (map snd w)) /\ Z.of_nat (List.length w) < 65536 /\ orderly own (w ++ [(id, sid)]) os'
  | OHandle :: os' => orderly own (tl w) os'
  | OSkip :: os' => match w with (id, _) :: _ => own id = SNone | [] => True end /\ orderly own (tl w) os'
  end.
(** The runs (with their functions) whose events are handled, in order. *)
Fixpoint handled (w : list (Z * Z)) (os : list op) : list (Z * Z) :=
  match os with
  | [] => []
  | OStart _ _ :: os' => handled w os'
  | OEmit _ id _ ip :: os' => handled (w ++ [(id, ip)]) os'
  | OHandle :: os' => match w with [] => handled w os' | x :: w' => x :: handled w' os' end
  | OSkip :: os' => handled (tl w) os'
  end.
(** What is shown for branches l recorded by one run (C33). *)
Definition shown_for (name : Z -> string) (target : Z -> what * (Z -> bool)) (lbr_nr ip : Z) (s : snap) : res :=
  match s with SOk l => show name (fst (target ip)) (snd (target ip)) lbr_nr l (24 * Z.of_nat (List.length l)) | _ => RNothing end.
