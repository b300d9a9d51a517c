(** * Specification of the LBR output. *)
From Coq Require Import List Bool String ZArith.
From Verif Require Import M_Lbr.
Import ListNotations.
Open Scope Z_scope.

(** Part of the history: [part] is [all] without some newest and some oldest branches. *)
Definition infix (part all : list branch) : Prop := exists newer older, all = newer ++ part ++ older.
(** Newest branches before the first one that satisfies p are dropped; nothing is when none does. *)
Definition starts_at (p : branch -> Prop) (part all : list branch) : Prop :=
  (exists newer b rest, all = newer ++ b :: rest /\ (forall x, In x newer -> ~ p x) /\ p b /\ part = b :: rest) \/ ((forall x, In x all -> ~ p x) /\ part = all).
(** A record is a chain: each branch leaves the function the one before entered. *)
Fixpoint chain (l : list entry) : Prop :=
  match l with
  | a :: (b :: _) as t => e_tof a = e_fromf b /\ chain t
  | _ => True
  end.
(** A record ends where the chain breaks. *)
Fixpoint breaks (l : list (list entry)) : Prop :=
  match l with
  | r1 :: (r2 :: _) as t => (exists a b x y, r1 = x ++ [a] /\ r2 = b :: y /\ e_tof a <> e_fromf b) /\ breaks t
  | _ => True
  end.
