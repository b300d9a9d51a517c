(** * Small models of the Go primitives shared by the other model files.

    - [aget]/[aput]/[adel]: a Go map as an association list without duplicate keys (Go's
      unspecified iteration order matters only where a model says so);
    - [isort]: slices.Sort on unsigned integers / strings given by an order test (any correct sort
      returns the same list up to equal elements; insertion sort is the model);
    - [compact]: slices.Compact. *)
From Coq Require Import ZArith List Bool String Ascii.
Import ListNotations.
Open Scope Z_scope.

Fixpoint aget {K V} (eqb : K -> K -> bool) (k : K) (m : list (K * V)) : option V :=
  match m with
  | [] => None
  | (k', v) :: m' => if eqb k k' then Some v else aget eqb k m'
  end.
Fixpoint aput {K V} (eqb : K -> K -> bool) (k : K) (v : V) (m : list (K * V)) : list (K * V) :=
  match m with
  | [] => [(k, v)]
  | (k', v') :: m' => if eqb k k' then (k, v) :: m' else (k', v') :: aput eqb k v m'
  end.
Fixpoint adel {K V} (eqb : K -> K -> bool) (k : K) (m : list (K * V)) : list (K * V) :=
  match m with
  | [] => []
  | (k', v') :: m' => if eqb k k' then m' else (k', v') :: adel eqb k m'
  end.
Definition keys {K V} (m : list (K * V)) : list K := map fst m.

Fixpoint insert {A} (leb : A -> A -> bool) (x : A) (l : list A) : list A :=
  match l with
  | [] => [x]
  | y :: l' => if leb x y then x :: l else y :: insert leb x l'
  end.
Fixpoint isort {A} (leb : A -> A -> bool) (l : list A) : list A :=
  match l with
  | [] => []
  | x :: l' => insert leb x (isort leb l')
  end.
Fixpoint compact {A} (eqb : A -> A -> bool) (l : list A) : list A :=
  match l with
  | [] => []
  | x :: l' => match l' with
               | [] => [x]
               | y :: _ => if eqb x y then compact eqb l' else x :: compact eqb l'
               end
  end.

(** uint64 arithmetic. *)
Definition W64 : Z := 18446744073709551616.
Definition u64 (z : Z) : Z := z mod W64.
Definition W32 : Z := 4294967296.
Definition u32 (z : Z) : Z := z mod W32.

(** unsigned little-endian value of a byte list (bytes 0..255). *)
Fixpoint le_bytes (l : list Z) : Z :=
  match l with [] => 0 | b :: l' => b + 256 * le_bytes l' end.
Definition is_byte (b : Z) : Prop := 0 <= b < 256.
