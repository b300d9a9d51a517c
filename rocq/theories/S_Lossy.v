(** * Specification: what is printed when the ring buffer loses events. *)
From Coq Require Import ZArith List Bool String.
From Verif Require Import M_Go M_Sess S_Sess.
Import ListNotations.
Open Scope Z_scope.

(** bpf_ringbuf_reserve fails when the buffer is full: any event may be lost, whatever was lost before.
    [mask] says, for each event submitted, whether it is delivered (past its end everything is). *)
Fixpoint kept {A} (mask : list bool) (l : list A) : list A :=
  match l with
  | [] => []
  | x :: l' => match mask with
               | [] => x :: kept [] l'
               | b :: mask' => if b then x :: kept mask' l' else kept mask' l'
               end
  end.
(** Calls in progress, each with whether its entry event was delivered. *)
Definition seen_stacks := Z -> list (frame * bool).
Definition no_seen : seen_stacks := fun _ => [].
Definition push_seen (st : seen_stacks) (t : Z) (x : frame * bool) : seen_stacks := fun y => if y =? t then x :: st t else st y.
Definition pop_seen (st : seen_stacks) (t : Z) : seen_stacks := fun y => if y =? t then tl (st t) else st y.
(** What the user should see: the calls of which both events were delivered, each with its own entry, exit and duration. *)
Fixpoint expected_lossy (dur : Z -> Z -> Z) (delta : Z) (st : seen_stacks) (mask : list bool) (h : list action) : list (list item) :=
  match h with
  | [] => []
  | Call t f sid ns pass txt :: h' =>
      let fr := {| f_func := f; f_sid := sid; f_ns := ns; f_pass := pass; f_text := txt |} in
      if pass then expected_lossy dur delta (push_seen st t (fr, hd true mask)) (tl mask) h'
      else expected_lossy dur delta (push_seen st t (fr, false)) mask h'
  | Ret t f ns txt :: h' =>
      match st t with
      | [] => expected_lossy dur delta st mask h'
      | (fr, got) :: _ =>
          if f_pass fr then
            (if got && hd true mask && negb (dur (f_ns fr) ns <? delta) then [[line (f_text fr) None; line txt (Some (dur (f_ns fr) ns))]] else []) ++
            expected_lossy dur delta (pop_seen st t) (tl mask) h'
          else expected_lossy dur delta (pop_seen st t) mask h'
      end
  end.
(** Ids are non-zero 64-bit numbers and no accepted call gets the id of an earlier one, even of one that has returned. *)
Fixpoint never_reused (used : list Z) (h : list action) : Prop :=
  match h with
  | [] => True
  | Call t f sid ns pass txt :: h' => 0 < sid < 2 ^ 64 /\ (pass = true -> ~ In sid used) /\ never_reused (if pass then sid :: used else used) h'
  | Ret t f ns txt :: h' => never_reused used h'
  end.
Inductive sublist {A} : list A -> list A -> Prop :=
| sub_nil : sublist [] []
| sub_keep x a b : sublist a b -> sublist (x :: a) (x :: b)
| sub_skip x a b : sublist a b -> sublist a (x :: b).
(** The session table after the events have been handled (--limit-events 0). *)
Fixpoint table_after (delta : Z) (m : sessions) (evs : list event) : sessions :=
  match evs with
  | [] => m
  | e :: evs' => match handle delta m e with HOk m' _ _ => table_after delta m' evs' | _ => m end
  end.
Definition entry_seen (id : Z) (evs : list event) : Prop := exists e, In e evs /\ ev_type e = 1 /\ ev_sid e = id.
Definition exit_seen (id : Z) (evs : list event) : Prop := exists e, In e evs /\ ev_type e = 2 /\ u64 (ev_sid e + 1) = id.
