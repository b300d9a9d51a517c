(** * Specification of argument capture: what the registers of the call and the memory they point to say. *)
From Coq Require Import ZArith List Bool.
From Verif Require Import M_Go M_Ebpf M_FnArgs.
Import ListNotations.
Open Scope Z_scope.

(** Readable kernel memory of a machine state: byte or nothing. *)
Definition mem := Z -> option Z.
Definition mem_of (m : mach) (s : mst) : mem := fun a => if mapped m (a mod 2 ^ 64) then Some (ker s (a mod 2 ^ 64) mod 256) else None.
(** The n bytes at a, if all can be read. *)
Fixpoint bytes (M : mem) (a : Z) (n : nat) : option (list Z) :=
  match n with
  | O => Some []
  | S k => match M a, bytes M (a + 1) k with Some b, Some l => Some (b :: l) | _, _ => None end
  end.
(** little-endian number in the 8 bytes at a; 0 when they cannot be read *)
Definition num_at (M : mem) (a : Z) : Z := match bytes M a 8 with Some l => le_bytes l | None => 0 end.
(** C string at a, looking at no more than n bytes; None: it runs into unreadable memory *)
Fixpoint cstr (M : mem) (a : Z) (n : nat) : option (list Z) :=
  match n with
  | O => Some []
  | S k => match M a with
           | None => None
           | Some b => if b =? 0 then Some [] else match cstr M (a + 1) k with Some l => Some (b :: l) | None => None end
           end
  end.
(** The string shown: at most 63 bytes of it; nothing when it cannot be read. *)
Definition str_at (M : mem) (a : Z) : list Z := match cstr M a 64 with Some l => firstn 63 l | None => [] end.

(** How one value should be shown. *)
Inductive view := VStr (s : list Z) | VNum (v : Z) | VPtr (v pointee : Z).
Definition view_of (M : mem) (isstr isnum : bool) (v : Z) : view :=
  if isstr then VStr (str_at M v) else if isnum then VPtr v (num_at M v) else VNum v.
(** Parameters of at most 8 bytes, in order, with the register values of the call: the first `const char *` is a string. *)
Fixpoint expected_args (M : mem) (used : bool) (ts : list ptype) (vals : list Z) : list view :=
  match ts, vals with
  | t :: ts', v :: vals' => view_of M (pt_charptr t && negb used) (pt_numptr t) v :: expected_args M (used || pt_charptr t) ts' vals'
  | _, _ => []
  end.
(** What the display of one argument of at most 8 bytes looks at. *)
Definition seen (p : prm) (a : sarg) : view :=
  if p_str p then VStr (sa_str a) else if p_num p then VPtr (sa_val a) (sa_ptr a) else VNum (sa_val a).

(** The call: argument registers in an array at R1, destination of [size] bytes at R2 (outside the frame of the program and
    of the memory that is read), return value in R3. *)
Definition apart (buf size a : Z) (n : nat) : Prop := forall i, 0 <= i < Z.of_nat n -> ~ (buf <= (a + i) mod 2 ^ 64 < buf + size).
Record call_state (m : mach) (s : mst) (vals : list Z) (retval buf size : Z) : Prop := {
  cs_args : forall i v, nth_error vals i = Some v -> bytes (mem_of m s) (rg s R1 + 8 * Z.of_nat i) 8 <> None /\
              num_at (mem_of m s) (rg s R1 + 8 * Z.of_nat i) = v /\ apart buf size (rg s R1 + 8 * Z.of_nat i) 8;
  cs_buf : rg s R2 = buf /\ 0 <= buf /\ buf + size <= 2 ^ 64;
  cs_frame : forall i, 0 <= i < size -> (buf + i - rg s RFP) mod 2 ^ 64 < 2 ^ 64 - 512;
  cs_apart : forall v, In v (retval :: vals) -> apart buf size v 64;
  cs_ret : rg s R3 = retval /\ 0 <= retval < 2 ^ 64 }.
(** The record after the program has run. *)
Definition record (s : mst) (buf size : Z) : list Z := map (fun i => ker s (buf + Z.of_nat i) mod 256) (seq 0 (Z.to_nat size)).
