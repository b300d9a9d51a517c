(** * Specification of BPF-program selection. *)
From Coq Require Import List Bool String ZArith.
From Verif Require Import M_Go M_ProgSel.
Import ListNotations.
Open Scope string_scope.
Open Scope list_scope.

(** Ids identify the loaded programs. *)
Definition world_ok (w : world) : Prop := NoDup (map pg_id (w_progs w)).
(** What the user says with a flag: this loaded program ... *)
Definition selects (w : world) (s : sel) (p : prog) : Prop :=
  match s with
  | PAll => True
  | PId i => pg_id p = i
  | PTag t => pg_tag p = t
  | PName n => pg_entry p = Some n
  | PPinned path => w_pins w path = Some (pg_id p)
  | PPid q => In (pg_id p) (w_fds w q)
  end.
(** ... and this function of it: the one named, else the entry. *)
Definition asked (w : world) (f : pflag) (p : prog) (fn : string) : Prop :=
  In p (w_progs w) /\ selects w (pf_sel f) p /\ (if String.eqb (im_func (pf_imm f)) "" then pg_entry p = Some fn else fn = im_func (pf_imm f)).
(** The parser gives no function to "*" (flags_prog.go:70-73). *)
Definition flags_ok (fs : list pflag) : Prop := forall f, In f fs -> pf_sel f = PAll -> im_func (pf_imm f) = "".
Definition can_be (disasm : bool) (p : prog) (fn : string) : Prop := (pg_can p = true \/ disasm = true) /\ pg_skip p fn = false.
Definition is_id (s : sel) : Prop := exists i, s = PId i.
Definition by_itself (s : sel) : Prop := match s with PId _ | PTag _ | PName _ | PAll => True | _ => False end.
