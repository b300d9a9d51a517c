(** * Specification of program editing: a program is a list of functions. *)
From Coq Require Import List Bool String.
From Verif Require Import M_Asm.
Import ListNotations.
Open Scope string_scope.

Section S.
  Variable B : Type.
  (** A function: its name, the reference ("" for none) and body of its first instruction, its other instructions. *)
  Record func := { f_name : string; f_ref : string; f_head : B; f_rest : list (ins B) }.
  Definition lay (f : func) : list (ins B) := {| i_sym := f_name f; i_ref := f_ref f; i_body := f_head f |} :: f_rest f.
  (** What the loader has produced: the functions one after the other. *)
  Definition image (fs : list func) : list (ins B) := flat_map lay fs.
  (** Functions are named, differently, and only their first instruction carries a symbol. *)
  Definition wf_image (fs : list func) : Prop :=
    NoDup (map f_name fs) /\ (forall f, In f fs -> f_name f <> "" /\ forall i, In i (f_rest f) -> i_sym i = "").
  (** The function gets a new body: h first, then t. *)
  Definition redefine (name : string) (h : B) (t : list (ins B)) (fs : list func) : list func :=
    map (fun f => if String.eqb (f_name f) name then {| f_name := f_name f; f_ref := f_ref f; f_head := h; f_rest := t |} else f) fs.
  Definition remove (name : string) (fs : list func) : list func := filter (fun f => negb (String.eqb (f_name f) name)) fs.
  (** Every instruction that refers to the function is replaced by the instruction b. *)
  Definition redirect (name : string) (b : B) (fs : list func) : list func :=
    map (fun f => let h := String.eqb (f_ref f) name in
      {| f_name := f_name f; f_ref := if h then "" else f_ref f; f_head := if h then b else f_head f;
         f_rest := map (fun i => if String.eqb (i_ref i) name then {| i_sym := i_sym i; i_ref := ""; i_body := b |} else i) (f_rest f) |}) fs.
End S.
Arguments f_name {B}. Arguments f_ref {B}. Arguments f_head {B}. Arguments f_rest {B}. Arguments lay {B}. Arguments image {B}.
Arguments wf_image {B}. Arguments redefine {B}. Arguments remove {B}. Arguments redirect {B}.
