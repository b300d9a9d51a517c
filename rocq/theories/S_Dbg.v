(** * Specification of the search for debug files (C87). *)
From Coq Require Import List Bool String Ascii.
From Verif Require Import M_Dbg.
Import ListNotations.
Open Scope string_scope.

(** Where distributions put the kernel image with debug data, in the order of preference. *)
Definition usual_places (rel : string) : list string :=
  ["/boot/vmlinux-" ++ rel; "/lib/modules/" ++ rel ++ "/vmlinux-" ++ rel; "/lib/modules/" ++ rel ++ "/build/vmlinux"; "/usr/lib/modules/" ++ rel ++ "/kernel/vmlinux";
   "/usr/lib/debug/boot/vmlinux-" ++ rel; "/usr/lib/debug/boot/vmlinux-" ++ rel ++ ".debug"; "/usr/lib/debug/lib/modules/" ++ rel ++ "/vmlinux"].

(** The node at a path (innermost name first) below a root reached by [p0]. *)
Inductive at_path (p0 : list string) (root : node) : list string -> node -> Prop :=
| here : at_path p0 root p0 root
| below p ch nm c : at_path p0 root p (Dir (Some ch)) -> In (nm, c) ch -> at_path p0 root (nm :: p) c.
(** Two names are equal except that one may have - where the other has _. *)
Fixpoint same_name (a b : string) : Prop :=
  match a, b with
  | EmptyString, EmptyString => True
  | String x a', String y b' => (x = y \/ (x = "-"%char /\ y = "_"%char)) /\ same_name a' b'
  | _, _ => False
  end.
(** A file name that belongs to module md. *)
Definition module_file (md base : string) : Prop := same_name base (md ++ ".ko") \/ same_name base (md ++ ".ko.zst").
(** module names have no dashes (the kernel replaces them) *)
Fixpoint no_dash (s : string) : Prop := match s with EmptyString => True | String c s' => c <> "-"%char /\ no_dash s' end.
