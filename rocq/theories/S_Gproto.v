(** * What a call-tree listing should say. *)
From Coq Require Import List Bool String ZArith Sorting.Sorted.
From Verif Require Import M_Go M_Gproto.
Import ListNotations.
Open Scope string_scope.
Open Scope list_scope.
Open Scope Z_scope.

(** Length of the function at an address, if there is a known function there: of a BPF function as loaded, of a kernel function up to the
    next symbol. *)
Definition size_of (W : world) (ip : Z) : option Z :=
  match w_prog W ip with
  | Some (_, _, len) => Some len
  | None => match w_sym W ip with Some _ => Some (w_guess W ip 0) | None => None end
  end.
Definition known (W : world) (ip : Z) : bool := match size_of W ip with Some _ => true | None => false end.
(** How a function is shown: its prototype, or its bare name if the kernel has no type information for it. *)
Definition label (W : world) (ip : Z) : string :=
  match w_prog W ip with
  | Some (n, p, _) => func_text W n p
  | None => match w_sym W ip with
            | Some n => match w_btf W n with Some p => func_text W n p | None => n end
            | None => EmptyString
            end
  end.
(** The functions called directly by the function at [ip], one entry per call instruction, in the order of the instructions. *)
Definition direct (W : world) (ip : Z) : list Z :=
  match size_of W ip with
  | Some n => filter (fun t => negb (t =? 0) && known W t) (w_dis W ip n)
  | None => []
  end.
(** A call path: the position of a call among the direct calls of the first function, then among those of the function it calls, ...;
    [ends W ip p]: where the path [p] from [ip] leads. *)
Fixpoint ends (W : world) (ip : Z) (p : list nat) : option Z :=
  match p with
  | [] => Some ip
  | i :: p' => match nth_error (direct W ip) i with Some t => ends W t p' | None => None end
  end.
(** A call precedes the calls made by its callee, and those precede the next call. *)
Fixpoint pre (p q : list nat) : Prop :=
  match p, q with
  | [], _ :: _ => True
  | i :: p', j :: q' => (i < j)%nat \/ i = j /\ pre p' q'
  | _, [] => False
  end.
(** The listing of one function: a line for every call path of at least one call and at most [maxd]. *)
Definition tree_of (W : world) (maxd : nat) (ip : Z) (ls : list gline) : Prop :=
  exists ps, Forall2 (fun l p => exists x, ends W ip p = Some x /\ l = GLine (List.length p) (label W x)) ls ps /\
    StronglySorted pre ps /\
    forall p, In p ps <-> (1 <= List.length p <= maxd)%nat /\ exists x, ends W ip p = Some x.
Definition section (W : world) (maxd : nat) (r : groot) (ls : list gline) : Prop :=
  exists t, ls = GLine 0 (r_text r) :: t ++ [GBlank] /\ tree_of W maxd (r_ip r) t.
(** [a] is obtained from [b] by leaving out lines *)
Inductive subseq {A} : list A -> list A -> Prop :=
| sub_nil : subseq [] []
| sub_keep x a b : subseq a b -> subseq (x :: a) (x :: b)
| sub_skip x a b : subseq a b -> subseq a (x :: b).
(** The functions asked for are disassembled over their whole length (no --disasm-bytes). *)
Definition sized (W : world) (rs : list groot) : Prop := forall r, In r rs -> size_of W (r_ip r) = Some (r_bytes r).
(** Kernel functions are set off from BPF functions by an empty line. *)
Definition gap (ks ps : list groot) : list gline := match ks, ps with _ :: _, _ :: _ => [GBlank] | _, _ => [] end.
