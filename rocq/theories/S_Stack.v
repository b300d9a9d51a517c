(** * What the function stack of an event should show. *)
From Coq Require Import List Bool String ZArith.
From Verif Require Import M_Stack.
Import ListNotations.
Open Scope list_scope.
Open Scope Z_scope.

(** The name of the function in which tracing starts: a BPF trampoline, or the tracepoint runner. *)
Definition tracing_fn (n : string) : Prop :=
  (exists r, n = ("bpf_trampoline_" ++ r)%string) \/ (exists r, n = ("bpf_trace_run" ++ r)%string).
(** The frames of [ips] to show: all with -v, otherwise those below (after) the first tracing function; none if there is none. *)
Definition to_show (fname : Z -> string) (verbose : bool) (ips shown : list Z) : Prop :=
  if verbose then shown = ips
  else (exists pre t, ips = pre ++ t :: shown /\ tracing_fn (fname t) /\ forall x, In x pre -> ~ tracing_fn (fname x)) \/
       (shown = [] /\ forall x, In x ips -> ~ tracing_fn (fname x)).
(** What an event shows for these frames: nothing for no frame; a stack in the flame graph, outermost first; or one line per frame. *)
Definition shows (line : bool -> Z -> string) (flame : bool) (fr : list Z) (out : list string * option (list string)) : Prop :=
  match fr with
  | [] => out = ([], None)
  | _ => out = (if flame then ([], Some (rev (map (line true) fr))) else ("Func stack:"%string :: map (line false) fr, None))
  end.
(** Recorded stacks: at most [max] return addresses, none of them 0. *)
Definition stack_ok (max : nat) (ips : list Z) : Prop := (List.length ips <= max)%nat /\ ~ In 0 ips.
Definition ops_ok (max : nat) (os : list op) : Prop := forall ips, In (ORec ips) os -> stack_ok max ips.
(** No event is recorded while another one in the same bucket (hash modulo 256) waits to be handled; [q]: the waiting stacks. *)
Fixpoint no_clash (hash : list Z -> Z) (os : list op) (q : list (list Z)) : Prop :=
  match os with
  | [] => True
  | ORec s :: os' => (forall s', In s' q -> hash s' mod 256 <> hash s mod 256) /\ no_clash hash os' (q ++ [s])
  | _ :: os' => no_clash hash os' (tl q)
  end.
(** Stacks with the same hash are the same. *)
Definition no_collision (hash : list Z -> Z) (os : list op) : Prop :=
  forall s s', In (ORec s) os -> In (ORec s') os -> hash s = hash s' -> s = s'.
(** The stacks of the events handled, in order *)
Fixpoint handled (os : list op) (q : list (list Z)) : list (list Z) :=
  match os with
  | [] => []
  | ORec s :: os' => handled os' (q ++ [s])
  | OHandle :: os' => match q with [] => handled os' [] | s :: q' => s :: handled os' q' end
  | OSkip :: os' => handled os' (tl q)
  end.
