(** * Specification of the cache file. *)
From Coq Require Import List Bool ZArith.
From Verif Require Import M_Go M_Cache.
Import ListNotations.

(** [c] is a version some process started to save in the history [t]: all it held in memory at that moment. *)
Definition saved_in (enc : cache -> list Z) (dec : list Z -> option cache) (s : state) (t : list event) (c : cache) : Prop :=
  exists t1 p n t2 s1 pr, t = t1 ++ ECreate p n :: t2 /\ exec enc dec s t1 = Some s1 /\ nth_error (s_procs s1) p = Some pr /\ c = p_cache pr.
(** The names os.CreateTemp chose. *)
Definition temps (t : list event) : list nat := flat_map (fun ev => match ev with ECreate _ n => [n] | _ => [] end) t.
(** The file in place is already on disk. *)
Definition on_disk (s : state) : Prop := forall i nd, lookup s Target = Some i -> nth_error (s_nodes s) i = Some nd -> n_durable nd = true.
(** Power is lost only while the file in place is on disk (in particular: never). *)
Definition power_ok (enc : cache -> list Z) (dec : list Z -> option cache) (s : state) (t : list event) : Prop :=
  forall t1 k t2 s1, t = t1 ++ EPower k :: t2 -> exec enc dec s t1 = Some s1 -> on_disk s1.
(** A start: no process yet; the cache file is absent or holds the complete version c0; temporary files of earlier runs may lie around. *)
Definition start (enc : cache -> list Z) (s : state) (c0 : option cache) : Prop :=
  s_procs s = [] /\ (forall n i, lookup s n = Some i -> (i < List.length (s_nodes s))%nat) /\
  read s Target = option_map enc c0.
(** What a look-up adds to a map: what is new in b with respect to a. *)
Definition keys_of (c : cache) : list Z := map fst c.
