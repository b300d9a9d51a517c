(** * What graph and instruction records must be like. *)
From Coq Require Import ZArith List Bool.
From Verif Require Import M_Go M_Cfg S_Cfg M_Ghook M_Grec.
Import ListNotations.
Open Scope Z_scope.

Definition word (v : Z) : Prop := 0 <= v < 2 ^ 64.
(** The values of a hook are what the machine's integers hold; capture buffers are far below 64 KiB. *)
Record hook_ok (h : hook) : Prop := { ho_ip : word (h_ip h); ho_nr : fits (h_nr h); ho_buf : 0 <= h_buf h < 2 ^ 16 - 32 }.
(** What the probe supplies: [n] bytes of captured arguments. *)
Record gprobe_ok (n : Z) (x : gprobe) : Prop := {
  go_task : fits (x_task x); go_sess : word (x_sess x); go_depth : fits (x_depth x); go_cpu : fits (x_cpu x); go_pad : fits (x_pad x);
  go_ts : 0 <= x_ts x; go_args : Z.of_nat (List.length (x_args x)) = n }.
(** The program submits a record: tracing has started, the task is not bpfsnoop, the call is inside a traced one and there is room. *)
Definition wanted (pid : Z) (x : gprobe) : Prop := x_ready x = true /\ x_task x <> pid /\ x_sess x <> 0 /\ x_room x = true.
