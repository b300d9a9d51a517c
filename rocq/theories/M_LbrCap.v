(** * Recording last branch records: /repo/bpf/bpfsnoop.c:67-84, bpfsnoop_kmulti.c:94-103, bpfsnoop_event_output.h:32-58, bpfsnoop_lbr.h, and their look-up
    in /repo/internal/bpfsnoop/bpfsnoop_lbr.go:84-105 and bpfsnoop.go:187-192.

    - A run of a tracing program takes its snapshot into the buffer of its CPU (OStart) and sends its event later (OEmit); in between, an interrupt or a
      function called from the program may run another tracing program on the same CPU.  A run that the filters reject has no OEmit.
    - [own id] is what bpf_get_branch_snapshot delivers to run id: SNone when the run does not record branches (can_output_lbr is false).
    - The map bpfsnoop_lbrs is an association list with room for 65536 keys (bpfsnoop.h:7).
    - OHandle: the oldest waiting event is handled; OSkip: its handler returns before the branches are looked up (bpfsnoop.go:141-153). *)
From Coq Require Import List Bool String ZArith.
From Verif Require Import M_Go M_Lbr.
Import ListNotations.
Open Scope Z_scope.

Inductive snap := SNone | SErr (e : Z) | SOk (l : list branch).
Inductive op := OStart (cpu id : Z) | OEmit (cpu id sid ip : Z) | OHandle | OSkip.
(** struct bpfsnoop_lbr_data (bpfsnoop_lbr.h:12-15) *)
Record lbrdata := { ld_ents : list branch; ld_nr : Z }.
Definition zero_branch : branch := {| b_from := 0; b_to := 0; b_flags := 0 |}.
Definition empty_data : lbrdata := {| ld_ents := repeat zero_branch 32; ld_nr := 0 |}.
(** the fields of struct event that matter here; v_id tells which run sent it and is not used *)
Record lev := { v_id : Z; v_sid : Z; v_ip : Z; v_ret : Z; v_flag : bool }.
Record sys := { y_buf : Z -> lbrdata; y_map : list (Z * lbrdata); y_queue : list lev }.
Definition sys0 : sys := {| y_buf := fun _ => empty_data; y_map := []; y_queue := [] |}.
Definition max_lbrs : Z := 65536.

Section Cap.
  Variable own : Z -> snap.
  Variable name : Z -> string.
  (** what is traced at an address, for the trimming (bpfsnoop_lbr.go:31-64) *)
  Variable target : Z -> what * (Z -> bool).
  Variable lbr_nr : Z.

  (** bpf_get_branch_snapshot writes the entries it has and returns their size, or an error without writing *)
  Definition take (d : lbrdata) (s : snap) : lbrdata :=
    match s with
    | SNone => {| ld_ents := ld_ents d; ld_nr := 0 |}
    | SErr e => {| ld_ents := ld_ents d; ld_nr := e |}
    | SOk l => {| ld_ents := l ++ skipn (List.length l) (ld_ents d); ld_nr := 24 * Z.of_nat (List.length l) |}
    end.
  Definition records (s : snap) : bool := match s with SNone => false | _ => true end.
  (** bpf_map_update_elem(BPF_ANY) *)
  Definition map_update (m : list (Z * lbrdata)) (k : Z) (d : lbrdata) : list (Z * lbrdata) :=
    match aget Z.eqb k m with
    | Some _ => aput Z.eqb k d m
    | None => if Z.of_nat (List.length m) <? max_lbrs then aput Z.eqb k d m else m
    end.
  (** bpfsnoop_lbr.go:84-105, after LookupAndDelete; the 32 entries and the size *)
  Definition show_data (ip : Z) (d : lbrdata) : res := show name (fst (target ip)) (snd (target ip)) lbr_nr (ld_ents d) (ld_nr d).
  Definition step (y : sys) (o : op) : sys * option (lev * res) :=
    match o with
    | OStart c id => ({| y_buf := fun x => if x =? c then take (y_buf y c) (own id) else y_buf y x; y_map := y_map y; y_queue := y_queue y |}, None)
    | OEmit c id sid ip =>
        let d := y_buf y c in
        let can := records (own id) in
        ({| y_buf := y_buf y;
            y_map := if can && (0 <? ld_nr d) then map_update (y_map y) sid d else y_map y;
            y_queue := y_queue y ++ [{| v_id := id; v_sid := sid; v_ip := ip; v_ret := ld_nr d; v_flag := can |}] |}, None)
    | OHandle =>
        match y_queue y with
        | [] => (y, None)
        | v :: q =>
            if v_flag v && (0 <? v_ret v) then
              match aget Z.eqb (v_sid v) (y_map y) with
              | None => ({| y_buf := y_buf y; y_map := y_map y; y_queue := q |}, Some (v, RNothing))
              | Some d => ({| y_buf := y_buf y; y_map := adel Z.eqb (v_sid v) (y_map y); y_queue := q |}, Some (v, show_data (v_ip v) d))
              end
            else ({| y_buf := y_buf y; y_map := y_map y; y_queue := q |}, Some (v, RNothing))
        end
    | OSkip => ({| y_buf := y_buf y; y_map := y_map y; y_queue := tl (y_queue y) |}, None)
    end.
  Fixpoint run (y : sys) (os : list op) : list (lev * res) :=
    match os with
    | [] => []
    | o :: os' => let '(y', r) := step y o in match r with Some x => x :: run y' os' | None => run y' os' end
    end.
End Cap.
