(** * Setting up branch recording: /repo/internal/bpfsnoop/lbr_perf_event.go, lbr_perf_event_linux.go, lbr_nr.go, bpfsnoop_maps.go:17-47,
    /repo/internal/mathx/math.go, /repo/main.go:87-93, /repo/bpf/bpfsnoop.c:74-75.

    - Linux, amd64.
    - perf_event_open is a parameter: for a CPU and a branch_sample_type, a descriptor or an error; the descriptors it hands out are those of
      the environment.  Descriptors are numbers.
    - Messages of errors are left out.
    - int is 64 bits wide. *)
From Coq Require Import List Bool String ZArith.
From Verif Require Import M_Go M_Bytes M_Disasm.
Import ListNotations.
Open Scope list_scope.
Open Scope Z_scope.

(** ** openLbrPerfEvent *)
(** linux/perf_event.h enum perf_branch_sample_type, as the switch of lbr_perf_event_linux.go:26-61 uses it *)
Definition PERF_SAMPLE_BRANCH_KERNEL : Z := 2.
Definition branch_bit (s : string) : option Z :=
  (if s =? "any" then Some 8
   else if s =? "any_call" then Some 16
   else if s =? "any_return" then Some 32
   else if s =? "ind_call" then Some 64
   else if s =? "abort_tx" then Some 128
   else if s =? "in_tx" then Some 256
   else if s =? "no_tx" then Some 512
   else if s =? "cond" then Some 1024
   else if s =? "call_stack" then Some 2048
   else if s =? "ind_jump" then Some 4096
   else if s =? "call" then Some 8192
   else None)%string.
(** lbr_perf_event_linux.go:23-62: the loop *)
Fixpoint branch_mask (acc : Z) (types : list string) : option Z :=
  match types with
  | [] => Some acc
  | t :: ts => match branch_bit t with Some b => branch_mask (Z.lor acc b) ts | None => None end
  end.

Section Open.
  (** perf_event_open(attr, -1, cpu, -1, PERF_FLAG_FD_CLOEXEC) *)
  Variable perf_open : Z -> Z -> option Z.
  (** lbr_perf_event_linux.go:15-65 *)
  Definition open_lbr (cpu : Z) (types : list string) : option Z :=
    match branch_mask PERF_SAMPLE_BRANCH_KERNEL types with Some m => perf_open cpu m | None => None end.
  (** lbr_perf_event.go:32-39: i goes from numCPU-left upwards; the flag says whether the loop came to its end *)
  Fixpoint open_loop (left : nat) (i : Z) (types : list string) (fds : list Z) : list Z * bool :=
    match left with
    | O => (fds, true)
    | S k => match open_lbr i types with
             | Some fd => open_loop k (i + 1) types (fds ++ [fd])
             | None => (fds, false)
             end
    end.
  (** What a call leaves behind: the result (None: an error) and the descriptors opened and not closed.
      lbr_perf_event.go:34: `fd, err :=` declares another err, which the return at :36 does not store in the err the deferred function looks at
      (the results are not named): on failure p.Close() is not called. *)
  Record opened := { op_result : option (list Z); op_open : list Z }.
  Definition open_all (num_cpu : option nat) (types : list string) : opened :=
    match num_cpu with
    | None => {| op_result := None; op_open := [] |}                      (* :27-30; p.fds is empty *)
    | Some n => let '(fds, ok) := open_loop n 0 types [] in
                {| op_result := if ok then Some fds else None; op_open := fds |}
    end.
End Open.
(** lbr_perf_event.go:44-48 *)
Definition lbr_close (fds open : list Z) : list Z := fold_left (fun o fd => filter (fun x => negb (x =? fd)) o) fds open.

(** ** mathx.Mask (math.go:8-18): int is 64 bits; the loop gets fuel, None: not done yet *)
Definition max_int : Z := 2 ^ 63 - 1.
Definition int_wrap (x : Z) : Z := (x + 2 ^ 63) mod 2 ^ 64 - 2 ^ 63.
Fixpoint mask_loop (fuel : nat) (n v : Z) : option Z :=
  match fuel with
  | O => None
  | S k => if n <? v then mask_loop k (int_wrap (n * 2)) v else Some (int_wrap (n - 1))
  end.
Definition mask (fuel : nat) (v : Z) : option Z := if v =? max_int then Some max_int else mask_loop fuel 1 v.

(** ** The buffers *)
(** bpfsnoop_lbr.h:11-15, struct perf_branch_entry has 24 bytes; LbrData (bpfsnoop_lbr.go:15-24) has the same size *)
Definition lbr_data_size : Z := 32 * 24 + 8.
(** bpfsnoop_maps.go:41-47: the size of .data.lbrs *)
Definition lbrs_value_size (num_cpu : Z) : Z := (lbr_data_size mod 2 ^ 32) * (num_cpu mod 2 ^ 32) mod 2 ^ 32.
(** main.go:92: CPU_MASK *)
Definition cpu_mask (fuel : nat) (num_cpu : Z) : option Z := match mask fuel num_cpu with Some m => Some (m mod 2 ^ 32) | None => None end.
(** bpfsnoop.c:74-75: offset of the buffer used on a CPU *)
Definition lbr_offset (m cpu : Z) : Z := lbr_data_size * Z.land cpu m.

(** ** ReadLbrNr (lbr_nr.go:20-62), on amd64 *)
Record member := { mb_name : string; mb_bit : Z }.
Inductive btype := BStruct (ms : list member) | BOther.
Fixpoint find_member (ms : list member) (name : string) : option Z :=
  match ms with [] => None | m :: ms' => if (mb_name m =? name)%string then Some (mb_bit m / 8) else find_member ms' name end.
(** what becomes of lbrNr: set to a number, an error, or the process ends (assert.NotZero) *)
Inductive lbr_nr_res := NrSet (n : Z) | NrErr | NrFatal.
Definition read_lbr_nr (m : kmem) (buff : list Z) (x86_pmu : Z) (ty : option btype) : lbr_nr_res :=
  if x86_pmu =? 0 then NrErr else
  match ty with
  | Some (BStruct ms) =>
      match find_member ms "lbr_nr" with
      | None => NrErr
      | Some off => match fst (read_kernel m buff (u64 (x86_pmu + off)) 4) with
                    | None => NrErr
                    | Some data => let n := le_bytes data in if n =? 0 then NrFatal else NrSet n
                    end
      end
  | _ => NrErr
  end.
