(** * Specification of call matching: histories of calls, the true call stacks, what should be printed. *)
From Coq Require Import ZArith List Bool String.
From Verif Require Import M_Go M_Sess.
Import ListNotations.
Open Scope Z_scope.

(** A history of one traced session-mode probe set, over any number of tasks and functions.  [sid] is the id drawn at the
    entry, [ns] the kernel time in ns, [pass] whether the filters accept the call. *)
Inductive action :=
| Call (task func sid ns : Z) (pass : bool) (text : string)
| Ret (task func ns : Z) (text : string).
Record frame := { f_func : Z; f_sid : Z; f_ns : Z; f_pass : bool; f_text : string }.
Definition stacks := Z -> list frame.
Definition upds (st : stacks) (t : Z) (l : list frame) : stacks := fun x => if x =? t then l else st x.
Definition no_calls : stacks := fun _ => [].

(** Properly nested: a return leaves the innermost open call (a return with no open call is that of a call that started
    before tracing). *)
Fixpoint nested (st : stacks) (h : list action) : Prop :=
  match h with
  | [] => True
  | Call t f sid ns pass txt :: h' => nested (upds st t ({| f_func := f; f_sid := sid; f_ns := ns; f_pass := pass; f_text := txt |} :: st t)) h'
  | Ret t f ns txt :: h' => match st t with
                            | [] => nested st h'
                            | fr :: l => f_func fr = f /\ nested (upds st t l) h'
                            end
  end.
(** [id] belongs to an open accepted call. *)
Definition open_id (st : stacks) (id : Z) : Prop := exists t fr, In fr (st t) /\ f_pass fr = true /\ f_sid fr = id.
(** Session ids are non-zero 64-bit numbers and differ from those of the calls in progress (they are drawn at random). *)
Fixpoint fresh_ids (st : stacks) (h : list action) : Prop :=
  match h with
  | [] => True
  | Call t f sid ns pass txt :: h' => 0 < sid < 2 ^ 64 /\ (pass = true -> ~ open_id st sid) /\
      fresh_ids (upds st t ({| f_func := f; f_sid := sid; f_ns := ns; f_pass := pass; f_text := txt |} :: st t)) h'
  | Ret t f ns txt :: h' => fresh_ids (upds st t (tl (st t))) h'
  end.
(** Accepted open calls of function f by task t, innermost first. *)
Definition open_calls (st : stacks) (t f : Z) : list frame := filter (fun fr => (f_func fr =? f) && f_pass fr) (st t).
(** Limits of the session map: at most 64 nested accepted calls of one function by one task, fewer than 65536 pairs of task
    and function with an open accepted call, and no rejected call of a function inside an accepted call of the same one. *)
Fixpoint within_limits (st : stacks) (h : list action) : Prop :=
  match h with
  | [] => True
  | Call t f sid ns pass txt :: h' =>
      (pass = true -> Z.of_nat (List.length (open_calls st t f)) < 64 /\
         exists ks, Z.of_nat (List.length ks) < 65536 /\ forall t' f', open_calls st t' f' <> [] -> In (t', f') ks) /\
      (pass = false -> open_calls st t f = []) /\
      within_limits (upds st t ({| f_func := f; f_sid := sid; f_ns := ns; f_pass := pass; f_text := txt |} :: st t)) h'
  | Ret t f ns txt :: h' => within_limits (upds st t (tl (st t))) h'
  end.

(** What the user should see: for every accepted call that returns, the entry and the exit of that very call, with its
    duration [dur start end]; calls shorter than the threshold are left out. *)
Definition true_dur (t0 t1 : Z) : Z := t1 - t0.
(** the 32-bit time stamps of the events: elapsed time modulo 2^32 ns (4.3 s) *)
Definition dur32 (t0 t1 : Z) : Z := (t1 - t0) mod 2 ^ 32.
Definition line (txt : string) (d : option Z) : item := {| it_text := txt; it_cost := None; it_dur := d |}.
Fixpoint expected (dur : Z -> Z -> Z) (delta : Z) (st : stacks) (h : list action) : list (list item) :=
  match h with
  | [] => []
  | Call t f sid ns pass txt :: h' =>
      expected dur delta (upds st t ({| f_func := f; f_sid := sid; f_ns := ns; f_pass := pass; f_text := txt |} :: st t)) h'
  | Ret t f ns txt :: h' =>
      match st t with
      | [] => expected dur delta st h'
      | fr :: l =>
          let d := dur (f_ns fr) ns in
          (if f_pass fr && negb (d <? delta) then [[line (f_text fr) None; line txt (Some d)]] else []) ++
          expected dur delta (upds st t l) h'
      end
  end.

(** The programs at work: each call runs the entry program and each return the exit program; events go to the ring buffer
    (nothing is lost). *)
(** bpfsnoop_event_output.h: kernel_ts = (__u32) bpf_ktime_get_ns() *)
(** The bits of an event's flags word, as the C side lays them out (bpf/bpfsnoop_cfg_flags.h). *)
Definition bit_both : Z := 16.
Definition bit_insn : Z := 128.
Definition bit_graph : Z := 256.
Definition bit_tp : Z := 512.
Definition entry_event (sid ns : Z) (txt : string) : event :=
  {| ev_type := 1; ev_ns := u32 ns; ev_sid := sid; ev_flags := bit_both; ev_known := true; ev_short := false; ev_text := txt; ev_err := false |}.
Definition exit_event (sid ns : Z) (txt : string) : event :=
  {| ev_type := 2; ev_ns := u32 ns; ev_sid := sid; ev_flags := bit_both; ev_known := true; ev_short := false; ev_text := txt; ev_err := false |}.
(** fentry + fexit programs sharing the session map *)
Fixpoint ring_map (m : smap) (h : list action) : list event :=
  match h with
  | [] => []
  | Call t f sid ns pass txt :: h' =>
      let '(m', o) := enter_map m (t, f) sid pass in
      match o with Some id => [entry_event id ns txt] | None => [] end ++ ring_map m' h'
  | Ret t f ns txt :: h' =>
      let '(m', o) := exit_map m (t, f) in
      match o with Some id => [exit_event id ns txt] | None => [] end ++ ring_map m' h'
  end.
(** fsession program: the kernel keeps one cookie cell per call in progress, zero at the entry. *)
Fixpoint ring_cookie (ck : Z -> list Z) (h : list action) : list event :=
  match h with
  | [] => []
  | Call t f sid ns pass txt :: h' =>
      let '(c, o) := enter_cookie 0 sid pass in
      match o with Some id => [entry_event id ns txt] | None => [] end ++ ring_cookie (fun x => if x =? t then c :: ck t else ck x) h'
  | Ret t f ns txt :: h' =>
      match ck t with
      | [] => ring_cookie ck h'      (* call not seen at its entry: the program does not run *)
      | c :: l => match exit_cookie c with Some id => [exit_event id ns txt] | None => [] end ++
                  ring_cookie (fun x => if x =? t then l else ck x) h'
      end
  end.
Definition printed (delta : Z) (evs : list event) : list (list item) := fst (fst (run delta 0 evs)).

(** Every call that returns took less than 2^32 ns. *)
Fixpoint brief (st : stacks) (h : list action) : Prop :=
  match h with
  | [] => True
  | Call t f sid ns pass txt :: h' => brief (upds st t ({| f_func := f; f_sid := sid; f_ns := ns; f_pass := pass; f_text := txt |} :: st t)) h'
  | Ret t f ns txt :: h' => match st t with
                            | [] => brief st h'
                            | fr :: l => f_ns fr <= ns < f_ns fr + 2 ^ 32 /\ brief (upds st t l) h'
                            end
  end.

(** Groups printed, outcome, events not read. *)
Definition out_of (r : list (list item) * outcome * list event) : list (list item) := fst (fst r).
Definition res_of (r : list (list item) * outcome * list event) : outcome := snd (fst r).
Definition rest_of (r : list (list item) * outcome * list event) : list event := snd r.


(** ** Go session table: operations and what a look-up must return *)
Inductive sop := OAdd (id started : Z) (graph : bool) | OGet (id : Z) | OGetDel (id : Z).
Definition sop_run (m : sessions) (o : sop) : sessions :=
  match o with
  | OAdd id st g => sess_add m id st g
  | OGet id => m
  | OGetDel id => snd (sess_get_and_del m id)
  end.
Definition sop_result (m : sessions) (o : sop) : option sess :=
  match o with
  | OAdd id st g => None
  | OGet id => sess_get m id
  | OGetDel id => fst (sess_get_and_del m id)
  end.
(** The last operation of [pre] that adds or removes id adds (started, graph). *)
Definition last_added (ops : list sop) (id started : Z) (graph : bool) : Prop :=
  exists (pre post : list sop), ops = (pre ++ OAdd id started graph :: post)%list /\ forall o, In o post -> match o with OAdd i _ _ => i <> id | OGet _ => True | OGetDel i => i <> id end.

(** ** Graph-mode sessions *)
(** The session an event belongs to: exit events carry the id minus one (in 64 bits). *)
Definition belongs (id : Z) (e : event) : bool :=
  if (ev_type e =? 3) || (ev_type e =? 4) || (ev_type e =? 5) || (ev_type e =? 1) then ev_sid e =? id
  else u64 (ev_sid e + 1) =? id.
(** Calls below the root, in the order of their entries and returns; [times] are the entry times of the calls in progress,
    innermost first, the root's last.  What is shown for each: the time since the innermost call in progress was entered
    (for a return: its own duration) and the time since the root was entered. *)
Fixpoint graph_lines (root : Z) (times : list Z) (gs : list event) : option (list item) :=
  match gs with
  | [] => Some []
  | e :: gs' =>
      match times with
      | [] => None
      | t :: ts =>
          let it := {| it_text := ev_text e; it_cost := Some (dur32 t (ev_ns e)); it_dur := Some (dur32 root (ev_ns e)) |} in
          if ev_type e =? 4 then option_map (cons it) (graph_lines root (ev_ns e :: times) gs')
          else match ts with
               | [] => None       (* return without entry *)
               | _ => option_map (cons it) (graph_lines root ts gs')
               end
      end
  end.
(** No function-entry event opened a session with id [id] outside graph mode. *)
Definition only_graph (id : Z) (evs : list event) : Prop :=
  forall x, In x evs -> ev_type x = 1 -> ev_sid x = id -> have_flag (ev_flags x) bit_graph = true.
(** Graph events refer to sessions that graph-mode functions opened. *)
Definition graph_ids_ok (evs : list event) : Prop :=
  forall pre e post, evs = (pre ++ e :: post)%list -> ev_type e = 4 \/ ev_type e = 5 -> only_graph (ev_sid e) pre.
(** ** Instruction-mode sessions: the instructions reached (those of known address), each with the time since the call began. *)
Definition insn_lines (root : Z) (gs : list event) : list item :=
  map (fun g => {| it_text := ev_text g; it_cost := None; it_dur := Some (dur32 root (ev_ns g)) |}) (filter ev_known gs).
