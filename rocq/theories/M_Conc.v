(** * The session map under concurrency: the probes' instructions interleaved.

    Modelled: bpfsnoop_session_enter / bpfsnoop_session_exit without session programs (bpfsnoop_session.h:14-57), add_session and
    get_and_del_session (bpfsnoop_sess.h:53-110) one memory access at a time, the per-CPU buffer bpfsnoop_session_buff (bpfsnoop_sess.h:31-43),
    of which every loaded program has its own (it is not among the maps of PrepareBPFMaps, bpfsnoop_maps.go:100-108), and the record
    submitted afterwards (bpfsnoop.c:107-135).  M_Sess treats a run of a program as one step; here tasks on any CPU may be preempted between
    any two accesses.
    Kernel: a program does not migrate while it runs, and is not run on a CPU on which a run of it is under way (the kernel counts a miss).
    Simplified: tasks have different pid_tgid (see C96 for idle CPUs), interrupts that call traced functions in the middle of a probe are left
    out, the record's place in the ring buffer is taken in one step, after the session map was changed. *)
From Coq Require Import ZArith List Bool String.
From Verif Require Import M_Go M_Sess S_Sess.
Import ListNotations.
Open Scope Z_scope.

(** Where a run of the entry program (names in E) or of the exit program (names in X) is. *)
Inductive pc :=
| Out                      (* no run under way *)
| ELook                    (* bpfsnoop_sess.h:61 lookup *)
| EInc                     (* :63 sess->depth++ *)
| ESlot                    (* :64 SESS_ID(sess, sess->depth) = session_id *)
| EBuf                     (* :66-68 init->depth = 0 *)
| EBufId                   (* :69 SESS_ID(init, 0) = session_id *)
| EUpd                     (* :70 update *)
| EEmit                    (* bpfsnoop.c:131 output_event *)
| XLook                    (* bpfsnoop_sess.h:98 lookup *)
| XRead                    (* :100 *)
| XDrop (sid : Z)          (* :101-104 *)
| XEmit (sid : Z).         (* bpfsnoop_session.h:50-54, bpfsnoop.c:131 *)
(** A task: the calls and returns it is going to make (the head is the one under way), where it is, its CPU. *)
Record task := { t_todo : list action; t_pc : pc; t_cpu : Z }.
(** [c_buf f cpu]: the buffer of the entry program of f.  [c_log]: the actions whose probes have run, in the order in which they ended
    (a missed entry probe like a rejected call, a missed exit probe not at all); ghost. *)
Record cstate := { c_map : smap; c_buf : Z -> Z -> bsess; c_task : Z -> task; c_ring : list event; c_log : list action }.
Definition with_task (s : cstate) (t : Z) (k : task) : cstate :=
  {| c_map := c_map s; c_buf := c_buf s; c_task := fun x => if x =? t then k else c_task s x; c_ring := c_ring s; c_log := c_log s |}.
Definition goto (s : cstate) (t : Z) (p : pc) : cstate :=
  with_task s t {| t_todo := t_todo (c_task s t); t_pc := p; t_cpu := t_cpu (c_task s t) |}.
Definition with_map (s : cstate) (m : smap) : cstate :=
  {| c_map := m; c_buf := c_buf s; c_task := c_task s; c_ring := c_ring s; c_log := c_log s |}.
Definition with_buf (s : cstate) (f cpu : Z) (b : bsess) : cstate :=
  {| c_map := c_map s; c_buf := fun x y => if (x =? f) && (y =? cpu) then b else c_buf s x y; c_task := c_task s; c_ring := c_ring s; c_log := c_log s |}.
(** the run ends: events to the ring, the action is done *)
Definition finish (s : cstate) (t : Z) (evs : list event) (done : list action) : cstate :=
  with_task {| c_map := c_map s; c_buf := c_buf s; c_task := c_task s; c_ring := c_ring s ++ evs; c_log := c_log s ++ done |}
    t {| t_todo := tl (t_todo (c_task s t)); t_pc := Out; t_cpu := t_cpu (c_task s t) |}.
(** Task [t] has a run of the entry (exit) program of [f] under way on [cpu]. *)
Definition in_entry (k : task) (f cpu : Z) : bool :=
  match t_todo k, t_pc k with Call _ g _ _ _ _ :: _, Out => false | Call _ g _ _ _ _ :: _, _ => (g =? f) && (t_cpu k =? cpu) | _, _ => false end.
Definition in_exit (k : task) (f cpu : Z) : bool :=
  match t_todo k, t_pc k with Ret _ g _ _ :: _, Out => false | Ret _ g _ _ :: _, _ => (g =? f) && (t_cpu k =? cpu) | _, _ => false end.
Definition busy (tasks : list Z) (s : cstate) (a : action) (cpu : Z) : bool :=
  existsb (fun u => match a with Call _ f _ _ _ _ => in_entry (c_task s u) f cpu | Ret _ f _ _ => in_exit (c_task s u) f cpu end) tasks.
Definition on_cpu (s : cstate) (t cpu : Z) (p : pc) : cstate := with_task s t {| t_todo := t_todo (c_task s t); t_pc := p; t_cpu := cpu |}.

(** One access of task [t]. *)
Definition access (s : cstate) (t : Z) : option cstate :=
  let k := c_task s t in
  match t_todo k with
  | [] => None
  | (Call _ f sid ns pass txt as a) :: _ =>
      let key := (t, f) in
      match t_pc k with
      | ELook => if negb pass then Some (finish s t [] [a])   (* bpfsnoop_session.h:18-19 *)
                 else Some (goto s t (match aget skey_eqb key (c_map s) with Some _ => EInc | None => EBuf end))
      | EInc => match aget skey_eqb key (c_map s) with
                | Some b => Some (goto (with_map s (aput skey_eqb key {| bs_depth := u32 (bs_depth b + 1); bs_ids := bs_ids b |} (c_map s))) t ESlot)
                | None => None
                end
      | ESlot => match aget skey_eqb key (c_map s) with
                 | Some b => Some (goto (with_map s (aput skey_eqb key {| bs_depth := bs_depth b; bs_ids := fun i => if i =? slot_of (bs_depth b) then sid else bs_ids b i |} (c_map s))) t EEmit)
                 | None => None
                 end
      | EBuf => let b := c_buf s f (t_cpu k) in Some (goto (with_buf s f (t_cpu k) {| bs_depth := 0; bs_ids := bs_ids b |}) t EBufId)
      | EBufId => let b := c_buf s f (t_cpu k) in
                  Some (goto (with_buf s f (t_cpu k) {| bs_depth := bs_depth b; bs_ids := fun i => if i =? 0 then sid else bs_ids b i |}) t EUpd)
      | EUpd => Some (goto (if Z.of_nat (List.length (c_map s)) <? max_entries then with_map s (aput skey_eqb key (c_buf s f (t_cpu k)) (c_map s)) else s) t EEmit)
      | EEmit => Some (finish s t [entry_event sid ns txt] [a])
      | _ => None
      end
  | (Ret _ f ns txt as a) :: _ =>
      let key := (t, f) in
      match t_pc k with
      | XLook => match aget skey_eqb key (c_map s) with Some _ => Some (goto s t XRead) | None => Some (finish s t [] [a]) end
      | XRead => match aget skey_eqb key (c_map s) with Some b => Some (goto s t (XDrop (bs_ids b (slot_of (bs_depth b))))) | None => None end
      | XDrop sid => match aget skey_eqb key (c_map s) with
                     | Some b => Some (goto (with_map s (if bs_depth b =? 0 then adel skey_eqb key (c_map s)
                                                          else aput skey_eqb key {| bs_depth := bs_depth b - 1; bs_ids := bs_ids b |} (c_map s))) t (XEmit sid))
                     | None => None
                     end
      | XEmit sid => Some (finish s t (if sid =? 0 then [] else [exit_event (u64 (sid - 1)) ns txt]) [a])
      | _ => None
      end
  end.
Inductive clabel := LStart (t cpu : Z) | LAccess (t : Z) | LMissed (t cpu : Z).
(** [tasks]: all tasks. *)
Definition cstep (tasks : list Z) (s : cstate) (l : clabel) : option cstate :=
  match l with
  | LStart t cpu =>
      match t_todo (c_task s t), t_pc (c_task s t) with
      | a :: _, Out => if busy tasks s a cpu then None else Some (on_cpu s t cpu (match a with Call _ _ _ _ _ _ => ELook | Ret _ _ _ _ => XLook end))
      | _, _ => None
      end
  | LAccess t => access s t
  | LMissed t cpu =>
      match t_todo (c_task s t), t_pc (c_task s t) with
      | a :: _, Out => if negb (busy tasks s a cpu) then None else
                       Some (finish s t [] (match a with Call u f sid ns _ txt => [Call u f sid ns false txt] | Ret _ _ _ _ => [] end))
      | _, _ => None
      end
  end.
Fixpoint crun (tasks : list Z) (s : cstate) (ls : list clabel) : option cstate :=
  match ls with [] => Some s | l :: ls' => match cstep tasks s l with Some s' => crun tasks s' ls' | None => None end end.
(** Nothing is traced yet; the buffers are zero, as the kernel makes them. *)
Definition cinit (prog : Z -> list action) : cstate :=
  {| c_map := []; c_buf := fun _ _ => {| bs_depth := 0; bs_ids := fun _ => 0 |}; c_task := fun t => {| t_todo := prog t; t_pc := Out; t_cpu := 0 |}; c_ring := []; c_log := [] |}.
