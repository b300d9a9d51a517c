(** * Sessions: the BPF session map, the Go session table, the event loop.

    Modelled: bpf/bpfsnoop_sess.h, bpf/bpfsnoop_session.h, internal/bpfsnoop/bpfsnoop_sess.go,
    the record handler and the loop of Run in internal/bpfsnoop/bpfsnoop.go, outputGraphEvent,
    outputInsnEvent.  Simplified: one run of a BPF program is atomic; the text rendered for an event
    is a field of the event ([ev_text]: arguments, packet, stack, ... are modelled elsewhere), only
    the durations computed from the session are kept next to it. *)
From Coq Require Import ZArith List Bool String.
From Verif Require Import M_Go.
Import ListNotations.
Open Scope Z_scope.

(** ** BPF side *)
(** bpfsnoop_sess.h:19-22 struct bpfsnoop_sess_key {pid_tgid, func_ip} *)
Definition skey := (Z * Z)%type.
Definition skey_eqb (a b : skey) : bool := (fst a =? fst b) && (snd a =? snd b).
(** bpfsnoop_sess.h:24-27 struct bpfsnoop_sess; SESS_ID masks the index with 63 (line 29). *)
Record bsess := { bs_depth : Z; bs_ids : Z -> Z }.
Definition slot_of (d : Z) : Z := Z.land d 63.
Definition smap := list (skey * bsess).
(** bpfsnoop.h:7 BPFSNOOP_MAX_ENTRIES; bpf_map_update_elem of a new key fails when the map is full. *)
Definition max_entries : Z := 65536.
(** bpfsnoop_sess.h:53-74 add_session.  The per-CPU buffer used for new entries is zero except for
    index 0 (nothing else is ever written to it). *)
Definition add_session (m : smap) (k : skey) (sid : Z) : smap :=
  match aget skey_eqb k m with
  | Some s => let d := u32 (bs_depth s + 1) in
              aput skey_eqb k {| bs_depth := d; bs_ids := fun i => if i =? slot_of d then sid else bs_ids s i |} m
  | None => if Z.of_nat (List.length m) <? max_entries
            then aput skey_eqb k {| bs_depth := 0; bs_ids := fun i => if i =? 0 then sid else 0 |} m
            else m
  end.
(** bpfsnoop_sess.h:76-87 get_session *)
Definition get_session (m : smap) (k : skey) : Z :=
  match aget skey_eqb k m with Some s => bs_ids s (slot_of (bs_depth s)) | None => 0 end.
(** bpfsnoop_sess.h:89-110 get_and_del_session *)
Definition get_and_del_session (m : smap) (k : skey) : Z * smap :=
  match aget skey_eqb k m with
  | Some s => (bs_ids s (slot_of (bs_depth s)),
               if bs_depth s =? 0 then adel skey_eqb k m
               else aput skey_eqb k {| bs_depth := bs_depth s - 1; bs_ids := bs_ids s |} m)
  | None => (0, m)
  end.
(** bpfsnoop_session.h:14-31 bpfsnoop_session_enter, is_session = false / true.
    Result: new store and the session id of the entry event (None: no event). *)
Definition enter_map (m : smap) (k : skey) (sid : Z) (pass : bool) : smap * option Z :=
  if negb pass then (m, None) else (add_session m k sid, Some sid).
(** cookie: the kernel's per-call cell of fsession / kprobe.session programs. *)
Definition enter_cookie (cookie sid : Z) (pass : bool) : Z * option Z :=
  if negb pass then (cookie, None) else (sid, Some sid).
(** bpfsnoop_session.h:33-57 bpfsnoop_session_exit *)
Definition exit_map (m : smap) (k : skey) : smap * option Z :=
  let '(sid, m') := get_and_del_session m k in (m', if sid =? 0 then None else Some (u64 (sid - 1))).
Definition exit_cookie (cookie : Z) : option Z :=
  if cookie =? 0 then None else Some (u64 (cookie - 1)).

(** ** Go side *)
(** What is printed for one event: its text, the time since the last time stamp (graph events) and
    since the start of the session. *)
Record item := { it_text : string; it_cost : option Z; it_dur : option Z }.
(** bpfsnoop_sess.go:6-11 Session *)
Record sess := { s_started : Z; s_outs : list item; s_ts : list Z; s_last : nat }.
(** bpfsnoop_sess.go:13-21 Sessions: map[uint64]*Session.  Sessions are reached only through the
    map while they are in it, so the map holds them by value. *)
Definition sessions := list (Z * sess).
(** bpfsnoop_sess.go:23-33 Add *)
Definition new_sess (started : Z) (graph : bool) : sess :=
  {| s_started := started; s_outs := []; s_ts := if graph then [started] else []; s_last := 0 |}.
Definition sess_add (m : sessions) (id started : Z) (graph : bool) : sessions :=
  aput Z.eqb id (new_sess started graph) m.
(** bpfsnoop_sess.go:35-38 Get *)
Definition sess_get (m : sessions) (id : Z) : option sess := aget Z.eqb id m.
(** bpfsnoop_sess.go:40-46 GetAndDel *)
Definition sess_get_and_del (m : sessions) (id : Z) : option sess * sessions :=
  match aget Z.eqb id m with Some s => (Some s, adel Z.eqb id m) | None => (None, m) end.
(** bpfsnoop_sess.go:48-50 lastTstamp; None: index out of range. *)
Definition last_tstamp (s : sess) : option Z := nth_error (s_ts s) (s_last s).
(** bpfsnoop_sess.go:52-55 pushTstamp *)
Definition push_tstamp (s : sess) (ts : Z) : sess :=
  {| s_started := s_started s; s_outs := s_outs s; s_ts := s_ts s ++ [ts]; s_last := S (s_last s) |}.
(** bpfsnoop_sess.go:57-63 popTstamp *)
Definition pop_tstamp (s : sess) : sess :=
  match s_last s with
  | O => s
  | S k => {| s_started := s_started s; s_outs := s_outs s; s_ts := firstn (S k) (s_ts s); s_last := k |}
  end.
Definition add_out (s : sess) (i : item) : sess :=
  {| s_started := s_started s; s_outs := s_outs s ++ [i]; s_ts := s_ts s; s_last := s_last s |}.

(** A ring buffer record. *)
Record event := {
  ev_type : Z;          (* bpfsnoop.go:25-32 *)
  ev_ns : Z;            (* KernNs, uint32 *)
  ev_sid : Z;
  ev_flags : Z;         (* TraceeFlags *)
  ev_known : bool;      (* insn / graph events: InsnIP / FuncIP found in the table *)
  ev_short : bool;      (* record shorter than sizeOfEvent *)
  ev_text : string;
  ev_err : bool         (* rendering returns an error (LBR map, stack map, argument attributes) *)
}.
(** bpfsnoop_config.go:6-33 *)
Definition flag_both := 2 ^ 4.
Definition flag_session := 2 ^ 6.
Definition flag_insn := 2 ^ 7.
Definition flag_graph := 2 ^ 8.
Definition flag_tp := 2 ^ 9.
Definition have_flag (flags f : Z) : bool := negb (Z.land flags f =? 0).
(** bpfsnoop.go:137-140 *)
Definition required_session (fl : Z) : bool :=
  have_flag fl flag_insn || (have_flag fl flag_graph && negb (have_flag fl flag_tp)) ||
  (have_flag fl flag_both && negb (have_flag fl flag_tp)) || have_flag fl flag_session.

Inductive hres := HPanic | HErr | HOk (m : sessions) (written : list (list item)) (counted : bool).

(** bpfsnoop_insn.go:21-43 outputInsnEvent *)
Definition insn_event (m : sessions) (e : event) : sessions :=
  if negb (ev_known e) then m else
  match sess_get m (ev_sid e) with
  | None => m
  | Some s => aput Z.eqb (ev_sid e)
                (add_out s {| it_text := ev_text e; it_cost := None; it_dur := Some (u32 (ev_ns e - s_started s)) |}) m
  end.
(** bpfsnoop_graph.go:28-57 outputGraphEvent; None: run-time panic. *)
Definition graph_event (m : sessions) (e : event) : option sessions :=
  match sess_get m (ev_sid e) with
  | None => Some m
  | Some s =>
      match last_tstamp s with
      | None => None
      | Some t =>
          let s' := if ev_type e =? 4 then push_tstamp s (ev_ns e) else pop_tstamp s in
          Some (aput Z.eqb (ev_sid e)
            (add_out s' {| it_text := ev_text e; it_cost := Some (u32 (ev_ns e - t));
                           it_dur := Some (u32 (ev_ns e - s_started s)) |}) m)
      end
  end.
(** bpfsnoop.go:94-226 record.Handle.  delta = --duration-threshold in ns. *)
Definition handle (delta : Z) (m : sessions) (e : event) : hres :=
  if ev_type e =? 3 then HOk (insn_event m e) [] false else
  if (ev_type e =? 4) || (ev_type e =? 5) then
    (if negb (ev_known e) then HOk m [] false else
     match graph_event m e with Some m' => HOk m' [] false | None => HPanic end)
  else if ev_short e then HOk m [] false else
  let is_entry := ev_type e =? 1 in
  let is_exit := ev_type e =? 2 in
  let txt d := {| it_text := ev_text e; it_cost := None; it_dur := d |} in
  if required_session (ev_flags e) then
    if is_entry then
      let m1 := sess_add m (ev_sid e) (ev_ns e) (have_flag (ev_flags e) flag_graph) in
      if ev_err e then HErr else
      match sess_get m1 (ev_sid e) with
      | Some s => HOk (aput Z.eqb (ev_sid e) (add_out s (txt None)) m1) [] false
      | None => HPanic (* unreachable: just added *)
      end
    else
      match sess_get_and_del m (u64 (ev_sid e + 1)) with
      | (None, m1) => HOk m1 [] false
      | (Some s, m1) =>
          let d := u32 (ev_ns e - s_started s) in
          if d <? delta then HOk m1 [] false else
          if ev_err e then HErr else
          if is_exit then HOk m1 [s_outs s ++ [txt (Some d)]] true
          else HOk m1 [] false
      end
  else if ev_err e then HErr
  else HOk m [[txt None]] true.

(** bpfsnoop.go:228-247: the loop.  The stream ends when the reader is closed. *)
Inductive outcome := Finished | Closed | Failed | Panicked.
Fixpoint run_loop (delta : Z) (unlimited : bool) (i : Z) (m : sessions) (evs : list event)
  : list (list item) * outcome * list event :=
  if negb (unlimited || (0 <? i)) then ([], Finished, evs) else
  match evs with
  | [] => ([], Closed, [])
  | e :: evs' =>
      match handle delta m e with
      | HPanic => ([], Panicked, evs')
      | HErr => ([], Failed, evs')
      | HOk m' w c =>
          let '(ws, o, rest) := run_loop delta unlimited (if c then i - 1 else i) m' evs' in
          (w ++ ws, o, rest)
      end
  end.
Definition i64 (z : Z) : Z := let r := z mod W64 in if r <? 2 ^ 63 then r else r - W64.
Definition run (delta limit : Z) (evs : list event) : list (list item) * outcome * list event :=
  run_loop delta (limit =? 0) (i64 limit) [] evs.
