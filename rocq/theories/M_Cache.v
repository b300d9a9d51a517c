(** * The debug-symbol cache: /repo/internal/bpfsnoop/addr2line_cache.go, on a small file system.

    Several bpfsnoop processes share one cache file.  Their steps (one system call each) interleave freely, any call may fail, any
    process may be killed between two calls, and the machine may lose power.

    - The encoding (JSON, then xz) is a parameter [enc]/[dec]; line information is a number.
    - A directory maps names to files (inodes) and a file holds bytes.  os.CreateTemp opens with O_EXCL: it takes a name that does not
      exist at that moment.  Rename is atomic.  Writes made by one process reach the file in chunks of any size.
    - A file is durable once its data has reached the disk; nothing in addr2line_cache.go calls fsync, so only the kernel's own
      write-back ([EFlush]) makes a file durable, while directory changes survive a power loss.
    - A process serves one look-up at a time (the cache is used by the goroutine of Run only). *)
From Coq Require Import List Bool ZArith.
From Verif Require Import M_Go.
Import ListNotations.
Open Scope Z_scope.

(** addr2line_cache.go:22-32; the entries by address *)
Definition cache := list (Z * Z).

(** addr2line_cache.go:125-141 add: the new cache, the new counter and whether saveFile is called *)
Definition add (c : cache) (cnt : Z) (addr line : Z) : cache * Z * bool :=
  match aget Z.eqb addr c with
  | Some _ => (c, cnt, false)
  | None => let cnt' := cnt + 1 in (aput Z.eqb addr line c, cnt', Z.rem cnt' 30 =? 0)
  end.

Inductive name := Target | Tmp (n : nat).
Definition name_eqb (a b : name) : bool :=
  match a, b with Target, Target => true | Tmp n, Tmp m => Nat.eqb n m | _, _ => false end.

(** Where a process is: outside saveFile; or inside, before each of its system calls (addr2line_cache.go:78-118). *)
Inductive phase :=
| Idle
| Create                                          (* :83 os.CreateTemp *)
| Writing (tmp : nat) (ino : nat) (rest : list Z) (* :90-103 what is still to be written *)
| Closed (tmp : nat) (ino : nat)                  (* :105-110 closed, :112 about to be renamed *)
| Cleanup (tmp : nat)                             (* :87 the deferred os.Remove *)
| Dead.
Record proc := { p_cache : cache; p_new : Z; p_phase : phase }.
Record node := { n_data : list Z; n_durable : bool }.
Record state := { s_nodes : list node; s_dir : list (name * nat); s_procs : list proc }.

Inductive event :=
| EStart                       (* a process starts and loads the cache file *)
| EAdd (p : nat) (addr line : Z)
| ECreate (p : nat) (tmp : nat)
| EWrite (p : nat) (k : nat)   (* k+1 more bytes *)
| EClose (p : nat)
| ERename (p : nat)
| ERemove (p : nat)
| EFail (p : nat)              (* the next system call fails *)
| EKill (p : nat)
| EFlush (i : nat)             (* the kernel writes a file back *)
| EPower (keep : nat -> nat).  (* power loss: of a file that is not durable only a prefix is left *)

Fixpoint upd {A} (l : list A) (i : nat) (f : A -> A) : list A :=
  match l, i with
  | [], _ => []
  | x :: l', O => f x :: l'
  | x :: l', S i' => x :: upd l' i' f
  end.
Fixpoint mapi {A} (f : nat -> A -> A) (i : nat) (l : list A) : list A :=
  match l with [] => [] | x :: l' => f i x :: mapi f (S i) l' end.

Section FS.
  Variable enc : cache -> list Z.
  Variable dec : list Z -> option cache.

  Definition at_phase (pr : proc) (ph : phase) : proc := {| p_cache := p_cache pr; p_new := p_new pr; p_phase := ph |}.
  Definition set_proc (s : state) (p : nat) (pr : proc) : state :=
    {| s_nodes := s_nodes s; s_dir := s_dir s; s_procs := upd (s_procs s) p (fun _ => pr) |}.
  Definition lookup (s : state) (n : name) : option nat := aget name_eqb n (s_dir s).
  (** What a reader of a name sees *)
  Definition read (s : state) (n : name) : option (list Z) :=
    match lookup s n with
    | Some i => option_map n_data (nth_error (s_nodes s) i)
    | None => None
    end.
  (** addr2line_cache.go:53-76 loadFile: None when the file cannot be decoded (newDbgsymCache fails and bpfsnoop exits) *)
  Definition load (s : state) : option cache := match read s Target with None => Some [] | Some b => dec b end.
  (** remove a name if it is there (os.Remove; its error is ignored) *)
  Definition unlink (n : name) (d : list (name * nat)) : list (name * nat) := filter (fun kv => negb (name_eqb n (fst kv))) d.

  Definition step (s : state) (ev : event) : option state :=
    match ev with
    | EStart =>
        match load s with
        | Some c => Some {| s_nodes := s_nodes s; s_dir := s_dir s; s_procs := s_procs s ++ [{| p_cache := c; p_new := 0; p_phase := Idle |}] |}
        | None => None
        end
    | EAdd p addr line =>
        match nth_error (s_procs s) p with
        | Some pr =>
            match p_phase pr with
            | Idle => let '(c, n, sv) := add (p_cache pr) (p_new pr) addr line in
                      Some (set_proc s p {| p_cache := c; p_new := n; p_phase := if (sv : bool) then Create else Idle |})
            | _ => None
            end
        | None => None
        end
    | ECreate p tmp =>
        match nth_error (s_procs s) p with
        | Some pr =>
            match p_phase pr, lookup s (Tmp tmp) with
            | Create, None =>
                Some {| s_nodes := s_nodes s ++ [{| n_data := []; n_durable := false |}];
                        s_dir := aput name_eqb (Tmp tmp) (List.length (s_nodes s)) (s_dir s);
                        s_procs := upd (s_procs s) p (fun _ => at_phase pr (Writing tmp (List.length (s_nodes s)) (enc (p_cache pr)))) |}
            | _, _ => None
            end
        | None => None
        end
    | EWrite p k =>
        match nth_error (s_procs s) p with
        | Some pr =>
            match p_phase pr with
            | Writing tmp i rest =>
                Some {| s_nodes := upd (s_nodes s) i (fun nd => {| n_data := n_data nd ++ firstn (S k) rest; n_durable := false |});
                        s_dir := s_dir s;
                        s_procs := upd (s_procs s) p (fun _ => at_phase pr (Writing tmp i (skipn (S k) rest))) |}
            | _ => None
            end
        | None => None
        end
    | EClose p =>
        match nth_error (s_procs s) p with
        | Some pr => match p_phase pr with Writing tmp i [] => Some (set_proc s p (at_phase pr (Closed tmp i))) | _ => None end
        | None => None
        end
    | ERename p =>
        match nth_error (s_procs s) p with
        | Some pr =>
            match p_phase pr with
            | Closed tmp _ =>
                match lookup s (Tmp tmp) with
                | Some i => Some {| s_nodes := s_nodes s; s_dir := aput name_eqb Target i (unlink (Tmp tmp) (s_dir s));
                                    s_procs := upd (s_procs s) p (fun _ => at_phase pr (Cleanup tmp)) |}
                | None => Some (set_proc s p (at_phase pr (Cleanup tmp)))
                end
            | _ => None
            end
        | None => None
        end
    | ERemove p =>
        match nth_error (s_procs s) p with
        | Some pr =>
            match p_phase pr with
            | Cleanup tmp => Some {| s_nodes := s_nodes s; s_dir := unlink (Tmp tmp) (s_dir s);
                                     s_procs := upd (s_procs s) p (fun _ => at_phase pr Idle) |}
            | _ => None
            end
        | None => None
        end
    | EFail p =>
        match nth_error (s_procs s) p with
        | Some pr =>
            match p_phase pr with
            | Create => Some (set_proc s p (at_phase pr Idle))
            | Writing tmp _ _ | Closed tmp _ => Some (set_proc s p (at_phase pr (Cleanup tmp)))
            | Cleanup _ => Some (set_proc s p (at_phase pr Idle))
            | _ => None
            end
        | None => None
        end
    | EKill p =>
        match nth_error (s_procs s) p with
        | Some pr => Some (set_proc s p (at_phase pr Dead))
        | None => None
        end
    | EFlush i => Some {| s_nodes := upd (s_nodes s) i (fun nd => {| n_data := n_data nd; n_durable := true |}); s_dir := s_dir s; s_procs := s_procs s |}
    | EPower keep =>
        Some {| s_nodes := mapi (fun i nd => if n_durable nd then nd else {| n_data := firstn (keep i) (n_data nd); n_durable := true |}) 0 (s_nodes s);
                s_dir := s_dir s;
                s_procs := map (fun pr => at_phase pr Dead) (s_procs s) |}
    end.
  (** The states along a history *)
  Fixpoint exec (s : state) (t : list event) : option state :=
    match t with
    | [] => Some s
    | ev :: t' => match step s ev with Some s' => exec s' t' | None => None end
    end.
End FS.
(** One process on its own, addr2line_cache.go:125-141 called for each look-up in turn: the cache, the counter and the version last saved *)
Fixpoint adds (c : cache) (cnt : Z) (saved : cache) (l : list (Z * Z)) : cache * Z * cache :=
  match l with
  | [] => (c, cnt, saved)
  | (a, e) :: l' => let '(c', cnt', sv) := add c cnt a e in adds c' cnt' (if (sv : bool) then c' else saved) l'
  end.
