(** * Finding debug files: FindVmlinux of /repo/internal/bpfsnoop/vmlinux.go and findKernelModuleFile of addr2line.go.

    A file system is a predicate (vmlinux) or a tree (modules).  Paths of the tree are lists of names, innermost first.  In a directory the names come in the
    order of filepath.Walk (sorted); a directory that cannot be read has no list.  Symbolic links are files for Walk, which does not follow them. *)
From Coq Require Import List Bool String Ascii.
Import ListNotations.
Open Scope string_scope.

Inductive vres := VFound (p : string) | VNotFound | VNoRelease | VNoneInDir.
(** filepath.Join(dir, "vmlinux") for a clean directory name other than "/" *)
Definition join_vmlinux (dir : string) : string := dir ++ "/vmlinux".
(** fmt.Sprintf(loc, release) or fmt.Sprintf(loc, release, release), vmlinux.go:52-73: the seven patterns filled in *)
Definition locations (rel : string) : list string :=
  ["/boot/vmlinux-" ++ rel;
   "/lib/modules/" ++ rel ++ "/vmlinux-" ++ rel;
   "/lib/modules/" ++ rel ++ "/build/vmlinux";
   "/usr/lib/modules/" ++ rel ++ "/kernel/vmlinux";
   "/usr/lib/debug/boot/vmlinux-" ++ rel;
   "/usr/lib/debug/boot/vmlinux-" ++ rel ++ ".debug";
   "/usr/lib/debug/lib/modules/" ++ rel ++ "/vmlinux"].
Fixpoint first_file (is_file : string -> bool) (l : list string) : vres :=
  match l with [] => VNotFound | p :: l' => if is_file p then VFound p else first_file is_file l' end.
(** vmlinux.go:36-79; [is_file] is fileExists (fs.go:8-11): stat works and it is no directory.  [rel]: None when uname fails *)
Definition find_vmlinux (is_file : string -> bool) (dir : string) (rel : option string) : vres :=
  if negb (String.eqb dir "") then if is_file (join_vmlinux dir) then VFound (join_vmlinux dir) else VNoneInDir
  else match rel with None => VNoRelease | Some r => first_file is_file (locations r) end.
(** main.go:139-163: whether tracing goes on with debug data (Some), without (None), or the process ends *)
Inductive start := Ends | Goes (vmlinux : option string).
Definition main_vmlinux (is_file : string -> bool) (dir : string) (rel : option string) (wanted : bool) : start :=
  match find_vmlinux is_file dir rel with
  | VFound p => Goes (if wanted then Some p else None)
  | VNotFound => Goes None
  | _ => Ends
  end.

(** ** Modules *)
Inductive node := File | Dir (ch : option (list (string * node))).
Inductive wres := WFound (p : list string) | WErr | WDone.
(** strings.ReplaceAll(s, "-", "_") *)
Fixpoint dashes (s : string) : string := match s with EmptyString => "" | String c s' => String (if Ascii.eqb c "-" then "_" else c) (dashes s') end.
(** addr2line.go:120-121 *)
Definition fits (md base : string) : bool := String.eqb (dashes base) (md ++ ".ko") || String.eqb (dashes base) (md ++ ".ko.zst").
(** addr2line.go:104-139 findKernelModuleFileUnderDir with filepath.Walk; [path]: the way to this node, innermost name first *)
Fixpoint walk (md : string) (path : list string) (n : node) {struct n} : wres :=
  match n with
  | File => if fits md (hd "" path) then WFound path else WDone
  | Dir None => WErr
  | Dir (Some ch) =>
      if fits md (hd "" path) then WFound path
      else (fix loop (l : list (string * node)) : wres :=
              match l with
              | [] => WDone
              | (nm, c) :: l' => match walk md (nm :: path) c with WDone => loop l' | r => r end
              end) ch
  end.
