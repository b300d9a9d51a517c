(** * Reading a decompressed kernel module: bufferReaderAt of /repo/internal/bpfsnoop/bytes.go:12-35.

    Errors: None for nil. *)
From Coq Require Import List ZArith Bool.
Import ListNotations.
Open Scope Z_scope.

Inductive rerr := ENegative | EEof.
Section R.
  Variable byte : Type.
  (** bytes.go:17-31 ReadAt: the number of bytes, the error, the buffer afterwards.  copy(p, d) copies min(len p, len d). *)
  Definition read_at (data p : list byte) (off : Z) : nat * option rerr * list byte :=
    if off <? 0 then (O, Some ENegative, p)
    else if Z.of_nat (List.length data) <=? off then (O, Some EEof, p)
    else
      let src := skipn (Z.to_nat off) data in
      let n := Nat.min (List.length p) (List.length src) in
      (n, if Nat.ltb n (List.length p) then Some EEof else None, firstn n src ++ skipn n p).
  (** io.SectionReader (Go's library), as debug/elf reads a section: ReadAt at the current offset, until an error; [step]: the buffer's size *)
  Fixpoint read_all (fuel : nat) (data buf : list byte) (off : Z) : list byte :=
    match fuel with
    | O => []
    | S fuel' =>
        match read_at data buf off with
        | (n, e, p) => firstn n p ++ match e with None => read_all fuel' data buf (off + Z.of_nat n) | Some _ => [] end
        end
    end.
End R.
Arguments read_at {byte}. Arguments read_all {byte}.
