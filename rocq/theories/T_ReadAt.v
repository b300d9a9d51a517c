(** * Property C109: a decompressed module file is read as the bytes it has (io.ReaderAt). *)
From Coq Require Import List ZArith Bool Lia Arith.
From Verif Require Import M_ReadAt P_ReadAt.
Import ListNotations.
Open Scope Z_scope.

(** The contract of io.ReaderAt: at most len(p) bytes, those of the file at the offset; fewer than asked only with an error, and only when the
    file ends there; the rest of the buffer is not touched. *)
Theorem C109_reader_contract : forall (byte : Type) (data p : list byte) off n e p', read_at data p off = (n, e, p') ->
  (n <= List.length p)%nat /\ List.length p' = List.length p /\
  (forall i, (i < n)%nat -> 0 <= off /\ nth_error p' i = nth_error data (Z.to_nat off + i)) /\
  (forall i, (n <= i)%nat -> nth_error p' i = nth_error p i) /\
  ((n < List.length p)%nat -> e <> None) /\
  (e = Some EEof -> 0 <= off /\ Z.of_nat (List.length data) <= off + Z.of_nat n) /\
  (e = Some ENegative <-> off < 0).
Proof. exact read_contract. Qed.
Print Assumptions C109_reader_contract.

(** What is inside the file is read in full, without an error. *)
Theorem C109_inside_is_read : forall (byte : Type) (data p : list byte) off, 0 <= off -> off + Z.of_nat (List.length p) <= Z.of_nat (List.length data) ->
  p <> [] -> read_at data p off = (List.length p, None, firstn (List.length p) (skipn (Z.to_nat off) data)).
Proof. exact read_inside. Qed.
Print Assumptions C109_inside_is_read.

(** Reading on with any buffer until an error yields the rest of the file, however it is cut. *)
Theorem C109_reads_everything : forall (byte : Type) (data buf : list byte) off fuel, buf <> [] -> 0 <= off -> (List.length data < fuel)%nat ->
  read_all fuel data buf off = skipn (Z.to_nat off) data.
Proof. exact read_all_ok. Qed.
Print Assumptions C109_reads_everything.

Example C109_demo : read_at [1; 2; 3; 4; 5]%nat [0; 0]%nat 1 = (2%nat, None, [2; 3]%nat) /\ read_at [1; 2; 3]%nat [0; 0]%nat 2 = (1%nat, Some EEof, [3; 0]%nat) /\
  read_at [1]%nat [9]%nat 5 = (O, Some EEof, [9]%nat) /\ read_at [1]%nat [9]%nat (-1) = (O, Some ENegative, [9]%nat) /\
  read_all 6 [1; 2; 3; 4; 5]%nat [0; 0]%nat 0 = [1; 2; 3; 4; 5]%nat.
Proof. repeat split. Qed.
