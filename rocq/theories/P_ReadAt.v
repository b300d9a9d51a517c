(** * Proofs about bufferReaderAt. *)
From Coq Require Import List ZArith Bool Lia Arith.
From Verif Require Import M_ReadAt.
Import ListNotations.
Open Scope Z_scope.

Section P.
  Variable byte : Type.
  Implicit Types data p : list byte.
  Lemma nth_skipn (l : list byte) k i : nth_error (skipn k l) i = nth_error l (k + i).
  Proof. revert l. induction k as [|k IH]; intros l; [reflexivity|]. destruct l as [|x l]; [cbn; destruct i; reflexivity|]. cbn. apply IH. Qed.
  Lemma nth_firstn (l : list byte) k i : (i < k)%nat -> nth_error (firstn k l) i = nth_error l i.
  Proof. revert l i. induction k as [|k IH]; intros l i H; [lia|]. destruct l as [|x l]; [destruct i; reflexivity|]. destruct i as [|i]; [reflexivity|]. cbn. apply IH. lia. Qed.

  Lemma read_contract data p off n e p' : read_at data p off = (n, e, p') ->
    (n <= List.length p)%nat /\ List.length p' = List.length p /\
    (forall i, (i < n)%nat -> 0 <= off /\ nth_error p' i = nth_error data (Z.to_nat off + i)) /\
    (forall i, (n <= i)%nat -> nth_error p' i = nth_error p i) /\
    ((n < List.length p)%nat -> e <> None) /\
    (e = Some EEof -> 0 <= off /\ Z.of_nat (List.length data) <= off + Z.of_nat n) /\
    (e = Some ENegative <-> off < 0).
  Proof.
    unfold read_at. destruct (Z.ltb_spec off 0) as [H|H].
    { intros E. injection E as <- <- <-. repeat split; try lia; try discriminate; intros; lia. }
    destruct (Z.leb_spec (Z.of_nat (List.length data)) off) as [H1|H1].
    { intros E. injection E as <- <- <-. repeat split; try lia; try discriminate; intros; lia. }
    set (src := skipn (Z.to_nat off) data). set (k := Nat.min (List.length p) (List.length src)).
    assert (Hs : List.length src = (List.length data - Z.to_nat off)%nat) by apply skipn_length.
    assert (Hk : List.length (firstn k src) = k) by (rewrite firstn_length; lia).
    intros E. injection E as <- <- <-. split; [lia|]. split; [rewrite app_length, Hk, skipn_length; lia|].
    split; [intros i Hi; split; [lia|rewrite nth_error_app1 by lia; rewrite nth_firstn by exact Hi; apply nth_skipn]|].
    split; [intros i Hi; rewrite nth_error_app2 by lia; rewrite Hk, nth_skipn; f_equal; lia|].
    destruct (Nat.ltb_spec k (List.length p)) as [H2|H2].
    - split; [discriminate|]. split; [intros _; lia|]. split; [discriminate|lia].
    - split; [lia|]. split; [discriminate|]. split; [discriminate|lia].
  Qed.
  Lemma read_inside data p off : 0 <= off -> off + Z.of_nat (List.length p) <= Z.of_nat (List.length data) -> p <> [] ->
    read_at data p off = (List.length p, None, firstn (List.length p) (skipn (Z.to_nat off) data)).
  Proof.
    intros H0 H Hp. assert (0 < List.length p)%nat by (destruct p; [congruence|cbn; lia]). unfold read_at.
    destruct (Z.ltb_spec off 0); [lia|]. destruct (Z.leb_spec (Z.of_nat (List.length data)) off); [lia|].
    rewrite skipn_length. replace (Nat.min (List.length p) (List.length data - Z.to_nat off)) with (List.length p) by lia.
    rewrite Nat.ltb_irrefl, skipn_all, app_nil_r. reflexivity.
  Qed.
  Lemma skipn_add (l : list byte) a b : skipn b (skipn a l) = skipn (a + b) l.
  Proof. revert l. induction a as [|a IH]; intros l; [reflexivity|]. destruct l as [|x l]; [cbn; apply skipn_nil|]. cbn. apply IH. Qed.
  Lemma read_all_ok data buf off fuel : buf <> [] -> 0 <= off -> (List.length data < fuel)%nat -> read_all fuel data buf off = skipn (Z.to_nat off) data.
  Proof.
    intros Hb Ho Hf. assert (Hx : (List.length data - Z.to_nat off < fuel)%nat) by lia. clear Hf. revert off Ho Hx.
    assert (Hl : (0 < List.length buf)%nat) by (destruct buf; [congruence|cbn; lia]).
    induction fuel as [|fuel IH]; intros off Ho Hx; [lia|]. cbn [read_all]. unfold read_at.
    destruct (Z.ltb_spec off 0); [lia|]. destruct (Z.leb_spec (Z.of_nat (List.length data)) off) as [H1|H1].
    { cbn [firstn app]. rewrite skipn_all2 by lia. reflexivity. }
    set (src := skipn (Z.to_nat off) data). assert (Hs : List.length src = (List.length data - Z.to_nat off)%nat) by apply skipn_length.
    set (k := Nat.min (List.length buf) (List.length src)).
    rewrite firstn_app. replace (k - List.length (firstn k src))%nat with O by (rewrite firstn_length; lia). cbn [firstn].
    rewrite app_nil_r, firstn_firstn, Nat.min_id.
    destruct (Nat.ltb_spec k (List.length buf)) as [H2|H2].
    - rewrite app_nil_r. rewrite firstn_all2 by lia. reflexivity.
    - rewrite IH by lia. replace (Z.to_nat (off + Z.of_nat k)) with (Z.to_nat off + k)%nat by lia. rewrite <- skipn_add. fold src. apply firstn_skipn.
  Qed.
End P.
