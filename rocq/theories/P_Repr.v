(** * Proofs about the shown values *)
From Coq Require Import List Bool String ZArith Lia Arith.
From Verif Require Import M_Go P_Go M_Repr S_Repr.
Import ListNotations.
Open Scope list_scope.
Open Scope Z_scope.

Lemma le_put_len n : forall v, List.length (le_put n v) = n.
Proof. induction n; intros; cbn; auto. Qed.
Lemma le_put_byte n : forall v, Forall is_byte (le_put n v).
Proof. induction n as [|n IH]; intros v; cbn [le_put]; constructor; [|apply IH]. unfold is_byte. apply Z.mod_pos_bound. lia. Qed.
Lemma le_put_firstn k : forall n v, (k <= n)%nat -> firstn k (le_put n v) = le_put k v.
Proof. induction k as [|k IH]; intros [|n] v H; cbn; try reflexivity; try lia. rewrite IH by lia. reflexivity. Qed.
Lemma le_put_val n : forall v, le_bytes (le_put n v) = v mod 256 ^ Z.of_nat n.
Proof.
  induction n as [|n IH]; intros v; [cbn; symmetry; apply Z.mod_1_r|]. cbn [le_put le_bytes]. rewrite IH, Nat2Z.inj_succ, Z.pow_succ_r by lia.
  rewrite Z.rem_mul_r; [reflexivity|lia|apply Z.pow_pos_nonneg; lia].
Qed.
Lemma put_le l : Forall is_byte l -> le_put (List.length l) (le_bytes l) = l.
Proof.
  induction 1 as [|b l Hb Hl IH]; [reflexivity|]. cbn [List.length le_put le_bytes]. unfold is_byte in Hb. f_equal.
  - rewrite Z.mul_comm, Z.mod_add by lia. apply Z.mod_small. exact Hb.
  - etransitivity; [|exact IH]. f_equal. rewrite Z.mul_comm, Z.div_add by lia. rewrite Z.div_small by exact Hb. lia.
Qed.
Lemma pow256 n : 256 ^ Z.of_nat n = 2 ^ (8 * Z.of_nat n).
Proof. replace 256 with (2 ^ 8) by reflexivity. rewrite <- Z.pow_mul_r by lia. reflexivity. Qed.
Lemma num_of_put signed n v : (1 <= n)%nat -> num_of signed (le_put n v) = if signed then sint (Z.of_nat n) v else uint (Z.of_nat n) v.
Proof.
  intros Hn. unfold num_of, sint, uint. rewrite le_put_val, le_put_len, pow256. destruct signed; [|reflexivity]. cbn [andb].
  destruct (Z.ltb_spec (v mod 2 ^ (8 * Z.of_nat n)) (2 ^ (8 * Z.of_nat n - 1))), (Z.leb_spec (2 ^ (8 * Z.of_nat n - 1)) (v mod 2 ^ (8 * Z.of_nat n))); try lia; reflexivity.
Qed.
Lemma firstn_low N k val next : (k <= N)%nat -> (k <= 8)%nat -> firstn k (firstn N (le_put 8 val ++ le_put 8 next)) = le_put k val.
Proof.
  intros H1 H2. rewrite firstn_firstn, Nat.min_l by lia. rewrite firstn_app, le_put_len. replace (k - 8)%nat with 0%nat by lia. cbn [firstn]. rewrite app_nil_r. apply le_put_firstn, H2.
Qed.
Section R.
  Variables (find : Z -> string) (junk : list Z).
  Hypothesis Hlen : List.length junk = 8%nat.
  Hypothesis Hjunk : Forall is_byte junk.
  Definition two (val next : Z) : list Z := le_put 8 val ++ le_put 8 next.
  Lemma two_len v w : List.length (two v w) = 16%nat.
  Proof. unfold two. rewrite app_length, !le_put_len. reflexivity. Qed.
  Lemma words_eq v w : words v w ++ junk = two v w ++ (repeat 0 8 ++ junk).
  Proof. unfold words, two. rewrite <- !app_assoc. reflexivity. Qed.
  Lemma rep0_byte n : Forall is_byte (repeat 0 n).
  Proof. induction n; cbn; constructor; auto. unfold is_byte. lia. Qed.
  Lemma all_byte v w : Forall is_byte (words v w ++ junk).
  Proof. rewrite words_eq. unfold two. rewrite !Forall_app. repeat split; auto using le_put_byte, rep0_byte. Qed.
  Lemma all_len v w : List.length (words v w ++ junk) = 32%nat.
  Proof. rewrite words_eq, app_length, two_len, app_length, repeat_length, Hlen. reflexivity. Qed.
  Lemma Forall_skipn {A} (P : A -> Prop) n l : Forall P l -> Forall P (skipn n l).
  Proof. revert l. induction n; intros l H; [exact H|]. destruct l; [constructor|]. inversion H; subst. cbn. auto. Qed.
  Lemma Forall_firstn {A} (P : A -> Prop) n l : Forall P l -> Forall P (firstn n l).
  Proof. revert l. induction n; intros l H; [constructor|]. destruct l; [constructor|]. inversion H; subst. cbn. constructor; auto. Qed.
  Lemma skipn_add {A} (a b : nat) (l : list A) : skipn a (skipn b l) = skipn (b + a) l.
  Proof. revert l. induction b as [|b IH]; intros l; [reflexivity|]. destruct l; [rewrite !skipn_nil; reflexivity|]. cbn. apply IH. Qed.
  (** the two words read for a member hold the bytes from its offset on *)
  Lemma member_words v w o : (o <= 15)%nat -> exists v' w', get8 junk (words v w) (Z.of_nat o) = Some v' /\ get8 junk (words v w) (Z.of_nat o + 8) = Some w' /\
    0 <= v' < 2 ^ 64 /\ 0 <= w' < 2 ^ 64 /\ two v' w' = firstn 16 (skipn o (words v w ++ junk)).
  Proof.
    intros Ho. unfold get8. destruct (Z.ltb_spec (Z.of_nat o) 0); [lia|]. destruct (Z.leb_spec 24 (Z.of_nat o)); [lia|]. destruct (Z.ltb_spec (Z.of_nat o + 8) 0); [lia|]. destruct (Z.leb_spec 24 (Z.of_nat o + 8)); [lia|].
    cbn [orb]. eexists _, _. split; [reflexivity|split; [reflexivity|]]. rewrite Nat2Z.id. replace (Z.to_nat (Z.of_nat o + 8)) with (o + 8)%nat by lia.
    assert (L := all_len v w). assert (B := all_byte v w). set (l := words v w ++ junk) in *.
    assert (B1 : Forall is_byte (firstn 8 (skipn o l))) by auto using Forall_firstn, Forall_skipn. assert (B2 : Forall is_byte (firstn 8 (skipn (o + 8) l))) by auto using Forall_firstn, Forall_skipn.
    assert (L1 : List.length (firstn 8 (skipn o l)) = 8%nat) by (rewrite firstn_length, skipn_length; lia). assert (L2 : List.length (firstn 8 (skipn (o + 8) l)) = 8%nat) by (rewrite firstn_length, skipn_length; lia).
    assert (R1 := le_bytes_range _ B1). assert (R2 := le_bytes_range _ B2). rewrite L1, pow256 in R1. rewrite L2, pow256 in R2. split; [exact R1|split; [exact R2|]].
    unfold two. assert (P1 := put_le _ B1). rewrite L1 in P1. assert (P2 := put_le _ B2). rewrite L2 in P2. rewrite P1, P2.
    change 16%nat with (8 + 8)%nat. rewrite <- (firstn_skipn 8 (firstn (8 + 8) (skipn o l))). rewrite firstn_firstn, Nat.min_l by lia. rewrite skipn_firstn_comm, skipn_add. reflexivity.
  Qed.
  Fixpoint vsize (t : vty) : nat := match t with VRec _ ms => S ((fix go ms := match ms with [] => 0%nat | (_, _, _, mt) :: ms' => (S (vsize mt) + go ms')%nat end) ms) | _ => 1%nat end.
  Lemma plain_pos t n : plain t n -> 1 <= n.
  Proof. destruct t; cbn; intros H; try lia; tauto. Qed.
  Lemma firstn_skipn_mid {A} (a b o : nat) (l r : list A) : (a + o <= List.length l)%nat -> (a <= b)%nat -> firstn a (firstn b (skipn o (l ++ r))) = skipn o (firstn (a + o) l).
  Proof.
    intros H1 H2. rewrite firstn_firstn, Nat.min_l by lia. rewrite skipn_app. replace (o - List.length l)%nat with 0%nat by lia. cbn [skipn]. rewrite firstn_app, skipn_length.
    replace (a - (List.length l - o))%nat with 0%nat by lia. cbn [firstn]. rewrite app_nil_r. rewrite skipn_firstn_comm. f_equal. lia.
  Qed.
  Lemma repr_plain t : forall val next n, plain t (Z.of_nat n) -> (n <= 16)%nat -> 0 <= val < 2 ^ 64 -> 0 <= next < 2 ^ 64 ->
    exists s, repr find junk t val next = Some s /\ shows t (firstn n (two val next)) s.
  Proof.
    remember (vsize t) as k eqn:Ek. assert (Hk : (vsize t <= k)%nat) by lia. clear Ek. revert t Hk. induction k as [|k IH]; intros t Hk val next n Hp Hn Hv Hw; [destruct t; cbn in Hk; lia|].
    destruct t as [sz signed b|sz vals|fn|name ms|o]; cbn [plain] in Hp; try contradiction.
    - destruct Hp as (-> & Hs & Hle). eexists. split; [reflexivity|].
      assert (G : forall m, sz = Z.of_nat m -> (1 <= m <= 8)%nat -> number (repr_num find (VInt sz signed false) val) = Some (if signed then sint sz val else uint sz val) -> shows (VInt sz signed false) (firstn n (two val next)) (repr_num find (VInt sz signed false) val)).
      { intros m -> Hm E. apply sh_int; [rewrite firstn_length, two_len; lia|]. unfold two. rewrite firstn_low by lia. rewrite num_of_put by lia. exact E. }
      destruct Hs as [-> | [-> | [-> | ->]]]; [apply (G 1%nat)|apply (G 2%nat)|apply (G 4%nat)|apply (G 8%nat)]; try lia; cbn [repr_num]; destruct signed; cbn [number]; try reflexivity.
      destruct (sint 8 val <? 0); cbn [number]; unfold uint; rewrite Z.mod_small by lia; reflexivity.
    - eexists. split; [reflexivity|]. assert (E : le_bytes (firstn 8 (firstn n (two val next))) = val).
      { unfold two. rewrite firstn_low by lia. rewrite le_put_val, pow256. apply Z.mod_small. exact Hv. }
      apply sh_ptr; [rewrite firstn_length, two_len; lia|]. rewrite E. cbn [repr_num]. destruct fn; [|reflexivity]. destruct (String.eqb (find val) ""); reflexivity.
    - destruct Hp as [Hn1 Hms]. cbn [repr]. cbn [vsize] in Hk. set (l := firstn n (two val next)).
      assert (G : exists r, (fix go (ms : list (string * Z * Z * vty)) : option (list (string * shown)) :=
          match ms with
          | [] => Some []
          | (n, boff, bsz, mt) :: ms' =>
              match (if bsz =? 0 then match get8 junk (words val next) (boff / 8), get8 junk (words val next) (boff / 8 + 8) with Some v, Some w => repr find junk mt v w | _, _ => None end
                     else Some (SBits (bits 0 bsz (words val next)))) with
              | Some s => match go ms' with Some l => Some ((n, s) :: l) | None => None end
              | None => None
              end
          end) ms = Some r /\ Forall2 (fun m x => fst x = fst (fst (fst m)) /\ shows_member m l (snd x)) ms r).
      { clear Hn1. induction ms as [|m0 ms IHm]; [exists []; split; [reflexivity|constructor]|]. destruct m0 as (((nm & boff) & bsz) & mt).
        destruct Hms as [[Hbz [Hb0 [Hb8 Hpm]]] Hms]. subst bsz. destruct IHm as (r & Er & Hr); [lia|exact Hms|].
        assert (P1 := plain_pos _ _ Hpm). set (o := Z.to_nat (boff / 8)). assert (Ho : boff / 8 = Z.of_nat o) by (unfold o; rewrite Z2Nat.id; [reflexivity|apply Z.div_pos; lia]).
        rewrite Ho in *. destruct (member_words val next o) as (v' & w' & E1 & E2 & R1 & R2 & T); [lia|]. rewrite Z.eqb_refl, E1, E2.
        destruct (IH mt ltac:(lia) v' w' (n - o)%nat) as (s & Es & Hs); [rewrite Nat2Z.inj_sub by lia; exact Hpm|lia|exact R1|exact R2|]. rewrite Es, Er.
        exists ((nm, s) :: r). split; [reflexivity|]. constructor; [|exact Hr]. cbn [fst snd]. split; [reflexivity|]. constructor. rewrite T in Hs. rewrite words_eq in Hs.
        rewrite (firstn_skipn_mid (n - o) 16 o) in Hs by (rewrite ?two_len; lia). rewrite Ho, Nat2Z.id. unfold l. replace (n - o + o)%nat with n in Hs by lia. exact Hs. }
      destruct G as (r & -> & Hr). exists (SRec name r). split; [reflexivity|]. constructor. exact Hr.
  Qed.
End R.
